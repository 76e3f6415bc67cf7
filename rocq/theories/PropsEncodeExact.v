(** C37 and C53, exactly: the buffers whose encoding depends on foreign bytes,
    and the wins a context without initializer cannot announce. *)
From Verif Require Import Base BaseProofs Place Frame FrameSpec Msg Event EventSpec Query QuerySpec.
From Verif Require Import Reader EncodeQuery Encode CoreMsg EncodeSpec EncodeState EncodeHistory EncodeExact.
From Verif Require Import PropsEncode PropsEncodeE2E.

Local Open Scope N_scope.

(** C37: an encoding depends on the reported bytes alone exactly when it is no
    graveyard and deck swap whose announced flags are too few. *)
Theorem C37_local_iff_partial : forall c bs r c', encode_one c bs = Ok (r, c') ->
  ((forall rest', encode_one c (firstn (N.to_nat (r_bytes_read r)) bs ++ rest') = Ok (r, c')) <->
   (forall con p0 p1 p2 p3 n0 n1 n2 n3 tl,
      bs = 35 :: con :: p0 :: p1 :: p2 :: p3 :: n0 :: n1 :: n2 :: n3 :: tl ->
      flags_cover c (Z.of_N con) (n0 + 256 * (n1 + 256 * (n2 + 256 * n3))))).
Proof.
  intros c bs r c' H. split; [exact (local_covered c bs r c' H)|].
  intros F rest'. exact (C37_local_partial c bs r c' H F rest').
Qed.
Print Assumptions C37_local_iff_partial.

Example C37_local_iff_ex :
  (exists r, encode_one ex_ctx [35; 0; 0; 0; 0; 0; 1; 0; 0; 0; 1; 77; 88] = Ok (r, ex_ctx) /\ flags_cover ex_ctx 0 1) /\
  (exists r, encode_one ex_big_grave [35; 0; 0; 0; 0; 0; 1; 0; 0; 0; 0; 1] = Ok (r, ex_big_grave) /\
     ~ flags_cover ex_big_grave 0 1).
Proof.
  split; (eexists; split; [vm_compute; reflexivity|]).
  - intros who W. inversion W; subst. vm_compute. discriminate.
  - intros F. specialize (F false eq_refl). vm_compute in F. now apply F.
Qed.

(** C53: a context without initializer announces a win exactly after a match
    kill; before that it reads an indeterminate member. *)
Theorem C53_win_reason_iff_partial : forall c ms p reason rest,
  heard ctx_default_init c ms -> core_ok (CmWin p reason) ->
  ((exists r, encode_one c (ser (CmWin p reason) ++ rest) = Ok (r, c)) <-> last_kill ms <> None) /\
  (last_kill ms = None -> encode_one c (ser (CmWin p reason) ++ rest) = UB).
Proof.
  intros c ms p reason rest H K. pose proof (win_undefined c ms p reason rest H) as U. split; [split|].
  - intros [r E] L. rewrite (U L K) in E. discriminate.
  - intros L. destruct (last_kill ms) as [w|] eqn:E; [|now elim L].
    destruct (C53_win_reason_default_partial c ms w p reason rest H E K) as (r & R & _). now exists r.
  - intros L. exact (U L K).
Qed.
Print Assumptions C53_win_reason_iff_partial.

Example C53_win_reason_iff_ex :
  (exists c, heard ctx_default_init c [CmMatchKill 5] /\ last_kill [CmMatchKill 5] <> None) /\
  heard ctx_default_init ctx_default_init [] /\ core_ok (CmWin 1 3) /\
  encode_one ctx_default_init (ser (CmWin 1 3) ++ [90]) = UB.
Proof.
  split; [|split; [constructor|split; [repeat split|vm_compute; reflexivity]]].
  eexists. split; [|discriminate].
  eapply (@heard_msg _ _ [] (CmMatchKill 5) []); [constructor|reflexivity|vm_compute; reflexivity].
Qed.
