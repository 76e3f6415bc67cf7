(** C108, C111 and C112 for the encoder built without assertions. *)
From Verif Require Import Base Place Frame FrameSpec Msg Event Query Reader Encode CoreMsg EncodeSpec ReaderProofs
  Release ReleaseSpec ReleaseProofs ReleaseFrameSpec ReleaseFrameProofs ReleaseEncode ReleaseEncodeSpec ReleaseEncodeProofs.

Local Open Scope N_scope.

(** Any messages that are encoded and parsed with assertions are encoded to the
    same and leave the same context without. *)
Theorem C108_encoder : forall c bs r, encode_one c bs = Ok r -> rel_encode_one c bs = Ok r.
Proof. intros c bs. apply keeps_encode. Qed.
Print Assumptions C108_encoder.
Theorem C108_duel : forall l c c',
  ofold (fun bs c => feed c bs) l c = Ok c' -> ofold (fun bs c => rel_feed c bs) l c = Ok c'.
Proof. intros l c. apply keeps_ofold. intros bs x. apply keeps_feed. Qed.
Print Assumptions C108_duel.

Definition ex_start : list N := ser (CmStart 0 8000 8000 2 1 1 0).
Definition ex_draw : list N := ser (CmDraw 0 [(7, 0)]).
Example C108_duel_ex : exists c, ofold (fun bs c => feed c bs) [ex_start; ex_draw] ctx_value_init = Ok c /\
  length (contents (CPile (false, LHand)) (ctx_layout c)) = 1%nat.
Proof. eexists. split; [vm_compute; reflexivity|reflexivity]. Qed.

(** ** C111: boards and contexts *)

(** Whatever events a board goes through without assertions, no card is in two
    places and only live ones are on the board ... *)
Theorem C111_board : forall C (c0 : C) es b,
  ofold (rel_pparse c0) es (pboard0 C) = Ok b -> once (b_frame b).
Proof.
  intros C c0 es b H. assert (B : booked (b_frame b)).
  { assert (G : booked (b_frame (pboard0 C))) by (exists []; apply books0). revert G H.
    generalize (pboard0 C) as b0. induction es as [|e es IH]; intros b0 G H; cbn [ofold] in H.
    - injection H as <-. exact G.
    - destruct (rel_pparse c0 e b0) as [b1| | |] eqn:E; try discriminate H. eapply IH; [|exact H]. eapply booked_parse; eauto. }
  destruct B as [s B]. eapply books_once; eauto.
Qed.
Print Assumptions C111_board.

(** ... and so it is for the board of the encoder. *)
Theorem C111_context : forall c, rel_ctx_sound c -> once (b_frame (cx_board c)).
Proof. intros c S. destruct (rel_sound_booked S) as [s B]. eapply books_once; eauto. Qed.
Print Assumptions C111_context.

(** A card summoned onto another one: with assertions the context stops. *)
Definition ex_summon (seq : N) : list N := ser (CmMove 7 (mkCloc 0 1 0 0) (mkCloc 0 4 seq 1) 16).
Example C111_context_ex :
  let duel := [ser (CmStart 0 8000 8000 2 0 0 0); ex_summon 1; ex_summon 1] in
  ofold (fun bs c => feed c bs) duel ctx_value_init = Abort /\
  exists c, ofold (fun bs c => rel_feed c bs) duel ctx_value_init = Ok c /\
    length (f_heap (b_frame (cx_board c))) = 2%nat /\
    contents (CPile (false, LDeck)) (ctx_layout c) = [] /\
    length (contents (CCard (false, ZMonster, 1%nat)) (ctx_layout c)) = 1%nat.
Proof. split; [vm_compute; reflexivity|]. eexists. split; [vm_compute; reflexivity|]. repeat split. Qed.

(** ** C112: the encoder without assertions *)

(** Where the encoder with assertions is stopped the one without is undefined,
    and everywhere else they do the same.  The exception is a selection among
    no cards. *)
Theorem C112_same : forall c bs, rel_ctx_sound c -> ~ asks_for_nothing bs ->
  rel_encode_one c bs = match encode_one c bs with Abort => UB | o => o end.
Proof.
  intros c bs S N. rewrite (encode_loose c (rel_sound_shape S) N). destruct (encode_one c bs); reflexivity.
Qed.
Print Assumptions C112_same.

(** A selection among no cards is encoded, but only if six more bytes follow,
    and the sixth of them decides which kind of selection it is. *)
Theorem C112_nothing : forall c replier cancel mn mx rest, is_u32 mn -> is_u32 mx ->
  let bs := no_cards replier cancel (b4 mn) (b4 mx) rest in
  encode_one c bs = Abort /\
  (lenN rest < 6 -> rel_encode_one c bs = UB) /\
  (forall junk loc rest', lenN junk = 5 -> rest = junk ++ loc :: rest' ->
   let can := negb (cancel =? 0) in
   rel_encode_one c bs = Ok (mkResult StOk 15 (Some (mkMsg (MsgRequest (Z.of_N replier) (RqCard
     (if loc =? 0 then ScLimbo can mn mx [] else ScUniqueRange can mn mx []))) [])), c)).
Proof.
  intros c replier cancel mn mx rest Hn Hx bs.
  destruct (empty_selection c replier cancel (b4 mn) (b4 mx) rest) as [A R]; try apply le_bytes_length.
  assert (Ln : le (b4 mn) = mn) by (apply le_le_bytes; exact Hn).
  assert (Lx : le (b4 mx) = mx) by (apply le_le_bytes; exact Hx).
  split; [exact A|]. split.
  - intros L. unfold bs. rewrite R. destruct (nth_error rest 5) eqn:E; [|reflexivity]. exfalso.
    assert (X : nth_error rest 5 <> None) by congruence. apply nth_error_Some in X. unfold lenN in L. lia.
  - intros junk loc rest' L -> can. unfold bs. rewrite R, Ln, Lx.
    rewrite nth_error_app2 by (unfold lenN in L; lia). replace (5 - length junk)%nat with O by (unfold lenN in L; lia).
    reflexivity.
Qed.
Print Assumptions C112_nothing.

(** The same selection, followed by one message or another. *)
Example C112_ex :
  let ask rest := rel_encode_one ctx_value_init (no_cards 1 0 (b4 1) (b4 2) rest) in
  ask [] = UB /\
  ask (ser (CmDraw 0 [])) = Ok (mkResult StOk 15
    (Some (mkMsg (MsgRequest 1 (RqCard (ScLimbo false 1 2 []))) [])), ctx_value_init) /\
  ask (ser (CmDamage 0 100) ++ ser (CmDamage 0 100)) = Ok (mkResult StOk 15
    (Some (mkMsg (MsgRequest 1 (RqCard (ScLimbo false 1 2 []))) [])), ctx_value_init) /\
  ask (ser (CmHint 1 1 (2 ^ 16))) = Ok (mkResult StOk 15
    (Some (mkMsg (MsgRequest 1 (RqCard (ScUniqueRange false 1 2 []))) [])), ctx_value_init).
Proof. vm_compute. repeat split. Qed.
(** A draw of a third player: stopped with assertions, undefined without; one of
    the first player is the same. *)
Example C112_same_ex :
  ~ asks_for_nothing (ser (CmDraw 3 [])) /\
  encode_one ctx_value_init (ser (CmDraw 3 [])) = Abort /\ rel_encode_one ctx_value_init (ser (CmDraw 3 [])) = UB /\
  exists r, encode_one ctx_value_init (ser (CmDraw 0 [])) = Ok r.
Proof.
  split; [intros (a & b & mn & mx & rest & _ & _ & H); discriminate H|]. split; [vm_compute; reflexivity|].
  split; [vm_compute; reflexivity|]. eexists. vm_compute. reflexivity.
Qed.
