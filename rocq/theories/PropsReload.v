(** C51: exactly which reload messages come through. *)
From Verif Require Import Base Place Frame FrameSpec Msg Event EventSpec Query.
From Verif Require Import Reader EncodeQuery Encode CoreMsg EncodeSpec EncodeState ReloadSpec ReloadExact PropsEncodeE2E.

Local Open Scope N_scope.

(** A reload message comes through to the board if and only if no card in a field
    or pendulum zone has materials; C51_reload_partial says what it then does. *)
Theorem C51_reload_iff_partial : forall c flags s0 s1 chains rest, ctx_sound c ->
  is_u32 flags -> side_fits s0 -> side_fits s1 -> short4 chains -> Forall clink_ok chains ->
  ((exists c', feed c (ser (CmReloadField flags s0 s1 chains) ++ rest) = Ok c') <->
   no_mats_there s0 /\ no_mats_there s1).
Proof.
  intros c flags s0 s1 chains rest S F K0 K1 L Lk. split.
  - intros [c' H]. exact (reload_takes c flags s0 s1 chains rest c' F K0 K1 L Lk H).
  - intros [N0 N1]. destruct (C51_reload_partial c flags s0 s1 chains rest S) as (c' & H & _); [|eauto].
    split; [exact F|]. split; [exact (fits_ok _ K0 N0)|]. split; [exact (fits_ok _ K1 N1)|]. split; assumption.
Qed.
Print Assumptions C51_reload_iff_partial.

(** Materials in a monster zone on both sides; then also one in a pendulum zone. *)
Example C51_reload_iff_ex :
  let bad := mkCside 8000 (empty_row 7) (empty_row 7 ++ [Some (5, 1)]) 1 2 3 4 5 0 in
  side_fits some_side /\ no_mats_there some_side /\ side_fits bad /\ ~ no_mats_there bad /\
  (exists c', feed duel (ser (CmReloadField 0 some_side some_side [])) = Ok c') /\
  forall c', feed duel (ser (CmReloadField 0 some_side bad [])) <> Ok c'.
Proof.
  cbv zeta. split; [split; repeat (split || constructor)|]. split; [repeat constructor|]. split; [split; repeat (split || constructor)|].
  split; [intros X; repeat match goal with H : Forall _ (_ :: _) |- _ => inversion H; clear H; subst | H : no_mats_there _ |- _ => unfold no_mats_there in H; cbn in H end; discriminate|].
  split; [eexists; vm_compute; reflexivity|]. intros c'. vm_compute. discriminate.
Qed.
