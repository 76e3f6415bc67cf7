(** C111: where cards are, without assertions. *)
From Verif Require Import Base BaseProofs Place Frame FrameSpec FrameOps FrameInv Release ReleaseFrameSpec ReleaseFrameProofs.

Local Open Scope N_scope.

(** Whatever the operations and places, no card is at two positions and no
    destroyed card is at any. *)
Theorem C111_once : forall C (c0 : C) ops f, rel_frun c0 ops frame0 = Ok f -> once f.
Proof.
  intros C c0 ops f H. destruct (@books_run C c0 ops _ _ _ (books0 C) H) as [out B]. eapply books_once; eauto.
Qed.
Print Assumptions C111_once.

(** The cards that get lost are exactly those others are put on ... *)
Theorem C111_lost : forall C (c0 : C) ops o f f' id,
  rel_frun c0 ops frame0 = Ok f -> rel_fstep c0 o f = Ok f' ->
  lost f' id <-> lost f id \/ buried o (f_lay f) id.
Proof.
  intros C c0 ops o f f' id H St. destruct (@books_run C c0 ops _ _ _ (books0 C) H) as [s B].
  destruct (@books_step C c0 o _ _ _ B St) as (out & B' & O & _).
  rewrite (books_lost id B), (books_lost id B'), (in_app_iff out), or_comm.
  assert (U : forall p, In (Some id) (under p (f_lay f)) <-> under p (f_lay f) = [Some id]).
  { intros p. unfold under. destruct (slot p) as [[[r|r|r] i]|]; try (split; [intros []|discriminate]).
    cbn [contents]. destruct (get_zone r (f_lay f)) as [z|]; [|split; [intros []|discriminate]].
    destruct (z_card z) as [c|]; [|split; [intros []|discriminate]]. cbn [In]. split; [intros [E|[]]; congruence|intros E; left; congruence]. }
  assert (E : In (Some id) out <-> buried o (f_lay f) id); [|rewrite E; reflexivity].
  destruct o; cbn [buried]; try (rewrite O; split; intros []).
  - rewrite O. apply U.
  - destruct O as [O1 O2]. assert (D : slot from = slot to \/ slot from <> slot to).
    { destruct (slot from) as [x|], (slot to) as [y|]; try (right; discriminate); [|left; reflexivity].
      destruct (pos_eq_dec x y); [left|right]; congruence. }
    destruct D as [Q|Q].
    + rewrite (O1 Q). split; [intros []|intros [N _]; contradiction].
    + rewrite (O2 Q), U. tauto.
Qed.
Print Assumptions C111_lost.

(** ... and they stay lost: they come back by no operation, and none destroys
    them. *)
Theorem C111_stays : forall C (c0 : C) ops ops' f f' id,
  rel_frun c0 ops frame0 = Ok f -> lost f id -> rel_frun c0 ops' f = Ok f' -> lost f' id.
Proof.
  intros C c0 ops ops' f f' id H Lo R. destruct (@books_run C c0 ops _ _ _ (books0 C) H) as [s B].
  destruct (@books_run C c0 ops' _ _ _ B R) as [out B']. apply (books_lost id B'). apply in_or_app. right. apply (books_lost id B). exact Lo.
Qed.
Print Assumptions C111_stays.

(** If operations put no card on another one and exchange nothing with an empty
    zone but the card of a zone, cards are conserved as in C07. *)
Theorem C111_careful : forall C (c0 : C) ops f,
  careful_run c0 ops frame0 -> rel_frun c0 ops frame0 = Ok f -> conserved f.
Proof.
  intros C c0 ops f G H.
  assert (K : forall ops f0, books f0 [] -> nonull (f_lay f0) -> careful_run c0 ops f0 -> rel_frun c0 ops f0 = Ok f -> books f [] /\ nonull (f_lay f)).
  { clear. induction ops as [|o ops IH]; intros f0 B N G H; unfold rel_frun in H; cbn [ofold] in H.
    - assert (f = f0) by congruence. subst. auto.
    - apply obind_Ok in H. destruct H as (f1 & E & H). destruct G as [G1 G2]. destruct (@books_step C c0 o _ _ _ B E) as (out & B1 & O & N1).
      assert (Z : out = []).
      { destruct o; cbn [careful] in G1; try exact O.
        - rewrite O. exact G1.
        - destruct O as [O1 O2]. destruct G1 as [Q|Q]; [auto|]. destruct out as [|x out]; [reflexivity|].
          exfalso. assert (D : slot from = slot to \/ slot from <> slot to).
          { destruct (slot from) as [x0|], (slot to) as [y|]; try (right; discriminate); [|left; reflexivity].
            destruct (pos_eq_dec x0 y); [left|right]; congruence. }
          destruct D as [D|D]; [discriminate (O1 D)|]. rewrite Q in O2. discriminate (O2 D). }
      subst out. eapply IH; eauto. }
  destruct (K ops frame0 (books0 C)) as [B N]; auto. { apply lay_ok0. } apply books_conserved; assumption.
Qed.
Print Assumptions C111_careful.

(** A card is moved onto another one, then the board is cleared: the one below
    is still allocated. *)
Definition ex_two : list fop := [ OpAdd (mkPlace 0 4 1 (-1)); OpAdd (mkPlace 0 1 0 (-1)) ].
Definition ex_bury : fop := OpMove (mkPlace 0 1 0 (-1)) (mkPlace 0 4 1 (-1)).
Example C111_bury_ex : exists f f1 f2, rel_frun tt ex_two frame0 = Ok f /\ buried ex_bury (f_lay f) 0 /\
  rel_fstep tt ex_bury f = Ok f1 /\ rel_frun tt [OpClear] f1 = Ok f2 /\ map fst (f_heap f2) = [0] /\ f_lay f2 = layout0.
Proof.
  do 3 eexists. split; [vm_compute; reflexivity|]. split; [split; [discriminate|reflexivity]|].
  split; [vm_compute; reflexivity|]. split; [vm_compute; reflexivity|]. split; reflexivity.
Qed.

(** A card of a hand is exchanged with an empty zone: a null pointer is in the
    hand, and clearing the board dereferences it. *)
Example C111_hole_ex : exists f, rel_frun tt [OpAdd (mkPlace 0 2 0 (-1)); OpSwap (mkPlace 0 2 0 (-1)) (mkPlace 1 4 3 (-1))] frame0 = Ok f /\
  get_pile (false, LHand) (f_lay f) = [None] /\ rel_fstep tt OpClear f = UB.
Proof. eexists. split; [vm_compute; reflexivity|]. split; reflexivity. Qed.

(** Careful operations that assertions would stop: a move to the place a card is
    at, a swap of two zones one of which is empty, a swap of two empty zones. *)
Definition ex_careful : list fop :=
  [ OpAdd (mkPlace 0 4 1 (-1)); OpMove (mkPlace 0 4 1 (-1)) (mkPlace 0 4 1 (-1));
    OpSwap (mkPlace 0 4 1 (-1)) (mkPlace 1 8 2 (-1)); OpSwap (mkPlace 0 4 1 (-1)) (mkPlace 0 4 5 (-1));
    OpShuffle [] [mkPlace 0 4 1 (-1)] ].
Example C111_careful_ex : careful_run tt ex_careful frame0 /\ exists f, rel_frun tt ex_careful frame0 = Ok f /\
  get_zone (true, ZSpell, 2%nat) (f_lay f) = Some (mkZone (Some 0) []) /\
  frun tt (firstn 2 ex_careful) frame0 = Abort.
Proof.
  split.
  - cbn [careful_run ex_careful]. split; [reflexivity|]. intros f1 E1. vm_compute in E1. injection E1 as <-.
    split; [left; reflexivity|]. intros f2 E2. vm_compute in E2. injection E2 as <-.
    split; [split; intros _; do 2 eexists; reflexivity|]. intros f3 E3. vm_compute in E3. injection E3 as <-.
    split; [split; intros _; do 2 eexists; reflexivity|]. intros f4 E4. vm_compute in E4. injection E4 as <-.
    split; [exact I|]. auto.
  - eexists. split; [vm_compute; reflexivity|]. split; reflexivity.
Qed.
