(** A card that is out of reach stays so. *)
From Verif Require Import Base BaseProofs Place PlaceProofs Frame FrameSpec FrameLens FrameProofs FrameMove FrameOps
  FramePiles FrameInv FrameShuffle FrameFacts Limbo LimboSpec LimboProofs LimboFacts Msg Event EventSpec Query UQuery
  UReplaySpec LostSpec LostProofs.

Section Forever.
Variable C : Type.
Variable c0 : C.
Notation tape := (tape C).
Notation tape_ok := (tape_ok C).

Definition refd (L : layout) (P F : list lop) (id : N) : Prop := inL L id \/ inP P id \/ inP F id.

Lemma inP_cons : forall o P id, inP (o :: P) id <-> inO o id \/ inP P id.
Proof. intros o P id. change (o :: P) with ([o] ++ P). rewrite inP_app, inP_one. tauto. Qed.

Lemma inL_insert : forall p c L L' id, lay_ok L -> card_insert p c L = Ok L' -> inL L' id -> inL L id \/ c = id.
Proof.
  intros p c L L' id K E H. destruct (lay_ok_insert _ _ _ _ K E) as [_ X]. unfold inL in *. rewrite X, cnt_single_eq in H.
  destruct (N.eq_dec c id); auto. left. lia.
Qed.
Lemma inL_erase : forall p c L L' id, lay_ok L -> card_erase p L = Ok (c, L') -> (inL L' id -> inL L id) /\ inL L c.
Proof.
  intros p c L L' id K E. destruct (lay_ok_erase _ _ _ _ K E) as [_ X]. unfold inL. split.
  - specialize (X id). lia.
  - specialize (X c). rewrite cnt_single_eq in X. destruct (N.eq_dec c c); [lia|congruence].
Qed.
Lemma inL_set : forall r l L id, lay_ok L -> inL (set_pile r l L) id -> inL L id \/ In (Some id) l.
Proof. intros r l L id K H. pose proof (inL_set_pile r l L id (proj1 K)). tauto. Qed.

Lemma refs_step : forall a nx h L P F w', tape_ok nx h L P F -> lstep c0 a (tape nx h L P F) = Ok w' ->
  exists nx' h' L' P' F', w' = tape nx' h' L' P' F' /\ (nx <= nx')%N /\
    forall id, (id < nx)%N -> refd L' P' F' id -> refd L P F id.
Proof.
  intros a nx h L P F w' O H. pose proof (to_lay _ _ _ _ _ _ O) as K. pose proof K as [S Nn].
  assert (Lay : forall L', w' = tape nx h L' P F -> (lay_ok L' /\ forall id, cntL L' id = cntL L id) ->
    exists nx' h' L' P' F', w' = tape nx' h' L' P' F' /\ (nx <= nx')%N /\
    forall id, (id < nx)%N -> refd L' P' F' id -> refd L P F id).
  { intros L' E [_ X]. exists nx, h, L', P, F. split; [exact E|]. split; [lia|]. intros id _. unfold refd, inL.
    now rewrite X. }
  destruct a; cbn [lstep] in H.
  - apply obind_Ok in H as [[c w1] [H X]]. injection X as ->. destruct F as [|o F].
    + apply add_live in H. destruct H as [L' [E [-> ->]]].
      eexists _, _, _, _, _. split; [reflexivity|]. split; [lia|]. intros id Lt. unfold refd. rewrite inP_cons. cbn [inO].
      intros [X|[[X|X]|X]]; auto.
      * destruct (inL_insert _ _ _ _ _ K E X); auto. lia.
      * injection X as X. lia.
    + apply add_redo in H; auto. destruct H as [L' [-> [A [E ->]]]].
      eexists _, _, _, _, _. split; [reflexivity|]. split; [lia|]. intros id Lt. unfold refd. rewrite !inP_cons. cbn [inO].
      intros [X|[[X|X]|X]]; auto. destruct (inL_insert _ _ _ _ _ K E X); subst; auto.
  - destruct F as [|o F].
    + apply remove_live in H; auto. destruct H as [c [L' [E [A ->]]]].
      eexists _, _, _, _, _. split; [reflexivity|]. split; [lia|]. intros id Lt. unfold refd. rewrite inP_cons. cbn [inO].
      destruct (inL_erase _ _ _ _ id K E) as [Y Z].
      intros [X|[[X|X]|X]]; auto. injection X as ->. auto.
    + apply remove_redo in H; auto. destruct H as [c [L' [-> [E [A ->]]]]].
      eexists _, _, _, _, _. split; [reflexivity|]. split; [lia|]. intros id Lt. unfold refd. rewrite !inP_cons. cbn [inO].
      destruct (inL_erase _ _ _ _ id K E) as [Y Z]. intros [X|[[X|X]|X]]; auto.
  - destruct F as [|o F].
    + apply resize_live in H; auto. destruct H as [r [l' [s' [R [E [Ln [A ->]]]]]]]. cbv zeta.
      eexists _, _, _, _, _. split; [reflexivity|]. split; [lia|]. intros id Lt. unfold refd. rewrite inP_cons. cbn [inO].
      assert (Q : In (Some id) l' \/ In (Some id) s' -> inL L id).
      { intros X. eapply resized_In in X; eauto. destruct X as [X|[[]|[_ X]]].
        - eapply cntL_pile_In; eauto.
        - apply news_In in X. lia. }
      intros [X|[[X|X]|X]]; auto. apply inL_set in X; auto. destruct X; auto.
    + apply resize_redo in H; auto. destruct H as [r [l' [pv [s [s' [R [-> [E [Ln [A ->]]]]]]]]]].
      eexists _, _, _, _, _. split; [reflexivity|]. split; [lia|]. intros id Lt. unfold refd. rewrite !inP_cons. cbn [inO].
      assert (Q : In (Some id) l' \/ In (Some id) s' -> inL L id \/ In (Some id) s).
      { intros X. eapply resized_In in X; eauto. destruct X as [X|[X|[X _]]]; auto; [|discriminate].
        left. eapply cntL_pile_In; eauto. }
      intros [X|[[X|X]|X]]; auto.
      * apply inL_set in X; auto. destruct X as [X|X]; auto. destruct (Q (or_introl X)); auto.
      * destruct (Q (or_intror X)); auto.
  - destruct F as [|o F].
    + rewrite clear_live in H. injection H as <-.
      eexists _, _, _, _, _. split; [reflexivity|]. split; [lia|]. intros id Lt. unfold refd. rewrite inP_cons. cbn [inO].
      intros [X|[[X|X]|X]]; auto. exfalso. revert X. unfold inL.
      replace (cntL layout0 id) with 0%nat; [lia|]. vm_compute. reflexivity.
    + apply clear_redo in H. destruct H as [L' [-> ->]].
      eexists _, _, _, _, _. split; [reflexivity|]. split; [lia|]. intros id Lt. unfold refd. rewrite !inP_cons. cbn [inO]. tauto.
  - apply obind_Ok in H as [[c w1] [H X]]. injection X as ->.
    apply undo_add in H; auto. destruct H as [L' [P' [-> [A [E ->]]]]].
    eexists _, _, _, _, _. split; [reflexivity|]. split; [lia|]. intros id Lt. unfold refd. rewrite !inP_cons. cbn [inO].
    destruct (inL_erase _ _ _ _ id K E) as [Y Z]. intros [X|[X|[X|X]]]; auto.
  - apply obind_Ok in H as [[c w1] [H X]]. injection X as ->.
    apply undo_remove in H; auto. destruct H as [L' [P' [-> [A [E ->]]]]].
    eexists _, _, _, _, _. split; [reflexivity|]. split; [lia|]. intros id Lt. unfold refd. rewrite !inP_cons. cbn [inO].
    intros [X|[X|[X|X]]]; auto. destruct (inL_insert _ _ _ _ _ K E X); subst; auto.
  - apply undo_resize in H; auto. destruct H as [r [prev [s [P' [R [-> [Ln [A ->]]]]]]]].
    eexists _, _, _, _, _. split; [reflexivity|]. split; [lia|]. intros id Lt. unfold refd. rewrite !inP_cons. cbn [inO].
    pose proof (unresized_In (get_pile r L) s prev id) as Q.
    assert (Y : In (Some id) (get_pile r L) -> inL L id) by (apply cntL_pile_In; auto).
    intros [X|[X|[X|X]]]; auto.
    + apply inL_set in X; auto. destruct X as [X|X]; auto. destruct (Q (or_introl X)); auto.
    + destruct (Q (or_intror X)); auto.
  - apply undo_clear in H. destruct H as [L' [P' [-> ->]]].
    eexists _, _, _, _, _. split; [reflexivity|]. split; [lia|]. intros id Lt. unfold refd. rewrite !inP_cons. cbn [inO]. tauto.
  - discriminate.
  - rewrite erase_tape in H. injection H as <-.
    eexists _, _, _, _, _. split; [reflexivity|]. split; [lia|]. intros id Lt. unfold refd.
    intros [X|[X|X]]; auto. destruct (inP_nil _ X).
  - apply obind_Ok in H as [[c w1] [H X]]. injection X as ->.
    apply l_move_tape in H. destruct H as [L' [E [A ->]]]. eapply Lay; [reflexivity|]. eapply lay_ok_move; eauto.
  - apply l_lift_tape in H. destruct H as [L' [E ->]]. eapply Lay; [reflexivity|]. eapply lay_ok_swap; eauto.
  - apply l_lift_tape in H. destruct H as [L' [E ->]]. eapply Lay; [reflexivity|]. eapply lay_ok_shuffle; eauto.
  - apply l_lift_tape in H. destruct H as [L' [E ->]]. eapply Lay; [reflexivity|]. eapply lay_ok_splice; eauto.
  - apply l_lift_tape in H. destruct H as [L' [E ->]]. eapply Lay; [reflexivity|]. eapply lay_ok_pile_swap; eauto.
Qed.

Lemma reach_refd : forall nx h L P F id, tape_ok nx h L P F ->
  (within_reach (tape nx h L P F) id <-> refd L P F id).
Proof.
  intros nx h L P F id O. pose proof (to_lay _ _ _ _ _ _ O) as K.
  assert (Oc : forall L1, lay_ok L1 -> (exists pos, occupant L1 pos = Some (Some id)) -> inL L1 id).
  { intros L1 K1 [[k i] E]. unfold occupant in E. simpl in E. unfold inL.
    destruct (valid_cont_dec k) as [V|V].
    - pose proof (cnt_le_cntL k L1 id (proj1 K1) V). apply nth_error_In, cnt_In in E. lia.
    - rewrite contents_invalid in E; auto. { destruct i; discriminate. } apply K1. }
  assert (Op : forall Q, Forall (op_ok C h) Q -> (exists o, In o Q /\ op_mentions o id) <-> inP Q id).
  { intros Q V. unfold inP. split; intros [o [X Y]]; exists o; (split; [exact X|]); rewrite Forall_forall in V; specialize (V o X);
      destruct o as [c|n s|L1]; auto.
    - destruct V as [V _]. now apply Oc.
    - now apply inL_occupant. }
  unfold within_reach, refd. rewrite <- (Op P), <- (Op F) by apply O. rewrite lb_lay_tape.
  cbn [lb_ops LimboProofs.tape]. split.
  - intros [X|[o [X Y]]]; [left; auto|]. right. apply in_app_or in X. rewrite <- in_rev in X. destruct X; eauto.
  - intros [X|[[o [X Y]]|[o [X Y]]]]; [left; now apply inL_occupant| |]; right; exists o; (split; [|exact Y]);
      apply in_or_app; [left; now apply in_rev in X|now right].
Qed.

Lemma lost_forever : forall acts w w' id, linv C w -> lrun c0 acts w = Ok w' -> lost w id -> lost w' id.
Proof.
  intros acts w w' id I H [A N]. split; [eapply alive_forever; eauto|].
  assert (Lt : exists nx h L P F, w = tape nx h L P F /\ tape_ok nx h L P F /\ (id < nx)%N).
  { destruct I as [nx [h [L [P [F [-> O]]]]]]. exists nx, h, L, P, F. split; [reflexivity|]. split; [exact O|].
    apply (to_lt _ _ _ _ _ _ O). exact A. }
  clear I A. revert w Lt N H. induction acts as [|a acts IH]; intros w [nx [h [L [P [F [-> [O Lt]]]]]]] N H.
  - injection H as <-. exact N.
  - unfold lrun in H. cbn [ofold] in H. apply obind_Ok in H as [w1 [H1 H]].
    destruct (refs_step _ _ _ _ _ _ _ O H1) as [nx' [h' [L' [P' [F' [-> [Le R]]]]]]].
    pose proof (LimboUndo.tape_ok_step _ _ _ _ _ _ _ _ _ _ _ _ _ O H1) as O1.
    apply (IH (tape nx' h' L' P' F')); [|rewrite reach_refd in N |- * by eassumption; auto|exact H].
    exists nx', h', L', P', F'. split; [reflexivity|]. split; [exact O1|]. lia.
Qed.

(** Looking everywhere. *)
Definition ptr_is (id : N) (p : ptr) : bool := match p with Some x => N.eqb x id | None => false end.
Definition op_has (id : N) (o : lop) : bool :=
  match o with
  | CardOp c => ptr_is id c
  | ResizeOp _ s => existsb (ptr_is id) s
  | ClearOp L => Nat.ltb 0 (cntL L id)
  end.
Definition reach_b (w : limbo C) (id : N) : bool :=
  Nat.ltb 0 (cntL (lb_lay w) id) || existsb (op_has id) (lb_ops w).

Lemma reach_true : forall w id, linv C w -> within_reach w id -> reach_b w id = true.
Proof.
  intros w id [nx [h [L [P [F [-> O]]]]]] H. apply (reach_refd _ _ _ _ _ _ O) in H. unfold reach_b.
  apply orb_true_iff. rewrite lb_lay_tape.
  assert (Op : forall Q, inP Q id -> existsb (op_has id) Q = true).
  { intros Q [o [X Y]]. apply existsb_exists. exists o. split; [exact X|].
    destruct o as [c|n s|L1]; cbn [inO op_has] in *.
    - subst c. apply N.eqb_refl.
    - apply existsb_exists. exists (Some id). split; [exact Y|apply N.eqb_refl].
    - now apply Nat.ltb_lt. }
  cbn [lb_ops LimboProofs.tape]. rewrite existsb_app, orb_true_iff. destruct H as [H|[H|H]].
  - left. now apply Nat.ltb_lt.
  - right. left. apply Op. destruct H as [o [X Y]]. exists o. split; [now apply in_rev in X|exact Y].
  - right. right. now apply Op.
Qed.
End Forever.
