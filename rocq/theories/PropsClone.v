(** C97: when a card is shown at two places of an undoable frame. *)
From Verif Require Import Base BaseProofs Place PlaceProofs Frame FrameSpec FrameLens FrameProofs FrameMove FrameOps
  FramePiles FrameInv FrameShuffle FrameFacts Limbo LimboSpec LimboProofs LimboFacts CloneSpec.

Section Clone.
Variable C : Type.
Variable c0 : C.
Notation tape := (tape C).
Notation tape_ok := (tape_ok C).

Lemma cnt_two : forall l id, (2 <= cnt l id)%nat -> exists i j, i <> j /\
  nth_error l i = Some (Some id) /\ nth_error l j = Some (Some id).
Proof.
  induction l as [|x l IH]; intros id H.
  - rewrite cnt_nil in H. lia.
  - rewrite cnt_cons in H. destruct (ptr_eq_dec x (Some id)) as [->|N].
    + rewrite cnt_single in H. assert (X : In (Some id) l) by (apply cnt_In; lia).
      apply In_nth_error in X. destruct X as [j E]. exists 0%nat, (S j). auto.
    + rewrite cnt_single_other in H by auto. destruct (IH id) as [i [j [A [B D]]]]; [lia|].
      exists (S i), (S j). auto.
Qed.

Lemma sum_two : forall T (f : T -> nat) l, (2 <= sum_over f l)%nat -> NoDup l ->
  (exists k, In k l /\ (2 <= f k)%nat) \/
  exists k k', k <> k' /\ In k l /\ In k' l /\ (0 < f k)%nat /\ (0 < f k')%nat.
Proof.
  induction l as [|x l IH]; simpl; intros H ND; [lia|]. inversion ND as [|? ? N1 N2]; subst.
  destruct (f x) as [|[|m]] eqn:E.
  - destruct IH as [[k [A B]]|[k [k' [A [B [D [G I]]]]]]]; [lia|auto|left; eauto|right; eauto 10].
  - destruct (sum_over_pos _ f l) as [k [A B]]; [lia|]. right. exists x, k. repeat split; auto; [|lia].
    intros ->. auto.
  - left. exists x. split; [auto|lia].
Qed.

Lemma in_cntL : forall L id, shape L ->
  (0 < cntL L id)%nat <-> exists pos, occupant L pos = Some (Some id).
Proof.
  intros L id Sh. split.
  - intros H. apply sum_over_pos in H. destruct H as [k [_ H]]. apply cnt_In in H.
    apply In_nth_error in H. destruct H as [i H]. exists (k, i). exact H.
  - intros [[k i] H]. unfold occupant in H. cbn [fst snd] in H.
    destruct (valid_cont_dec k) as [V|V].
    + apply nth_error_In, cnt_In in H. pose proof (cnt_le_cntL k L id Sh V). lia.
    + rewrite contents_invalid in H by auto. destruct i; discriminate.
Qed.

Lemma cloned_cnt : forall L, shape L -> cloned L <-> exists id, (2 <= cntL L id)%nat.
Proof.
  intros L Sh. split.
  - intros [[k i] [[k' i'] [id [N [A B]]]]]. exists id. unfold occupant in A, B. cbn [fst snd] in A, B.
    assert (V : forall q j, nth_error (contents q L) j = Some (Some id) -> valid_cont q).
    { intros q j E. destruct (valid_cont_dec q) as [V|V]; auto.
      rewrite contents_invalid in E by auto. destruct j; discriminate. }
    pose proof (V _ _ A) as Vk. pose proof (V _ _ B) as Vk'.
    destruct (cont_eq_dec k k') as [<-|Nk].
    + assert (i <> i') by congruence. pose proof (cnt_nth_twice _ _ _ _ H A B).
      pose proof (cnt_le_cntL k L id Sh Vk). lia.
    + pose proof (sum_over_two _ (fun k => cnt (contents k L) id) all_conts k k' nodup_all_conts
        (proj2 (in_all_conts k) Vk) (proj2 (in_all_conts k') Vk') Nk) as T.
      apply nth_error_In, cnt_In in A. apply nth_error_In, cnt_In in B. unfold cntL. cbv beta in T. lia.
  - intros [id H]. apply sum_two in H; [|apply nodup_all_conts].
    destruct H as [[k [_ H]]|[k [k' [N [_ [_ [A B]]]]]]].
    + apply cnt_two in H. destruct H as [i [j [N [A B]]]]. exists (k, i), (k, j), id.
      split; [congruence|]. auto.
    + apply cnt_In, In_nth_error in A. apply cnt_In, In_nth_error in B.
      destruct A as [i A], B as [j B]. exists (k, i), (k', j), id. split; [congruence|]. auto.
Qed.

Lemma ahead_tape : forall nx h L P F, op_ahead (tape nx h L P F) = hd_error F.
Proof.
  intros. unfold op_ahead, LimboProofs.tape. cbn [lb_ops lb_op].
  rewrite nth_error_app2 by (rewrite rev_length; lia). rewrite rev_length, Nat.sub_diag.
  destruct F; reflexivity.
Qed.
Lemma behind_tape : forall nx h L P F, op_behind (tape nx h L P F) = hd_error P.
Proof.
  intros. unfold op_behind, LimboProofs.tape. cbn [lb_ops lb_op]. destruct P as [|o P]; [reflexivity|].
  cbn [length hd_error rev]. rewrite <- app_assoc, nth_error_app2 by (rewrite rev_length; lia).
  rewrite rev_length, Nat.sub_diag. reflexivity.
Qed.

Lemma cnt_news : forall n nx id, (cnt (map Some (news nx n)) id <= 1)%nat /\
  ((id < nx)%N -> cnt (map Some (news nx n)) id = 0%nat).
Proof.
  induction n as [|n IH]; intros nx id; simpl.
  - rewrite cnt_nil. auto.
  - rewrite cnt_cons, cnt_single_eq. destruct (IH (nx + 1)%N id) as [A B].
    destruct (N.eq_dec nx id) as [->|N].
    + rewrite B by lia. split; [lia|]. intros. lia.
    + split; [lia|]. intros. rewrite B by lia. lia.
Qed.

Lemma step_counts : forall a w w', linv C w -> ~ exchanges a -> lstep c0 a w = Ok w' ->
  (forall id, cntL (lb_lay w') id = (cntL (lb_lay w) id + cnt (recalled a w) id)%nat) \/
  (recalled a w = [] /\ forall id, (cntL (lb_lay w') id <= Nat.max 1 (cntL (lb_lay w) id))%nat).
Proof.
  intros a w w' [nx [h [L [P [F [-> O]]]]]] Ex H.
  pose proof (to_lay _ _ _ _ _ _ O) as Lk. destruct Lk as [Sh Nn] eqn:ELk. clear ELk.
  assert (Fr : forall id, (nx <= id)%N -> cntL L id = 0%nat).
  { intros id X. destruct (cntL L id) eqn:E; auto. exfalso.
    pose proof (to_lt _ _ _ _ _ _ O id (to_cnt _ _ _ _ _ _ O id ltac:(lia))). lia. }
  rewrite lb_lay_tape.
  destruct a; cbn [lstep] in H; cbn [recalled]; rewrite ?ahead_tape, ?behind_tape, ?lb_lay_tape.
  - apply obind_Ok in H as [[c w1] [H X]]. injection X as ->. destruct F as [|o F].
    + apply add_live in H. destruct H as [L' [E [-> ->]]]. right. split; [reflexivity|].
      intros id. rewrite lb_lay_tape. destruct (lay_ok_insert _ _ _ _ Lk E) as [_ K].
      rewrite K, cnt_single_eq. destruct (N.eq_dec nx id) as [<-|]; [|lia]. rewrite (Fr nx) by lia. lia.
    + apply add_redo in H; auto. destruct H as [L' [-> [A [E ->]]]]. left. intros id. cbn [hd_error].
      rewrite lb_lay_tape. destruct (lay_ok_insert _ _ _ _ Lk E) as [_ K]. apply K.
  - right. split; [reflexivity|]. intros id.
    assert (X : exists c L', card_erase p L = Ok (c, L') /\ lb_lay w' = L').
    { destruct F as [|o F].
      - apply remove_live in H; auto. destruct H as [c [L' [E [A ->]]]]. rewrite lb_lay_tape. eauto.
      - apply remove_redo in H; auto. destruct H as [c [L' [-> [E [A ->]]]]]. rewrite lb_lay_tape. eauto. }
    destruct X as [c [L' [E ->]]]. destruct (lay_ok_erase _ _ _ _ Lk E) as [_ K]. specialize (K id). lia.
  - destruct F as [|o F].
    + apply resize_live in H; auto. destruct H as [r [l' [s' [R [E [Ln [A ->]]]]]]]. right. cbv zeta.
      cbn [hd_error]. split; [destruct (slot p) as [[[]]|]; reflexivity|]. intros id. rewrite lb_lay_tape.
      pose proof (cntL_set_pile r l' L id Sh) as K. unfold resized in E.
      destruct (Nat.ltb_spec (length (get_pile r L)) (N.to_nat count)).
      * injection E as <- <-. rewrite cnt_app in K.
        destruct (cnt_news (N.to_nat count - length (get_pile r L)) nx id) as [K1 K2].
        destruct (N.ltb_spec id nx); [rewrite K2 in K by auto; lia|]. rewrite (Fr id) in * by auto. lia.
      * destruct (Nat.ltb_spec (N.to_nat count) (length (get_pile r L))).
        -- apply obind_Ok in E as [x [_ E]]. injection E as <- <-.
           rewrite (cnt_split (N.to_nat count) (get_pile r L)) in K. lia.
        -- injection E as <- <-. lia.
    + apply resize_redo in H; auto. destruct H as [r [l' [pv [s [s' [R [-> [E [Ln [A ->]]]]]]]]]].
      cbn [hd_error]. apply pile_of_slot in R. rewrite lb_lay_tape. unfold resized in E.
      rewrite R. cbn [contents].
      destruct (Nat.ltb_spec (length (get_pile r L)) (N.to_nat count)).
      * injection E as <- <-. left. intros id. pose proof (cntL_set_pile r (get_pile r L ++ s) L id Sh) as K.
        rewrite cnt_app in K. lia.
      * right. split; [reflexivity|]. intros id. pose proof (cntL_set_pile r l' L id Sh) as K.
        destruct (Nat.ltb_spec (N.to_nat count) (length (get_pile r L))).
        -- apply obind_Ok in E as [x [_ E]]. injection E as <- <-.
           rewrite (cnt_split (N.to_nat count) (get_pile r L)) in K. lia.
        -- injection E as <- <-. lia.
  - exfalso. apply Ex. exact Logic.I.
  - apply obind_Ok in H as [[c w1] [H X]]. injection X as ->.
    apply undo_add in H; auto. destruct H as [L' [P' [-> [A [E ->]]]]]. right. split; [reflexivity|].
    intros id. rewrite lb_lay_tape. destruct (lay_ok_erase _ _ _ _ Lk E) as [_ K]. specialize (K id). lia.
  - apply obind_Ok in H as [[c w1] [H X]]. injection X as ->.
    apply undo_remove in H; auto. destruct H as [L' [P' [-> [A [E ->]]]]]. left. cbn [hd_error].
    intros id. rewrite lb_lay_tape. destruct (lay_ok_insert _ _ _ _ Lk E) as [_ K]. apply K.
  - apply undo_resize in H; auto. destruct H as [r [prev [s [P' [R [-> [Ln [A ->]]]]]]]].
    cbn [hd_error]. apply pile_of_slot in R. rewrite R. cbn [contents]. rewrite lb_lay_tape. unfold unresized.
    destruct (Nat.ltb_spec (length (get_pile r L)) prev); cbn [fst].
    + left. intros id. pose proof (cntL_set_pile r (get_pile r L ++ s) L id Sh) as K.
      rewrite cnt_app in K. lia.
    + right. split; [reflexivity|]. intros id. destruct (Nat.ltb_spec prev (length (get_pile r L))); cbn [fst].
      * pose proof (cntL_set_pile r (firstn prev (get_pile r L)) L id Sh) as K.
        rewrite (cnt_split prev (get_pile r L)) in K. lia.
      * pose proof (cntL_set_pile r (get_pile r L) L id Sh) as K. lia.
  - exfalso. apply Ex. exact Logic.I.
  - discriminate.
  - rewrite erase_tape in H. injection H as <-. right. split; [reflexivity|]. intros. rewrite lb_lay_tape. lia.
  - apply obind_Ok in H as [[c w1] [H X]]. injection X as ->.
    apply l_move_tape in H. destruct H as [L' [E [A ->]]]. right. split; [reflexivity|]. intros id.
    rewrite lb_lay_tape. destruct (lay_ok_move _ _ _ _ _ Lk E) as [_ K]. rewrite K. lia.
  - apply l_lift_tape in H. destruct H as [L' [E ->]]. right. split; [reflexivity|]. intros id.
    rewrite lb_lay_tape. destruct (lay_ok_swap _ _ _ _ Lk E) as [_ K]. rewrite K. lia.
  - apply l_lift_tape in H. destruct H as [L' [E ->]]. right. split; [reflexivity|]. intros id.
    rewrite lb_lay_tape. destruct (lay_ok_shuffle _ _ _ _ Lk E) as [_ K]. rewrite K. lia.
  - apply l_lift_tape in H. destruct H as [L' [E ->]]. right. split; [reflexivity|]. intros id.
    rewrite lb_lay_tape. destruct (lay_ok_splice _ _ _ _ _ _ Lk E) as [_ K]. rewrite K. lia.
  - apply l_lift_tape in H. destruct H as [L' [E ->]]. right. split; [reflexivity|]. intros id.
    rewrite lb_lay_tape. destruct (lay_ok_pile_swap _ _ _ _ Lk E) as [_ K]. rewrite K. lia.
Qed.


(** What comes back is a list of cards, without holes. *)
Lemma recalled_some : forall a w w', linv C w -> lstep c0 a w = Ok w' -> all_some (recalled a w).
Proof.
  intros a w w' [nx [h [L [P [F [-> O]]]]]] H.
  pose proof (to_lay _ _ _ _ _ _ O) as Lk. destruct Lk as [Sh Nn].
  assert (Z : all_some []) by (intros []).
  destruct a; cbn [lstep] in H; cbn [recalled]; rewrite ?ahead_tape, ?behind_tape, ?lb_lay_tape; auto.
  - apply obind_Ok in H as [[c w1] [H X]]. injection X as ->. destruct F as [|o F]; [auto|].
    apply add_redo in H; auto. destruct H as [L' [-> _]]. cbn [hd_error].
    intros [X|[]]. discriminate.
  - destruct F as [|o F]; [cbn [hd_error]; destruct (slot p) as [[[]]|]; auto|].
    apply resize_redo in H; auto. destruct H as [r [l' [pv [s [s' [R [-> [E [Ln [A ->]]]]]]]]]].
    cbn [hd_error]. apply pile_of_slot in R. rewrite R. cbn [contents]. unfold resized in E.
    destruct (Nat.ltb_spec (length (get_pile r L)) (N.to_nat count)); [|auto].
    injection E as <- <-. apply all_some_app in A. apply A.
  - apply obind_Ok in H as [[c w1] [H X]]. injection X as ->.
    apply undo_remove in H; auto. destruct H as [L' [P' [-> _]]]. cbn [hd_error].
    intros [X|[]]. discriminate.
  - apply undo_resize in H; auto. destruct H as [r [prev [s [P' [R [-> [Ln [A ->]]]]]]]].
    cbn [hd_error]. apply pile_of_slot in R. rewrite R. cbn [contents]. unfold unresized in A.
    destruct (Nat.ltb_spec (length (get_pile r L)) prev); [|auto]. cbn [fst] in A.
    apply all_some_app in A. apply A.
Qed.

Lemma nodup_cnt : forall l, all_some l -> NoDup l <-> forall id, (cnt l id <= 1)%nat.
Proof.
  intros l A. unfold cnt. rewrite (NoDup_count_occ ptr_eq_dec). split; intros H.
  - intros id. apply H.
  - intros [id|]; [apply H|]. destruct (count_occ ptr_eq_dec l None) eqn:E; [lia|]. exfalso.
    assert (X : In None l) by (apply (count_occ_In ptr_eq_dec); lia).
    exact (A X).
Qed.

Lemma clash_cnt : forall a w w', linv C w -> lstep c0 a w = Ok w' -> ~ cloned (lb_lay w) ->
  clash a w <-> exists id, (0 < cnt (recalled a w) id /\ 2 <= cntL (lb_lay w) id + cnt (recalled a w) id)%nat.
Proof.
  intros a w w' I H Nc. pose proof (recalled_some _ _ _ I H) as A.
  assert (Sh : shape (lb_lay w)).
  { destruct I as [nx [h [L [P [F [-> O]]]]]]. rewrite lb_lay_tape. apply (to_lay _ _ _ _ _ _ O). }
  rewrite cloned_cnt in Nc by auto. unfold clash. rewrite (nodup_cnt _ A). split.
  - intros [[id [pos [X Y]]]|X].
    + exists id. apply cnt_In in X. assert (Z : exists pos, occupant (lb_lay w) pos = Some (Some id)) by eauto.
      apply in_cntL in Z; auto. lia.
    + destruct (existsb (fun p => match p with Some id => Nat.ltb 1 (cnt (recalled a w) id) | None => false end)
        (recalled a w)) eqn:E.
      * apply existsb_exists in E. destruct E as [[id|] [_ E]]; [|discriminate].
        apply Nat.ltb_lt in E. exists id. lia.
      * exfalso. apply X. intros id. destruct (cnt (recalled a w) id) as [|[|n]] eqn:Q; [lia|lia|exfalso].
        assert (J : In (Some id) (recalled a w)) by (apply cnt_In; lia).
        assert (T : existsb (fun p => match p with Some id => Nat.ltb 1 (cnt (recalled a w) id) | None => false end)
          (recalled a w) = true); [|congruence].
        apply existsb_exists. exists (Some id). split; auto. apply Nat.ltb_lt. lia.
  - intros [id [X Y]]. destruct (cntL (lb_lay w) id) eqn:Q.
    + right. intros G. specialize (G id). lia.
    + left. assert (Z : (0 < cntL (lb_lay w) id)%nat) by lia. apply in_cntL in Z; auto.
      destruct Z as [pos Z]. exists id, pos. split; auto. apply cnt_In. auto.
Qed.

Lemma linv_shape : forall w, linv C w -> shape (lb_lay w).
Proof. intros w [nx [h [L [P [F [-> O]]]]]]. rewrite lb_lay_tape. apply (to_lay _ _ _ _ _ _ O). Qed.

Lemma step_cloned : forall a w w', linv C w -> ~ exchanges a -> ~ cloned (lb_lay w) -> lstep c0 a w = Ok w' ->
  cloned (lb_lay w') <-> clash a w.
Proof.
  intros a w w' I Ex Nc H. rewrite (clash_cnt _ _ _ I H Nc).
  destruct (linv_step C c0 _ _ _ I H) as [I' _].
  rewrite cloned_cnt by (apply linv_shape; auto). rewrite cloned_cnt in Nc by (apply linv_shape; auto).
  assert (Nc' : forall id, (cntL (lb_lay w) id <= 1)%nat).
  { intros id. destruct (Nat.leb_spec (cntL (lb_lay w) id) 1); auto. exfalso. apply Nc. eauto. }
  destruct (step_counts _ _ _ I Ex H) as [K|[K1 K2]].
  - split; intros [id X]; exists id; specialize (Nc' id); rewrite K in *; lia.
  - rewrite K1. split; intros [id X]; exfalso.
    + specialize (K2 id). specialize (Nc' id). lia.
    + rewrite cnt_nil in X. lia.
Qed.

(** The boards in the history. *)
Definition neat (w : limbo C) : Prop :=
  ~ cloned (lb_lay w) /\ forall L, In (ClearOp L) (lb_ops w) -> ~ cloned L.

Lemma upd_In : forall T (l : list T) n x y, In y (upd n x l) -> y = x \/ In y l.
Proof.
  induction l as [|a l IH]; intros [|n] x y H; simpl in H; auto.
  - destruct H; auto. right. right. auto.
  - destruct H as [->|H]; [right; left; auto|]. destruct (IH _ _ _ H); auto. right. right. auto.
Qed.

Lemma step_saved : forall a w w' L, linv C w -> lstep c0 a w = Ok w' -> In (ClearOp L) (lb_ops w') ->
  L = lb_lay w \/ In (ClearOp L) (lb_ops w).
Proof.
  intros a w w' L [nx [h [L0 [P [F [-> O]]]]]] H X.
  pose proof (to_lay _ _ _ _ _ _ O) as Lk. destruct Lk as [Sh Nn].
  assert (Z : forall nx h L P F o, In o (lb_ops (tape nx h L P F)) <-> In o P \/ In o F).
  { intros. unfold LimboProofs.tape. cbn [lb_ops]. rewrite in_app_iff, <- in_rev. tauto. }
  rewrite lb_lay_tape, Z.
  destruct a; cbn [lstep] in H.
  - apply obind_Ok in H as [[c w1] [H Y]]. injection Y as ->. destruct F as [|o F].
    + apply add_live in H. destruct H as [L' [E [-> ->]]]. rewrite Z in X. cbn [In] in *.
      destruct X as [[X|X]|X]; [discriminate|auto|auto].
    + apply add_redo in H; auto. destruct H as [L' [-> [A [E ->]]]]. rewrite Z in X. cbn [In] in *.
      destruct X as [[X|X]|X]; auto.
  - destruct F as [|o F].
    + apply remove_live in H; auto. destruct H as [c [L' [E [A ->]]]]. rewrite Z in X. cbn [In] in *.
      destruct X as [[X|X]|X]; [discriminate|auto|auto].
    + apply remove_redo in H; auto. destruct H as [c [L' [-> [E [A ->]]]]]. rewrite Z in X. cbn [In] in *.
      destruct X as [[X|X]|X]; auto.
  - destruct F as [|o F].
    + apply resize_live in H; auto. destruct H as [r [l' [s' [R [E [Ln [A ->]]]]]]]. cbv zeta in X.
      rewrite Z in X. cbn [In] in *. destruct X as [[X|X]|X]; [discriminate|auto|auto].
    + apply resize_redo in H; auto. destruct H as [r [l' [pv [s [s' [R [-> [E [Ln [A ->]]]]]]]]]].
      rewrite Z in X. cbn [In] in *. destruct X as [[X|X]|X]; [discriminate|auto|auto].
  - destruct F as [|o F].
    + rewrite clear_live in H. injection H as <-. rewrite Z in X. cbn [In] in *.
      destruct X as [[X|X]|X]; [left; congruence|auto|auto].
    + apply clear_redo in H. destruct H as [L' [-> ->]]. rewrite Z in X. cbn [In] in *.
      destruct X as [[X|X]|X]; [left; congruence|auto|auto].
  - apply obind_Ok in H as [[c w1] [H Y]]. injection Y as ->.
    apply undo_add in H; auto. destruct H as [L' [P' [-> [A [E ->]]]]]. rewrite Z in X. cbn [In] in *.
    destruct X as [X|[X|X]]; [auto|discriminate|auto].
  - apply obind_Ok in H as [[c w1] [H Y]]. injection Y as ->.
    apply undo_remove in H; auto. destruct H as [L' [P' [-> [A [E ->]]]]]. rewrite Z in X. cbn [In] in *.
    destruct X as [X|[X|X]]; [auto|discriminate|auto].
  - apply undo_resize in H; auto. destruct H as [r [prev [s [P' [R [-> [Ln [A ->]]]]]]]].
    rewrite Z in X. cbn [In] in *. destruct X as [X|[X|X]]; [auto|discriminate|auto].
  - apply undo_clear in H. destruct H as [L' [P' [-> ->]]]. rewrite Z in X. cbn [In] in *.
    destruct X as [X|[X|X]]; [auto|left; congruence|auto].
  - discriminate.
  - rewrite erase_tape in H. injection H as <-. rewrite Z in X. cbn [In] in *. tauto.
  - apply obind_Ok in H as [[c w1] [H Y]]. injection Y as ->.
    apply l_move_tape in H. destruct H as [L' [E [A ->]]]. rewrite Z in X. auto.
  - apply l_lift_tape in H. destruct H as [L' [E ->]]. rewrite Z in X. auto.
  - apply l_lift_tape in H. destruct H as [L' [E ->]]. rewrite Z in X. auto.
  - apply l_lift_tape in H. destruct H as [L' [E ->]]. rewrite Z in X. auto.
  - apply l_lift_tape in H. destruct H as [L' [E ->]]. rewrite Z in X. auto.
Qed.

Lemma cloned0 : ~ cloned layout0.
Proof.
  assert (Sh : shape layout0) by apply lay_ok0.
  rewrite cloned_cnt by exact Sh. intros [id X].
  replace (cntL layout0 id) with 0%nat in X; [lia|]. vm_compute. reflexivity.
Qed.

(** Exchanging shows a board from the history, or an empty one. *)
Lemma step_exchange : forall a w w', exchanges a -> linv C w -> lstep c0 a w = Ok w' ->
  lb_lay w' = layout0 \/ In (ClearOp (lb_lay w')) (lb_ops w).
Proof.
  intros a w w' Ex [nx [h [L0 [P [F [-> O]]]]]] H.
  assert (Z : forall nx h L P F o, In o (lb_ops (tape nx h L P F)) <-> In o P \/ In o F).
  { intros. unfold LimboProofs.tape. cbn [lb_ops]. rewrite in_app_iff, <- in_rev. tauto. }
  rewrite Z. destruct a; try destruct Ex; cbn [lstep] in H.
  - destruct F as [|o F].
    + rewrite clear_live in H. injection H as <-. rewrite lb_lay_tape. auto.
    + apply clear_redo in H. destruct H as [L' [-> ->]]. rewrite lb_lay_tape. cbn [In]. auto.
  - apply undo_clear in H. destruct H as [L' [P' [-> ->]]]. rewrite lb_lay_tape. cbn [In]. auto.
Qed.

Lemma neat_step : forall a w w', linv C w -> neat w -> ~ clash a w -> lstep c0 a w = Ok w' -> neat w'.
Proof.
  intros a w w' I [N1 N2] Cl H. split.
  - assert (D : exchanges a \/ ~ exchanges a) by (destruct a; cbn; auto).
    destruct D as [Ex|Ex].
    + destruct (step_exchange _ _ _ Ex I H) as [E|E]; [rewrite E; apply cloned0|auto].
    + rewrite (step_cloned _ _ _ I Ex N1 H). exact Cl.
  - intros L X. destruct (step_saved _ _ _ _ I H X) as [->|Y]; auto.
Qed.

Lemma neat0 : neat limbo0.
Proof. split; [apply cloned0|intros L []]. Qed.

Lemma neat_run : forall acts w w', linv C w -> neat w -> clash_free c0 acts w -> lrun c0 acts w = Ok w' -> neat w'.
Proof.
  induction acts as [|a acts IH]; intros w w' I N Cf H.
  - injection H as <-. exact N.
  - unfold lrun in H. cbn [ofold] in H. apply obind_Ok in H as [w1 [H1 H]]. destruct Cf as [C1 C2].
    eapply IH; [eapply linv_step; eauto|eapply neat_step; eauto|apply C2; exact H1|exact H].
Qed.

(** Without undoing, the cursor stays at the live end. *)
Lemma end_step : forall a w w', linv C w -> at_end w -> ~ undoes a -> lstep c0 a w = Ok w' -> at_end w'.
Proof.
  intros a w w' [nx [h [L0 [P [F [-> O]]]]]] Ae Nu H. rewrite at_end_tape in Ae. subst F.
  pose proof (to_lay _ _ _ _ _ _ O) as Lk. destruct Lk as [Sh Nn].
  destruct a; cbn [lstep] in H; try (exfalso; apply Nu; exact Logic.I).
  - apply obind_Ok in H as [[c w1] [H Y]]. injection Y as ->.
    apply add_live in H. destruct H as [L' [E [-> ->]]]. apply at_end_tape. auto.
  - apply remove_live in H; auto. destruct H as [c [L' [E [A ->]]]]. apply at_end_tape. auto.
  - apply resize_live in H; auto. destruct H as [r [l' [s' [R [E [Ln [A ->]]]]]]]. apply at_end_tape. auto.
  - rewrite clear_live in H. injection H as <-. apply at_end_tape. auto.
  - rewrite erase_tape in H. injection H as <-. apply at_end_tape. auto.
  - apply obind_Ok in H as [[c w1] [H Y]]. injection Y as ->.
    apply l_move_tape in H. destruct H as [L' [E [A ->]]]. apply at_end_tape. auto.
  - apply l_lift_tape in H. destruct H as [L' [E ->]]. apply at_end_tape. auto.
  - apply l_lift_tape in H. destruct H as [L' [E ->]]. apply at_end_tape. auto.
  - apply l_lift_tape in H. destruct H as [L' [E ->]]. apply at_end_tape. auto.
  - apply l_lift_tape in H. destruct H as [L' [E ->]]. apply at_end_tape. auto.
Qed.

Lemma end_no_clash : forall a (w : limbo C), at_end w -> ~ undoes a -> ~ clash a w.
Proof.
  intros a w Ae Nu. assert (E : recalled a w = []).
  { assert (A : op_ahead w = None).
    { unfold op_ahead. apply nth_error_None. unfold at_end in Ae. lia. }
    destruct a; cbn [recalled]; try (exfalso; apply Nu; exact Logic.I); rewrite ?A; auto.
    destruct (slot p) as [[[]]|]; auto. }
  unfold clash. rewrite E. intros [[id [pos [[] _]]]|X]. apply X. constructor.
Qed.

Lemma live_clash_free : forall acts (w : limbo C), linv C w -> at_end w -> Forall (fun a => ~ undoes a) acts ->
  clash_free c0 acts w.
Proof.
  induction acts as [|a acts IH]; intros w I Ae Fa; [exact Logic.I|].
  inversion Fa; subst. split; [apply end_no_clash; auto|]. intros w' H.
  apply IH; auto; [eapply linv_step; eauto|eapply end_step; eauto].
Qed.

End Clone.

(** C97: full statement: whatever is done with an undoable frame, no card is
    at two positions at once.  It is false: a card is added and removed, the
    removal is undone, and then a card is added elsewhere, with the removal
    still in the history: the addition takes the remembered card instead of a
    new one. *)
Theorem C97_twice_refuted : exists (w : limbo unit), lreachable tt w /\ cloned (lb_lay w).
Proof.
  pose (acts := [LAdd (mkPlace 0 2 0 (-1)); LRemove (mkPlace 0 2 0 (-1)); LUndoRemove (mkPlace 0 2 0 (-1));
    LAdd (mkPlace 0 4 1 (-1))]).
  destruct (lrun tt acts limbo0) as [w| | |] eqn:E; try (vm_compute in E; discriminate).
  exists w. split; [exists acts; exact E|]. vm_compute in E. injection E as <-.
  exists (CPile (false, LHand), 0%nat), (CCard (false, ZMonster, 1%nat), 0%nat), 0%N.
  split; [discriminate|]. split; reflexivity.
Qed.
Print Assumptions C97_twice_refuted.

(** Exactly then: an operation that does not exchange the whole board puts a
    card at a second position if and only if it takes a card out of the history
    that is on the board already, or takes one twice. *)
Theorem C97_step_partial : forall C (c0 : C) w a w', lreachable c0 w -> ~ cloned (lb_lay w) ->
  ~ exchanges a -> lstep c0 a w = Ok w' -> (cloned (lb_lay w') <-> clash a w).
Proof.
  intros C c0 w a w' R N Ex. apply step_cloned; auto. eapply lreachable_linv; eauto.
Qed.
Print Assumptions C97_step_partial.

(** Over whole programs, with any exchanges of the board. *)
Theorem C97_run_partial : forall C (c0 : C) acts w, clash_free c0 acts limbo0 ->
  lrun c0 acts limbo0 = Ok w -> ~ cloned (lb_lay w).
Proof.
  intros C c0 acts w Cf H. exact (proj1 (neat_run C c0 acts _ _ (linv0 C) (neat0 C) Cf H)).
Qed.
Print Assumptions C97_run_partial.

(** A program that undoes nothing has nothing to take back. *)
Theorem C97_live_partial : forall C (c0 : C) acts w, Forall (fun a => ~ undoes a) acts ->
  lrun c0 acts limbo0 = Ok w -> ~ cloned (lb_lay w).
Proof.
  intros C c0 acts w Fa. apply C97_run_partial. apply live_clash_free; auto; [apply linv0|reflexivity].
Qed.
Print Assumptions C97_live_partial.

(** At the live end, after any history, new cards are not on the board. *)
Theorem C97_end_partial : forall C (c0 : C) w a w', lreachable c0 w -> at_end w -> ~ cloned (lb_lay w) ->
  ~ undoes a -> lstep c0 a w = Ok w' -> ~ cloned (lb_lay w').
Proof.
  intros C c0 w a w' R Ae N Nu H. pose proof (lreachable_linv _ _ _ R) as I.
  assert (D : exchanges a \/ ~ exchanges a) by (destruct a; cbn; auto).
  destruct D as [Ex|Ex].
  - destruct a; try destruct Ex; [|exfalso; apply Nu; exact Logic.I].
    destruct I as [nx [h [L [P [F [-> O]]]]]]. rewrite at_end_tape in Ae. subst F. cbn [lstep] in H.
    rewrite clear_live in H. injection H as <-. apply cloned0.
  - rewrite (step_cloned _ _ _ _ _ I Ex N H). apply end_no_clash; auto.
Qed.
Print Assumptions C97_end_partial.

(** A program that undoes and redoes without a clash, one that undoes nothing,
    and a pile whose remembered half is asked for twice. *)
Example C97_ex :
  let deck := mkPlace 0 1 0 (-1) in
  let hand := mkPlace 0 2 0 (-1) in
  (let acts := [LResize deck 4; LAdd hand; LUndoAdd hand; LAdd hand; LClear; LUndoClear] in
   clash_free tt acts limbo0 /\ exists w, lrun tt acts limbo0 = Ok w /\
   contents (CPile (false, LHand)) (lb_lay w) = [Some 4%N]) /\
  Forall (fun a => ~ undoes a) [LResize deck 4; LAdd hand; LClear] /\
  (exists w w', lrun tt [LResize deck 4; LResize deck 2; LUndoResize deck 2; LMove deck hand] limbo0 = Ok w /\
    lstep tt (LResize deck 5) w = Ok w' /\ ~ exchanges (LResize deck 5) /\ clash (LResize deck 5) w /\
    contents (CPile (false, LDeck)) (lb_lay w') = map Some [1; 2; 3; 2; 3]%N).
Proof.
  split; [split|split].
  - pose (deck := mkPlace 0 1 0 (-1)). pose (hand := mkPlace 0 2 0 (-1)).
    assert (E : forall a (w : limbo unit), recalled a w = [] -> ~ clash a w).
    { intros a w E [[id [pos [X _]]]|X]; rewrite E in X; [destruct X|apply X; constructor]. }
    destruct (lrun tt [LResize deck 4; LAdd hand; LUndoAdd hand] limbo0) as [w| | |] eqn:R; try (vm_compute in R; discriminate).
    assert (Sh : shape (lb_lay w)).
    { apply (linv_shape unit), (lreachable_linv _ tt). eexists. exact R. }
    vm_compute in R. injection R as <-.
    split; [apply E; reflexivity|]. intros w1 H. vm_compute in H. injection H as <-.
    split; [apply E; reflexivity|]. intros w2 H. vm_compute in H. injection H as <-.
    split; [apply E; reflexivity|]. intros w3 H. vm_compute in H. injection H as <-.
    split.
    { intros [[id [pos [X Y]]]|X].
      - cbn in X. destruct X as [X|[]]. injection X as <-.
        assert (Z := proj2 (in_cntL _ 4%N Sh) (ex_intro _ pos Y)). vm_compute in Z. lia.
      - apply X. repeat constructor. intros []. }
    intros w4 H. vm_compute in H. injection H as <-.
    split; [apply E; reflexivity|]. intros w5 H. vm_compute in H. injection H as <-.
    split; [apply E; reflexivity|]. intros; exact Logic.I.
  - eexists. vm_compute. split; reflexivity.
  - repeat constructor; intros [].
  - do 2 eexists. split; [vm_compute; reflexivity|]. split; [vm_compute; reflexivity|]. split; [intros []|].
    split; [|reflexivity]. left. exists 2%N, (CPile (false, LDeck), 1%nat). split; [left; reflexivity|reflexivity].
Qed.
