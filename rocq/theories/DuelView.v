(** The relation between a duel and a board, and how the elementary changes of
    a duel look on the board. *)
From Verif Require Import Base BaseProofs Place PlaceProofs Frame FrameSpec FrameLens FrameProofs FrameMove FrameOps FramePiles FrameInv FrameShuffle FrameFacts
  Msg Event EventSpec EventProofs Query QuerySpec QueryProofs.
From Verif Require Import Encode CoreMsg EncodeSpec EncodeState EncodeE2E Duel.

Local Open Scope N_scope.

(** ** The view of a duel *)

(** What the board shows of the cards.  While a card that left the field still
    holds materials, the board keeps them in the zone it left: [owed]. *)
Definition debts := zref -> option cid.
Definition seen (K : cards) (owed : debts) (k : cont) : list cid :=
  match k with
  | CPile r => k_pile K r
  | CCard z => match k_zone K z with Some x => [x] | None => [] end
  | CMats z =>
      match k_zone K z with
      | Some x => k_under K x
      | None => match owed z with Some h => k_under K h | None => [] end
      end
  end.
Definition no_debts : debts := fun _ => None.

Definition located (K : cards) (x : cid) : Prop :=
  (exists r, In x (k_pile K r)) \/ (exists z, k_zone K z = Some x).

Definition loc_of (l : ploc) : N :=
  match l with LDeck => 0x1 | LHand => 0x2 | LGrave => 0x10 | LBan => 0x20 | LExtra => 0x40 end.
Definition pplace (r : pref) (i : nat) : place := mkPlace (con_of (fst r)) (loc_of (snd r)) (N.of_nat i) (-1).

Definition shown (f : frame card) (v : cont -> list cid) : Prop :=
  forall k, contents k (f_lay f) = map Some (v k).
Definition informed (K : cards) (f : frame card) : Prop :=
  forall x v, card_of f x = Some v -> forall fl, card_field fl v = k_field K x fl.

Record quiet (K : cards) (owed : debts) (f : frame card) (left : list (place * place)) : Prop := {
  q_inv : inv card f;
  q_next : f_next f = k_next K;
  q_view : shown f (seen K owed);
  q_info : informed K f;
  q_under : forall x, k_under K x <> [] -> located K x;
  q_owed : forall z h, owed z = Some h -> k_zone K z = None /\ forall y, k_zone K y <> Some h;
  q_left : forall r i h, nth_error (k_pile K r) i = Some h -> k_under K h <> [] ->
    exists z pz, owed z = Some h /\ find_left (pplace r i) left = Some pz /\ zone_named pz = Some z
}.

(** ** Sequences *)
Definition vins (k : cont) (i : nat) (x : cid) (v : cont -> list cid) : cont -> list cid :=
  fun y => if cont_eq_dec y k then insert_nth i x (v k) else v y.
Definition vrem (k : cont) (i : nat) (v : cont -> list cid) : cont -> list cid :=
  fun y => if cont_eq_dec y k then remove_nth i (v k) else v y.

Lemma map_insert : forall A B (g : A -> B) i x l, map g (insert_nth i x l) = insert_nth i (g x) (map g l).
Proof. intros. unfold insert_nth. now rewrite map_app, map_cons, firstn_map, skipn_map. Qed.
Lemma map_remove : forall A B (g : A -> B) i l, map g (remove_nth i l) = remove_nth i (map g l).
Proof. intros. unfold remove_nth. now rewrite map_app, firstn_map, skipn_map. Qed.
Lemma nth_map_some : forall A (l : list A) i x, nth_error (map Some l) i = Some (Some x) <-> nth_error l i = Some x.
Proof.
  intros A l i x. rewrite nth_error_map. destruct (nth_error l i); cbn; split; congruence.
Qed.
Lemma In_remove_other : forall A (l : list A) i x y, nth_error l i = Some x -> In y l -> y <> x ->
  In y (remove_nth i l).
Proof.
  intros A l i x y N I Ne. unfold remove_nth.
  rewrite <- (firstn_skipn i l) in I. apply in_app_or in I. apply in_or_app. destruct I as [I|I]; [now left|].
  right. assert (E : skipn i l = x :: skipn (S i) l).
  { clear - N. revert l N. induction i as [|i IH]; intros [|z l] N; try discriminate.
    - inversion N. reflexivity.
    - cbn [skipn]. now apply IH. }
  rewrite E in I. destruct I as [I|I]; [congruence|exact I].
Qed.
Lemma In_remove_In : forall A (l : list A) i y, In y (remove_nth i l) -> In y l.
Proof.
  intros A l i y I. unfold remove_nth in I. apply in_app_or in I.
  rewrite <- (firstn_skipn i l). apply in_or_app. destruct I as [I|I]; [now left|]. right.
  clear - I. revert l I. induction i as [|i IH]; intros [|z l] I; try contradiction; [now right|].
  cbn [skipn]. apply IH. exact I.
Qed.
Lemma In_insert : forall A (l : list A) i x y, In y (insert_nth i x l) <-> y = x \/ In y l.
Proof.
  intros A l i x y. unfold insert_nth. rewrite in_app_iff. cbn [In].
  rewrite <- (firstn_skipn i l) at 3. rewrite in_app_iff. intuition.
Qed.

(** ** What the board knows *)
Section Facts.
Variables (f : frame card) (v : cont -> list cid).
Hypothesis I : inv card f.
Hypothesis V : shown f v.

Lemma shown_uniq : forall k1 i1 k2 i2 x, nth_error (v k1) i1 = Some x -> nth_error (v k2) i2 = Some x ->
  k1 = k2 /\ i1 = i2.
Proof.
  intros k1 i1 k2 i2 x H1 H2.
  assert (C := inv_conserved _ _ I).
  assert (O1 : occupant (f_lay f) (k1, i1) = Some (Some x)).
  { unfold occupant. cbn [fst snd]. rewrite V. now apply nth_map_some. }
  assert (O2 : occupant (f_lay f) (k2, i2) = Some (Some x)).
  { unfold occupant. cbn [fst snd]. rewrite V. now apply nth_map_some. }
  destruct (cons_unique C x (cons_live C _ O1)) as [p [_ U]].
  assert (E1 := U _ O1). assert (E2 := U _ O2). split; congruence.
Qed.
Lemma shown_uniq_in : forall k1 k2 x, In x (v k1) -> In x (v k2) -> k1 = k2.
Proof.
  intros k1 k2 x H1 H2. apply In_nth_error in H1, H2. destruct H1 as [i H1], H2 as [j H2].
  now destruct (shown_uniq _ _ _ _ _ H1 H2).
Qed.
Lemma shown_lt : forall k x, In x (v k) -> x < f_next f.
Proof.
  intros k x H. apply In_nth_error in H. destruct H as [i H].
  apply (inv_lt _ _ I). apply (heap_live _ _ k i x I). rewrite V. now apply nth_map_some.
Qed.
Lemma shown_card : forall k x, In x (v k) -> exists c, card_of f x = Some c.
Proof.
  intros k x H. apply In_nth_error in H. destruct H as [i H].
  assert (L : live f x) by (apply (heap_live _ _ k i x I); rewrite V; now apply nth_map_some).
  unfold card_of. destruct (heap_get x (f_heap f)) eqn:E; [eauto|].
  exfalso. apply (proj2 (heap_get_In _ _ _) L). exact E.
Qed.
End Facts.

Section Quiet.
Variables (K : cards) (owed : debts) (f : frame card) (left : list (place * place)).
Hypothesis Q : quiet K owed f left.

Lemma quiet_uniq : forall k1 i1 k2 i2 x, nth_error (seen K owed k1) i1 = Some x ->
  nth_error (seen K owed k2) i2 = Some x -> k1 = k2 /\ i1 = i2.
Proof. apply (shown_uniq f). - apply Q. - apply Q. Qed.
Lemma quiet_uniq_in : forall k1 k2 x, In x (seen K owed k1) -> In x (seen K owed k2) -> k1 = k2.
Proof. apply (shown_uniq_in f). - apply Q. - apply Q. Qed.
Lemma quiet_lt : forall k x, In x (seen K owed k) -> x < k_next K.
Proof. intros k x H. rewrite <- (q_next _ _ _ _ Q). eapply shown_lt; try apply Q. exact H. Qed.

Lemma located_seen : forall x, located K x <->
  exists k, In x (seen K owed k) /\ match k with CMats _ => False | _ => True end.
Proof.
  intros x. split.
  - intros [[r H]|[z H]]; [exists (CPile r)|exists (CCard z)]; split; auto. cbn [seen]. rewrite H. now left.
  - intros [[r|z|z] [H H']]; [left; eauto| |contradiction]. right. exists z. cbn [seen] in H.
    destruct (k_zone K z); [destruct H as [->|[]]; reflexivity|contradiction].
Qed.
Lemma fresh_under : forall x, k_next K <= x -> k_under K x = [].
Proof.
  intros x H. destruct (k_under K x) as [|y l] eqn:E; [reflexivity|]. exfalso.
  assert (L : located K x) by (apply (q_under _ _ _ _ Q); congruence).
  apply located_seen in L. destruct L as [k [L _]]. apply quiet_lt in L. lia.
Qed.
Lemma zone_inj : forall z y x, k_zone K z = Some x -> k_zone K y = Some x -> z = y.
Proof.
  intros z y x H1 H2. assert (E : CCard z = CCard y).
  { apply (quiet_uniq_in _ _ x); cbn [seen]; [rewrite H1|rewrite H2]; now left. }
  congruence.
Qed.
(** Materials are somewhere on the board. *)
Lemma under_seen : forall h, k_under K h <> [] -> exists z, seen K owed (CMats z) = k_under K h /\
  (k_zone K z = Some h \/ k_zone K z = None /\ owed z = Some h).
Proof.
  intros h H. destruct (q_under _ _ _ _ Q h H) as [[r L]|[z L]].
  - apply In_nth_error in L. destruct L as [i L].
    destruct (q_left _ _ _ _ Q r i h L H) as (z & pz & O & _ & _). exists z. cbn [seen].
    destruct (q_owed _ _ _ _ Q _ _ O) as [-> _]. rewrite O. auto.
  - exists z. cbn [seen]. rewrite L. auto.
Qed.
Lemma mats_not_located : forall x z, In x (seen K owed (CMats z)) -> ~ located K x.
Proof.
  intros x z H L. apply located_seen in L. destruct L as [k [L E]].
  pose proof (quiet_uniq_in _ _ _ H L) as X. subst k. exact E.
Qed.
Lemma mats_bare : forall x z, In x (seen K owed (CMats z)) -> k_under K x = [].
Proof.
  intros x z H. destruct (k_under K x) eqn:E; [reflexivity|]. exfalso.
  apply (mats_not_located _ _ H). apply (q_under _ _ _ _ Q). congruence.
Qed.
Lemma pile_card_disj : forall r z x, In x (k_pile K r) -> k_zone K z = Some x -> False.
Proof.
  intros r z x H1 H2. assert (E : CPile r = CCard z); [|discriminate].
  apply (quiet_uniq_in _ _ x); cbn [seen]; [exact H1|rewrite H2; now left].
Qed.
End Quiet.

(** ** Nobody holds materials in a pile *)
Lemma loaded_In : forall K r i h, In (r, i, h) (loaded K) <->
  nth_error (k_pile K r) i = Some h /\ k_under K h <> [].
Proof.
  intros K r i h. unfold loaded. rewrite in_flat_map. split.
  - intros [r' [_ H]]. apply in_map_iff in H. destruct H as [[i' h'] [E H]]. inversion E; subst.
    cbn [fst snd] in *. apply filter_In in H. cbn [snd] in H. destruct H as [H B]. split.
    + clear - H. revert H. generalize (k_pile K r). intros l H.
      assert (G : forall n, In (i, h) (combine (seq n (length l)) l) -> nth_error l (i - n) = Some h /\ (n <= i)%nat).
      { clear H. induction l as [|y l IH]; intros n G; [contradiction|]. cbn [length seq combine In] in G.
        destruct G as [G|G].
        - inversion G; subst. rewrite Nat.sub_diag. split; [reflexivity|lia].
        - specialize (IH (S n) G); destruct IH as [IH1 IH2]; replace (i - n)%nat with (S (i - S n)) by lia; split; [exact IH1|lia]. }
      specialize (G 0%nat H). rewrite Nat.sub_0_r in G. apply G.
    + unfold no_mats in B. destruct (k_under K h); [discriminate|discriminate].
  - intros [H U]. exists r. split.
    { unfold all_piles. destruct r as [[] []]; cbn; tauto. }
    apply in_map_iff. exists (i, h). split; [reflexivity|]. apply filter_In. cbn [snd]. split.
    + clear - H. revert H. generalize (k_pile K r). intros l. 
      assert (G : forall n i, nth_error l i = Some h -> In ((n + i)%nat, h) (combine (seq n (length l)) l)).
      { induction l as [|y l IH]; intros n j G; [destruct j; discriminate|]. cbn [length seq combine In].
        destruct j as [|j]; [left; inversion G; subst; f_equal; lia|]. right.
        replace (n + S j)%nat with (S n + j)%nat by lia. apply IH, G. }
      apply (G 0%nat).
    + unfold no_mats. destruct (k_under K h); [congruence|reflexivity].
Qed.
