(** What the assertions of the frame ask for. *)
From Verif Require Import Base BaseProofs Place Frame FrameSpec FrameLens FrameProofs FrameMove FrameOps FramePiles FrameInv
  FrameShuffle FrameFacts HazardSpec HazardProofs Release ReleaseSpec ReleaseProofs ReleaseFrameSpec ReleaseFrameProofs AssertSpec.

From Verif Require EventProofs.

Set Implicit Arguments.
Local Open Scope N_scope.

Local Tactic Notation "bind" hyp(H) "as" simple_intropattern(x) ident(E) := apply obind_Ok in H; destruct H as (x & E & H).

(** Going through without assertions, something is done or stopped with them. *)
Definition tame {A} (m m' : outcome A) : Prop := forall a, m' = Ok a -> orderly m.

Lemma tame_bind : forall A B (m m' : outcome A) (k k' : A -> outcome B),
  keeps m m' -> tame m m' -> (forall a, tame (k a) (k' a)) -> tame (obind m k) (obind m' k').
Proof.
  intros A B m m' k k' K T H b E. bind E as a Ea. destruct (T _ Ea) as [[x X]| ->]; [|right; reflexivity].
  rewrite X. cbn [obind]. pose proof (K _ X) as Y. assert (x = a) by congruence. subst x. eapply H; eauto.
Qed.
Lemma tame_refl : forall A (m : outcome A), tame m m.
Proof. intros A m a E. left. eauto. Qed.
Lemma tame_assert : forall A b (k m' : outcome A), tame k m' -> tame (assert_ b ;;! k) m'.
Proof. intros A [] k m' H; [exact H|]. intros a E. right. reflexivity. Qed.
Lemma tame_ok : forall A (m m' : outcome A), (forall a, m' = Ok a -> m = Ok a) -> tame m m'.
Proof. intros A m m' H a E. left. eauto. Qed.

(** ** Places *)
Lemma pile_back : forall p r, rel_pile_of p = Ok r -> pile_of p = Ok r.
Proof. intros p r H. apply pile_of_slot. apply rel_pile_slot. exact H. Qed.
Lemma zone_back : forall p r L z, shape L -> rel_zone_of p = Ok r -> read_zone r L = Ok z -> zone_of p = Ok r.
Proof. intros p r L z S H G. apply zone_of_slot. eapply rel_zone_slot; eauto. apply read_zone_Ok. exact G. Qed.
Lemma tame_zone_ref : forall con loc seq, tame (zone_ref con loc seq) (rel_zone_ref con loc seq).
Proof.
  intros con loc seq r H. unfold rel_zone_ref in H. bind H as c Ec. bind H as zl Ez. unfold zone_ref.
  destruct (con <=? 1)%Z; [|right; reflexivity]. cbn [assert_ obind].
  assert (B : exists lim, zone_seq_lim loc = Ok lim /\ side_at loc = Ok zl).
  { unfold rel_side_at in Ez. repeat match type of Ez with (if loc =? ?k then _ else _) = _ =>
      destruct (N.eqb_spec loc k); [subst loc; injection Ez as <-; eexists; split; reflexivity|] end. discriminate Ez. }
  destruct B as (lim & -> & Sd). cbn [obind]. destruct (seq <? lim); [|right; reflexivity]. cbn [assert_ obind].
  rewrite Ec. cbn [obind]. rewrite Sd. left. eexists. reflexivity.
Qed.
Lemma tame_pile_of : forall p, tame (pile_of p) (rel_pile_of p).
Proof. intros p. apply tame_ok. intros r. apply pile_back. Qed.
Lemma tame_zone_of : forall p, tame (zone_of p) (rel_zone_of p).
Proof. intros p. apply tame_zone_ref. Qed.
Lemma tame_take : forall l i, tame (take_at l i) (rel_take_at l i).
Proof.
  intros l i a H. unfold rel_take_at in H. bind H as c E. unfold take_at. destruct (i <? lenN l); [|right; reflexivity].
  cbn [assert_ obind]. rewrite E. cbn [obind]. destruct (is_null c); [right; reflexivity|]. left. eexists. reflexivity.
Qed.
Lemma tame_insert : forall l i c, tame (insert_at l i c) (rel_insert_at l i c).
Proof.
  intros l i c a H. unfold rel_insert_at in H. unfold insert_at. destruct (i <=? lenN l); [|discriminate H]. cbn [assert_ obind].
  destruct (is_null c); [right; reflexivity|]. left. eexists. reflexivity.
Qed.

Lemma pile_ok_iff : forall p, is_pile p = true -> slot p <> None -> (pile_place_ok p <-> not_mat p = true).
Proof.
  intros p P N. destruct (slot p) as [[k i]|] eqn:S; [|congruence]. unfold pile_place_ok, not_mat. rewrite Z.ltb_lt.
  assert (A : assocN (p_loc p) pile_table <> None).
  { destruct (slot_inv _ _ _ S) as [(r & _ & _ & -> & _)|(r & Q & _)]; [|congruence]. unfold slot in S.
    destruct (side_of_con (p_con p)); [|discriminate]. destruct (assocN (p_loc p) pile_table); [discriminate|].
    destruct (assocN (p_loc p) zone_table) as [[z lim]|]; [|discriminate]. destruct (p_seq p <? lim); [|discriminate]. destruct (p_oseq p <? 0)%Z; discriminate. }
  tauto.
Qed.
Lemma in_pile_iff : forall p, slot p <> None -> (in_pile p <-> is_pile p = true).
Proof.
  intros p N. destruct (slot p) as [[k i]|] eqn:S; [|congruence]. unfold in_pile. split.
  - intros A. unfold slot in S. destruct (side_of_con (p_con p)) as [c|] eqn:Sd; [|discriminate].
    destruct (assocN (p_loc p) pile_table) as [l|] eqn:E; [|congruence].
    assert (X : slot p = Some (CPile (c, l), N.to_nat (p_seq p))) by (unfold slot; rewrite Sd, E; reflexivity).
    apply slot_pile_is_pile in X. tauto.
  - intros P. destruct (slot_inv _ _ _ S) as [(r & _ & _ & -> & _)|(r & Q & _)]; [|congruence]. unfold slot in S.
    destruct (side_of_con (p_con p)); [|discriminate]. destruct (assocN (p_loc p) pile_table); [discriminate|].
    destruct (assocN (p_loc p) zone_table) as [[z lim]|]; [|discriminate]. destruct (p_seq p <? lim); [|discriminate]. destruct (p_oseq p <? 0)%Z; discriminate.
Qed.
Lemma zone_pile_ok : forall p r, zone_of p = Ok r -> pile_place_ok p.
Proof.
  intros p r Z A. exfalso. pose proof (zone_of_inv _ _ Z) as [Q _]. apply zone_of_slot in Z.
  assert (N : slot p <> None) by (rewrite Z; discriminate). pose proof (proj1 (in_pile_iff p N) A). congruence.
Qed.
Lemma zone_named_of : forall p r, zone_of p = Ok r -> zone_named p = Some r.
Proof.
  intros p r Z. pose proof (@zone_of_inv p r Z) as (P & _). apply zone_of_slot in Z. unfold slot in Z. unfold zone_named.
  destruct (side_of_con (p_con p)); [|discriminate]. destruct (assocN (p_loc p) pile_table); [unfold zslot in Z; destruct (not_mat p); discriminate|].
  destruct (assocN (p_loc p) zone_table) as [[z lim]|]; [|discriminate]. destruct (p_seq p <? lim); [|discriminate].
  unfold zslot, not_mat in Z. cbv zeta in Z. destruct (p_oseq p <? 0)%Z; injection Z as Z; rewrite Z; reflexivity.
Qed.
Lemma occupied_has : forall p L, shape L -> (occupied p L <-> has_card p L = Ok true).
Proof.
  intros p L S. unfold occupied. split.
  - intros ([k i] & E & O). rewrite (has_card_slot _ _ _ _ S E). f_equal. apply Nat.ltb_lt. apply nth_error_Some. exact O.
  - intros H. destruct (has_card_true _ _ S H) as (k & i & E & Lt). exists (k, i). split; [exact E|]. apply nth_error_Some. exact Lt.
Qed.
Lemma for_card_iff : forall p r, zone_of p = Ok r -> (for_card p <-> not_mat p = true).
Proof.
  intros p r Z. apply zone_of_slot in Z. unfold for_card. rewrite Z. unfold zslot. destruct (not_mat p).
  - split; [reflexivity|eauto].
  - split; [intros (x & i & E); discriminate E|discriminate].
Qed.
Lemma pile_not_card : forall p r, pile_of p = Ok r -> ~ for_card p.
Proof. intros p r P (x & i & E). apply pile_of_slot in P. congruence. Qed.

(** ** Inserting, erasing and moving *)
Lemma insert_back : forall p c L L', shape L -> rel_card_insert p c L = Ok L' ->
  (card_insert p c L = Ok L' <-> under p L = []) /\ orderly (card_insert p c L).
Proof.
  intros p c L L' S H. unfold rel_card_insert in H. unfold card_insert, under. destruct (is_pile p) eqn:P.
  - bind H as r R. bind H as l I. pose proof (rel_pile_slot _ R) as Sl. rewrite (pile_back _ R), Sl. cbn [obind].
    assert (E : insert_at (get_pile r L) (p_seq p) (Some c) = Ok l).
    { unfold rel_insert_at in I. unfold insert_at. destruct (_ <=? _); [exact I|discriminate I]. }
    rewrite E. cbn [obind]. split; [split; congruence|left; eauto].
  - bind H as r R. bind H as z Z. pose proof (zone_back _ S R Z) as Zb. pose proof (proj1 (zone_of_slot _ _) Zb) as Sl.
    rewrite Zb, Sl. cbn [obind]. rewrite Z. cbn [obind]. unfold zslot. destruct (not_mat p).
    + apply read_zone_Ok in Z. cbn [contents]. rewrite Z. destruct (z_card z); cbn [is_null assert_ obind card_list].
      * split; [split; discriminate|right; reflexivity].
      * split; [split; congruence|left; eauto].
    + bind H as m M. assert (E : insert_at (z_mats z) (oseqN p) (Some c) = Ok m).
      { unfold rel_insert_at in M. unfold insert_at. destruct (_ <=? _); [exact M|discriminate M]. }
      rewrite E. cbn [obind]. split; [split; congruence|left; eauto].
Qed.
Lemma erase_back : forall p c L L', shape L -> rel_card_erase p L = Ok (c, L') -> card_erase p L = Ok (c, L').
Proof.
  intros p c L L' S H. unfold rel_card_erase in H. unfold card_erase. destruct (is_pile p) eqn:P.
  - bind H as r R. rewrite (pile_back _ R). exact H.
  - bind H as r R. bind H as z Z. rewrite (zone_back _ S R Z). cbn [obind]. rewrite Z. cbn [obind]. destruct (not_mat p); [exact H|].
    bind H as [q m] T. unfold rel_take_at in T. bind T as x X. apply or_ub_Ok in X. bind H as id I. unfold deref in I. apply or_ub_Ok in I.
    assert (x = q) by congruence. subst x q. unfold take_at.
    assert (Lt : (oseqN p <? lenN (z_mats z)) = true).
    { apply N.ltb_lt. unfold lenN. assert (nth_error (z_mats z) (N.to_nat (oseqN p)) <> None) by congruence. apply nth_error_Some in H0. lia. }
    rewrite Lt, X. cbn [assert_ obind or_ub is_null negb]. unfold deref. cbn [or_ub obind]. congruence.
Qed.

Lemma slot_from_erase : forall p c L L', shape L -> rel_card_erase p L = Ok (c, L') ->
  exists pos, slot p = Some pos /\ occupant L pos = Some (Some c).
Proof.
  intros p c L L' S H. apply erase_back in H; [|exact S]. apply card_erase_slot in H; [|exact S].
  destruct H as (k & i & E & O & _). exists (k, i). split; assumption.
Qed.
Lemma slot_from_insert : forall p c L L', shape L -> rel_card_insert p c L = Ok L' -> exists pos, slot p = Some pos.
Proof.
  intros p c L L' S H. unfold rel_card_insert in H. destruct (is_pile p).
  - bind H as r R. eexists. apply rel_pile_slot. exact R.
  - bind H as r R. bind H as z Z. eexists. eapply rel_zone_slot; eauto. apply read_zone_Ok. exact Z.
Qed.
Lemma pile_ok_not_mat : forall p pos, slot p = Some pos -> (pile_place_ok p <-> (is_pile p = true -> not_mat p = true)).
Proof.
  intros p [k i] S. destruct (is_pile p) eqn:P.
  - rewrite pile_ok_iff by (congruence || exact P). tauto.
  - split; [discriminate|]. intros _. destruct (slot_inv _ _ _ S) as [(r & Q & _)|(r & _ & Z & _)]; [congruence|].
    eapply zone_pile_ok; eauto.
Qed.

(** A card put somewhere is under the same card as before, if it was no zone's
    card that was taken away. *)
Lemma under_erase : forall a b c L L1, shape L -> is_pile a || is_pile b || negb (not_mat a && not_mat b) = true ->
  rel_card_erase a L = Ok (c, L1) -> slot b <> None -> under b L1 = under b L.
Proof.
  intros a b c L L1 S B E N. unfold under. destruct (slot b) as [[[r|r|r] i]|] eqn:Sb; try reflexivity.
  destruct (slot_inv _ _ _ Sb) as [(r' & _ & _ & X & _)|(r' & Pb & Zb & X)]; [discriminate X|].
  unfold zslot in X. destruct (not_mat b) eqn:Nb; [|discriminate X].
  eapply rel_erase_cards; eauto. rewrite Pb in B. destruct (is_pile a), (not_mat a); cbn [andb orb negb] in *; congruence.
Qed.

Lemma move_back : forall a b c L L', lay_ok L -> rel_card_move a b L = Ok (c, L') ->
  (card_move a b L = Ok (c, L') <-> asked (OpMove a b) L).
Proof.
  intros a b c L L' [S NN] H. cbn [asked]. destruct (is_pile a || is_pile b || negb (not_mat a && not_mat b)) eqn:B.
  - assert (Bc : both_cards a b = false) by (unfold both_cards; destruct (is_pile a), (is_pile b), (not_mat a), (not_mat b); cbn in *; congruence).
    destruct (rel_move_simple _ _ _ B H) as (L1 & E & I).
    destruct (slot_from_erase _ S E) as (pa & Sa & Oa).
    assert (S1 : shape L1). { destruct (rel_erase_moved _ S E) as [[X _] _]. exact X. }
    destruct (slot_from_insert _ _ S1 I) as (pb & Sb).
    assert (U : under b L1 = under b L) by (eapply under_erase; eauto; congruence).
    rewrite (pile_ok_not_mat _ Sa), (pile_ok_not_mat _ Sb). rewrite card_move_simple by assumption.
    destruct (insert_back _ _ S1 I) as [J _]. rewrite U in J.
    assert (F : for_card a -> for_card b -> mats_at b L = []).
    { intros (ra & ia & Ea) (rb & ib & Eb).
      destruct (slot_inv _ _ _ Ea) as [(r & _ & _ & X & _)|(r & Pa & Za & Xa)]; [discriminate X|].
      destruct (slot_inv _ _ _ Eb) as [(r' & _ & _ & X & _)|(r' & Pb & Zb & Xb)]; [discriminate X|].
      unfold zslot in Xa, Xb. rewrite Pa, Pb in B. destruct (not_mat a), (not_mat b); discriminate. }
    split.
    + intros (X1 & X2 & L2 & E2 & I2). rewrite (erase_back _ S E) in E2. assert (L2 = L1) by congruence. subst L2. tauto.
    + intros (X1 & X2 & X3 & _). split; [exact X1|]. split; [exact X2|]. exists L1. split; [apply erase_back; assumption|tauto].
  - destruct (rel_move_cards _ _ S B H) as (r1 & r2 & z1 & z2 & Sa & Sb & G1 & G2 & Zc & R).
    assert (Bc : both_cards a b = true) by (unfold both_cards; destruct (is_pile a), (is_pile b), (not_mat a), (not_mat b); cbn in *; congruence).
    destruct (slot_inv _ _ _ Sa) as [(r & _ & _ & X & _)|(r & Pa & Za & Xa)]; [discriminate X|].
    destruct (slot_inv _ _ _ Sb) as [(r' & _ & _ & X & _)|(r' & Pb & Zb & Xb)]; [discriminate X|].
    assert (r = r1 /\ r' = r2) as [-> ->] by (unfold zslot in Xa, Xb; destruct (not_mat a), (not_mat b); try discriminate; split; congruence).
    assert (Ub : under b L = card_list (z_card z2)) by (unfold under; rewrite Sb; cbn [contents]; rewrite G2; destruct (z_card z2); reflexivity).
    assert (Mb : mats_at b L = z_mats z2) by (unfold mats_at; rewrite (zone_named_of _ Zb); cbn [contents]; rewrite G2; reflexivity).
    rewrite Ub, Mb. split.
    + intros M. apply card_move_cards in M; [|assumption|assumption]. destruct M as (s1 & s2 & y & A1 & A2 & A3 & A4 & A5 & A6).
      assert (s2 = r2) by congruence. subst s2. assert (z2 = zone0) by congruence. subst z2.
      split; [eapply zone_pile_ok; eauto|]. split; [eapply zone_pile_ok; eauto|]. split; reflexivity.
    + intros (_ & _ & Hc & Hm). apply card_move_cards; [assumption|assumption|]. exists r1, r2, z1.
      split; [exact Za|]. split; [exact Zb|]. split; [exact G1|]. split; [exact Zc|].
      assert (z2 = zone0) as ->.
      { destruct z2 as [[x|] m]; [discriminate Hc|]. cbn [z_mats] in Hm. rewrite Hm; [reflexivity|red; eauto|red; eauto]. }
      split; [exact G2|]. destruct R as [[-> _]|[_ R]]; [exfalso; assert (z1 = zone0) by congruence; subst z1; discriminate Zc|exact R].
Qed.

Lemma has_orderly : forall p pos L, shape L -> slot p = Some pos -> exists b, has_card p L = Ok b.
Proof. intros p [k i] L S E. eexists. apply has_card_slot; eassumption. Qed.

Lemma slot_rel : forall p pos, slot p = Some pos ->
  (exists r, is_pile p = true /\ rel_pile_of p = Ok r /\ pile_of p = Ok r) \/
  (exists r, is_pile p = false /\ rel_zone_of p = Ok r /\ zone_of p = Ok r).
Proof.
  intros p [k i] E. destruct (slot_inv _ _ _ E) as [(r & P & R & _)|(r & P & Z & _)]; [left|right]; exists r.
  - split; [exact P|]. split; [apply keeps_pile_of; exact R|exact R].
  - split; [exact P|]. split; [apply keeps_zone_of; exact Z|exact Z].
Qed.

(** Where the places of a swap are. *)
Lemma swap_slots : forall a b L L', shape L -> rel_card_swap a b L = Ok L' -> (exists pa, slot a = Some pa) /\ (exists pb, slot b = Some pb).
Proof.
  intros a b L L' S H. unfold rel_card_swap in H. cbv zeta in H.
  assert (P : forall p r, rel_pile_of p = Ok r -> exists pos, slot p = Some pos) by (intros; eexists; eapply rel_pile_slot; eauto).
  assert (Z : forall p r z, rel_zone_of p = Ok r -> get_zone r L = Some z -> exists pos, slot p = Some pos) by (intros; eexists; eapply rel_zone_slot; eauto).
  assert (V : forall v r x, (v = LvCard r \/ exists i, v = LvMat r i) -> read_lval v L = Ok x -> exists z, get_zone r L = Some z).
  { intros v r x [->|[i ->]] E; cbn [read_lval] in E; bind E as z Y; apply read_zone_Ok in Y; eauto. }
  assert (W : forall v w L1, swap_lval v w L = Ok L1 -> (exists x, read_lval v L = Ok x) /\ (exists y, read_lval w L = Ok y)).
  { intros v w L1 E. apply swap_lval_read in E. exact E. }
  destruct (is_pile a), (is_pile b); cbn [andb negb] in H.
  - bind H as ra Ra. bind H as rb Rb. eauto.
  - bind H as ra Ra. bind H as rb Rb. split; [eauto|]. destruct (W _ _ _ H) as [_ [y Y]].
    assert (X : exists z, get_zone rb L = Some z) by (eapply V; [|exact Y]; destruct (not_mat b); eauto). destruct X as [z G]. eauto.
  - bind H as ra Ra. bind H as rb Rb. split; [|eauto]. destruct (W _ _ _ H) as [[y Y] _].
    assert (X : exists z, get_zone ra L = Some z) by (eapply V; [|exact Y]; destruct (not_mat a); eauto). destruct X as [z G]. eauto.
  - bind H as ra Ra. bind H as rb Rb.
    assert (X : (exists z, get_zone ra L = Some z) /\ (exists z, get_zone rb L = Some z)).
    { destruct (not_mat a), (not_mat b); cbn [andb negb] in H; [bind H as L1 X| | |]; match goal with X : swap_lval _ _ L = Ok _ |- _ => destruct (W _ _ _ X) as [[x X1] [y Y1]] end;
        (split; [eapply V; [|exact X1]; eauto|eapply V; [|exact Y1]; eauto]). }
    destruct X as [[z1 G1] [z2 G2]]. eauto.
Qed.

Lemma mats_at_zone : forall p r L, zone_of p = Ok r -> mats_at p L = contents (CMats r) L.
Proof. intros p r L Z. unfold mats_at. rewrite (zone_named_of _ Z). reflexivity. Qed.

Lemma nil_iff : forall A (l : list A), is_nil l = true <-> l = [].
Proof. intros A []; split; intros; try discriminate; reflexivity. Qed.

(** One of the two conditions on materials. *)
Lemma left_run : forall a b pa pb L, shape L -> slot a = Some pa -> slot b = Some pb ->
  exists e, (if is_pile a || negb (not_mat a) then Ok true else let! e := mats_empty a L in Ok (e || negb (is_pile b))) = Ok e /\
    (e = true <-> (for_card a -> in_pile b -> mats_at a L = [])).
Proof.
  intros a b pa pb L S Sa Sb. assert (N : slot b <> None) by congruence. pose proof (in_pile_iff b N) as I.
  destruct (slot_rel _ Sa) as [(r & P & _ & R)|(r & P & _ & Z)]; rewrite P; cbn [orb].
  - exists true. split; [reflexivity|]. split; [|reflexivity]. intros _ F. destruct (@pile_not_card a r R F).
  - pose proof (for_card_iff _ Z) as F. destruct (not_mat a); cbn [negb].
    + rewrite (mats_empty_run _ _ _ S Z), (mats_at_zone _ _ Z). cbn [obind]. eexists. split; [reflexivity|].
      rewrite orb_true_iff, nil_iff, negb_true_iff. destruct (is_pile b); split; intuition congruence.
    + exists true. split; [reflexivity|]. split; [|reflexivity]. intros _ X. apply F in X. discriminate X.
Qed.

Lemma swap_back : forall a b L L', lay_ok L -> rel_card_swap a b L = Ok L' ->
  (card_swap a b L = Ok L' <-> asked (OpSwap a b) L) /\ orderly (card_swap a b L).
Proof.
  intros a b L L' [S NN] H. destruct (swap_slots _ _ S H) as [[pa Sa] [pb Sb]]. cbn [asked].
  rewrite !occupied_has by exact S. rewrite (pile_ok_not_mat _ Sa), (pile_ok_not_mat _ Sb).
  destruct (left_run _ _ S Sa Sb) as (e1 & E1 & I1). destruct (left_run _ _ S Sb Sa) as (e2 & E2 & I2). rewrite <- I1, <- I2.
  destruct (has_orderly _ S Sa) as [ha Ha]. destruct (has_orderly _ S Sb) as [hb Hb]. rewrite Ha, Hb.
  unfold card_swap. cbv zeta. rewrite Ha. cbn [obind]. rewrite Hb. rewrite E1, E2. cbn [obind]. clear E1 E2 I1 I2.
  assert (Body : (if is_pile a && is_pile b then let! ra := pile_of a in let! rb := pile_of b in swap_lval (LvPile ra (p_seq a)) (LvPile rb (p_seq b)) L
    else if is_pile a && negb (is_pile b) then let! ra := pile_of a in let! rb := zone_of b in
      swap_lval (LvPile ra (p_seq a)) (if not_mat b then LvCard rb else LvMat rb (oseqN b)) L
    else if negb (is_pile a) && is_pile b then let! ra := zone_of a in let! rb := pile_of b in
      swap_lval (if not_mat a then LvCard ra else LvMat ra (oseqN a)) (LvPile rb (p_seq b)) L
    else let! ra := zone_of a in let! rb := zone_of b in
      if not_mat a && not_mat b then
        let! L1 := swap_lval (LvCard ra) (LvCard rb) L in let! za := read_zone ra L1 in let! zb := read_zone rb L1 in
        let L2 := set_zone ra (mkZone (z_card za) (z_mats zb)) L1 in let! zb' := read_zone rb L2 in
        Ok (set_zone rb (mkZone (z_card zb') (z_mats za)) L2)
      else if not_mat a && negb (not_mat b) then swap_lval (LvCard ra) (LvMat rb (oseqN b)) L
      else if negb (not_mat a) && not_mat b then swap_lval (LvMat ra (p_seq a)) (LvCard rb) L
      else swap_lval (LvMat ra (p_seq a)) (LvMat rb (oseqN b)) L) = Ok L').
  { rewrite <- H. unfold rel_card_swap. cbv zeta.
    destruct (slot_rel _ Sa) as [(ra & Pa & Ra & Ra')|(ra & Pa & Ra & Ra')], (slot_rel _ Sb) as [(rb & Pb & Rb & Rb')|(rb & Pb & Rb & Rb')];
      rewrite Pa, Pb; cbn [andb negb]; rewrite Ra, Ra', Rb, Rb'; reflexivity. }
  cbv zeta in Body. rewrite Body. clear Body.
  destruct ha, hb; cbn [assert_ obind]; try (split; [split; [discriminate|intros X; decompose [and] X; congruence]|right; reflexivity]).
  destruct (is_pile a), (not_mat a); cbn [negb orb assert_ obind]; destruct (is_pile b), (not_mat b); cbn [negb orb assert_ obind];
    destruct e1, e2; cbn [assert_ obind]; (split; [split; intros X; [try discriminate X; intuition congruence|try reflexivity; decompose [and] X; exfalso; intuition congruence]|first [left; eauto; fail|right; reflexivity]]).
Qed.

(** ** Moves *)
Lemma tame_let : forall A B C (m m' : outcome (A * B)) (k k' : A -> B -> outcome C),
  keeps m m' -> tame m m' -> (forall a b, tame (k a b) (k' a b)) ->
  tame (obind m (fun x => let '(a, b) := x in k a b)) (obind m' (fun x => let '(a, b) := x in k' a b)).
Proof. intros A B C m m' k k' K T H. apply tame_bind; [exact K|exact T|]. intros [a b]. apply H. Qed.

Ltac step :=
  first [ apply tame_refl | apply tame_assert
    | apply tame_bind; [apply keeps_pile_of|apply tame_pile_of|intros]
    | apply tame_bind; [apply keeps_zone_of|apply tame_zone_of|intros]
    | apply tame_bind; [apply keeps_refl|apply tame_refl|intros]
    | apply tame_bind; [apply keeps_insert_at|apply tame_insert|intros]
    | apply tame_let; [apply keeps_take_at|apply tame_take|intros] ].

Lemma move_orderly : forall a b L r, shape L -> rel_card_move a b L = Ok r -> orderly (card_move a b L).
Proof.
  intros a b L [c L'] S H.
  assert (Gz : forall r, zone_of b = Ok r -> exists z, read_zone r L = Ok z).
  { intros r Z. pose proof (@valid_zone_some b r L S Z) as X. destruct (get_zone r L) as [z|] eqn:G; [|congruence]. exists z. unfold read_zone. rewrite G. reflexivity. }
  assert (Sb : is_pile b = true \/ exists r, zone_of b = Ok r /\ exists z, read_zone r L = Ok z).
  { destruct (is_pile a || is_pile b || negb (not_mat a && not_mat b)) eqn:B.
    - destruct (rel_move_simple _ _ _ B H) as (L1 & E & I).
      assert (S1 : shape L1). { destruct (rel_erase_moved _ S E) as [[X _] _]. exact X. }
      destruct (slot_from_insert _ _ S1 I) as ([k i] & Sb).
      destruct (slot_inv _ _ _ Sb) as [(r & P & _)|(r & P & Z & _)]; [left; exact P|].
      right. exists r. eauto.
    - destruct (rel_move_cards _ _ S B H) as (r1 & r2 & z1 & z2 & Sa & Sb & G1 & G2 & _).
      destruct (slot_inv _ _ _ Sb) as [(r' & _ & _ & X & _)|(r' & Pb & Zb & Xb)]; [discriminate X|]. right. exists r'. eauto. }
  assert (Sa : exists pos, slot a = Some pos).
  { destruct (is_pile a || is_pile b || negb (not_mat a && not_mat b)) eqn:B.
    - destruct (rel_move_simple _ _ _ B H) as (L1 & E & _). destruct (slot_from_erase _ S E) as (pos & X & _). eauto.
    - destruct (rel_move_cards _ _ S B H) as (r1 & r2 & z1 & z2 & X & _). eauto. }
  destruct Sa as [pa Sa]. destruct (has_orderly _ S Sa) as [h Hh]. unfold card_move. rewrite Hh. cbn [obind]. cbv zeta.
  revert H. generalize (c, L'). apply tame_assert. apply tame_assert. apply tame_assert. unfold rel_card_move. cbv zeta.
  destruct Sb as [Pb|(rb & Zb & zb & Rb)].
  - rewrite Pb. destruct (is_pile a); cbn [andb negb].
    + repeat step.
    + do 2 step. destruct (not_mat a); [cbn [obind]; repeat step|].
      apply tame_let; [apply keeps_bind; [apply keeps_take_at|intros [? ?] _; apply keeps_refl]|step; step|intros; repeat step].
  - assert (Zb' : rel_zone_of b = Ok rb) by (apply keeps_zone_of; exact Zb). rewrite Zb, Zb'.
    destruct (is_pile b) eqn:Pb.
    { exfalso. destruct (zone_of_inv _ _ Zb) as [P _]. congruence. }
    destruct (is_pile a); cbn [andb negb obind].
    + do 2 step. step. destruct (not_mat b); repeat step.
    + step. rewrite Rb. destruct (not_mat a), (not_mat b); cbn [andb negb obind]; repeat step.
Qed.

(** ** Shuffles *)
Lemma zone_ref_back : forall con loc seq r L z, shape L -> rel_zone_ref con loc seq = Ok r -> get_zone r L = Some z ->
  zone_ref con loc seq = Ok r.
Proof.
  intros con loc seq r L z S H G. apply (@zone_back (mkPlace con loc seq 0) r L z S); [exact H|]. unfold read_zone. rewrite G. reflexivity.
Qed.
Lemma loop_back : forall todo i cur seqs L L', shape L ->
  rel_shuffle_loop todo i cur seqs L = Ok L' -> shuffle_loop todo i cur seqs L = Ok L'.
Proof.
  induction todo as [|todo IH]; intros i cur seqs L L' S H; [exact H|]. destruct cur as [|p cur]; [discriminate H|].
  cbn [rel_shuffle_loop] in H. cbn [shuffle_loop]. destruct (is_empty p); [apply IH; assumption|].
  bind H as si Es. bind H as a Ea. bind H as b Eb. bind H as L1 Ew. rewrite Es. cbn [obind].
  destruct (proj1 (swap_zones_Ok _ _ _ _) Ew) as (za & zb & Ga & Gb & _).
  rewrite (@zone_ref_back _ _ _ _ _ _ S Ea Ga). cbn [obind]. unfold zone_of. rewrite (@zone_ref_back _ _ _ _ _ _ S Eb Gb). cbn [obind].
  rewrite Ew. cbn [obind]. apply IH; [|exact H]. destruct (swap_zones_moved _ _ S Ew) as [[X _] _]. exact X.
Qed.
Lemma shuffle_back : forall prev cur L L', shape L -> rel_card_shuffle prev cur L = Ok L' ->
  (card_shuffle prev cur L = Ok L' <-> asked (OpShuffle prev cur) L).
Proof.
  intros prev cur L L' S H. rewrite card_shuffle_Ok. unfold rel_card_shuffle in H. destruct (N.leb_spec (lenN prev) 7); [|discriminate H].
  apply loop_back in H; [|exact S]. cbn [asked]. split.
  - intros (N1 & P & _ & F & _). split; [destruct prev as [|p rest]; [congruence|exists p, rest; split; [reflexivity|exact P]]|].
    eapply Forall_impl; [|exact F]. intros p X. apply occupied_has; assumption.
  - intros [(p & rest & -> & P) F]. split; [discriminate|]. split; [exact P|]. split; [assumption|]. split; [|exact H].
    eapply Forall_impl; [|exact F]. intros q X. apply occupied_has; assumption.
Qed.
Lemma seqs_orderly : forall prev L, shape L -> Forall regular prev -> orderly (shuffle_seqs prev L).
Proof.
  induction prev as [|p prev IH]; intros L S R; [left; eexists; reflexivity|]. inversion_clear R. cbn [shuffle_seqs].
  destruct (@ord_has p L S H) as [[[] ->]| ->]; [|right; reflexivity|right; reflexivity]. cbn [obind assert_].
  destruct (IH L S H0) as [[l ->]| ->]; [left; eexists; reflexivity|right; reflexivity].
Qed.
Lemma shuffle_orderly : forall prev cur L L', shape L -> prev <> [] -> Forall regular prev ->
  rel_card_shuffle prev cur L = Ok L' -> orderly (card_shuffle prev cur L).
Proof.
  intros prev cur L L' S N R H. unfold rel_card_shuffle in H. destruct prev as [|p rest]; [congruence|]. unfold card_shuffle.
  destruct (is_pile p); [right; reflexivity|]. cbn [negb assert_ obind]. destruct (lenN (p :: rest) <=? 7) eqn:E; [|discriminate H].
  cbn [assert_ obind]. destruct (@seqs_orderly (p :: rest) L S R) as [[l Hl]|X]; [|rewrite X; right; reflexivity].
  rewrite Hl. cbn [obind]. left. exists L'. apply loop_back; [exact S|].
  assert (l = map p_seq (p :: rest)) as -> by (eapply shuffle_seqs_map; eauto). exact H.
Qed.

(** ** Piles *)
Lemma splice_back : forall a n b r L L', nonull L -> rel_pile_splice a n b r L = Ok L' -> pile_splice a n b r L = Ok L'.
Proof.
  intros a n b r L L' NN H. assert (X : exists L'', pile_splice a n b r L = Ok L'').
  { unfold rel_pile_splice in H. bind H as r1 R1. cbv zeta in H.
    destruct (N.leb_spec (n + p_seq a) (lenN (get_pile r1 L))); cbn [negb] in H; [|discriminate H]. bind H as r2 R2.
    match type of H with (if ?c then _ else _) = _ => destruct c eqn:E; [|discriminate H] end. clear H. rename H0 into H.
    pose proof (rel_pile_slot _ R1) as S1. pose proof (rel_pile_slot _ R2) as S2. apply N.leb_le in E. unfold lenN in *.
    eapply pile_splice_succeeds; [exact NN|exact S1|exact S2|cbn [contents]; lia|]. cbn [contents].
    destruct (pref_eq_dec r1 r2) as [<-|Ne].
    - rewrite get_set_pile_same in E. rewrite app_length, firstn_length, skipn_length in E. lia.
    - rewrite get_set_pile_other in E by congruence. lia. }
  destruct X as [L2 X]. pose proof (@keeps_pile_splice _ _ _ _ _ _ X). congruence.
Qed.
Lemma pswap_back : forall a b L L', rel_pile_swap a b L = Ok L' -> pile_swap a b L = Ok L'.
Proof.
  intros a b L L' H. unfold rel_pile_swap in H. bind H as ra Ra. bind H as rb Rb. apply pile_swap_Ok. exists ra, rb.
  split; [apply pile_back; exact Ra|]. split; [apply pile_back; exact Rb|]. cbv zeta in H. congruence.
Qed.

(** ** Frames *)
Section Frames.
Variable C : Type.
Variable c0 : C.

Lemma keeps_fstep : forall o (f : frame C), keeps (fstep c0 o f) (rel_fstep c0 o f).
Proof.
  intros [p|p|a b|a b|prev cur|p n|a n b r|a b|] f; cbn [fstep rel_fstep].
  - apply keeps_bind; [apply keeps_card_add|intros [? ?] _; apply keeps_refl].
  - apply keeps_card_remove.
  - apply keeps_bind; [apply keeps_f_card_move|intros [? ?] _; apply keeps_refl].
  - apply keeps_lift. intros. apply keeps_card_swap.
  - apply keeps_lift. intros. apply keeps_card_shuffle.
  - apply keeps_pile_resize.
  - apply keeps_lift. intros. apply keeps_pile_splice.
  - apply keeps_lift. intros. apply keeps_pile_swap.
  - apply keeps_clear.
Qed.
Lemma same_step : forall o (f f' : frame C), rel_fstep c0 o f = Ok f' -> (exists f'', fstep c0 o f = Ok f'') -> fstep c0 o f = Ok f'.
Proof.
  intros o f f' H [f2 X]. pose proof (@keeps_fstep o f f2 X). congruence.
Qed.
Lemma lift_back : forall op op' (f f' : frame C), lift op' f = Ok f' ->
  exists L', op' (f_lay f) = Ok L' /\ (lift op f = Ok f' <-> op (f_lay f) = Ok L') /\ (orderly (op (f_lay f)) -> orderly (lift op f)).
Proof.
  intros op op' f f' H. unfold lift in *. bind H as L' E. exists L'. split; [exact E|]. split; [split|].
  - intros X. bind X as L2 X2. rewrite X2. f_equal. assert (with_lay f L2 = with_lay f L') by congruence.
    unfold with_lay in *. congruence.
  - intros ->. exact H.
  - intros [[x ->]| ->]; [left; eexists; reflexivity|right; reflexivity].
Qed.
Lemma add_parts : forall p (f f' : frame C), rel_fstep c0 (OpAdd p) f = Ok f' ->
  exists L', rel_card_insert p (f_next f) (f_lay f) = Ok L' /\
    (fstep c0 (OpAdd p) f = Ok f' <-> card_insert p (f_next f) (f_lay f) = Ok L') /\
    (orderly (card_insert p (f_next f) (f_lay f)) -> orderly (fstep c0 (OpAdd p) f)).
Proof.
  intros p f f' H. cbn [rel_fstep] in H. bind H as [c f1] E. unfold rel_card_add, construct_card in E. cbv zeta in E. cbn [f_lay] in E.
  bind E as L' E1. exists L'. split; [exact E1|]. cbn [fstep]. unfold card_add, construct_card. cbv zeta. cbn [f_lay]. split; [split|].
  - intros X. bind X as [c1 f2] X1. bind X1 as L2 X2. pose proof (@keeps_card_insert _ _ _ _ X2). rewrite X2. congruence.
  - intros ->. cbn [obind]. congruence.
  - intros [[x ->]| ->]; [left; eexists; reflexivity|right; reflexivity].
Qed.
Lemma move_parts : forall a b (f f' : frame C), rel_fstep c0 (OpMove a b) f = Ok f' ->
  exists c L', rel_card_move a b (f_lay f) = Ok (c, L') /\
    (fstep c0 (OpMove a b) f = Ok f' <-> card_move a b (f_lay f) = Ok (c, L')) /\
    (orderly (card_move a b (f_lay f)) -> orderly (fstep c0 (OpMove a b) f)).
Proof.
  intros a b f f' H. cbn [rel_fstep] in H. bind H as [c f1] E. unfold rel_f_card_move in E. bind E as [c1 L'] E1. bind E as x Ex.
  exists c1, L'. split; [exact E1|]. cbn [fstep]. unfold f_card_move. split; [split|].
  - intros X. bind X as [c2 f2] X1. bind X1 as [c3 L2] X2. pose proof (@keeps_card_move _ _ _ _ X2). rewrite X2. congruence.
  - intros ->. cbn [obind]. rewrite Ex. cbn [obind]. congruence.
  - intros [[y Y]| ->]; [|right; reflexivity]. rewrite Y. pose proof (@keeps_card_move _ _ _ _ Y). assert (y = (c1, L')) by congruence. subst y.
    cbn [obind]. rewrite Ex. left. eexists. reflexivity.
Qed.
Lemma remove_back : forall p (f f' : frame C), inv _ f -> rel_card_remove p f = Ok f' -> card_remove p f = Ok f'.
Proof.
  intros p f f' I H. pose proof (proj1 (inv_lay _ _ I)) as S. assert (X : exists f'', card_remove p f = Ok f'').
  { apply card_remove_succeeds; [exact I|]. unfold rel_card_remove in H. bind H as [c L] E. apply occupied_has; [exact S|].
    destruct (slot_from_erase _ S E) as (pos & X & O). exists pos. split; [exact X|]. congruence. }
  destruct X as [f2 X]. pose proof (@keeps_card_remove _ _ _ _ X). congruence.
Qed.
Lemma resize_back : forall p n (f f' : frame C), inv _ f -> rel_pile_resize c0 p n f = Ok f' -> pile_resize c0 p n f = Ok f'.
Proof.
  intros p n f f' I H. pose proof H as H'. unfold rel_pile_resize in H. bind H as r R.
  destruct (@pile_resize_spec C c0 p n _ _ f I (rel_pile_slot _ R)) as (f2 & new & X & _).
  pose proof (@keeps_pile_resize _ _ _ _ _ _ X). congruence.
Qed.
Lemma clear_back : forall (f f' : frame C), inv _ f -> rel_clear f = Ok f' -> clear f = Ok f'.
Proof. intros f f' I H. pose proof (@clear_run C f I) as X. pose proof (@keeps_clear C f _ X). congruence. Qed.

Lemma step_back : forall o (f f' : frame C), reachable c0 f -> rel_fstep c0 o f = Ok f' ->
  (fstep c0 o f = Ok f' <-> asked o (f_lay f)).
Proof.
  intros o f f' Re H. pose proof (reachable_inv _ _ _ Re) as I. pose proof (inv_lay _ _ I) as LO. pose proof LO as [S NN].
  destruct o as [p|p|a b|a b|prev cur|p n|a n b r|a b|].
  - destruct (add_parts _ _ H) as (L' & E & X & _). rewrite X. apply (insert_back _ _ S E).
  - split; [intros _; exact Logic.I|intros _; apply remove_back; assumption].
  - destruct (move_parts _ _ _ H) as (c & L' & E & X & _). rewrite X. apply move_back; assumption.
  - destruct (lift_back (card_swap a b) _ _ H) as (L' & E & X & _). cbn [fstep]. rewrite X. apply (swap_back _ _ LO E).
  - destruct (lift_back (card_shuffle prev cur) _ _ H) as (L' & E & X & _). cbn [fstep]. rewrite X. apply shuffle_back; assumption.
  - split; [intros _; exact Logic.I|intros _; apply resize_back; assumption].
  - destruct (lift_back (pile_splice a n b r) _ _ H) as (L' & E & X & _). split; [intros _; exact Logic.I|intros _]. apply X. apply splice_back; assumption.
  - destruct (lift_back (pile_swap a b) _ _ H) as (L' & E & X & _). split; [intros _; exact Logic.I|intros _]. apply X. apply pswap_back; assumption.
  - split; [intros _; exact Logic.I|intros _; apply clear_back; assumption].
Qed.

Lemma step_orderly : forall o (f f' : frame C), reachable c0 f -> rel_fstep c0 o f = Ok f' ->
  (forall prev cur, o = OpShuffle prev cur -> prev <> [] /\ Forall regular prev) -> orderly (fstep c0 o f).
Proof.
  intros o f f' Re H Sh. pose proof (reachable_inv _ _ _ Re) as I. pose proof (inv_lay _ _ I) as LO. pose proof LO as [S NN].
  assert (Y : asked o (f_lay f) -> orderly (fstep c0 o f)).
  { intros A. left. exists f'. apply step_back; assumption. }
  destruct o as [p|p|a b|a b|prev cur|p n|a n b r|a b|]; try (apply Y; exact Logic.I).
  - destruct (add_parts _ _ H) as (L' & E & _ & X). apply X. apply (insert_back _ _ S E).
  - destruct (move_parts _ _ _ H) as (c & L' & E & _ & X). apply X. eapply move_orderly; eassumption.
  - destruct (lift_back (card_swap a b) _ _ H) as (L' & E & _ & X). apply X. apply (swap_back _ _ LO E).
  - destruct (lift_back (card_shuffle prev cur) _ _ H) as (L' & E & _ & X). apply X. destruct (Sh _ _ eq_refl).
    eapply shuffle_orderly; eassumption.
Qed.

Lemma step_stopped : forall o (f f' : frame C), reachable c0 f -> rel_fstep c0 o f = Ok f' ->
  (forall prev cur, o = OpShuffle prev cur -> prev <> [] /\ Forall regular prev) ->
  ~ asked o (f_lay f) -> fstep c0 o f = Abort.
Proof.
  intros o f f' Re H Sh N. destruct (@step_orderly o f f' Re H Sh) as [[x X]|X]; [|exact X]. exfalso. apply N.
  apply (@step_back o f f' Re H). apply same_step; eauto.
Qed.

Lemma run_back : forall ops (f f' : frame C), reachable c0 f -> rel_frun c0 ops f = Ok f' ->
  (frun c0 ops f = Ok f' <-> asked_run c0 ops f).
Proof.
  induction ops as [|o ops IH]; intros f f' Re H; [split; [intros _; exact Logic.I|intros _; exact H]|].
  unfold rel_frun in H. cbn [ofold] in H. bind H as f1 E. unfold frun. cbn [ofold asked_run]. split.
  - intros X. bind X as f2 E2. pose proof (@keeps_fstep o f f2 E2) as K. assert (f2 = f1) by congruence. subst f2.
    split; [apply (@step_back o f f1 Re E); exact E2|]. intros f3 E3. assert (f3 = f1) by congruence. subst f3.
    exact (proj1 (IH f1 f' (@EventProofs.reachable_step C c0 o f f1 Re E2) H) X).
  - intros [A B]. pose proof (proj2 (@step_back o f f1 Re E) A) as E2. rewrite E2. cbn [obind].
    exact (proj2 (IH f1 f' (@EventProofs.reachable_step C c0 o f f1 Re E2) H) (B f1 E)).
Qed.

(** ** Without assertions nothing is stopped *)
Definition loose {A} (m : outcome A) : Prop := (exists a, m = Ok a) \/ m = UB.
Lemma loose_bind : forall A B (m : outcome A) (k : A -> outcome B), loose m -> (forall a, loose (k a)) -> loose (obind m k).
Proof. intros A B m k [[a ->]| ->] H; [apply H|right; reflexivity]. Qed.
Lemma loose_ok : forall A (a : A), loose (Ok a).
Proof. intros. left. eauto. Qed.
Lemma loose_ub : forall A, @loose A UB.
Proof. intros. right. reflexivity. Qed.
Lemma loose_or : forall A (o : option A), loose (or_ub o).
Proof. intros A [a|]; [apply loose_ok|apply loose_ub]. Qed.
Lemma loose_fold : forall A B (g : A -> B -> outcome B) l b, (forall a b, loose (g a b)) -> loose (ofold g l b).
Proof. induction l as [|a l IH]; intros b H; [apply loose_ok|]. cbn [ofold]. apply loose_bind; auto. Qed.

Ltac ls := repeat first
  [ apply loose_ok | apply loose_ub | apply loose_or | assumption
  | progress cbv zeta
  | match goal with
    | |- loose (obind _ _) => apply loose_bind; [|intros]
    | |- loose (if ?b then _ else _) => destruct b
    | |- loose (let '(_, _) := ?x in _) => destruct x
    | |- loose (match ?x with _ => _ end) => destruct x
    end ].
Lemma loose_read : forall r L, loose (read_zone r L).
Proof. intros. unfold read_zone. ls. Qed.
Lemma loose_deref : forall c, loose (deref c).
Proof. intros. unfold deref. ls. Qed.
Lemma loose_nth : forall l i, loose (nth_ptr l i).
Proof. intros. unfold nth_ptr. ls. Qed.
Lemma loose_con : forall c, loose (con_index c).
Proof. intros. unfold con_index. ls. Qed.
Lemma loose_pile_of : forall p, loose (rel_pile_of p).
Proof. intros. unfold rel_pile_of, rel_pile_ref. ls; apply loose_con. Qed.
Lemma loose_zone_ref : forall a b c, loose (rel_zone_ref a b c).
Proof. intros. unfold rel_zone_ref, rel_side_at. ls; apply loose_con. Qed.
Lemma loose_take : forall l i, loose (rel_take_at l i).
Proof. intros. unfold rel_take_at. ls; apply loose_nth. Qed.
Lemma loose_insert_at : forall l i c, loose (rel_insert_at l i c).
Proof. intros. unfold rel_insert_at. ls. Qed.
Ltac ls' := repeat first
  [ apply loose_ok | apply loose_ub | apply loose_or | assumption
  | apply loose_read | apply loose_deref | apply loose_nth | apply loose_pile_of | apply loose_zone_ref | apply loose_take
  | apply loose_insert_at
  | progress cbv zeta
  | match goal with
    | |- loose (obind _ _) => apply loose_bind; [|intros]
    | |- loose (if ?b then _ else _) => destruct b
    | |- loose (let '(_, _) := ?x in _) => destruct x
    | |- loose (match ?x with _ => _ end) => destruct x
    end ].
Lemma loose_insert : forall p c L, loose (rel_card_insert p c L).
Proof. intros. unfold rel_card_insert. ls'. Qed.
Lemma loose_erase : forall p L, loose (rel_card_erase p L).
Proof. intros. unfold rel_card_erase. ls'. Qed.
Lemma loose_move : forall a b L, loose (rel_card_move a b L).
Proof. intros. unfold rel_card_move. ls'. Qed.
Lemma loose_loop : forall todo i cur seqs L, loose (rel_shuffle_loop todo i cur seqs L).
Proof. induction todo as [|t IH]; intros; cbn [rel_shuffle_loop]; [apply loose_ok|]. destruct cur; [apply loose_ub|]. unfold swap_zones. ls'; apply IH. Qed.
Lemma loose_swap_lval : forall a b L, loose (swap_lval a b L).
Proof. intros. unfold swap_lval, read_lval, write_lval. ls'. Qed.
Lemma loose_swap : forall a b L, loose (rel_card_swap a b L).
Proof. intros. unfold rel_card_swap. ls'; apply loose_swap_lval. Qed.
Lemma loose_destruct : forall c (f : frame C), loose (rel_destruct_card c f).
Proof. intros. unfold rel_destruct_card. ls. Qed.
Lemma loose_shrink : forall n r (f : frame C), loose (rel_shrink_pile n r f).
Proof. induction n as [|n IH]; intros; cbn [rel_shrink_pile]; [apply loose_ok|]. ls'; first [apply loose_destruct|apply IH]. Qed.
Lemma loose_all : forall l (f : frame C), loose (rel_destruct_all l f).
Proof. induction l as [|c l IH]; intros; cbn [rel_destruct_all]; [apply loose_ok|]. ls'; first [apply loose_destruct|apply IH]. Qed.
Lemma step_loose : forall o (f : frame C), loose (rel_fstep c0 o f).
Proof.
  intros [p|p|a b|a b|prev cur|p n|a n b r|a b|] f; cbn [rel_fstep]; unfold lift.
  - unfold rel_card_add, construct_card. ls; apply loose_insert.
  - unfold rel_card_remove. ls; [apply loose_erase|apply loose_destruct].
  - unfold rel_f_card_move. ls; apply loose_move.
  - ls; apply loose_swap.
  - unfold rel_card_shuffle. ls; apply loose_loop.
  - unfold rel_pile_resize. ls'; apply loose_shrink.
  - unfold rel_pile_splice. ls'.
  - unfold rel_pile_swap. ls'.
  - unfold rel_clear. ls; apply loose_fold; intros; [unfold rel_clear_pile|unfold rel_clear_zone]; ls'; first [apply loose_all|apply loose_destruct].
Qed.
End Frames.
