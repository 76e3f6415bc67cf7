(** Counting cards without assertions. *)
From Verif Require Import Base BaseProofs Place Frame FrameSpec FrameLens FrameProofs FrameOps FramePiles FrameInv
  Release ReleaseFrameSpec.

Set Implicit Arguments.
Local Open Scope N_scope.

(** From [L] to [L'] the cards [inn] came and the cards [out] left. *)
Definition moved (L L' : layout) (inn out : list ptr) : Prop :=
  shape L' /\ forall id, (cntL L' id + cnt out id = cntL L id + cnt inn id)%nat.

Lemma rel_pile_slot : forall p r, rel_pile_of p = Ok r -> slot p = Some (CPile r, N.to_nat (p_seq p)).
Proof.
  intros [con loc seq oseq] r H. apply pile_of_slot. revert H. unfold rel_pile_of, pile_of, rel_pile_ref, pile_ref.
  cbn [p_con p_loc]. intros H.
  assert (A : (con <=? 1)%Z = true).
  { apply Z.leb_le. destruct (Z.le_gt_cases con 1) as [|G]; [assumption|exfalso]. unfold con_index in H.
    replace (con =? 0)%Z with false in H by (symmetry; apply Z.eqb_neq; lia).
    replace (con =? 1)%Z with false in H by (symmetry; apply Z.eqb_neq; lia).
    repeat (destruct (loc =? _) in H; [discriminate H|]). discriminate H. }
  rewrite A. cbn [assert_ obind].
  assert (B : loc_is_pile loc = true).
  { clear A. repeat match type of H with (if loc =? ?k then _ else _) = _ =>
      destruct (N.eqb_spec loc k); [subst loc; reflexivity|] end. discriminate H. }
  rewrite ?B. cbn [assert_ obind]. exact H.
Qed.

Lemma rel_zone_slot : forall p r L z, shape L -> rel_zone_of p = Ok r -> get_zone r L = Some z -> slot p = Some (zslot p r).
Proof.
  intros [con loc seq oseq] r L z S H G. apply zone_of_slot. apply get_zone_valid in G; [|exact S].
  revert H. unfold rel_zone_of, zone_of, rel_zone_ref, zone_ref. cbn [p_con p_loc p_seq]. intros H.
  apply obind_Ok in H. destruct H as (c & Ec & H). apply obind_Ok in H. destruct H as (zl & Ez & H). injection H as <-.
  assert (A : (con <=? 1)%Z = true).
  { unfold con_index in Ec. destruct (Z.eqb_spec con 0); [subst; reflexivity|].
    destruct (Z.eqb_spec con 1); [subst; reflexivity|discriminate]. }
  rewrite A. cbn [assert_ obind].
  assert (B : exists lim, zone_seq_lim loc = Ok lim /\ (seq <? lim) = true /\ side_at loc = Ok zl).
  { unfold rel_side_at in Ez. cbn [valid_z] in G.
    repeat match type of Ez with (if loc =? ?k then _ else _) = _ =>
      destruct (N.eqb_spec loc k); [subst loc; injection Ez as <-; eexists; split; [reflexivity|];
      split; [apply N.ltb_lt; cbn [zlen] in G; lia|reflexivity]|] end. discriminate Ez. }
  destruct B as (lim & -> & B & Sd). cbn [obind]. rewrite B. cbn [assert_ obind]. rewrite Ec. cbn [obind]. rewrite Sd. reflexivity.
Qed.

Lemma read_zone_Ok : forall r L z, read_zone r L = Ok z -> get_zone r L = Some z.
Proof. intros r L z H. unfold read_zone in H. apply or_ub_Ok in H. exact H. Qed.

Lemma moved_pile : forall r l L inn out, shape L ->
  (forall id, cnt l id + cnt out id = cnt (get_pile r L) id + cnt inn id)%nat -> moved L (set_pile r l L) inn out.
Proof.
  intros r l L inn out S H. split; [apply shape_set_pile; exact S|]. intros id.
  pose proof (cntL_set_pile r l L id S). specialize (H id). lia.
Qed.
Lemma moved_zone : forall r z z0 L inn out, shape L -> get_zone r L = Some z0 ->
  (forall id, zcnt z id + cnt out id = zcnt z0 id + cnt inn id)%nat -> moved L (set_zone r z L) inn out.
Proof.
  intros r z z0 L inn out S G H. split; [apply shape_set_zone; exact S|]. intros id.
  pose proof (cntL_set_zone r z z0 L id S G). specialize (H id). lia.
Qed.

Lemma insert_at_Ok : forall l i c l', rel_insert_at l i c = Ok l' ->
  (forall id, cnt l' id = cnt l id + cnt [c] id)%nat /\ (all_some l -> c <> None -> all_some l').
Proof.
  intros l i c l' H. unfold rel_insert_at in H. destruct (_ <=? _); [|discriminate]. injection H as <-. split.
  - intros id. apply cnt_insert.
  - intros A N. destruct c as [c|]; [|congruence]. apply all_some_insert. exact A.
Qed.
Lemma take_at_Ok : forall l i c l', rel_take_at l i = Ok (c, l') ->
  (forall id, cnt l' id + cnt [c] id = cnt l id)%nat /\ (all_some l -> all_some l').
Proof.
  intros l i c l' H. unfold rel_take_at in H. apply obind_Ok in H. destruct H as (c' & E & H). apply or_ub_Ok in E.
  assert (c' = c /\ l' = remove_nth (N.to_nat i) l) as [-> ->] by (split; congruence). split.
  - intros id. pose proof (cnt_remove _ _ _ id E). lia.
  - apply all_some_remove.
Qed.

(** ** Inserting and erasing *)

Lemma rel_insert_moved : forall p c L L', shape L -> rel_card_insert p c L = Ok L' ->
  moved L L' [Some c] (under p L) /\ (nonull L -> nonull L').
Proof.
  intros p c L L' S H. unfold rel_card_insert in H. unfold under. destruct (is_pile p).
  - apply obind_Ok in H. destruct H as (r & R & H). apply obind_Ok in H. destruct H as (l & X & H).
    assert (E : L' = set_pile r l L) by congruence. subst L'. destruct (insert_at_Ok _ _ _ X) as [Cn An].
    rewrite (rel_pile_slot p R). split; [apply moved_pile; [exact S|]; intros id; rewrite Cn, cnt_nil; lia|].
    intros N. apply nonull_set_pile; auto. apply An; [apply nonull_pile; exact N|discriminate].
  - apply obind_Ok in H. destruct H as (r & R & H). apply obind_Ok in H. destruct H as (z & Z & H). apply read_zone_Ok in Z.
    pose proof (rel_zone_slot p S R Z) as Sl. unfold zslot in Sl. destruct (not_mat p); rewrite Sl.
    + injection H as <-. cbn [contents]. rewrite Z. fold (card_list (z_card z)). split.
      * eapply moved_zone; eauto. intros id. unfold zcnt. cbn [z_card z_mats card_list]. lia.
      * intros N. apply nonull_set_zone; auto; [congruence|]. cbn [z_mats]; eapply nonull_zone; eauto.
    + apply obind_Ok in H. destruct H as (m & X & H). injection H as <-. destruct (insert_at_Ok _ _ _ X) as [Cn An]. split.
      * eapply moved_zone; eauto. intros id. unfold zcnt. cbn [z_card z_mats]. rewrite Cn, cnt_nil. lia.
      * intros N. apply nonull_set_zone; auto; [congruence|]. cbn [z_mats]; apply An; [eapply nonull_zone; eauto|discriminate].
Qed.

Lemma rel_erase_moved : forall p c L L', shape L -> rel_card_erase p L = Ok (c, L') ->
  moved L L' [] [Some c] /\ (nonull L -> nonull L').
Proof.
  intros p c L L' S H. unfold rel_card_erase in H. destruct (is_pile p).
  - apply obind_Ok in H. destruct H as (r & R & H). apply obind_Ok in H. destruct H as (q & Q & H). apply or_ub_Ok in Q.
    apply obind_Ok in H. destruct H as (x & X & H). unfold deref in X. apply or_ub_Ok in X. subst q.
    destruct (_ <? _) in Q; [|discriminate]. rename Q into Nt.
    assert (x = c /\ L' = set_pile r (remove_nth (N.to_nat (p_seq p)) (get_pile r L)) L) as [-> ->] by (split; congruence).
    split.
    + apply moved_pile; auto. intros id. pose proof (cnt_remove _ _ _ id Nt). rewrite cnt_nil. lia.
    + intros N. apply nonull_set_pile; auto. apply all_some_remove, nonull_pile; exact N.
  - apply obind_Ok in H. destruct H as (r & R & H). apply obind_Ok in H. destruct H as (z & Z & H). apply read_zone_Ok in Z.
    destruct (not_mat p).
    + apply obind_Ok in H. destruct H as (x & X & H). unfold deref in X. destruct (z_card z) as [y|] eqn:Zc; [|discriminate].
      cbn [or_ub] in X. assert (x = c /\ y = c /\ L' = set_zone r (mkZone None (z_mats z)) L) as (-> & -> & ->) by (repeat split; congruence).
      split.
      * eapply moved_zone; eauto. intros id. unfold zcnt. rewrite Zc. cbn [z_card z_mats card_list]. rewrite !cnt_nil. lia.
      * intros N. apply nonull_set_zone; auto; [congruence|]. cbn [z_mats]; eapply nonull_zone; eauto.
    + apply obind_Ok in H. destruct H as ([x m] & X & H). apply obind_Ok in H. destruct H as (y & Y & H).
      destruct (take_at_Ok _ _ X) as [Cn An]. destruct x as [x|]; [|discriminate]. unfold deref in Y. cbn [or_ub] in Y.
      assert (x = c /\ L' = set_zone r (mkZone (z_card z) m) L) as (-> & ->) by (split; congruence). split.
      * eapply moved_zone; eauto. intros id. unfold zcnt. cbn [z_card z_mats]. rewrite cnt_nil. specialize (Cn id). lia.
      * intros N. apply nonull_set_zone; auto; [congruence|]. cbn [z_mats]. apply An. cbn [z_mats]; eapply nonull_zone; eauto.
Qed.

(** ** Moving *)

Lemma take_nth : forall l i c l', rel_take_at l i = Ok (c, l') ->
  (i <? lenN l) = true /\ nth_error l (N.to_nat i) = Some c /\ l' = remove_nth (N.to_nat i) l.
Proof.
  intros l i c l' H. unfold rel_take_at in H. apply obind_Ok in H. destruct H as (c' & E & H). apply or_ub_Ok in E.
  assert (c' = c /\ l' = remove_nth (N.to_nat i) l) as [-> ->] by (split; congruence). split; [|auto].
  apply N.ltb_lt. unfold lenN. assert (N.to_nat i < length l)%nat by (apply nth_error_Some; congruence). lia.
Qed.

(** Undo a bind of [H] with the given names. *)
Tactic Notation "bind" hyp(H) "as" simple_intropattern(x) ident(E) := apply obind_Ok in H; destruct H as (x & E & H).

Lemma rel_move_simple : forall from to c L L', is_pile from || is_pile to || negb (not_mat from && not_mat to) = true ->
  rel_card_move from to L = Ok (c, L') ->
  exists L1, rel_card_erase from L = Ok (c, L1) /\ rel_card_insert to c L1 = Ok L'.
Proof.
  intros from to c L L' B H. unfold rel_card_move in H. unfold rel_card_erase, rel_card_insert.
  destruct (is_pile from), (is_pile to); cbn [andb orb negb] in *.
  - bind H as r1 R1. bind H as r2 R2. bind H as [q l1] T. bind H as l2 I. bind H as x X.
    destruct (take_nth _ _ T) as (Lt & Nt & ->). unfold deref in X. apply or_ub_Ok in X. subst q.
    assert (x = c) by congruence. subst x. eexists. split.
    + rewrite R1. cbn [obind]. rewrite Lt, Nt. reflexivity.
    + rewrite R2. cbn [obind]. rewrite I. cbn [obind]. congruence.
  - bind H as r1 R1. bind H as [q l1] T. bind H as r2 R2. bind H as z Z.
    destruct (take_nth _ _ T) as (Lt & Nt & ->). destruct (not_mat to) eqn:NM.
    + bind H as x X. unfold deref in X. apply or_ub_Ok in X. subst q. assert (x = c) by congruence. subst x. eexists. split.
      * rewrite R1. cbn [obind]. rewrite Lt, Nt. reflexivity.
      * rewrite R2. cbn [obind]. rewrite Z. cbn [obind]. congruence.
    + bind H as m M. bind H as x X. unfold deref in X. apply or_ub_Ok in X. subst q. assert (x = c) by congruence. subst x. eexists. split.
      * rewrite R1. cbn [obind]. rewrite Lt, Nt. reflexivity.
      * rewrite R2. cbn [obind]. rewrite Z. cbn [obind]. rewrite M. cbn [obind]. congruence.
  - bind H as r1 R1. bind H as z Z. bind H as [q z'] Q. bind H as r2 R2. bind H as l2 I. bind H as x X.
    unfold deref in X. apply or_ub_Ok in X. subst q. assert (x = c) by congruence. subst x.
    rewrite R1. cbn [obind]. rewrite Z. cbn [obind]. destruct (not_mat from).
    + assert (z_card z = Some c /\ z' = mkZone None (z_mats z)) as [-> ->] by (split; congruence). eexists. split; [reflexivity|].
      rewrite R2. cbn [obind]. rewrite I. cbn [obind]. congruence.
    + bind Q as [q m] T. assert (q = Some c /\ z' = mkZone (z_card z) m) as [-> ->] by (split; congruence).
      rewrite T. cbn [obind]. eexists. split; [reflexivity|].
      rewrite R2. cbn [obind]. rewrite I. cbn [obind]. congruence.
  - bind H as r1 R1. bind H as r2 R2. destruct (not_mat from), (not_mat to); cbn [andb orb negb] in *; [discriminate| | |].
    + bind H as z1 Z1. bind H as z2 Z2. bind H as m M. bind H as x X.
      unfold deref in X. apply or_ub_Ok in X. assert (x = c) by congruence. subst x. eexists. split.
      * rewrite R1. cbn [obind]. rewrite Z1. cbn [obind]. rewrite X. reflexivity.
      * rewrite R2. cbn [obind]. rewrite Z2. cbn [obind]. rewrite <- X, M. cbn [obind]. congruence.
    + bind H as z1 Z1. bind H as [q m] T. bind H as z2 Z2. bind H as x X.
      unfold deref in X. apply or_ub_Ok in X. subst q. assert (x = c) by congruence. subst x. eexists. split.
      * rewrite R1. cbn [obind]. rewrite Z1. cbn [obind]. rewrite T. reflexivity.
      * rewrite R2. cbn [obind]. rewrite Z2. cbn [obind]. congruence.
    + bind H as z1 Z1. bind H as [q m] T. bind H as z2 Z2. bind H as m' M. bind H as x X.
      unfold deref in X. apply or_ub_Ok in X. subst q. assert (x = c) by congruence. subst x. eexists. split.
      * rewrite R1. cbn [obind]. rewrite Z1. cbn [obind]. rewrite T. reflexivity.
      * rewrite R2. cbn [obind]. rewrite Z2. cbn [obind]. rewrite M. cbn [obind]. congruence.
Qed.

(** Erasing a card that is not a zone's leaves the cards of zones alone. *)
Lemma rel_erase_cards : forall p c L L' r, is_pile p || negb (not_mat p) = true -> shape L -> rel_card_erase p L = Ok (c, L') ->
  contents (CCard r) L' = contents (CCard r) L.
Proof.
  intros p c L L' r B S H. unfold rel_card_erase in H. destruct (is_pile p).
  - bind H as r1 R1. bind H as q Q. bind H as x X. assert (E : L' = set_pile r1 (remove_nth (N.to_nat (p_seq p)) (get_pile r1 L)) L) by congruence.
    subst L'. cbn [contents]. rewrite get_zone_set_pile. reflexivity.
  - bind H as r1 R1. bind H as z Z. apply read_zone_Ok in Z. destruct (not_mat p); [discriminate|].
    bind H as [q m] T. bind H as x X. assert (E : L' = set_zone r1 (mkZone (z_card z) m) L) by congruence. subst L'.
    cbn [contents]. destruct (zref_eq_dec r1 r) as [<-|N].
    + rewrite get_set_zone_same by congruence. rewrite Z. reflexivity.
    + rewrite get_set_zone_other by congruence. reflexivity.
Qed.

Lemma rel_move_cards : forall from to c L L', shape L -> is_pile from || is_pile to || negb (not_mat from && not_mat to) = false ->
  rel_card_move from to L = Ok (c, L') ->
  exists r1 r2 z1 z2, slot from = Some (CCard r1, 0%nat) /\ slot to = Some (CCard r2, 0%nat) /\
    get_zone r1 L = Some z1 /\ get_zone r2 L = Some z2 /\ z_card z1 = Some c /\
    (r1 = r2 /\ L' = L \/ r1 <> r2 /\ L' = set_zone r1 (mkZone None (z_mats z2)) (set_zone r2 z1 L)).
Proof.
  intros from to c L L' S B H. unfold rel_card_move in H.
  destruct (is_pile from), (is_pile to); cbn [andb orb negb] in *; try discriminate.
  destruct (not_mat from) eqn:NF, (not_mat to) eqn:NT; cbn [andb orb negb] in *; try discriminate.
  bind H as r1 R1. bind H as r2 R2. bind H as z1 Z1. apply read_zone_Ok in Z1.
  bind H as z2 Z2. apply read_zone_Ok in Z2. bind H as z1' Z1'. apply read_zone_Ok in Z1'.
  bind H as z2' Z2'. apply read_zone_Ok in Z2'. bind H as z1'' Z1''. apply read_zone_Ok in Z1''.
  bind H as x X. unfold deref in X. apply or_ub_Ok in X. assert (x = c) by congruence. subst x.
  assert (E : L' = set_zone r1 (mkZone (z_card z1'') (z_mats z2'))
     (set_zone r2 (mkZone (z_card z2') (z_mats z1')) (set_zone r2 (mkZone (z_card z1) (z_mats z2)) (set_zone r1 (mkZone None (z_mats z1)) L)))) by congruence.
  clear H. subst L'.
  assert (G2 : exists z, get_zone r2 L = Some z).
  { destruct (zref_eq_dec r1 r2) as [<-|N]; [eauto|]. rewrite get_set_zone_other in Z2 by congruence. eauto. }
  destruct G2 as [z G2]. pose proof (rel_zone_slot from S R1 Z1) as S1. pose proof (rel_zone_slot to S R2 G2) as S2.
  unfold zslot in S1, S2. rewrite NF in S1. rewrite NT in S2. exists r1, r2, z1, z.
  do 4 (split; [assumption|]). split; [assumption|].
  destruct (zref_eq_dec r1 r2) as [<-|N].
  - left. split; [reflexivity|]. rewrite !set_set_zone in *. rewrite get_set_zone_same in Z2, Z1', Z2', Z1'' by congruence.
    injection Z2 as <-. injection Z1' as <-. injection Z2' as <-. injection Z1'' as <-. cbn [z_card z_mats].
    assert (Q : mkZone (z_card z1) (z_mats z1) = z1) by (destruct z1; reflexivity). rewrite Q. apply set_zone_id. exact Z1.
  - right. split; [exact N|]. rewrite set_set_zone in *.
    rewrite get_set_zone_other in Z2 by congruence. rewrite Z2 in G2. injection G2 as ->.
    rewrite (get_set_zone_same r2) in Z2' by (rewrite get_set_zone_other; congruence). injection Z2' as <-. cbn [z_card z_mats] in *.
    rewrite get_set_zone_other in Z1' by congruence. rewrite get_set_zone_same in Z1' by congruence. injection Z1' as <-. cbn [z_card z_mats] in *.
    rewrite get_set_zone_other in Z1'' by congruence. rewrite get_set_zone_same in Z1'' by congruence. injection Z1'' as <-. cbn [z_card z_mats] in *.
    assert (Q : mkZone (z_card z1) (z_mats z1) = z1) by (destruct z1; reflexivity). rewrite Q.
    rewrite (set_zone_comm r2 r1) by congruence. rewrite set_set_zone. reflexivity.
Qed.

Lemma moved_trans : forall L L1 L2 a b c d, moved L L1 a b -> moved L1 L2 c d -> moved L L2 (a ++ c) (b ++ d).
Proof.
  intros L L1 L2 a b c d [S1 H1] [S2 H2]. split; [exact S2|]. intros id. specialize (H1 id). specialize (H2 id).
  rewrite !cnt_app. lia.
Qed.

Lemma rel_erase_slot : forall p c L L', shape L -> rel_card_erase p L = Ok (c, L') ->
  if is_pile p then exists r, slot p = Some (CPile r, N.to_nat (p_seq p)) else exists r, slot p = Some (zslot p r).
Proof.
  intros p c L L' S H. unfold rel_card_erase in H. destruct (is_pile p).
  - bind H as r R. exists r. apply rel_pile_slot. exact R.
  - bind H as r R. bind H as z Z. apply read_zone_Ok in Z. exists r. eapply rel_zone_slot; eauto.
Qed.

Lemma rel_move_moved : forall from to c L L', shape L -> rel_card_move from to L = Ok (c, L') ->
  exists out, moved L L' [] out /\ (nonull L -> nonull L') /\
    (slot from = slot to -> out = []) /\ (slot from <> slot to -> out = under to L).
Proof.
  intros from to c L L' S H. destruct (is_pile from || is_pile to || negb (not_mat from && not_mat to)) eqn:B.
  - destruct (rel_move_simple from to L B H) as (L1 & E & I). destruct (rel_erase_moved _ S E) as [M1 N1].
    assert (S1 : shape L1) by apply M1. destruct (rel_insert_moved _ _ S1 I) as [M2 N2].
    assert (U : under to L1 = under to L /\ (slot from = slot to -> under to L = [])).
    { pose proof (rel_erase_slot _ S E) as Sf. unfold under. destruct (slot to) as [[[r|r|r] i]|] eqn:Sl; auto.
      destruct (is_pile from || negb (not_mat from)) eqn:F.
      - split; [apply (rel_erase_cards _ r F S E)|]. intros Q. exfalso. rewrite Q in Sf. unfold zslot in Sf.
        destruct (is_pile from), (not_mat from); try discriminate F; destruct Sf as [r' Sf]; discriminate.
      - exfalso. apply slot_inv in Sl. destruct Sl as [(r' & _ & _ & K & _)|(r' & P & _ & K)]; [discriminate|].
        unfold zslot in K. rewrite P in B. destruct (is_pile from), (not_mat from), (not_mat to); cbn in *; discriminate. }
    destruct U as [U1 U2]. rewrite U1 in M2. exists (under to L). split; [|split; [auto|split; [exact U2|auto]]].
    destruct M1 as [_ H1]. destruct M2 as [S2 H2]. split; [exact S2|]. intros id. specialize (H1 id). specialize (H2 id).
    rewrite ?cnt_nil in *. lia.
  - destruct (rel_move_cards _ _ S B H) as (r1 & r2 & z1 & z2 & S1 & S2 & G1 & G2 & Zc & K). rewrite S1, S2. destruct K as [[<- ->]|[N ->]].
    + exists []. split; [|split; [auto|split; [reflexivity|congruence]]]. split; [exact S|]. intros id. rewrite cnt_nil. lia.
    + assert (Sh : shape (set_zone r2 z1 L)) by (apply shape_set_zone; exact S).
      assert (Gx : get_zone r1 (set_zone r2 z1 L) = Some z1) by (rewrite get_set_zone_other; congruence).
      exists (card_list (z_card z2)). split; [|split; [|split]].
      * split; [apply shape_set_zone; exact Sh|]. intros id. pose proof (cntL_set_zone r2 z1 z2 L id S G2).
        pose proof (cntL_set_zone r1 (mkZone None (z_mats z2)) z1 _ id Sh Gx). unfold zcnt in *. cbn [z_card z_mats card_list] in *.
        rewrite ?cnt_nil in *. lia.
      * intros Nn. apply nonull_set_zone; [exact Sh|congruence| |cbn [z_mats]; eapply nonull_zone; eauto].
        apply nonull_set_zone; auto; [congruence|]. eapply nonull_zone; eauto.
      * congruence.
      * intros _. unfold under. rewrite S2. cbn [contents]. rewrite G2. reflexivity.
Qed.

(** ** Swapping *)

Definition cell (v : lval) : cont * nat :=
  match v with
  | LvPile r i => (CPile r, N.to_nat i)
  | LvCard r => (CCard r, 0%nat)
  | LvMat r i => (CMats r, N.to_nat i)
  end.
Definition cells (x : ptr) : list ptr := card_list x.

Lemma nth_ptr_Ok : forall l i x, nth_ptr l i = Ok x -> nth_error l (N.to_nat i) = Some x.
Proof. intros l i x H. unfold nth_ptr in H. destruct (_ <? _); apply or_ub_Ok in H; [exact H|discriminate]. Qed.

Lemma cnt_none : forall id, cnt [None] id = 0%nat.
Proof. intros id. apply cnt_single_other. discriminate. Qed.
Lemma cnt_card_list : forall c id, cnt (card_list c) id = cnt [c] id.
Proof. intros [c|] id; [reflexivity|]. cbn [card_list]. rewrite cnt_none. apply cnt_nil. Qed.

Lemma write_moved : forall v x c L L', shape L -> read_lval v L = Ok x -> write_lval v c L = Ok L' ->
  moved L L' [c] [x] /\ (nonull L -> (c = None -> exists r, v = LvCard r) -> nonull L').
Proof.
  intros v x c L L' S R W. destruct v as [r i|r|r i]; cbn [read_lval write_lval] in *.
  - bind W as y Y. assert (E : L' = set_pile r (upd (N.to_nat i) c (get_pile r L)) L) by congruence. subst L'.
    apply nth_ptr_Ok in R. split.
    + apply moved_pile; auto. intros id. apply cnt_upd. exact R.
    + intros N G. apply nonull_set_pile; auto. destruct c as [c|]; [apply all_some_upd, nonull_pile; exact N|].
      destruct (G eq_refl). discriminate.
  - bind W as z Z. rewrite Z in R. cbn [obind] in R. apply read_zone_Ok in Z.
    assert (E : L' = set_zone r (mkZone c (z_mats z)) L /\ x = z_card z) by (split; congruence). destruct E as [-> ->]. split.
    + eapply moved_zone; eauto. intros id. unfold zcnt. cbn [z_card z_mats]. rewrite !cnt_card_list. lia.
    + intros N G. apply nonull_set_zone; auto; [congruence|]. cbn [z_mats]. eapply nonull_zone; eauto.
  - bind W as z Z. bind W as y Y. rewrite Z in R. cbn [obind] in R. apply read_zone_Ok in Z. apply nth_ptr_Ok in R.
    assert (E : L' = set_zone r (mkZone (z_card z) (upd (N.to_nat i) c (z_mats z))) L) by congruence. subst L'. split.
    + eapply moved_zone; eauto. intros id. unfold zcnt. cbn [z_card z_mats]. pose proof (cnt_upd _ _ c _ id R). lia.
    + intros N G. apply nonull_set_zone; auto; [congruence|]. cbn [z_mats]. destruct c as [c|].
      * apply all_some_upd. eapply nonull_zone; eauto.
      * destruct (G eq_refl). discriminate.
Qed.

Lemma nth_ptr_eq : forall l i x, nth_error l (N.to_nat i) = Some x -> nth_ptr l i = Ok x.
Proof.
  intros l i x H. unfold nth_ptr. assert (N.to_nat i < length l)%nat by (apply nth_error_Some; congruence).
  replace (i <? lenN l) with true by (symmetry; apply N.ltb_lt; unfold lenN; lia). rewrite H. reflexivity.
Qed.

Lemma nth_upd : forall A (l : list A) i j x y, nth_error l j = Some y ->
  nth_error (upd i x l) j = Some (if Nat.eq_dec i j then x else y).
Proof.
  intros A l i j x y H. destruct (Nat.eq_dec i j) as [->|N].
  - apply upd_same. apply nth_error_Some. congruence.
  - rewrite upd_other by auto. exact H.
Qed.

(** Reading [b] after writing to [a] what was read from [b]. *)
Lemma read_after : forall a b y L L', read_lval b L = Ok y -> write_lval a y L = Ok L' -> read_lval b L' = Ok y.
Proof.
  intros a b y L L' R W. destruct a as [r i|r|r i]; cbn [write_lval] in W.
  - bind W as q Q. assert (E : L' = set_pile r (upd (N.to_nat i) y (get_pile r L)) L) by congruence. subst L'.
    destruct b as [r' j|r'|r' j]; cbn [read_lval] in *; unfold read_zone in *; rewrite ?get_zone_set_pile; auto.
    apply nth_ptr_Ok in R. apply nth_ptr_eq. destruct (pref_eq_dec r r') as [<-|N].
    + rewrite get_set_pile_same. rewrite (nth_upd _ _ _ y R). destruct (Nat.eq_dec _ _); reflexivity.
    + rewrite get_set_pile_other by congruence. exact R.
  - bind W as z Z. apply read_zone_Ok in Z. assert (E : L' = set_zone r (mkZone y (z_mats z)) L) by congruence. subst L'.
    destruct b as [r' j|r'|r' j]; cbn [read_lval] in *; unfold read_zone in *; rewrite ?get_pile_set_zone; auto.
    + destruct (zref_eq_dec r r') as [<-|N]; [|rewrite get_set_zone_other by congruence; exact R].
      rewrite get_set_zone_same by congruence. reflexivity.
    + destruct (zref_eq_dec r r') as [<-|N]; [|rewrite get_set_zone_other by congruence; exact R].
      rewrite get_set_zone_same by congruence. rewrite Z in R. exact R.
  - bind W as z Z. bind W as q Q. apply read_zone_Ok in Z.
    assert (E : L' = set_zone r (mkZone (z_card z) (upd (N.to_nat i) y (z_mats z))) L) by congruence. subst L'.
    destruct b as [r' j|r'|r' j]; cbn [read_lval] in *; unfold read_zone in *; rewrite ?get_pile_set_zone; auto.
    + destruct (zref_eq_dec r r') as [<-|N]; [|rewrite get_set_zone_other by congruence; exact R].
      rewrite get_set_zone_same by congruence. rewrite Z in R. exact R.
    + destruct (zref_eq_dec r r') as [<-|N]; [|rewrite get_set_zone_other by congruence; exact R].
      rewrite get_set_zone_same by congruence. rewrite Z in R. cbn [or_ub obind z_mats] in *.
      apply nth_ptr_Ok in R. apply nth_ptr_eq. rewrite (nth_upd _ _ _ y R). destruct (Nat.eq_dec _ _); reflexivity.
Qed.

(** [v] is a zone's card, and there is none. *)
Definition blank (v : lval) (L : layout) : Prop := exists r z, v = LvCard r /\ get_zone r L = Some z /\ z_card z = None.
Definition is_card (v : lval) : Prop := exists r, v = LvCard r.

Lemma read_none : forall v L, nonull L -> read_lval v L = Ok None -> blank v L.
Proof.
  intros v L N R. destruct v as [r i|r|r i]; cbn [read_lval] in R.
  - apply nth_ptr_Ok in R. exfalso. apply (nonull_pile r L N). eapply nth_error_In; eauto.
  - bind R as z Z. apply read_zone_Ok in Z. exists r, z. repeat split; congruence.
  - bind R as z Z. apply read_zone_Ok in Z. apply nth_ptr_Ok in R. exfalso. apply (nonull_zone _ _ _ N Z). eapply nth_error_In; eauto.
Qed.

Lemma swap_lval_moved : forall a b L L', shape L -> swap_lval a b L = Ok L' ->
  moved L L' [] [] /\ (nonull L -> (blank a L -> is_card b) -> (blank b L -> is_card a) -> nonull L').
Proof.
  intros a b L L' S H. unfold swap_lval in H. bind H as x X. bind H as y Y. bind H as L1 W.
  destruct (write_moved _ _ S X W) as [[S1 M1] N1]. pose proof (read_after _ _ _ Y W) as R.
  destruct (write_moved _ _ S1 R H) as [[S2 M2] N2]. split.
  - split; [exact S2|]. intros id. specialize (M1 id). specialize (M2 id). rewrite ?cnt_nil. lia.
  - intros N Ga Gb. apply N2; [apply N1; [exact N|]|].
    + intros ->. apply Gb. apply read_none; assumption.
    + intros ->. apply Ga. apply read_none; assumption.
Qed.

Lemma rel_swap_moved : forall a b L L', shape L -> rel_card_swap a b L = Ok L' ->
  moved L L' [] [] /\ (nonull L -> (vacant a L -> for_card b) -> (vacant b L -> for_card a) -> nonull L').
Proof.
  intros a b L L' S H. unfold rel_card_swap in H.
  assert (V : forall p r, rel_zone_of p = Ok r -> not_mat p = true -> blank (LvCard r) L -> vacant p L).
  { intros p r R NM (r' & z & E & G & Zc). injection E as <-. pose proof (rel_zone_slot p S R G) as Sl.
    unfold zslot in Sl. rewrite NM in Sl. split; [exists r, 0%nat; exact Sl|]. unfold under. rewrite Sl. cbn [contents]. rewrite G, Zc. reflexivity. }
  assert (Fp : forall p r, rel_pile_of p = Ok r -> ~ for_card p).
  { intros p r R (r' & i & Sl). apply rel_pile_slot in R. congruence. }
  assert (Fm : forall p, not_mat p = false -> ~ for_card p).
  { intros p NM (r' & i & Sl). apply slot_inv in Sl. destruct Sl as [(r0 & _ & _ & K & _)|(r0 & _ & _ & K)]; [discriminate|].
    unfold zslot in K. rewrite NM in K. discriminate. }
  assert (Bp : forall r i, ~ blank (LvPile r i) L) by (intros r i (r' & z & E & _); discriminate).
  assert (Bm : forall r i, ~ blank (LvMat r i) L) by (intros r i (r' & z & E & _); discriminate).
  destruct (is_pile a), (is_pile b); cbn [andb negb] in H.
  - bind H as ra Ra. bind H as rb Rb. destruct (swap_lval_moved _ _ S H) as [M Nn]. split; [exact M|]. intros N _ _.
    apply Nn; auto; intros B; exfalso; eapply Bp; eauto.
  - bind H as ra Ra. bind H as rb Rb. destruct (swap_lval_moved _ _ S H) as [M Nn]. split; [exact M|]. intros N Ga Gb.
    apply Nn; auto; intros B; exfalso; [eapply Bp; eauto|]. destruct (not_mat b) eqn:NM; [|eapply Bm; eauto].
    eapply Fp; eauto.
  - bind H as ra Ra. bind H as rb Rb. destruct (swap_lval_moved _ _ S H) as [M Nn]. split; [exact M|]. intros N Ga Gb.
    apply Nn; auto; intros B; exfalso; [|eapply Bp; eauto]. destruct (not_mat a) eqn:NM; [|eapply Bm; eauto].
    eapply Fp; eauto.
  - bind H as ra Ra. bind H as rb Rb. destruct (not_mat a) eqn:NA, (not_mat b) eqn:NB; cbn [andb negb] in H.
    + bind H as L1 E. destruct (swap_lval_moved _ _ S E) as [[S1 M1] N1].
      bind H as za Za. bind H as zb Zb. bind H as zb' Zb'. apply read_zone_Ok in Za. apply read_zone_Ok in Zb. apply read_zone_Ok in Zb'.
      assert (Q : L' = set_zone rb (mkZone (z_card zb') (z_mats za)) (set_zone ra (mkZone (z_card za) (z_mats zb)) L1)) by congruence.
      subst L'. assert (S2 : shape (set_zone ra (mkZone (z_card za) (z_mats zb)) L1)) by (apply shape_set_zone; exact S1).
      assert (Mb : z_mats zb' = z_mats zb).
      { destruct (zref_eq_dec ra rb) as [<-|N].
        - rewrite get_set_zone_same in Zb' by congruence. injection Zb' as <-. reflexivity.
        - rewrite get_set_zone_other in Zb' by congruence. congruence. }
      split.
      * split; [apply shape_set_zone; exact S2|]. intros id. specialize (M1 id). rewrite ?cnt_nil in *.
        pose proof (cntL_set_zone ra (mkZone (z_card za) (z_mats zb)) za L1 id S1 Za) as H1.
        pose proof (cntL_set_zone rb (mkZone (z_card zb') (z_mats za)) zb' _ id S2 Zb') as H2.
        unfold zcnt in *. cbn [z_card z_mats] in *. rewrite Mb in H2. lia.
      * intros N Ga Gb. assert (Nn : nonull L1) by (apply N1; [exact N| |]; intros _; eexists; reflexivity).
        apply nonull_set_zone; [exact S2|congruence| |cbn [z_mats]; eapply nonull_zone; eauto].
        apply nonull_set_zone; auto; [congruence|]. cbn [z_mats]. eapply nonull_zone; eauto.
    + destruct (swap_lval_moved _ _ S H) as [M Nn]. split; [exact M|]. intros N Ga Gb.
      apply Nn; auto; intros B; exfalso; [|eapply Bm; eauto]. eapply (Fm b); eauto.
    + destruct (swap_lval_moved _ _ S H) as [M Nn]. split; [exact M|]. intros N Ga Gb.
      apply Nn; auto; intros B; exfalso; [eapply Bm; eauto|]. eapply (Fm a); eauto.
    + destruct (swap_lval_moved _ _ S H) as [M Nn]. split; [exact M|]. intros N Ga Gb.
      apply Nn; auto; intros B; exfalso; eapply Bm; eauto.
Qed.

(** ** Shuffles and piles *)

Lemma swap_zones_moved : forall a b L L', shape L -> swap_zones a b L = Ok L' -> moved L L' [] [] /\ (nonull L -> nonull L').
Proof.
  intros a b L L' S H. apply swap_zones_Ok in H. destruct H as (za & zb & Ga & Gb & ->).
  assert (S1 : shape (set_zone a zb L)) by (apply shape_set_zone; exact S).
  assert (G1 : exists z, get_zone b (set_zone a zb L) = Some z /\ zcnt z = zcnt zb).
  { destruct (zref_eq_dec a b) as [<-|N].
    - rewrite get_set_zone_same by congruence. eauto.
    - rewrite get_set_zone_other by congruence. eauto. }
  destruct G1 as (z & G1 & Z). split.
  - split; [apply shape_set_zone; exact S1|]. intros id. pose proof (cntL_set_zone a zb za L id S Ga).
    pose proof (cntL_set_zone b za z _ id S1 G1). rewrite Z in *. lia.
  - intros N. apply nonull_set_zone; [exact S1|congruence| |eapply nonull_zone; eauto].
    apply nonull_set_zone; auto; [congruence|]. eapply nonull_zone; eauto.
Qed.

Lemma moved_refl : forall L, shape L -> moved L L [] [].
Proof. intros L S. split; [exact S|]. auto. Qed.

Lemma rel_shuffle_moved : forall todo i cur seqs L L', shape L -> rel_shuffle_loop todo i cur seqs L = Ok L' ->
  moved L L' [] [] /\ (nonull L -> nonull L').
Proof.
  induction todo as [|todo IH]; intros i cur seqs L L' S H; cbn [rel_shuffle_loop] in H.
  - assert (L' = L) by congruence. subst. split; [apply moved_refl; exact S|auto].
  - destruct cur as [|p cur]; [discriminate|]. destruct (is_empty p); [eapply IH; eauto|].
    bind H as si Si. bind H as a A. bind H as b B. bind H as L1 E.
    destruct (swap_zones_moved _ _ S E) as [M1 N1]. assert (S1 : shape L1) by apply M1.
    destruct (IH _ _ _ _ _ S1 H) as [M2 N2]. split; [|auto]. apply (moved_trans M1 M2).
Qed.

Lemma rel_card_shuffle_moved : forall prev cur L L', shape L -> rel_card_shuffle prev cur L = Ok L' ->
  moved L L' [] [] /\ (nonull L -> nonull L').
Proof.
  intros prev cur L L' S H. unfold rel_card_shuffle in H. destruct (_ <=? _); [|discriminate]. eapply rel_shuffle_moved; eauto.
Qed.

Lemma rel_pile_swap_moved : forall a b L L', shape L -> rel_pile_swap a b L = Ok L' ->
  moved L L' [] [] /\ (nonull L -> nonull L').
Proof.
  intros a b L L' S H. unfold rel_pile_swap in H. bind H as ra Ra. bind H as rb Rb.
  assert (E : L' = set_pile rb (get_pile ra L) (set_pile ra (get_pile rb L) L)) by congruence. subst L'.
  assert (S1 : shape (set_pile ra (get_pile rb L) L)) by (apply shape_set_pile; exact S). split.
  - split; [apply shape_set_pile; exact S1|]. intros id. pose proof (cntL_set_pile ra (get_pile rb L) L id S).
    pose proof (cntL_set_pile rb (get_pile ra L) _ id S1) as H2. destruct (pref_eq_dec ra rb) as [<-|N].
    + rewrite get_set_pile_same in H2. lia.
    + rewrite get_set_pile_other in H2 by auto. lia.
  - intros N. apply nonull_set_pile; auto using nonull_pile. apply nonull_set_pile; auto using nonull_pile.
Qed.

Lemma cnt_cut : forall s n l id, cnt l id = (cnt (firstn s l ++ skipn (s + n) l) id + cnt (firstn n (skipn s l)) id)%nat.
Proof.
  intros s n l id. pose proof (f_equal (fun l => cnt l id) (split3 _ s n l)) as H. cbv beta in H.
  rewrite !cnt_app in *. lia.
Qed.
Lemma all_some_firstn : forall n l, all_some l -> all_some (firstn n l).
Proof. intros n l A I. apply A. rewrite <- (firstn_skipn n l). apply in_or_app. left. exact I. Qed.
Lemma all_some_skipn : forall n l, all_some l -> all_some (skipn n l).
Proof. intros n l A I. apply A. rewrite <- (firstn_skipn n l). apply in_or_app. right. exact I. Qed.
Lemma all_some_rev : forall l, all_some l -> all_some (rev l).
Proof. intros l A I. apply A. apply in_rev. exact I. Qed.

Lemma rel_splice_moved : forall from count to rev_ L L', shape L -> rel_pile_splice from count to rev_ L = Ok L' ->
  moved L L' [] [] /\ (nonull L -> nonull L').
Proof.
  intros from count to rev_ L L' S H. unfold rel_pile_splice in H. bind H as r1 R1. destruct (negb _); [discriminate|].
  bind H as r2 R2. cbv zeta in H. destruct (_ <=? _) in H; [|discriminate].
  remember (N.to_nat count) as n. remember (N.to_nat (p_seq from)) as s. remember (N.to_nat (p_seq to)) as t.
  set (cut := firstn n (skipn s (get_pile r1 L))) in *. set (cache := if rev_ then rev cut else cut) in *.
  set (l1' := firstn s (get_pile r1 L) ++ skipn (s + n) (get_pile r1 L)) in *.
  set (L1 := set_pile r1 l1' L) in *. set (l2 := get_pile r2 L1) in *.
  assert (E : L' = set_pile r2 (firstn t l2 ++ cache ++ skipn t l2) L1) by congruence. subst L'.
  assert (S1 : shape L1) by (apply shape_set_pile; exact S). split.
  - split; [apply shape_set_pile; exact S1|]. intros id. pose proof (cntL_set_pile r1 l1' L id S) as H1. fold L1 in H1.
    pose proof (cntL_set_pile r2 (firstn t l2 ++ cache ++ skipn t l2) L1 id S1) as H2. fold l2 in H2.
    rewrite !cnt_app in H2. rewrite (cnt_split t l2 id) in H2.
    pose proof (cnt_cut s n (get_pile r1 L) id) as H3. fold l1' cut in H3.
    assert (H4 : cnt cache id = cnt cut id) by (unfold cache; destruct rev_; [apply cnt_rev|reflexivity]). lia.
  - intros N. assert (A : all_some (get_pile r1 L)) by (apply nonull_pile; exact N).
    assert (N1 : nonull L1).
    { apply nonull_set_pile; auto. apply all_some_app. split; [apply all_some_firstn|apply all_some_skipn]; exact A. }
    apply nonull_set_pile; auto. assert (A2 : all_some l2) by (apply nonull_pile; exact N1).
    apply all_some_app. split; [apply all_some_firstn; exact A2|]. apply all_some_app. split; [|apply all_some_skipn; exact A2].
    unfold cache. destruct rev_; [apply all_some_rev|]; apply all_some_firstn, all_some_skipn; exact A.
Qed.

(** ** Frames *)

Section Cards.
Variable C : Type.
Variable c0 : C.

(** The live cards are those on the board and [s]. *)
Record books (f : frame C) (s : list ptr) : Prop := {
  bk_shape : shape (f_lay f);
  bk_cnt : forall id, (cntL (f_lay f) id + cnt s id = hcnt C (f_heap f) id)%nat;
  bk_nodup : NoDup (map fst (f_heap f));
  bk_lt : forall id, In id (map fst (f_heap f)) -> id < f_next f
}.

Lemma books_moved : forall f s L out, books f s -> moved (f_lay f) L [] out -> books (with_lay f L) (out ++ s).
Proof.
  intros f s L out [A B D E] [S M]. split; cbn [with_lay f_lay f_heap f_next]; auto.
  intros id. specialize (B id). specialize (M id). rewrite cnt_app. rewrite cnt_nil in M. lia.
Qed.

Lemma books_new : forall f s, books f s -> hcnt C (f_heap f) (f_next f) = 0%nat.
Proof.
  intros f s [A B D E]. unfold hcnt. apply count_occ_not_In. intros I. apply E in I. lia.
Qed.

Lemma books_add : forall p f s c f', books f s -> rel_card_add c0 p f = Ok (c, f') ->
  books f' (under p (f_lay f) ++ s) /\ (nonull (f_lay f) -> nonull (f_lay f')).
Proof.
  intros p f s c f' B H. unfold rel_card_add, construct_card in H. cbn [f_lay] in H. bind H as L I.
  assert (E : c = f_next f /\ f' = mkFrame (f_next f + 1) ((f_next f, c0) :: f_heap f) L) by (split; unfold with_lay in H; cbn in H; congruence).
  destruct E as [-> ->]. destruct (rel_insert_moved _ _ (bk_shape B) I) as [[S M] Nn].
  split; [|exact Nn]. destruct B as [A Bc D Lt]. split; cbn [f_lay f_heap f_next].
  - exact S.
  - intros id. specialize (M id). specialize (Bc id). rewrite hcnt_cons, cnt_app. lia.
  - cbn [map fst]. constructor; [|exact D]. intros I'. apply Lt in I'. lia.
  - cbn [map fst In]. intros id [<-|I']; [lia|]. apply Lt in I'. lia.
Qed.

Lemma rel_destruct_run : forall c (f : frame C) f', hcnt C (f_heap f) c <> 0%nat -> rel_destruct_card c f = Ok f' ->
  exists h, heap_remove c (f_heap f) = Some h /\ f' = mkFrame (f_next f) h (f_lay f).
Proof.
  intros c f f' N H. unfold rel_destruct_card in H. destruct (heap_remove_In _ c (f_heap f)) as [h E].
  { apply (count_occ_In N.eq_dec). unfold hcnt in N. lia. }
  rewrite E in H. exists h. split; [exact E|congruence].
Qed.

(** A live card taken off the board is destroyed. *)
Lemma books_destruct : forall f s L c f', books f s -> moved (f_lay f) L [] [Some c] ->
  rel_destruct_card c (with_lay f L) = Ok f' -> books f' s /\ f_lay f' = L.
Proof.
  intros f s L c f' [A B D E] [S M] H.
  destruct (rel_destruct_run c (with_lay f L)) with (2 := H) as (h & R & ->).
  { cbn [with_lay f_heap]. specialize (B c). specialize (M c). rewrite cnt_single, cnt_nil in M. lia. }
  split; [|reflexivity]. cbn [with_lay f_heap f_next f_lay] in *. split; cbn [f_heap f_next f_lay].
  - exact S.
  - intros id. specialize (B id). specialize (M id). pose proof (hcnt_remove _ _ _ _ id R). rewrite cnt_nil in M. lia.
  - eapply nodup_remove; eauto.
  - intros id I. apply E. eapply in_remove; eauto.
Qed.

Lemma books_remove : forall p f s f', books f s -> rel_card_remove p f = Ok f' ->
  books f' s /\ (nonull (f_lay f) -> nonull (f_lay f')).
Proof.
  intros p f s f' B H. unfold rel_card_remove in H. bind H as [c L] E.
  destruct (rel_erase_moved _ (bk_shape B) E) as [M N]. destruct (books_destruct B M H) as [B' ->]. auto.
Qed.

Lemma books_grow : forall n r f s, books f s -> books (grow_pile c0 n r f) s /\ (nonull (f_lay f) -> nonull (f_lay (grow_pile c0 n r f))).
Proof.
  induction n as [|n IH]; intros r f s B; [auto|]. cbn [grow_pile]. unfold construct_card. cbn [f_lay].
  match goal with |- books (grow_pile _ _ _ ?g) _ /\ _ => destruct (IH r g s) as [B' N'] end.
  - destruct B as [S Bc D Lt]. split; cbn [with_lay f_lay f_heap f_next].
    + apply shape_set_pile; exact S.
    + intros id. pose proof (cntL_set_pile r (get_pile r (f_lay f) ++ [Some (f_next f)]) (f_lay f) id S) as H.
      rewrite cnt_app in H. rewrite hcnt_cons. specialize (Bc id). lia.
    + cbn [map fst]. constructor; [|exact D]. intros I'. apply Lt in I'. lia.
    + cbn [map fst In]. intros id [<-|I']; [lia|]. apply Lt in I'. lia.
  - split; [exact B'|]. intros N. apply N'. cbn [with_lay f_lay]. apply nonull_set_pile; [apply (bk_shape B)|exact N|].
    apply all_some_app. split; [apply nonull_pile; exact N|]. intros [X|[]]; discriminate.
Qed.

Lemma books_shrink : forall n r f s f', books f s -> rel_shrink_pile n r f = Ok f' ->
  books f' s /\ (nonull (f_lay f) -> nonull (f_lay f')).
Proof.
  induction n as [|n IH]; intros r f s f' B H; cbn [rel_shrink_pile] in H.
  - assert (f' = f) by congruence. subst. auto.
  - bind H as c Q. apply or_ub_Ok in Q. bind H as id X. unfold deref in X. apply or_ub_Ok in X. subst c. bind H as f1 F.
    pose proof (firstn_last _ _ _ Q) as FL. set (l := get_pile r (f_lay f)) in *.
    assert (M : moved (f_lay f) (set_pile r (firstn (length l - 1) l) (f_lay f)) [] [Some id]).
    { apply moved_pile; [apply (bk_shape B)|]. intros x. fold l. rewrite FL at 3. rewrite cnt_app, cnt_nil. lia. }
    destruct B as [S Bc D Lt].
    destruct (rel_destruct_run id f) with (2 := F) as (h & R & ->).
    { destruct M as [_ M]. specialize (M id). specialize (Bc id). rewrite cnt_single, cnt_nil in M. lia. }
    cbn [f_lay] in H. eapply IH in H.
    + destruct H as [B' N']. split; [exact B'|]. intros N. apply N'. cbn [with_lay f_lay]. apply nonull_set_pile; auto.
      apply all_some_firstn, nonull_pile; exact N.
    + split; cbn [with_lay f_lay f_heap f_next].
      * apply M.
      * intros x. destruct M as [_ M]. specialize (M x). specialize (Bc x). pose proof (hcnt_remove _ _ _ _ x R). rewrite cnt_nil in M. lia.
      * eapply nodup_remove; eauto.
      * intros x I. apply Lt. eapply in_remove; eauto.
Qed.

Lemma books_resize : forall p n f s f', books f s -> rel_pile_resize c0 p n f = Ok f' ->
  books f' s /\ (nonull (f_lay f) -> nonull (f_lay f')).
Proof.
  intros p n f s f' B H. unfold rel_pile_resize in H. bind H as r R. bind H as f1 E. assert (f' = f1) by congruence. subst f'.
  destruct (_ <? n) in E.
  - assert (f1 = grow_pile c0 (N.to_nat (n - lenN (get_pile r (f_lay f)))) r f) by congruence. subst f1. apply books_grow. exact B.
  - destruct (n <? _) in E; [eapply books_shrink; eauto|]. assert (f1 = f) by congruence. subst. auto.
Qed.

Lemma rel_destruct_all_run : forall l (f : frame C) f', (forall id, cnt l id <= hcnt C (f_heap f) id)%nat ->
  rel_destruct_all l f = Ok f' ->
  f_lay f' = f_lay f /\ f_next f' = f_next f /\ (forall id, hcnt C (f_heap f') id + cnt l id = hcnt C (f_heap f) id)%nat /\
  (NoDup (map fst (f_heap f)) -> NoDup (map fst (f_heap f'))) /\ (forall id, In id (map fst (f_heap f')) -> In id (map fst (f_heap f))).
Proof.
  induction l as [|c l IH]; intros f f' Le H; cbn [rel_destruct_all] in H.
  - assert (f' = f) by congruence. subst. repeat split; auto.
  - bind H as id X. unfold deref in X. apply or_ub_Ok in X. subst c. bind H as f1 F.
    destruct (rel_destruct_run id f) with (2 := F) as (h & R & ->).
    { specialize (Le id). rewrite cnt_cons, cnt_single in Le. lia. }
    apply IH in H.
    2: { intros x. cbn [f_heap]. specialize (Le x). rewrite cnt_cons in Le. pose proof (hcnt_remove _ _ _ _ x R). lia. }
    destruct H as (A & B & D & E & G). cbn [f_lay f_next f_heap] in *. repeat split; auto.
    + intros x. specialize (D x). rewrite cnt_cons. pose proof (hcnt_remove _ _ _ _ x R). lia.
    + intros N. apply E. eapply nodup_remove; eauto.
    + intros x I. eapply in_remove; eauto.
Qed.

Lemma books_clear_pile : forall r f s f', books f s -> rel_clear_pile r f = Ok f' ->
  books f' s /\ (nonull (f_lay f) -> nonull (f_lay f')).
Proof.
  intros r f s f' [S B D Lt] H. unfold rel_clear_pile in H. bind H as f1 E.
  assert (Hc : forall id, (cntL (set_pile r [] (f_lay f)) id + cnt (get_pile r (f_lay f)) id = cntL (f_lay f) id)%nat).
  { intros id. pose proof (cntL_set_pile r [] (f_lay f) id S) as K. rewrite cnt_nil in K. lia. }
  apply rel_destruct_all_run in E.
  2: { intros id. specialize (B id). specialize (Hc id). lia. }
  destruct E as (E1 & E2 & E3 & E4 & E5). assert (f' = with_lay f1 (set_pile r [] (f_lay f1))) by congruence. subst f'. rewrite E1.
  split; [split; cbn [with_lay f_lay f_heap f_next]|].
  - apply shape_set_pile; exact S.
  - intros id. specialize (B id). specialize (Hc id). specialize (E3 id). lia.
  - auto.
  - rewrite E2. auto.
  - intros N. cbn [with_lay f_lay]. apply nonull_set_pile; auto. intros [].
Qed.

Lemma books_clear_zone : forall r f s f', books f s -> rel_clear_zone r f = Ok f' ->
  books f' s /\ (nonull (f_lay f) -> nonull (f_lay f')).
Proof.
  intros r f s f' [S B D Lt] H. unfold rel_clear_zone in H. bind H as z Z. apply read_zone_Ok in Z. bind H as f1 E. bind H as f2 F.
  assert (Hc : forall id, (cntL (set_zone r zone0 (f_lay f)) id + zcnt z id = cntL (f_lay f) id)%nat).
  { intros id. pose proof (cntL_set_zone r zone0 z (f_lay f) id S Z) as K. unfold zcnt in *. cbn [zone0 z_card z_mats card_list] in K.
    rewrite !cnt_nil in K. lia. }
  assert (F1 : f_lay f1 = f_lay f /\ f_next f1 = f_next f /\
    (forall id, hcnt C (f_heap f1) id + cnt (card_list (z_card z)) id = hcnt C (f_heap f) id)%nat /\
    (NoDup (map fst (f_heap f1))) /\ (forall id, In id (map fst (f_heap f1)) -> In id (map fst (f_heap f)))).
  { destruct (z_card z) as [c|] eqn:X.
    - destruct (rel_destruct_run c f) with (2 := E) as (h & R & ->).
      { specialize (B c). specialize (Hc c). unfold zcnt in Hc. rewrite X in Hc. cbn [card_list] in Hc. rewrite cnt_single in Hc. lia. }
      cbn [f_lay f_next f_heap]. repeat split; auto.
      + intros id. apply hcnt_remove. exact R.
      + eapply nodup_remove; eauto.
      + intros id. eapply in_remove; eauto.
    - assert (f1 = f) by congruence. subst f1. repeat split; auto. }
  destruct F1 as (A1 & A2 & A3 & A4 & A5). apply rel_destruct_all_run in F.
  2: { intros id. specialize (B id). specialize (Hc id). specialize (A3 id). unfold zcnt in Hc. lia. }
  destruct F as (E1 & E2 & E3 & E4 & E5). assert (f' = with_lay f2 (set_zone r zone0 (f_lay f2))) by congruence. subst f'. rewrite E1, A1.
  split; [split; cbn [with_lay f_lay f_heap f_next]|].
  - apply shape_set_zone; exact S.
  - intros id. specialize (B id). specialize (Hc id). specialize (A3 id). specialize (E3 id). unfold zcnt in Hc. lia.
  - auto.
  - rewrite E2, A2. auto.
  - intros N. cbn [with_lay f_lay]. apply nonull_set_zone; auto; [congruence|]. intros [].
Qed.

Lemma books_fold : forall A (g : A -> frame C -> outcome (frame C)) s,
  (forall a f f', books f s -> g a f = Ok f' -> books f' s /\ (nonull (f_lay f) -> nonull (f_lay f'))) ->
  forall l f f', books f s -> ofold g l f = Ok f' -> books f' s /\ (nonull (f_lay f) -> nonull (f_lay f')).
Proof.
  intros A g s K. induction l as [|a l IH]; intros f f' B H; cbn [ofold] in H.
  - assert (f' = f) by congruence. subst. auto.
  - bind H as f1 E. destruct (K _ _ _ B E) as [B1 N1]. destruct (IH _ _ B1 H) as [B2 N2]. auto.
Qed.

Lemma books_clear : forall f s f', books f s -> rel_clear f = Ok f' -> books f' s /\ (nonull (f_lay f) -> nonull (f_lay f')).
Proof.
  intros f s f' B H. unfold rel_clear in H. bind H as f1 E.
  destruct (@books_fold _ (@rel_clear_pile C) s (fun r f f' Bk K => @books_clear_pile r f s f' Bk K) all_prefs _ _ B E) as [B1 N1].
  destruct (@books_fold _ (@rel_clear_zone C) s (fun r f f' Bk K => @books_clear_zone r f s f' Bk K) all_zrefs _ _ B1 H) as [B2 N2]. auto.
Qed.

Lemma books_step : forall o f s f', books f s -> rel_fstep c0 o f = Ok f' ->
  exists out, books f' (out ++ s) /\
    (match o with
     | OpAdd p => out = under p (f_lay f)
     | OpMove a b => (slot a = slot b -> out = []) /\ (slot a <> slot b -> out = under b (f_lay f))
     | _ => out = []
     end) /\
    (nonull (f_lay f) -> careful o (f_lay f) -> nonull (f_lay f')).
Proof.
  assert (Lf : forall (op : layout -> outcome layout) (G : Prop) f s f', books f s ->
    (forall L', op (f_lay f) = Ok L' -> moved (f_lay f) L' [] [] /\ (nonull (f_lay f) -> G -> nonull L')) ->
    lift op f = Ok f' -> books f' s /\ (nonull (f_lay f) -> G -> nonull (f_lay f'))).
  { intros op G f s f' B K H. unfold lift in H. bind H as L E. destruct (K _ E) as [M N].
    assert (f' = with_lay f L) by congruence. subst f'. split; [apply (books_moved B M)|exact N]. }
  intros o f s f' B H. pose proof (bk_shape B) as S. destruct o; cbn [rel_fstep careful] in *.
  - bind H as [c f1] E. assert (f' = f1) by congruence. subst f'.
    destruct (books_add _ B E) as (B1 & N1). eexists. split; [exact B1|]. auto.
  - destruct (books_remove _ B H) as [B1 N1]. exists []. cbn; auto.
  - bind H as [c f1] E. assert (f' = f1) by congruence. subst f'. unfold rel_f_card_move in E. bind E as [c' L] M. bind E as u U.
    assert (f1 = with_lay f L) by congruence. subst f1. destruct (rel_move_moved _ _ S M) as (out & Mv & N1 & O1 & O2).
    exists out. split; [apply books_moved; assumption|]. auto.
  - apply (Lf _ ((vacant a (f_lay f) -> for_card b) /\ (vacant b (f_lay f) -> for_card a)) _ s) in H; [|exact B|].
    2: { intros L' E. destruct (rel_swap_moved _ _ S E) as [M N]. split; [exact M|]. intros N0 [G1 G2]. auto. }
    destruct H as [B1 N1]. exists []. cbn; auto.
  - apply (Lf _ True _ s) in H; [|exact B|].
    2: { intros L' E. destruct (rel_card_shuffle_moved _ _ S E) as [M N]. auto. }
    destruct H as [B1 N1]. exists []. cbn; auto.
  - destruct (books_resize _ _ B H) as [B1 N1]. exists []. cbn; auto.
  - apply (Lf _ True _ s) in H; [|exact B|].
    2: { intros L' E. destruct (rel_splice_moved _ _ _ _ S E) as [M N]. auto. }
    destruct H as [B1 N1]. exists []. cbn; auto.
  - apply (Lf _ True _ s) in H; [|exact B|].
    2: { intros L' E. destruct (rel_pile_swap_moved _ _ S E) as [M N]. auto. }
    destruct H as [B1 N1]. exists []. cbn; auto.
  - destruct (books_clear B H) as [B1 N1]. exists []. cbn; auto.
Qed.

Lemma books0 : books frame0 [].
Proof.
  destruct (inv0 C) as [[S N] B D E]. split; auto.
Qed.

Lemma books_run : forall ops f s f', books f s -> rel_frun c0 ops f = Ok f' -> exists out, books f' (out ++ s).
Proof.
  induction ops as [|o ops IH]; intros f s f' B H; unfold rel_frun in H; cbn [ofold] in H.
  - assert (f' = f) by congruence. subst. exists []. exact B.
  - bind H as f1 E. destruct (books_step o B E) as (out & B1 & _). destruct (IH _ _ _ B1 H) as (out' & B2).
    exists (out' ++ out). rewrite <- app_assoc. exact B2.
Qed.

(** ** Cards at positions *)

Lemma all_cont : forall L k id, shape L -> (0 < cnt (contents k L) id)%nat -> In k all_conts.
Proof.
  intros L k id S P. apply in_all_conts. destruct (valid_cont_dec k) as [V|V]; auto. exfalso.
  rewrite contents_invalid in P by auto. rewrite cnt_nil in P. lia.
Qed.

Lemma cntL_at : forall L id, shape L -> (0 < cntL L id)%nat <-> exists pos, occupant L pos = Some (Some id).
Proof.
  intros L id S. split.
  - intros P. unfold cntL in P. destruct (sum_over_pos _ (fun k => cnt (contents k L) id) all_conts P) as [k [Ik Pk]].
    apply cnt_In in Pk. apply In_nth_error in Pk. destruct Pk as [i E]. exists (k, i). exact E.
  - intros [[k i] E]. unfold occupant in E. cbn [fst snd] in E.
    assert (Pk : (0 < cnt (contents k L) id)%nat) by (apply cnt_In; eapply nth_error_In; eauto).
    pose proof (sum_over_In _ (fun k => cnt (contents k L) id) all_conts k (all_cont _ _ S Pk)).
    unfold cntL. cbv beta in *. lia.
Qed.

Lemma cntL_once : forall L id pos pos', shape L -> (cntL L id <= 1)%nat ->
  occupant L pos = Some (Some id) -> occupant L pos' = Some (Some id) -> pos = pos'.
Proof.
  intros L id [k i] [k' i'] S Le E E'. unfold occupant in *. cbn [fst snd] in *. unfold cntL in Le.
  assert (Pk : (0 < cnt (contents k L) id)%nat) by (apply cnt_In; eapply nth_error_In; eauto).
  assert (Pk' : (0 < cnt (contents k' L) id)%nat) by (apply cnt_In; eapply nth_error_In; eauto).
  pose proof (all_cont _ _ S Pk) as Ik. pose proof (all_cont _ _ S Pk') as Ik'.
  destruct (cont_eq_dec k k') as [<-|Nk].
  - destruct (Nat.eq_dec i i') as [<-|Ni]; auto. exfalso. pose proof (cnt_nth_twice _ _ _ _ Ni E E').
    pose proof (sum_over_In _ (fun k => cnt (contents k L) id) all_conts k Ik). cbv beta in *. lia.
  - exfalso. pose proof (sum_over_two _ (fun k => cnt (contents k L) id) all_conts k k' nodup_all_conts Ik Ik' Nk).
    cbv beta in *. lia.
Qed.

Lemma hcnt_live : forall f s id, books f s -> (live f id <-> hcnt C (f_heap f) id = 1%nat) /\ (hcnt C (f_heap f) id <= 1)%nat.
Proof.
  intros f s id B. unfold live, hcnt. split.
  - split; [apply NoDup_count_occ'; apply (bk_nodup B)|]. intros H. apply (count_occ_In N.eq_dec). lia.
  - apply (NoDup_count_occ N.eq_dec). apply (bk_nodup B).
Qed.

Lemma books_once : forall f s, books f s -> once f.
Proof.
  intros f s B. split.
  - intros pos pos' id. apply cntL_once; [apply (bk_shape B)|]. pose proof (bk_cnt B id). pose proof (hcnt_live id B) as [_ K]. lia.
  - intros pos id E. apply (hcnt_live id B). assert (P : (0 < cntL (f_lay f) id)%nat) by (apply cntL_at; [apply (bk_shape B)|eauto]).
    pose proof (bk_cnt B id). pose proof (hcnt_live id B) as [_ K]. lia.
Qed.

Lemma books_lost : forall f s id, books f s -> lost f id <-> In (Some id) s.
Proof.
  intros f s id B. pose proof (bk_cnt B id) as E. destruct (hcnt_live id B) as [K Le].
  assert (Z : cntL (f_lay f) id = 0%nat <-> forall pos, occupant (f_lay f) pos <> Some (Some id)).
  { pose proof (cntL_at id (bk_shape B)) as [A A']. split.
    - intros Z pos Q. assert (0 < cntL (f_lay f) id)%nat by (apply A'; eauto). lia.
    - intros Q. destruct (cntL (f_lay f) id) eqn:X; [reflexivity|]. destruct A as [pos P]; [lia|]. exfalso. eapply Q; eauto. }
  rewrite <- cnt_In. unfold lost. rewrite K, <- Z. lia.
Qed.

Lemma books_conserved : forall f, books f [] -> nonull (f_lay f) -> conserved f.
Proof.
  intros f B N. apply inv_conserved. split.
  - split; [apply (bk_shape B)|exact N].
  - intros id. pose proof (bk_cnt B id) as E. rewrite cnt_nil in E. lia.
  - apply (bk_nodup B).
  - apply (bk_lt B).
Qed.
End Cards.
