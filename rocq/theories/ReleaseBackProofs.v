(** Undoing without assertions. *)
From Verif Require Import Base BaseProofs Place Frame FrameSpec FrameLens FrameProofs FrameMove FrameOps FramePiles FrameInv
  FrameShuffle FrameFacts HazardSpec HazardProofs Release ReleaseSpec ReleaseProofs ReleaseFrameSpec ReleaseFrameProofs AssertSpec AssertProofs.

Set Implicit Arguments.
Local Open Scope N_scope.

Local Tactic Notation "bind" hyp(H) "as" simple_intropattern(x) ident(E) := apply obind_Ok in H; destruct H as (x & E & H).

(** ** Adding, removing and moving *)
Lemma remove_there : forall p c L L', shape L -> rel_card_erase p L = Ok (c, L') -> rel_card_insert p c L' = Ok L.
Proof. intros p c L L' S H. apply keeps_card_insert. apply insert_erase; [exact S|]. apply erase_back; assumption. Qed.
Lemma add_there : forall p c L L', shape L -> rel_card_insert p c L = Ok L' -> under p L = [] -> rel_card_erase p L' = Ok (c, L).
Proof. intros p c L L' S H U. apply keeps_card_erase. apply erase_insert; [exact S|]. apply (insert_back _ _ S H). exact U. Qed.

Lemma erase_pile : forall p c L L1, is_pile p = true -> rel_card_erase p L = Ok (c, L1) ->
  exists r l, rel_pile_of p = Ok r /\ rel_take_at (get_pile r L) (p_seq p) = Ok (Some c, l) /\ L1 = set_pile r l L.
Proof.
  intros p c L L1 P E. unfold rel_card_erase in E. rewrite P in E. bind E as r R. cbv zeta in E. bind E as q Q. bind E as x X.
  destruct q as [q|]; [|discriminate X]. cbn [deref or_ub] in X. exists r, (remove_nth (N.to_nat (p_seq p)) (get_pile r L)).
  split; [exact R|]. split; [|congruence]. unfold rel_take_at. destruct (p_seq p <? lenN (get_pile r L)); [|discriminate Q].
  rewrite Q. cbn [obind]. congruence.
Qed.
Lemma move_simple_run : forall a b c L L1 L', is_pile a || is_pile b || negb (not_mat a && not_mat b) = true ->
  rel_card_erase a L = Ok (c, L1) -> rel_card_insert b c L1 = Ok L' -> rel_card_move a b L = Ok (c, L').
Proof.
  intros a b c L L1 L' B E I. pose proof (@erase_pile a c L L1) as EP. unfold rel_card_insert in I. unfold rel_card_move. cbv zeta.
  destruct (is_pile a) eqn:Pa; [apply EP in E; [|reflexivity]|unfold rel_card_erase in E; rewrite Pa in E]; clear EP; destruct (is_pile b); cbn [andb orb negb] in *.
  - destruct E as (r1 & l1 & R1 & T & ->). bind I as r2 R2. bind I as l2 J.
    rewrite R1. cbn [obind]. rewrite R2. cbn [obind]. rewrite T. cbn [obind]. rewrite J. cbn [obind deref or_ub]. congruence.
  - destruct E as (r1 & l1 & R1 & T & ->). bind I as r2 R2. bind I as z Z.
    rewrite R1. cbn [obind]. rewrite T. cbn [obind]. rewrite R2. cbn [obind]. rewrite Z. cbn [obind]. destruct (not_mat b).
    + cbn [deref or_ub obind]. congruence.
    + bind I as m J. rewrite J. cbn [deref or_ub obind]. congruence.
  - bind E as r1 R1. bind E as z Z. rewrite R1. cbn [obind]. rewrite Z. cbn [obind]. destruct (not_mat a).
    + bind E as x X. assert (x = c /\ L1 = set_zone r1 (mkZone None (z_mats z)) L) as [-> ->] by (split; congruence).
      cbn [obind]. bind I as r2 R2. bind I as l2 J. rewrite R2. cbn [obind].
      assert (z_card z = Some c) as -> by (destruct (z_card z); [cbn in X; congruence|discriminate X]). rewrite J. cbn [deref or_ub obind]. congruence.
    + bind E as [q m] T. bind E as x X. assert (x = c /\ L1 = set_zone r1 (mkZone (z_card z) m) L) as [-> ->] by (split; congruence).
      rewrite T. cbn [obind]. bind I as r2 R2. bind I as l2 J. rewrite R2. cbn [obind].
      assert (q = Some c) as -> by (destruct q; [cbn in X; congruence|discriminate X]). rewrite J. cbn [deref or_ub obind]. congruence.
  - bind E as r1 R1. bind E as z Z. bind I as r2 R2. rewrite R1, R2. cbn [obind]. destruct (not_mat a), (not_mat b); cbn [andb negb orb] in *; [discriminate B| | |].
    + bind E as x X. assert (x = c /\ L1 = set_zone r1 (mkZone None (z_mats z)) L) as [-> ->] by (split; congruence).
      rewrite Z. cbn [obind]. bind I as z2 Z2. bind I as m J. rewrite Z2. cbn [obind].
      assert (z_card z = Some c) as -> by (destruct (z_card z); [cbn in X; congruence|discriminate X]). rewrite J. cbn [deref or_ub obind]. congruence.
    + bind E as [q m] T. bind E as x X. assert (x = c /\ L1 = set_zone r1 (mkZone (z_card z) m) L) as [-> ->] by (split; congruence).
      rewrite Z. cbn [obind]. rewrite T. cbn [obind]. bind I as z2 Z2. rewrite Z2. cbn [obind].
      assert (q = Some c) as -> by (destruct q; [cbn in X; congruence|discriminate X]). cbn [deref or_ub obind]. congruence.
    + bind E as [q m] T. bind E as x X. assert (x = c /\ L1 = set_zone r1 (mkZone (z_card z) m) L) as [-> ->] by (split; congruence).
      rewrite Z. cbn [obind]. rewrite T. cbn [obind]. bind I as z2 Z2. bind I as m' J. rewrite Z2. cbn [obind].
      assert (q = Some c) as -> by (destruct q; [cbn in X; congruence|discriminate X]). rewrite J. cbn [deref or_ub obind]. congruence.
Qed.

Lemma move_cards_run : forall a b c L r1 r2 z1 z2, shape L -> is_pile a || is_pile b || negb (not_mat a && not_mat b) = false ->
  slot a = Some (CCard r1, 0%nat) -> slot b = Some (CCard r2, 0%nat) -> get_zone r1 L = Some z1 -> get_zone r2 L = Some z2 ->
  z_card z1 = Some c -> r1 <> r2 -> rel_card_move a b L = Ok (c, set_zone r1 (mkZone None (z_mats z2)) (set_zone r2 z1 L)).
Proof.
  intros a b c L r1 r2 z1 z2 S B Sa Sb G1 G2 Zc Ne. unfold rel_card_move. cbv zeta.
  destruct (slot_rel _ Sa) as [(x & Pa & Ra & Ra')|(x & Pa & Ra & Ra')]; [rewrite Pa in B; discriminate B|].
  destruct (slot_rel _ Sb) as [(y & Pb & Rb & Rb')|(y & Pb & Rb & Rb')]; [rewrite Pb, orb_true_r in B; discriminate B|].
  rewrite Pa, Pb in *. cbn [orb andb negb] in *. destruct (not_mat a) eqn:Na, (not_mat b) eqn:Nb; try discriminate B. cbn [andb].
  assert (x = r1 /\ y = r2) as [-> ->].
  { pose proof (proj1 (zone_of_slot _ _) Ra') as X. pose proof (proj1 (zone_of_slot _ _) Rb') as Y. unfold zslot in X, Y. rewrite Na in X. rewrite Nb in Y.
    split; congruence. }
  rewrite Ra, Rb. cbn [obind]. unfold read_zone.
  rewrite G1. cbn [or_ub obind]. rewrite get_set_zone_other by congruence. rewrite G2. cbn [or_ub obind].
  rewrite (@get_set_zone_other r2 r1) by congruence. rewrite (@get_set_zone_same r1) by congruence. cbn [or_ub obind].
  rewrite (@get_set_zone_same r2) by (rewrite get_set_zone_other by congruence; congruence). cbn [or_ub obind z_card z_mats].
  rewrite set_set_zone. rewrite (@get_set_zone_other r2 r1) by congruence. rewrite (@get_set_zone_same r1) by congruence. cbn [or_ub obind z_card z_mats].
  rewrite Zc. cbn [deref or_ub obind]. f_equal. f_equal.
  rewrite (@set_zone_comm r2 r1) by congruence. rewrite set_set_zone. f_equal. f_equal. destruct z1; cbn in *; congruence.
Qed.

Lemma mode_comm : forall a b, is_pile b || is_pile a || negb (not_mat b && not_mat a) = is_pile a || is_pile b || negb (not_mat a && not_mat b).
Proof. intros. destruct (is_pile a), (is_pile b), (not_mat a), (not_mat b); reflexivity. Qed.
Lemma move_there : forall a b c L L', shape L -> rel_card_move a b L = Ok (c, L') -> (slot a = slot b \/ under b L = []) ->
  rel_card_move b a L' = Ok (c, L).
Proof.
  intros a b c L L' S H U. destruct (is_pile a || is_pile b || negb (not_mat a && not_mat b)) eqn:B.
  - destruct (rel_move_simple _ _ _ B H) as (L1 & E & I).
    assert (S1 : shape L1). { destruct (rel_erase_moved _ S E) as [[X _] _]. exact X. }
    destruct (slot_from_erase _ S E) as (pa & Sa & Oa). destruct (slot_from_insert _ _ S1 I) as (pb & Sb).
    assert (U1 : under b L1 = []).
    { rewrite (@under_erase a b c L L1 S B E) by congruence. destruct U as [Q|U]; [|exact U].
      unfold under. destruct (slot b) as [[[r|r|r] i]|] eqn:X; try reflexivity. exfalso.
      destruct (slot_inv _ _ _ X) as [(r' & _ & _ & Y & _)|(r' & Pb & Zb & Y)]; [discriminate Y|].
      destruct (slot_inv _ _ _ Q) as [(r'' & _ & _ & Y' & _)|(r'' & Pa & Za & Y')]; [discriminate Y'|].
      unfold zslot in Y, Y'. rewrite Pa, Pb in B. destruct (not_mat a), (not_mat b); discriminate. }
    eapply move_simple_run; [rewrite mode_comm; exact B|apply add_there; [exact S1|exact I|exact U1]|apply remove_there; [exact S|exact E]].
  - destruct (rel_move_cards _ _ S B H) as (r1 & r2 & z1 & z2 & Sa & Sb & G1 & G2 & Zc & R).
    destruct R as [[<- ->]|[Ne ->]].
    + assert (Q : slot b = slot a) by congruence. clear U.
      rewrite <- H. unfold rel_card_move. cbv zeta. rewrite mode_comm in B || idtac.
      assert (Z : rel_zone_of b = rel_zone_of a).
      { destruct (slot_rel _ Sa) as [(x & Pa & Ra & Ra')|(x & Pa & Ra & Ra')]; [rewrite Pa in B; cbn in B; rewrite ?orb_true_r in B; discriminate B|].
        destruct (slot_rel _ Sb) as [(y & Pb & Rb & Rb')|(y & Pb & Rb & Rb')]; [rewrite Pb in B; cbn in B; rewrite ?orb_true_r in B; discriminate B|].
        pose proof (proj1 (zone_of_slot _ _) Ra') as X. pose proof (proj1 (zone_of_slot _ _) Rb') as Y. unfold zslot in X, Y.
        destruct (not_mat a), (not_mat b); congruence. }
      rewrite Z. destruct (is_pile a), (is_pile b), (not_mat a), (not_mat b); cbn [andb orb negb] in *; try discriminate B. reflexivity.
    + assert (Zn : z_card z2 = None).
      { destruct U as [Q|U]; [congruence|]. unfold under in U. rewrite Sb in U. cbn [contents] in U. rewrite G2 in U. destruct (z_card z2); [discriminate U|reflexivity]. }
      assert (Gn : get_zone r2 (set_zone r2 z1 L) = Some z1) by (apply get_set_zone_same; congruence).
      rewrite (@move_cards_run b a c _ r2 r1 z1 (mkZone None (z_mats z2))); try assumption.
      * f_equal. f_equal. cbn [z_mats]. rewrite set_set_zone. rewrite (@set_zone_comm r1 r2) by congruence. rewrite set_set_zone.
        rewrite (@set_zone_id r1) by assumption. apply set_zone_id. destruct z2; cbn in *; congruence.
      * apply shape_set_zone. apply shape_set_zone. exact S.
      * rewrite mode_comm. exact B.
      * rewrite get_set_zone_other by congruence. exact Gn.
      * apply get_set_zone_same. rewrite get_set_zone_other by congruence. congruence.
      * congruence.
Qed.

(** ** Exchanging *)
Lemma set_pile_zone : forall r z q l L, set_pile q l (set_zone r z L) = set_zone r z (set_pile q l L).
Proof. intros [[c zl] i] z [[] []] l []; reflexivity. Qed.
Definition lv_zone (v : lval) : option zref := match v with LvPile _ _ => None | LvCard r | LvMat r _ => Some r end.
Lemma lval_dec : forall a b : lval, {a = b} + {a <> b}.
Proof. decide equality; (apply N.eq_dec || apply pref_eq_dec || apply zref_eq_dec). Qed.
Lemma write_id : forall v x L, read_lval v L = Ok x -> write_lval v x L = Ok L.
Proof.
  intros [r i|r|r i] x L H; cbn [read_lval write_lval] in *.
  - rewrite H. cbn [obind]. f_equal. apply nth_ptr_Ok in H. rewrite upd_id by exact H. apply set_pile_id.
  - bind H as z Z. rewrite Z. cbn [obind]. f_equal. apply read_zone_Ok in Z. apply set_zone_id. destruct z; cbn in *; congruence.
  - bind H as z Z. rewrite Z. cbn [obind]. rewrite H. cbn [obind]. f_equal. apply read_zone_Ok in Z. apply nth_ptr_Ok in H. rewrite upd_id by exact H.
    apply set_zone_id. destruct z; cbn in *; congruence.
Qed.
Lemma nth_ptr_len : forall l l' i x, length l = length l' -> nth_ptr l i = Ok x -> exists y, nth_ptr l' i = Ok y.
Proof.
  intros l l' i x E H. apply nth_ptr_Ok in H. assert (N.to_nat i < length l')%nat by (rewrite <- E; apply nth_error_Some; congruence).
  destruct (nth_error l' (N.to_nat i)) as [y|] eqn:Y; [|apply nth_error_None in Y; lia]. exists y. apply nth_ptr_eq. exact Y.
Qed.
Lemma write_write : forall v x y L L1, write_lval v x L = Ok L1 -> write_lval v y L1 = write_lval v y L.
Proof.
  intros [r i|r|r i] x y L L1 H; cbn [write_lval] in *.
  - bind H as q Q. injection H as <-. rewrite get_set_pile_same. rewrite Q.
    destruct (@nth_ptr_len _ (upd (N.to_nat i) x (get_pile r L)) i q (eq_sym (upd_length _ _ _)) Q) as [y' Y]. rewrite Y. cbn [obind].
    rewrite upd_upd, set_set_pile. reflexivity.
  - bind H as z Z. injection H as <-. rewrite Z. unfold read_zone. apply read_zone_Ok in Z. rewrite get_set_zone_same by congruence. cbn [or_ub obind z_mats].
    rewrite set_set_zone. reflexivity.
  - bind H as z Z. bind H as q Q. injection H as <-. rewrite Z. unfold read_zone. apply read_zone_Ok in Z. rewrite get_set_zone_same by congruence. cbn [or_ub obind z_mats z_card].
    rewrite Q. destruct (@nth_ptr_len _ (upd (N.to_nat i) x (z_mats z)) i q (eq_sym (upd_length _ _ _)) Q) as [y' Y]. rewrite Y. cbn [obind].
    rewrite upd_upd, set_set_zone. reflexivity.
Qed.
Lemma write_read : forall v x L L1, write_lval v x L = Ok L1 -> read_lval v L1 = Ok x.
Proof.
  intros [r i|r|r i] x L L1 H; cbn [read_lval write_lval] in *.
  - bind H as q Q. injection H as <-. rewrite get_set_pile_same. apply nth_ptr_Ok in Q. apply nth_ptr_eq. apply upd_same. apply nth_error_Some. congruence.
  - bind H as z Z. injection H as <-. unfold read_zone. apply read_zone_Ok in Z. rewrite get_set_zone_same by congruence. reflexivity.
  - bind H as z Z. bind H as q Q. injection H as <-. unfold read_zone. apply read_zone_Ok in Z. rewrite get_set_zone_same by congruence. cbn [or_ub obind z_mats].
    apply nth_ptr_Ok in Q. apply nth_ptr_eq. apply upd_same. apply nth_error_Some. congruence.
Qed.
(** Writing elsewhere. *)
Lemma read_other : forall a b x L L1, a <> b -> write_lval a x L = Ok L1 -> read_lval b L1 = read_lval b L.
Proof.
  intros a b x L L1 Ne H. destruct a as [r i|r|r i]; cbn [write_lval] in H.
  - bind H as q Q. injection H as <-. destruct b as [r' j|r'|r' j]; cbn [read_lval]; unfold read_zone; rewrite ?get_zone_set_pile; try reflexivity.
    destruct (pref_eq_dec r r') as [<-|N]; [|rewrite get_set_pile_other by congruence; reflexivity]. rewrite get_set_pile_same. unfold nth_ptr.
    unfold lenN. rewrite upd_length. rewrite upd_other; [reflexivity|]. intros X. apply Ne. f_equal. lia.
  - bind H as z Z. injection H as <-. apply read_zone_Ok in Z. destruct b as [r' j|r'|r' j]; cbn [read_lval]; unfold read_zone; rewrite ?get_pile_set_zone; try reflexivity.
    + rewrite get_set_zone_other by congruence. reflexivity.
    + destruct (zref_eq_dec r r') as [<-|N]; [|rewrite get_set_zone_other by congruence; reflexivity]. rewrite get_set_zone_same by congruence. rewrite Z. reflexivity.
  - bind H as z Z. bind H as q Q. injection H as <-. apply read_zone_Ok in Z. destruct b as [r' j|r'|r' j]; cbn [read_lval]; unfold read_zone; rewrite ?get_pile_set_zone; try reflexivity.
    + destruct (zref_eq_dec r r') as [<-|N]; [|rewrite get_set_zone_other by congruence; reflexivity]. rewrite get_set_zone_same by congruence. rewrite Z. reflexivity.
    + destruct (zref_eq_dec r r') as [<-|N]; [|rewrite get_set_zone_other by congruence; reflexivity]. rewrite get_set_zone_same by congruence. rewrite Z. cbn [or_ub obind z_mats].
      unfold nth_ptr, lenN. rewrite upd_length. rewrite upd_other; [reflexivity|]. intros X. apply Ne. f_equal. lia.
Qed.
Definition wr (v : lval) (x : ptr) (L : layout) : layout :=
  match v with
  | LvPile r i => set_pile r (upd (N.to_nat i) x (get_pile r L)) L
  | LvCard r => match get_zone r L with Some z => set_zone r (mkZone x (z_mats z)) L | None => L end
  | LvMat r i => match get_zone r L with Some z => set_zone r (mkZone (z_card z) (upd (N.to_nat i) x (z_mats z))) L | None => L end
  end.
Lemma write_wr : forall v x L, write_lval v x L = let! _ := read_lval v L in Ok (wr v x L).
Proof.
  intros [r i|r|r i] x L; cbn [read_lval write_lval wr]; unfold read_zone; [reflexivity| |]; destruct (get_zone r L) as [z|]; cbn [or_ub obind]; try reflexivity.
Qed.
Lemma wr_comm : forall a b x y L, a <> b -> wr b y (wr a x L) = wr a x (wr b y L).
Proof.
  intros a b x y L Ne. destruct a as [r i|r|r i], b as [r' j|r'|r' j]; cbn [wr]; rewrite ?get_zone_set_pile.
  - destruct (pref_eq_dec r r') as [<-|N].
    + rewrite !get_set_pile_same, !set_set_pile. f_equal. apply upd_comm. intros X. apply Ne. f_equal. lia.
    + rewrite !get_set_pile_other by congruence. apply set_pile_comm. congruence.
  - destruct (get_zone r' L); [|reflexivity]. rewrite get_pile_set_zone. symmetry. apply set_pile_zone.
  - destruct (get_zone r' L); [|reflexivity]. rewrite get_pile_set_zone. symmetry. apply set_pile_zone.
  - destruct (get_zone r L); [|reflexivity]. rewrite get_pile_set_zone. apply set_pile_zone.
  - destruct (zref_eq_dec r r') as [<-|N]; [congruence|].
    destruct (get_zone r L) eqn:G, (get_zone r' L) eqn:G'; rewrite ?get_set_zone_other by congruence; rewrite ?G, ?G'; try reflexivity. apply set_zone_comm. congruence.
  - destruct (zref_eq_dec r r') as [<-|N].
    + destruct (get_zone r L) eqn:G; [|rewrite G; reflexivity]. rewrite !get_set_zone_same by congruence. rewrite !set_set_zone. reflexivity.
    + destruct (get_zone r L) eqn:G, (get_zone r' L) eqn:G'; rewrite ?get_set_zone_other by congruence; rewrite ?G, ?G'; try reflexivity. apply set_zone_comm. congruence.
  - destruct (get_zone r L); [|reflexivity]. rewrite get_pile_set_zone. apply set_pile_zone.
  - destruct (zref_eq_dec r r') as [<-|N].
    + destruct (get_zone r L) eqn:G; [|rewrite G; reflexivity]. rewrite !get_set_zone_same by congruence. rewrite !set_set_zone. reflexivity.
    + destruct (get_zone r L) eqn:G, (get_zone r' L) eqn:G'; rewrite ?get_set_zone_other by congruence; rewrite ?G, ?G'; try reflexivity. apply set_zone_comm. congruence.
  - destruct (zref_eq_dec r r') as [<-|N].
    + destruct (get_zone r L) eqn:G; [|rewrite G; reflexivity]. rewrite !get_set_zone_same by congruence. rewrite !set_set_zone. cbn [z_card z_mats].
      rewrite upd_comm; [reflexivity|]. intros X. apply Ne. f_equal. lia.
    + destruct (get_zone r L) eqn:G, (get_zone r' L) eqn:G'; rewrite ?get_set_zone_other by congruence; rewrite ?G, ?G'; try reflexivity. apply set_zone_comm. congruence.
Qed.
Lemma write_comm : forall a b x y L L1 L2, a <> b -> write_lval a x L = Ok L1 -> write_lval b y L1 = Ok L2 ->
  exists L3, write_lval b y L = Ok L3 /\ write_lval a x L3 = Ok L2.
Proof.
  intros a b x y L L1 L2 Ne A B. pose proof (@read_other _ _ _ _ _ Ne A) as R. rewrite write_wr in B. rewrite R in B. bind B as q Q.
  assert (A' := A). rewrite write_wr in A'. bind A' as p P.
  assert (W : write_lval b y L = Ok (wr b y L)) by (rewrite write_wr, Q; reflexivity). exists (wr b y L). split; [exact W|].
  rewrite write_wr. rewrite (@read_other _ _ _ _ _ (not_eq_sym Ne) W). rewrite P. cbn [obind]. f_equal.
  assert (L1 = wr a x L) by congruence. subst L1. rewrite <- wr_comm by exact Ne. congruence.
Qed.
Lemma swap_lval_twice : forall a b L L', swap_lval a b L = Ok L' -> swap_lval a b L' = Ok L.
Proof.
  intros a b L L' H. unfold swap_lval in H. bind H as x X. bind H as y Y. bind H as L1 A. unfold swap_lval.
  destruct (lval_dec a b) as [<-|Ne].
  - assert (y = x) by congruence. subst y. rewrite (write_id _ _ X) in A. assert (L1 = L) by congruence. subst L1.
    rewrite (write_id _ _ X) in H. assert (L' = L) by congruence. subst L'. rewrite X. cbn [obind]. rewrite (write_id _ _ X). cbn [obind]. apply write_id. exact X.
  - rewrite (@read_other _ _ _ _ _ (not_eq_sym Ne) H). rewrite (@write_read _ _ _ _ A). cbn [obind]. rewrite (@write_read _ _ _ _ H). cbn [obind].
    destruct (@write_comm _ _ _ _ _ _ _ Ne A H) as (L3 & B & A3). rewrite (@write_write _ _ _ _ _ A3).
    assert (X3 : read_lval a L3 = Ok x) by (rewrite (@read_other _ _ _ _ _ (not_eq_sym Ne) B); exact X).
    rewrite (write_id _ _ X3). cbn [obind]. rewrite (@write_write _ _ _ _ _ B). apply write_id. exact Y.
Qed.
Lemma swap_cards_run : forall ra rb L L',
  (let! L1 := swap_lval (LvCard ra) (LvCard rb) L in
   let! za := read_zone ra L1 in
   let! zb := read_zone rb L1 in
   let L2 := set_zone ra (mkZone (z_card za) (z_mats zb)) L1 in
   let! zb' := read_zone rb L2 in
   Ok (set_zone rb (mkZone (z_card zb') (z_mats za)) L2)) = Ok L' <->
  exists za zb, get_zone ra L = Some za /\ get_zone rb L = Some zb /\ L' = set_zone rb za (set_zone ra zb L).
Proof.
  intros ra rb L L'. unfold swap_lval, read_lval, write_lval, read_zone.
  destruct (get_zone ra L) as [za|] eqn:Ga; [|split; [discriminate|intros (? & ? & ? & _); discriminate]]. cbn [or_ub obind].
  destruct (get_zone rb L) as [zb|] eqn:Gb; [|split; [discriminate|intros (? & ? & _ & ? & _); discriminate]]. cbn [or_ub obind].
  destruct (zref_eq_dec ra rb) as [<-|Ne].
  - rewrite get_set_zone_same by congruence. cbn [or_ub obind z_mats z_card]. rewrite set_set_zone. rewrite get_set_zone_same by congruence. cbn [or_ub obind z_mats z_card].
    rewrite !set_set_zone. rewrite get_set_zone_same by congruence. cbn [or_ub obind z_mats z_card]. rewrite !set_set_zone.
    assert (za = zb) by congruence. subst zb. destruct za as [c m]. cbn [z_card z_mats]. split.
    + intros H. injection H as <-. do 2 eexists. split; [reflexivity|]. split; [reflexivity|]. rewrite set_set_zone. reflexivity.
    + intros (u & v & E1 & E2 & ->). injection E1 as <-. injection E2 as <-. rewrite set_set_zone. reflexivity.
  - rewrite get_set_zone_other by congruence. rewrite Gb. cbn [or_ub obind z_mats z_card].
    rewrite (@get_set_zone_other rb ra) by congruence. rewrite (@get_set_zone_same ra) by congruence. cbn [or_ub obind z_mats z_card].
    rewrite (@get_set_zone_same rb) by (rewrite get_set_zone_other by congruence; congruence). cbn [or_ub obind z_mats z_card].
    rewrite (@get_set_zone_other ra rb) by congruence. rewrite (@get_set_zone_same rb) by (rewrite get_set_zone_other by congruence; congruence). cbn [or_ub obind z_mats z_card].
    rewrite (@set_zone_comm ra rb) by congruence. rewrite !set_set_zone. destruct za as [c m], zb as [d n]. cbn [z_card z_mats]. split.
    + intros H. injection H as <-. do 2 eexists. split; [reflexivity|]. split; reflexivity.
    + intros (u & v & E1 & E2 & ->). injection E1 as <-. injection E2 as <-. reflexivity.
Qed.
Lemma swap_there : forall a b L L', rel_card_swap a b L = Ok L' -> rel_card_swap a b L' = Ok L.
Proof.
  intros a b L L' H. unfold rel_card_swap in *. cbv zeta in *.
  destruct (is_pile a), (is_pile b); cbn [andb negb] in *.
  - bind H as ra Ra. bind H as rb Rb. rewrite Ra, Rb. cbn [obind]. apply swap_lval_twice. exact H.
  - bind H as ra Ra. bind H as rb Rb. rewrite Ra, Rb. cbn [obind]. apply swap_lval_twice. exact H.
  - bind H as ra Ra. bind H as rb Rb. rewrite Ra, Rb. cbn [obind]. apply swap_lval_twice. exact H.
  - bind H as ra Ra. bind H as rb Rb. rewrite Ra, Rb. cbn [obind]. destruct (not_mat a), (not_mat b); cbn [andb negb] in *; try (apply swap_lval_twice; exact H).
    apply swap_cards_run in H. destruct H as (za & zb & Ga & Gb & ->). apply swap_cards_run.
    destruct (zref_eq_dec ra rb) as [<-|Ne].
    + rewrite set_set_zone. assert (za = zb) by congruence. subst zb. exists za, za. rewrite (@set_zone_id _ _ _ Ga). split; [exact Ga|]. split; [exact Ga|].
      rewrite !(@set_zone_id _ _ _ Ga). reflexivity.
    + exists zb, za. rewrite get_set_zone_other by congruence. rewrite (@get_set_zone_same ra) by congruence.
      rewrite (@get_set_zone_same rb) by (rewrite get_set_zone_other by congruence; congruence). split; [reflexivity|]. split; [reflexivity|].
      rewrite (@set_zone_comm ra rb) by congruence. rewrite set_set_zone. rewrite set_set_zone. rewrite (@set_zone_id _ _ _ Ga). symmetry. apply set_zone_id. exact Gb.
Qed.
Lemma pswap_there : forall a b L L', rel_pile_swap a b L = Ok L' -> rel_pile_swap a b L' = Ok L.
Proof. intros a b L L' H. apply keeps_pile_swap. apply pile_swap_twice. apply pswap_back. exact H. Qed.
Lemma splice_there : forall a n b r L L', rel_pile_splice a n b r L = Ok L' -> rel_pile_splice b n a r L' = Ok L.
Proof.
  intros from count to rev_ L L' H. unfold rel_pile_splice in H. cbv zeta in H. bind H as r1 R1. 
  destruct (count + p_seq from <=? lenN (get_pile r1 L)) eqn:Hs; [|discriminate H]. cbn [negb] in H. bind H as r2 R2.
  match type of H with (if ?c then _ else _) = _ => destruct c eqn:Ht; [|discriminate H] end.
  unfold rel_pile_splice. cbv zeta. rewrite R2. cbn [obind]. apply N.leb_le in Hs. apply N.leb_le in Ht. unfold lenN in *.
  set (s := N.to_nat (p_seq from)) in *. set (n := N.to_nat count) in *.
  set (t := N.to_nat (p_seq to)) in *. set (l1 := get_pile r1 L) in *.
  set (cut := firstn n (skipn s l1)) in *. fold (spliced rev_ cut) in H.
  set (L1 := set_pile r1 (firstn s l1 ++ skipn (s + n) l1) L) in *.
  set (l2 := get_pile r2 L1) in *. injection H as <-.
  rewrite get_set_pile_same.
  assert (Lc : length cut = n). { unfold cut. rewrite firstn_length, skipn_length. lia. }
  assert (Lt : length (firstn t l2) = t) by (rewrite firstn_length; lia).
  assert (F1 : firstn t (firstn t l2 ++ spliced rev_ cut ++ skipn t l2) = firstn t l2).
  { apply firstn_app_exact; auto. }
  assert (F2 : firstn n (skipn t (firstn t l2 ++ spliced rev_ cut ++ skipn t l2)) = spliced rev_ cut).
  { rewrite skipn_app_exact by auto. apply firstn_app_exact. rewrite spliced_length; auto. }
  assert (F3 : skipn (t + n) (firstn t l2 ++ spliced rev_ cut ++ skipn t l2) = skipn t l2).
  { rewrite app_assoc. apply skipn_app_exact. rewrite app_length, spliced_length. lia. }
  rewrite F1, F2, F3. fold (spliced rev_ (spliced rev_ cut)). rewrite spliced_twice, firstn_skipn, set_set_pile.
  assert (E : set_pile r2 l2 L1 = L1) by (apply set_pile_id). rewrite E.
  assert (G1 : get_pile r1 L1 = firstn s l1 ++ skipn (s + n) l1) by (apply get_set_pile_same).
  rewrite R1. cbn [obind]. rewrite G1. assert (Ls : length (firstn s l1) = s) by (rewrite firstn_length; lia).
  rewrite firstn_app_exact by auto. rewrite skipn_app_exact by auto.
  assert (C1 : (count + p_seq to <=? N.of_nat (length (firstn t l2 ++ spliced rev_ cut ++ skipn t l2))) = true).
  { apply N.leb_le. rewrite !app_length, spliced_length, skipn_length. lia. }
  rewrite C1. cbn [negb].
  assert (C2 : (p_seq from <=? N.of_nat (length (firstn s l1 ++ skipn (s + n) l1))) = true).
  { apply N.leb_le. rewrite app_length. lia. }
  rewrite C2. f_equal. unfold L1. rewrite set_set_pile. unfold cut. rewrite split3. apply set_pile_id.
Qed.
