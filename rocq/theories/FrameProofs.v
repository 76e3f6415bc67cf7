(** Each frame operation, described through containers. *)
From Verif Require Import Base BaseProofs Place PlaceProofs Frame FrameSpec FrameLens.

Local Open Scope N_scope.

(** ** Resolving a place *)

Lemma con_index_side : forall c b, con_index c = Ok b <-> side_of_con c = Some b.
Proof.
  intros c b. unfold con_index, side_of_con.
  destruct (Z.eqb_spec c 0) as [->|H0]; [split; congruence|].
  destruct (Z.eqb_spec c 1) as [->|H1]; [split; congruence|].
  destruct c as [|[]|]; split; congruence.
Qed.

Lemma side_of_con_le : forall c b, side_of_con c = Some b -> (c <=? 1)%Z = true.
Proof.
  intros c b H. unfold side_of_con in H. destruct c as [|[]|]; try discriminate; reflexivity.
Qed.

Ltac unfold_locs := unfold LOCATION_MAIN_DECK, LOCATION_HAND, LOCATION_MONSTER_ZONE,
  LOCATION_SPELL_ZONE, LOCATION_GRAVEYARD, LOCATION_BANISHED, LOCATION_EXTRA_DECK,
  LOCATION_FIELD_ZONE, LOCATION_PENDULUM_ZONE, LOCATION_SKILL_ZONE in *.

Lemma pile_of_slot : forall p r,
  pile_of p = Ok r <-> slot p = Some (CPile r, N.to_nat (p_seq p)).
Proof.
  intros [con loc seq oseq] [c l]. unfold pile_of, pile_ref, slot. simpl p_con. simpl p_loc.
  simpl p_seq. simpl p_oseq. unfold_locs. split.
  - intros H. inv_ok. unfold pile_table. simpl assocN.
    repeat match type of H with
    | (if loc =? ?x then _ else _) = _ => destruct (loc =? x) eqn:?
    end; try discriminate;
    inv_ok;
    match goal with H : con_index _ = _ |- _ => apply con_index_side in H; rewrite H end;
    reflexivity.
  - destruct (side_of_con con) as [b|] eqn:E; [|discriminate].
    rewrite (side_of_con_le _ _ E). apply con_index_side in E. rewrite E.
    unfold pile_table. simpl assocN.
    repeat match goal with
    | |- context [loc =? ?x] => destruct (N.eqb_spec loc x) as [->|?]
    end; simpl; intros H; try (injection H as <- <-; reflexivity).
    all: repeat match type of H with
         | context [if ?x then _ else _] => destruct x
         end; discriminate.
Qed.

Lemma slot_pile_is_pile : forall p r i, slot p = Some (CPile r, i) ->
  is_pile p = true /\ pile_of p = Ok r /\ i = N.to_nat (p_seq p).
Proof.
  intros p r i H.
  assert (i = N.to_nat (p_seq p) /\ is_pile p = true) as [-> I].
  { destruct p as [con loc seq oseq]. unfold slot, is_pile in *. simpl in *.
    destruct (side_of_con con); [|discriminate].
    repeat match type of H with
    | context [loc =? ?x] => destruct (N.eqb_spec loc x) as [->|?]
    end; repeat match type of H with
         | context [if ?x then _ else _] => destruct x
         end; try discriminate; injection H as <- <-; auto. }
  repeat split; auto. apply pile_of_slot; auto.
Qed.

Lemma pile_of_is_pile : forall p r, pile_of p = Ok r -> is_pile p = true.
Proof. intros p r H. apply pile_of_slot in H. apply slot_pile_is_pile in H. tauto. Qed.

(** The index and container named by a place that is in a zone. *)
Definition zslot (p : place) (r : zref) : cont * nat :=
  if not_mat p then (CCard r, 0%nat) else (CMats r, Z.to_nat (p_oseq p)).

Lemma zone_of_slot : forall p r,
  zone_of p = Ok r <-> slot p = Some (zslot p r).
Proof.
  intros [con loc seq oseq] [[c z] i]. unfold zone_of, zone_ref, slot, zslot, not_mat.
  simpl p_con. simpl p_loc. simpl p_seq. simpl p_oseq. split.
  - intros H. inv_ok.
    match goal with H : con_index _ = _ |- _ => apply con_index_side in H; rewrite H end.
    match goal with H : zone_seq_lim _ = _ |- _ => apply zone_seq_lim_spec in H;
      rename H into L end.
    simpl in L.
    repeat match goal with
    | H : side_at _ = Ok _ |- _ => unfold side_at in H; inv_ok
    end.
    repeat (destruct L as [L|L]; [injection L as <- <-; unfold_locs; simpl in *; inv_ok; subst;
      match goal with H : (seq <? _) = true |- _ => rewrite H end; 
      destruct (oseq <? 0)%Z; reflexivity|]). tauto.
  - destruct (side_of_con con) as [b|] eqn:E; [|discriminate].
    rewrite (side_of_con_le _ _ E). apply con_index_side in E. rewrite E.
    unfold pile_table, zone_table. simpl assocN.
    repeat match goal with
    | |- context [loc =? ?x] => destruct (N.eqb_spec loc x) as [->|?]
    end; simpl; intros H;
    try (destruct (oseq <? 0)%Z; discriminate);
    try (match type of H with context [seq <? ?x] => destruct (seq <? x) eqn:LT end;
         [|destruct (oseq <? 0)%Z; discriminate];
         destruct (oseq <? 0)%Z; injection H; intros; subst; reflexivity).
Qed.

Lemma zone_of_inv : forall p r, zone_of p = Ok r ->
  is_pile p = false /\ is_zone p = true /\ is_empty p = false /\ valid_z r /\
  exists lim, zone_seq_lim (p_loc p) = Ok lim /\ (p_seq p <? lim) = true.
Proof.
  intros [con loc seq oseq] [[c z] i] H. unfold zone_of, zone_ref in H.
  unfold is_pile, is_zone, is_empty. simpl p_con in *. simpl p_loc in *. simpl p_seq in *.
  inv_ok.
  match goal with H : zone_seq_lim _ = _ |- _ => pose proof H as HL;
    apply zone_seq_lim_spec in H; rename H into L end.
  match goal with H : side_at _ = Ok _ |- _ => unfold side_at in H; inv_ok end.
  simpl in L.
  repeat (destruct L as [L|L]; [injection L as <- <-; unfold_locs; simpl in *; inv_ok; subst;
    repeat split; eauto; simpl; lia|]). tauto.
Qed.

Lemma zslot_valid : forall p r, valid_z r -> valid_cont (fst (zslot p r)).
Proof. intros p r V. unfold zslot. destruct (not_mat p); exact V. Qed.

Lemma slot_inv : forall p k i, slot p = Some (k, i) ->
  (exists r, is_pile p = true /\ pile_of p = Ok r /\ k = CPile r /\ i = N.to_nat (p_seq p)) \/
  (exists r, is_pile p = false /\ zone_of p = Ok r /\ zslot p r = (k, i)).
Proof.
  intros p k i H. destruct k as [r|r|r].
  - left. exists r. apply slot_pile_is_pile in H. tauto.
  - right. exists r. assert (zslot p r = (CCard r, i)) as Z.
    { revert H. destruct p as [con loc seq oseq]. unfold slot, zslot, not_mat. simpl.
      destruct (side_of_con con); [|discriminate].
      repeat match goal with
      | |- context [if ?x then _ else _] => destruct x
      end; try discriminate; intros H; injection H as <- <-; auto. }
    assert (zone_of p = Ok r) by (apply zone_of_slot; congruence).
    pose proof (zone_of_inv _ _ H0). tauto.
  - right. exists r. assert (zslot p r = (CMats r, i)) as Z.
    { revert H. destruct p as [con loc seq oseq]. unfold slot, zslot, not_mat. simpl.
      destruct (side_of_con con); [|discriminate].
      repeat match goal with
      | |- context [if ?x then _ else _] => destruct x
      end; try discriminate; intros H; injection H as <- <-; auto. }
    assert (zone_of p = Ok r) by (apply zone_of_slot; congruence).
    pose proof (zone_of_inv _ _ H0). tauto.
Qed.

Lemma slot_valid : forall p k i, slot p = Some (k, i) -> valid_cont k.
Proof.
  intros p k i H. destruct (slot_inv _ _ _ H) as [[r [_ [_ [-> _]]]]|[r [_ [Z E]]]].
  - exact I.
  - pose proof (zone_of_inv _ _ Z) as [_ [_ [_ [V _]]]].
    pose proof (zslot_valid p r V) as V'. rewrite E in V'. exact V'.
Qed.

Lemma is_pile_nonempty : forall p, is_pile p = true -> is_empty p = false.
Proof.
  intros p H. unfold is_pile, is_empty in *. destruct (loc_is_empty (p_loc p)) eqn:E; auto.
  apply loc_empty_neither in E. destruct E; congruence.
Qed.

(** ** has_card *)
Lemma has_card_slot : forall p L k i, shape L -> slot p = Some (k, i) ->
  has_card p L = Ok (Nat.ltb i (length (contents k L))).
Proof.
  intros p L k i S H. unfold has_card.
  destruct (slot_inv _ _ _ H) as [[r [P [R [-> ->]]]]|[r [P [Z E]]]].
  - rewrite (is_pile_nonempty _ P), P, R. simpl. f_equal. unfold lenN.
    destruct (N.ltb_spec (p_seq p) (N.of_nat (length (get_pile r L))));
    destruct (Nat.ltb_spec (N.to_nat (p_seq p)) (length (get_pile r L))); auto; lia.
  - destruct (zone_of_inv _ _ Z) as [_ [IZ [IE [V [lim [Lm Ls]]]]]].
    rewrite IE, P, IZ, Lm, Z. simpl. rewrite Ls. simpl.
    destruct (shape_get_zone _ _ S V) as [z G]. unfold read_zone. rewrite G. simpl.
    unfold zslot in E. destruct (not_mat p) eqn:NM; injection E as <- <-; simpl; rewrite G; f_equal.
    + destruct (z_card z); reflexivity.
    + unfold oseqN, lenN. unfold not_mat in NM.
      destruct (N.ltb_spec (Z.to_N (p_oseq p)) (N.of_nat (length (z_mats z))));
      destruct (Nat.ltb_spec (Z.to_nat (p_oseq p)) (length (z_mats z))); auto; lia.
Qed.

Lemma has_card_Ok_slot : forall p L b, has_card p L = Ok b -> exists k i, slot p = Some (k, i).
Proof.
  intros p L b H. unfold has_card in H. inv_ok. destruct (is_pile p) eqn:P.
  - inv_ok. match goal with H : pile_of _ = Ok _ |- _ => apply pile_of_slot in H; eauto end.
  - inv_ok. match goal with H : zone_of _ = Ok ?r |- _ => apply zone_of_slot in H;
      destruct (zslot p r); eauto end.
Qed.

Lemma has_card_true : forall p L, shape L -> has_card p L = Ok true ->
  exists k i, slot p = Some (k, i) /\ (i < length (contents k L))%nat.
Proof.
  intros p L S H. destruct (has_card_Ok_slot _ _ _ H) as [k [i E]].
  rewrite (has_card_slot _ _ _ _ S E) in H. injection H as H.
  exists k, i. split; auto. apply Nat.ltb_lt; auto.
Qed.

(** ** Inserting and erasing one card *)

Lemma card_insert_slot : forall p c L L', shape L ->
  card_insert p c L = Ok L' <->
  exists k i, slot p = Some (k, i) /\ (i <= length (contents k L))%nat /\
    fits k (insert_nth i (Some c) (contents k L)) /\
    L' = put k (insert_nth i (Some c) (contents k L)) L.
Proof.
  intros p c L L' S. unfold card_insert. split.
  - destruct (is_pile p) eqn:P; intros H; inv_ok.
    + match goal with H : pile_of _ = Ok ?r |- _ => apply pile_of_slot in H;
        exists (CPile r), (N.to_nat (p_seq p)) end.
      unfold insert_at in *. inv_ok. unfold lenN in *. simpl. repeat split; auto. lia.
    + match goal with H : zone_of _ = Ok ?r |- _ => rename r into zr; pose proof H as Z;
        apply zone_of_slot in H; unfold zslot in H end.
      unfold read_zone in *. inv_ok. destruct (not_mat p) eqn:NM; inv_ok.
      * exists (CCard zr), 0%nat. simpl. rewrite E0.
        destruct (z_card r0); simpl in *; [discriminate|].
        repeat split; auto. right. exists c. reflexivity.
      * exists (CMats zr), (Z.to_nat (p_oseq p)). simpl. rewrite E0.
        unfold insert_at in *. inv_ok. unfold oseqN, lenN in *. unfold not_mat in NM.
        rewrite Z_N_nat. repeat split; auto. lia.
  - intros [k [i [Sl [Le [F ->]]]]].
    destruct (slot_inv _ _ _ Sl) as [[r [P [R [-> ->]]]]|[r [P [Z E]]]]; rewrite P.
    + rewrite R. simpl in *. unfold insert_at, lenN. simpl.
      replace (p_seq p <=? N.of_nat (length (get_pile r L))) with true by lia. reflexivity.
    + rewrite Z. simpl. destruct (zone_of_inv _ _ Z) as [_ [_ [_ [V _]]]].
      destruct (shape_get_zone _ _ S V) as [z G]. unfold read_zone. rewrite G. simpl.
      unfold zslot in E. destruct (not_mat p) eqn:NM; injection E as <- <-; simpl in *;
        rewrite G in *.
      * destruct (z_card z) as [c'|]; simpl in *.
        { destruct F as [F|[c'' F]]; discriminate. }
        reflexivity.
      * unfold insert_at, oseqN, lenN. unfold not_mat in NM. rewrite Z_N_nat. simpl.
        replace (Z.to_N (p_oseq p) <=? N.of_nat (length (z_mats z))) with true by lia.
        reflexivity.
Qed.

Lemma card_erase_slot : forall p c L L', shape L ->
  card_erase p L = Ok (c, L') <->
  exists k i, slot p = Some (k, i) /\ nth_error (contents k L) i = Some (Some c) /\
    L' = put k (remove_nth i (contents k L)) L.
Proof.
  intros p c L L' S. unfold card_erase. split.
  - destruct (is_pile p) eqn:P; intros H; inv_ok.
    + match goal with H : pile_of _ = Ok ?r |- _ => apply pile_of_slot in H;
        exists (CPile r), (N.to_nat (p_seq p)) end.
      unfold deref in *. inv_ok. subst. simpl.
      match goal with H : (if ?x then _ else _) = Some _ |- _ => destruct x; [|discriminate] end.
      auto.
    + match goal with H : zone_of _ = Ok ?r |- _ => rename r into zr; pose proof H as Z;
        apply zone_of_slot in H; unfold zslot in H end.
      unfold read_zone in *. inv_ok. destruct (not_mat p) eqn:NM; inv_ok.
      * exists (CCard zr), 0%nat. unfold deref in *. inv_ok. subst. simpl. rewrite E0, E1. auto.
      * exists (CMats zr), (Z.to_nat (p_oseq p)). simpl. rewrite E0.
        unfold take_at, deref in *. inv_ok. subst.
        unfold oseqN, lenN in *. unfold not_mat in NM.
        rewrite Z_N_nat in *. auto.
  - intros [k [i [Sl [Nt ->]]]].
    destruct (slot_inv _ _ _ Sl) as [[r [P [R [-> ->]]]]|[r [P [Z E]]]]; rewrite P.
    + rewrite R. simpl in *. assert (N.to_nat (p_seq p) < length (get_pile r L))%nat.
      { apply nth_error_Some. congruence. }
      unfold lenN. replace (p_seq p <? N.of_nat (length (get_pile r L))) with true by lia.
      rewrite Nt. reflexivity.
    + rewrite Z. simpl. destruct (zone_of_inv _ _ Z) as [_ [_ [_ [V _]]]].
      destruct (shape_get_zone _ _ S V) as [z G]. unfold read_zone. rewrite G. simpl.
      unfold zslot in E. destruct (not_mat p) eqn:NM; injection E as <- <-; simpl in *;
        rewrite G in *.
      * destruct (z_card z) as [c'|]; simpl in *; [|discriminate]. injection Nt as ->.
        reflexivity.
      * unfold take_at, oseqN, lenN. unfold not_mat in NM. rewrite Z_N_nat. simpl.
        assert (Z.to_nat (p_oseq p) < length (z_mats z))%nat.
        { apply nth_error_Some. congruence. }
        replace (Z.to_N (p_oseq p) <? N.of_nat (length (z_mats z))) with true by lia.
        rewrite Nt. reflexivity.
Qed.

