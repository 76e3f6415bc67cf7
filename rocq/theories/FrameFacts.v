(** What each frame operation does, in the vocabulary of FrameSpec.v. *)
From Coq Require Import Permutation.
From Verif Require Import Base BaseProofs Place PlaceProofs Frame FrameSpec FrameLens
  FrameProofs FrameMove FrameOps FramePiles FrameInv FrameShuffle.

Local Open Scope N_scope.

Lemma view_put : forall k l L x, shape L -> valid_cont k -> fits k l ->
  view (put k l L) x = view_set k l (view L) x.
Proof.
  intros k l L x S V F. unfold view, view_set. destruct (cont_eq_dec x k) as [->|N].
  - apply contents_put_same; auto.
  - apply contents_put_other; auto.
Qed.

Lemma is_pile_table : forall p k i, slot p = Some (k, i) ->
  is_pile p = true <-> assocN (p_loc p) pile_table <> None.
Proof.
  intros p k i H. destruct (slot_inv _ _ _ H) as [[r [P [R [-> ->]]]]|[r [P [Z E]]]]; rewrite P.
  - split; auto. intros _. unfold slot in H. destruct (side_of_con (p_con p)); [|discriminate].
    destruct (assocN (p_loc p) pile_table); [discriminate|].
    destruct (assocN (p_loc p) zone_table) as [[? ?]|]; [|discriminate].
    destruct (_ <? _); [|discriminate]. destruct (_ <? _)%Z; discriminate.
  - split; [discriminate|]. intros X. unfold slot in H. destruct (side_of_con (p_con p)); [|discriminate].
    destruct (assocN (p_loc p) pile_table); [|congruence]. injection H as <- <-.
    unfold zslot in E. destruct (not_mat p); discriminate.
Qed.

Lemma slot_kind : forall p k i, slot p = Some (k, i) ->
  match k with
  | CPile r => is_pile p = true /\ pile_of p = Ok r
  | CCard r => is_pile p = false /\ not_mat p = true /\ zone_of p = Ok r /\ i = 0%nat
  | CMats r => is_pile p = false /\ not_mat p = false /\ zone_of p = Ok r
  end.
Proof.
  intros p k i H. destruct (slot_inv _ _ _ H) as [[r [P [R [-> ->]]]]|[r [P [Z E]]]]; auto.
  unfold zslot in E. destruct (not_mat p) eqn:NM; injection E as <- <-; auto.
Qed.

Lemma fits_insert : forall k i c l, fits k (insert_nth i (Some c) l) <->
  match k with CCard _ => l = [] | _ => True end.
Proof.
  intros [r|r|r] i c l; simpl; try tauto. split.
  - intros [H|[x H]].
    + destruct i, l; discriminate.
    + destruct l as [|y l]; auto. exfalso. assert (X := f_equal (@length _) H).
      rewrite insert_nth_length in X. simpl in X. lia.
  - intros ->. right. exists c. destruct i; reflexivity.
Qed.

(** ** card_add *)
Section Facts.
Variable C : Type.
Variable c0 : C.

Lemma heap_get_In : forall (h : list (N * C)) id, heap_get id h <> None <-> In id (map fst h).
Proof.
  induction h as [|[j x] h IH]; intros id; simpl; [tauto|].
  destruct (N.eqb_spec j id) as [->|Ne].
  - split; [auto|discriminate].
  - rewrite IH. split; [auto|]. intros [X|X]; [congruence|auto].
Qed.

Lemma card_at_place_slot : forall p (f : frame C) k i id, shape (f_lay f) ->
  slot p = Some (k, i) -> nth_error (contents k (f_lay f)) i = Some (Some id) ->
  heap_get id (f_heap f) <> None -> card_at_place p f = Ok id.
Proof.
  intros p f k i id S Sl Oc Hg. unfold card_at_place.
  assert (Li : (i < length (contents k (f_lay f)))%nat) by (apply nth_error_Some; congruence).
  assert (HC : has_card p (f_lay f) = Ok true).
  { rewrite (has_card_slot _ _ _ _ S Sl). f_equal. apply Nat.ltb_lt. auto. }
  assert (Ne : is_empty p = false).
  { destruct (is_empty p) eqn:X; auto. unfold has_card in HC. rewrite X in HC. discriminate. }
  rewrite Ne, HC. cbn [negb assert_ obind].
  assert (Fin : (let! id0 := deref (Some id) in let! _ := or_ub (heap_get id0 (f_heap f)) in Ok id0) = Ok id).
  { simpl. destruct (heap_get id (f_heap f)); [reflexivity|congruence]. }
  assert (Sk := slot_kind _ _ _ Sl). destruct k as [r|r|r].
  - destruct Sk as [Pi Po]. rewrite Pi, Po. cbn [obind].
    destruct (slot_inv _ _ _ Sl) as [[r' [_ [_ [_ ->]]]]|[r' [Pf _]]]; [|congruence].
    simpl contents in Oc. rewrite (proj2 (nth_ptr_Ok _ _ _) Oc). exact Fin.
  - destruct Sk as [Pi [Nm [Po ->]]]. rewrite Pi, Po. cbn [obind]. unfold read_zone.
    simpl contents in Oc. destruct (get_zone r _) as [zz|]; [|discriminate]. cbn [obind or_ub].
    rewrite Nm. destruct (z_card zz); [|discriminate]. injection Oc as ->. exact Fin.
  - destruct Sk as [Pi [Nm Po]]. rewrite Pi, Po. cbn [obind]. unfold read_zone.
    assert (Ei : i = N.to_nat (oseqN p)).
    { destruct (slot_inv _ _ _ Sl) as [[r' [_ [_ [E _]]]]|[r' [_ [_ E]]]]; [discriminate|].
      unfold zslot in E. rewrite Nm in E. injection E as _ E. unfold oseqN. rewrite Z_N_nat. auto. }
    rewrite Ei in Oc.
    simpl contents in Oc. destruct (get_zone r _) as [zz|]; [|destruct (N.to_nat (oseqN p)); discriminate]. cbn [obind or_ub].
    rewrite Nm. rewrite (proj2 (nth_ptr_Ok _ _ _) Oc). exact Fin.
Qed.

Lemma card_add_Ok : forall p (f : frame C) id f', inv _ f ->
  card_add c0 p f = Ok (id, f') ->
  exists k i, slot p = Some (k, i) /\ room_for k i (contents k (f_lay f)) /\
    ~ live f id /\ has_card p (f_lay f') = Ok true /\ card_at_place p f' = Ok id /\
    (forall x, live f' x <-> live f x \/ x = id) /\
    (forall x, view (f_lay f') x = view_insert k i id (view (f_lay f)) x).
Proof.
  intros p f id f' I H. assert (I' := inv_add _ _ _ _ _ _ I H).
  unfold card_add, construct_card in H. inv_ok. simpl in *.
  destruct I as [[S N] B Cn D].
  match goal with E : card_insert _ _ _ = Ok _ |- _ => apply card_insert_slot in E; auto;
    destruct E as [k [i [Sl [Le [F ->]]]]] end.
  assert (V := slot_valid _ _ _ Sl).
  exists k, i. split; auto. split; [split; auto; apply fits_insert in F; auto|].
  destruct I' as [[S' N'] B' C' D']. simpl in *.
  assert (Nn : ~ In (f_next f) (map fst (f_heap f))) by (intros X; apply D in X; lia).
  split; [exact Nn|].
  assert (Ct : contents k (put k (insert_nth i (Some (f_next f)) (contents k (f_lay f))) (f_lay f)) =
               insert_nth i (Some (f_next f)) (contents k (f_lay f))) by (apply contents_put_same; auto).
  assert (HC : has_card p (put k (insert_nth i (Some (f_next f)) (contents k (f_lay f))) (f_lay f)) = Ok true).
  { rewrite (has_card_slot _ _ _ _ S' Sl). rewrite Ct. f_equal. apply Nat.ltb_lt.
    rewrite insert_nth_length. lia. }
  split; auto. split; [|split].
  - eapply card_at_place_slot; eauto.
    + simpl. rewrite Ct. apply nth_error_insert_eq; auto.
    + simpl. rewrite N.eqb_refl. discriminate.
  - intros x. unfold live. simpl. split; intros [X|X]; auto.
  - intros x. apply view_put; auto.
Qed.

Lemma card_add_succeeds : forall p (f : frame C) k i, inv _ f -> slot p = Some (k, i) ->
  room_for k i (contents k (f_lay f)) -> exists id f', card_add c0 p f = Ok (id, f').
Proof.
  intros p f k i I Sl [Le R]. unfold card_add, construct_card. simpl.
  assert (X : card_insert p (f_next f) (f_lay f) =
    Ok (put k (insert_nth i (Some (f_next f)) (contents k (f_lay f))) (f_lay f))).
  { apply card_insert_slot; [apply I|]. exists k, i. repeat split; auto. apply fits_insert; auto. }
  rewrite X. simpl. eauto.
Qed.

(** ** card *)
Lemma heap_live : forall (f : frame C) k i id, inv _ f ->
  nth_error (contents k (f_lay f)) i = Some (Some id) -> live f id.
Proof.
  intros f k i id I H. apply (cons_live (inv_conserved _ _ I) (k, i)). exact H.
Qed.

Lemma card_at_place_iff : forall p (f : frame C) k i, inv _ f -> slot p = Some (k, i) ->
  (has_card p (f_lay f) = Ok true /\
     exists id, card_at_place p f = Ok id /\ live f id /\
       nth_error (contents k (f_lay f)) i = Some (Some id)) \/
  (has_card p (f_lay f) = Ok false /\ card_at_place p f = Abort).
Proof.
  intros p f k i I Sl. assert (S := proj1 (inv_lay _ _ I)).
  rewrite (has_card_slot _ _ _ _ S Sl).
  destruct (Nat.ltb_spec i (length (contents k (f_lay f)))) as [Li|Li].
  - left. split; auto. destruct (nth_error (contents k (f_lay f)) i) as [[id|]|] eqn:E.
    + assert (Lv := heap_live _ _ _ _ I E). exists id. split; [|auto].
      eapply card_at_place_slot; eauto. apply heap_get_In. exact Lv.
    + exfalso. apply (cons_nonnull (inv_conserved _ _ I) (k, i)). exact E.
    + apply nth_error_None in E. lia.
  - right. split; auto. unfold card_at_place.
    assert (X : has_card p (f_lay f) = Ok false).
    { rewrite (has_card_slot _ _ _ _ S Sl). f_equal. apply Nat.ltb_ge. auto. }
    rewrite X. destruct (negb (is_empty p)); reflexivity.
Qed.

(** ** card_remove *)
Lemma live_remove : forall (f : frame C) id h x, NoDup (map fst (f_heap f)) ->
  heap_remove id (f_heap f) = Some h ->
  (In x (map fst h) <-> live f x /\ x <> id).
Proof.
  intros f id h x ND H. unfold live. apply heap_remove_Some in H.
  destruct H as [h1 [v [h2 [E ->]]]]. rewrite E in *. rewrite !map_app in *. simpl in *.
  rewrite !in_app_iff. simpl. apply NoDup_remove in ND. destruct ND as [_ ND].
  rewrite in_app_iff in ND. split.
  - intros X. split; [tauto|]. intros ->. tauto.
  - intros [[X|[X|X]] Ne]; auto. congruence.
Qed.

Lemma card_remove_Ok : forall p (f f' : frame C), inv _ f -> card_remove p f = Ok f' ->
  exists k i id, slot p = Some (k, i) /\ nth_error (contents k (f_lay f)) i = Some (Some id) /\
    (forall x, live f' x <-> live f x /\ x <> id) /\
    (forall x, view (f_lay f') x = view_remove k i (view (f_lay f)) x).
Proof.
  intros p f f' I H. unfold card_remove in H. inv_ok. destruct I as [[S N] B Cn D].
  apply destruct_card_Ok in H. destruct H as [h [Hr ->]]. simpl in *.
  match goal with X : card_erase _ _ = Ok (?c, _) |- _ => rename c into id; apply card_erase_slot in X; auto;
    destruct X as [k [i [Sl [Nt ->]]]] end.
  exists k, i, id. split; auto. split; auto. split.
  - intros x. eapply live_remove; eauto.
  - intros x. apply view_put; auto; [eapply slot_valid; eauto|].
    apply fits_remove, contents_fits.
Qed.

Lemma card_remove_add : forall p (f : frame C) id f', inv _ f -> card_add c0 p f = Ok (id, f') ->
  exists f'', card_remove p f' = Ok f'' /\ f_heap f'' = f_heap f /\ f_lay f'' = f_lay f.
Proof.
  intros p f id f' I H.
  destruct (card_add_Ok _ _ _ _ I H) as [k [i [Sl [R [_ [HC _]]]]]].
  unfold card_add, construct_card in H. inv_ok. simpl in *.
  destruct I as [[S N] B Cn D].
  match goal with E : card_insert _ _ _ = Ok _ |- _ => rename E into Ins end.
  unfold card_remove. simpl. rewrite HC. cbn [assert_ obind].
  rewrite (erase_insert _ _ _ _ S Ins). cbn [obind]. unfold destruct_card. simpl.
  rewrite N.eqb_refl. eexists. split; [reflexivity|]. simpl. auto.
Qed.

(** Removing succeeds exactly on an occupied place. *)
Lemma card_remove_succeeds : forall p (f : frame C), inv _ f -> has_card p (f_lay f) = Ok true ->
  exists f', card_remove p f = Ok f'.
Proof.
  intros p f I H. assert (S := proj1 (inv_lay _ _ I)).
  destruct (has_card_true _ _ S H) as [k [i [Sl Li]]].
  destruct (card_at_place_iff _ _ _ _ I Sl) as [[_ [id [_ [Lv Nt]]]]|[X _]]; [|congruence].
  unfold card_remove. rewrite H. cbn [assert_ obind].
  rewrite (proj2 (card_erase_slot p id (f_lay f) _ S)
    (ex_intro _ k (ex_intro _ i (conj Sl (conj Nt eq_refl))))). cbn [obind].
  unfold destruct_card. simpl. destruct (heap_remove_In _ _ _ Lv) as [h ->]. simpl. eauto.
Qed.
End Facts.

(** ** card_move *)
Lemma both_cards_slots : forall from to k1 i1 k2 i2,
  slot from = Some (k1, i1) -> slot to = Some (k2, i2) ->
  both_cards from to = match k1, k2 with CCard _, CCard _ => true | _, _ => false end.
Proof.
  intros from to k1 i1 k2 i2 S1 S2. apply slot_kind in S1. apply slot_kind in S2.
  unfold both_cards. destruct k1, k2;
    repeat match goal with H : _ /\ _ |- _ => destruct H end;
    repeat match goal with H : is_pile _ = _ |- _ => rewrite H; clear H
                         | H : not_mat _ = _ |- _ => rewrite H; clear H end;
    cbn [negb andb]; try reflexivity; destruct (not_mat from), (not_mat to); reflexivity.
Qed.

Lemma pile_place_ok_iff : forall p k i, slot p = Some (k, i) ->
  (is_pile p = true -> not_mat p = true) <-> pile_place_ok p.
Proof.
  intros p k i Sl. unfold pile_place_ok, not_mat. rewrite (is_pile_table _ _ _ Sl).
  rewrite Z.ltb_lt. reflexivity.
Qed.

Lemma card_zone_view : forall r c L, get_zone r L <> None ->
  (contents (CCard r) L = [Some c] <-> exists z, get_zone r L = Some z /\ z_card z = Some c).
Proof.
  intros r c L G. simpl. destruct (get_zone r L) as [z|]; [|congruence]. split.
  - destruct (z_card z) eqn:E; intros H; [|discriminate]. injection H as ->. eauto.
  - intros [z' [E E']]. injection E as ->. rewrite E'. reflexivity.
Qed.

Lemma card_move_slots : forall from to c L L', shape L -> card_move from to L = Ok (c, L') ->
  exists k1 i1 k2 i2, slot from = Some (k1, i1) /\ slot to = Some (k2, i2).
Proof.
  intros from to c L L' S H. destruct (both_cards from to) eqn:B.
  - apply card_move_cards in H; auto. destruct H as [r1 [r2 [z1 [F [T _]]]]].
    apply zone_of_slot in F. apply zone_of_slot in T. unfold zslot in *.
    destruct (not_mat from), (not_mat to); eauto 10.
  - apply card_move_simple in H; auto. destruct H as [_ [_ [L1 [E I]]]].
    assert (S1 := shape_erase _ _ _ _ S E).
    apply card_erase_slot in E; auto. apply card_insert_slot in I; auto.
    destruct E as [k1 [i1 [E _]]]. destruct I as [k2 [i2 [I _]]]. eauto 10.
Qed.

Lemma zone0_contents : forall r L, get_zone r L <> None ->
  (get_zone r L = Some zone0 <-> contents (CCard r) L = [] /\ contents (CMats r) L = []).
Proof.
  intros r L G. simpl. destruct (get_zone r L) as [[c m]|]; [|congruence]. simpl. split.
  - intros H. injection H as -> ->. auto.
  - destruct c; intros [X Y]; [discriminate|]. subst. reflexivity.
Qed.

Lemma valid_zone_some : forall p r L, shape L -> zone_of p = Ok r -> get_zone r L <> None.
Proof.
  intros p r L S Z. destruct (zone_of_inv _ _ Z) as [_ [_ [_ [V _]]]].
  destruct (shape_get_zone _ _ S V) as [z ->]. discriminate.
Qed.

Lemma move_pre_iff : forall from to c L, shape L ->
  ((exists L', card_move from to L = Ok (c, L')) <-> move_pre from to c (view L)).
Proof.
  intros from to c L S. split.
  - intros [L' H]. destruct (card_move_slots _ _ _ _ _ S H) as [k1 [i1 [k2 [i2 [S1 S2]]]]].
    assert (BC := both_cards_slots _ _ _ _ _ _ S1 S2).
    unfold move_pre. rewrite <- (pile_place_ok_iff _ _ _ S1), <- (pile_place_ok_iff _ _ _ S2).
    destruct (both_cards from to) eqn:B.
    + destruct k1 as [|r1|], k2 as [|r2|]; try discriminate.
      destruct (slot_kind _ _ _ S1) as [P1 [N1 [Z1 ->]]]. destruct (slot_kind _ _ _ S2) as [P2 [N2 [Z2 ->]]].
      apply card_move_cards in H; auto.
      destruct H as [r1' [r2' [z1 [F [T [G1 [C1 [G2 _]]]]]]]].
      rewrite Z1 in F. injection F as <-. rewrite Z2 in T. injection T as <-.
      split; [congruence|]. split; [congruence|].
      exists (CCard r1), 0%nat, (CCard r2), 0%nat. split; auto. split; auto. split.
      * unfold view. simpl. rewrite G1, C1. reflexivity.
      * apply zone0_contents in G2; auto. congruence.
    + apply card_move_simple in H; auto. destruct H as [A1 [A2 [L1 [E I]]]].
      split; auto. split; auto. exists k1, i1, k2, i2. split; auto. split; auto.
      assert (SL1 := shape_erase _ _ _ _ S E).
      apply card_erase_slot in E; auto. destruct E as [k1' [i1' [E1 [E2 ->]]]].
      rewrite S1 in E1. injection E1 as <- <-.
      apply card_insert_slot in I; auto. destruct I as [k2' [i2' [I1 [I2 [I3 _]]]]].
      rewrite S2 in I1. injection I1 as <- <-.
      split; [exact E2|].
      assert (W : view_remove k1 i1 (view L) k2 = contents k2 (put k1 (remove_nth i1 (contents k1 L)) L)).
      { symmetry. apply (view_put k1 (remove_nth i1 (contents k1 L)) L k2); auto.
        - eapply slot_valid; eauto.
        - apply fits_remove, contents_fits. }
      assert (RM : room_for k2 i2 (view_remove k1 i1 (view L) k2)).
      { rewrite W. split; auto. apply fits_insert in I3. exact I3. }
      destruct k1, k2; try exact RM. discriminate.
  - intros [A1 [A2 [k1 [i1 [k2 [i2 [S1 [S2 [E2 H]]]]]]]]].
    rewrite <- (pile_place_ok_iff _ _ _ S1) in A1. rewrite <- (pile_place_ok_iff _ _ _ S2) in A2.
    assert (BC := both_cards_slots _ _ _ _ _ _ S1 S2).
    destruct (both_cards from to) eqn:B.
    + destruct k1 as [|r1|], k2 as [|r2|]; try discriminate.
      destruct (slot_kind _ _ _ S1) as [P1 [N1 [Z1 ->]]]. destruct (slot_kind _ _ _ S2) as [P2 [N2 [Z2 ->]]].
      assert (G2 : get_zone r2 L = Some zone0).
      { apply zone0_contents; auto. eapply valid_zone_some; eauto. }
      unfold view in E2. simpl in E2. destruct (get_zone r1 L) as [z1|] eqn:G1; [|discriminate].
      destruct (z_card z1) eqn:C1; [|discriminate]. injection E2 as ->.
      eexists. apply card_move_cards; auto. exists r1, r2, z1. repeat split; eauto.
    + assert (RM : room_for k2 i2 (view_remove k1 i1 (view L) k2)).
      { destruct k1, k2; try exact H. discriminate. }
      clear H. assert (V1 := slot_valid _ _ _ S1).
      assert (W : view_remove k1 i1 (view L) k2 = contents k2 (put k1 (remove_nth i1 (contents k1 L)) L)).
      { symmetry. apply (view_put k1 (remove_nth i1 (contents k1 L)) L k2); auto.
        apply fits_remove, contents_fits. }
      rewrite W in RM. destruct RM as [R1 R2].
      assert (E : card_erase from L = Ok (c, put k1 (remove_nth i1 (contents k1 L)) L)).
      { apply card_erase_slot; auto. exists k1, i1. auto. }
      assert (SL1 := shape_erase _ _ _ _ S E).
      eexists. apply card_move_simple; auto. split; auto. split; auto. eexists. split; [exact E|].
      apply card_insert_slot; auto. exists k2, i2. split; auto. split; auto. split; [|reflexivity].
      apply fits_insert. exact R2.
Qed.

Lemma view_set_zone : forall r z L x, get_zone r L <> None ->
  view (set_zone r z L) x =
    view_set (CCard r) (match z_card z with Some c => [Some c] | None => [] end)
      (view_set (CMats r) (z_mats z) (view L)) x.
Proof.
  intros r z L x G. unfold view, view_set.
  destruct (cont_eq_dec x (CCard r)) as [->|N1].
  - simpl. rewrite get_set_zone_same by auto. reflexivity.
  - destruct (cont_eq_dec x (CMats r)) as [->|N2].
    + simpl. rewrite get_set_zone_same by auto. reflexivity.
    + destruct x as [q|q|q]; simpl.
      * apply get_pile_set_zone.
      * rewrite get_set_zone_other by congruence. reflexivity.
      * rewrite get_set_zone_other by congruence. reflexivity.
Qed.

Lemma card_move_view : forall from to c L L', shape L -> card_move from to L = Ok (c, L') ->
  (forall x, view L' x = move_view from to c (view L) x) /\
  exists pos, slot to = Some pos /\ occupant L' pos = Some (Some c).
Proof.
  intros from to c L L' S H. destruct (card_move_slots _ _ _ _ _ S H) as [k1 [i1 [k2 [i2 [S1 S2]]]]].
  assert (BC := both_cards_slots _ _ _ _ _ _ S1 S2).
  unfold move_view. rewrite S1, S2.
  destruct (both_cards from to) eqn:B.
  - destruct k1 as [|r1|], k2 as [|r2|]; try discriminate.
    destruct (slot_kind _ _ _ S1) as [P1 [N1 [Z1 ->]]]. destruct (slot_kind _ _ _ S2) as [P2 [N2 [Z2 ->]]].
    apply card_move_cards in H; auto.
    destruct H as [r1' [r2' [z1 [F [T [G1 [C1 [G2 ->]]]]]]]].
    rewrite Z1 in F. injection F as <-. rewrite Z2 in T. injection T as <-.
    assert (Nr : r1 <> r2) by (intros <-; rewrite G1 in G2; injection G2 as ->; discriminate).
    assert (Vw : forall x, view (set_zone r1 zone0 (set_zone r2 z1 L)) x =
      view_set (CCard r2) [Some c] (view_set (CMats r2) (view L (CMats r1))
        (view_set (CCard r1) [] (view_set (CMats r1) [] (view L)))) x).
    { intros x. rewrite view_set_zone by (rewrite get_set_zone_other by auto; congruence).
      unfold view_set at 1 2 3 4 5.
      rewrite (view_set_zone r2 z1 L x) by congruence. unfold view_set, view.
      simpl contents. rewrite G1, C1.
      repeat match goal with |- context [cont_eq_dec ?a ?b] => destruct (cont_eq_dec a b) end;
        try reflexivity; subst; try congruence. }
    split; auto. eexists. split; eauto. unfold occupant. simpl fst. simpl snd.
    assert (Q := Vw (CCard r2)). unfold view in Q. rewrite Q. unfold view_set.
    destruct (cont_eq_dec (CCard r2) (CCard r2)); [reflexivity|congruence].
  - apply card_move_simple in H; auto. destruct H as [A1 [A2 [L1 [E I]]]].
    assert (SL1 := shape_erase _ _ _ _ S E).
    apply card_erase_slot in E; auto. destruct E as [k1' [i1' [E1 [E2 ->]]]].
    rewrite S1 in E1. injection E1 as <- <-.
    apply card_insert_slot in I; auto. destruct I as [k2' [i2' [I1 [I2 [I3 ->]]]]].
    rewrite S2 in I1. injection I1 as <- <-.
    assert (V1 := slot_valid _ _ _ S1). assert (V2 := slot_valid _ _ _ S2).
    assert (W : forall x, view (put k1 (remove_nth i1 (contents k1 L)) L) x = view_remove k1 i1 (view L) x).
    { intros x. apply view_put; auto. apply fits_remove, contents_fits. }
    set (L1 := put k1 (remove_nth i1 (contents k1 L)) L) in *.
    assert (W2 : forall x, view (put k2 (insert_nth i2 (Some c) (contents k2 L1)) L1) x =
                   view_insert k2 i2 c (view_remove k1 i1 (view L)) x).
    { intros x. rewrite view_put; auto. unfold view_insert, view_set.
      destruct (cont_eq_dec x k2); [|apply W]. fold (view L1 k2). rewrite W. reflexivity. }
    split.
    + intros x. rewrite W2. destruct k1, k2; try reflexivity. discriminate.
    + exists (k2, i2). split; auto. unfold occupant. simpl.
      rewrite contents_put_same by auto. apply nth_error_insert_eq. auto.
Qed.

(** ** card_swap *)
Lemma swap_safe_ok : forall a b ka ia kb ib, slot a = Some (ka, ia) -> slot b = Some (kb, ib) ->
  swap_safe a b -> swap_ok a b.
Proof.
  intros a b ka ia kb ib Sa Sb H. unfold swap_safe in H. rewrite Sa, Sb in H. unfold swap_ok.
  assert (Ka := slot_kind _ _ _ Sa). assert (Kb := slot_kind _ _ _ Sb).
  destruct ka as [r|r|r]; [left; tauto|right; left; tauto|].
  destruct Ka as [Pa [Na Za]].
  assert (Ei : ia = N.to_nat (oseqN a)).
  { destruct (slot_inv _ _ _ Sa) as [[r' [_ [_ [E _]]]]|[r' [_ [_ E]]]]; [discriminate|].
    unfold zslot in E. rewrite Na in E. injection E as _ E. unfold oseqN. rewrite Z_N_nat. auto. }
  destruct kb; [right; right; left; tauto| |]; right; right; right; lia.
Qed.

Lemma plval_of_slot : forall p k i, slot p = Some (k, i) -> exists v, plval p v /\ lpos v = (k, i).
Proof. exact slot_plval. Qed.

Lemma card_swap_slots : forall a b L L', card_swap a b L = Ok L' ->
  exists ka ia kb ib, slot a = Some (ka, ia) /\ slot b = Some (kb, ib).
Proof.
  intros a b L L' H. unfold card_swap in H. cbv zeta in H. inv_ok.
  repeat match goal with H : has_card _ _ = Ok _ |- _ => apply has_card_Ok_slot in H; destruct H as [? [? ?]] end.
  eauto 10.
Qed.

Lemma swap_lval_a_plval : forall a b va, swap_ok a b -> plval a va -> swap_lval_a a b va.
Proof.
  intros a b va K P. unfold swap_lval_a.
  destruct (is_pile a) eqn:PA; cbn [andb negb]; auto.
  destruct (not_mat a) eqn:NA; cbn [andb negb]; auto.
  destruct (is_pile b) eqn:PB; cbn [andb negb]; auto.
  destruct P as [[X _]|[_ [r [Z ->]]]]; [congruence|]. rewrite NA.
  exists r. split; auto. f_equal. destruct K as [K|[K|[K|K]]]; congruence.
Qed.

Lemma swap_pre_iff : forall a b L, lay_ok L -> swap_safe a b ->
  ((exists L', card_swap a b L = Ok L') <-> swap_pre a b (view L)).
Proof.
  intros a b L [S N] G. split.
  - intros [L' H]. destruct (card_swap_slots _ _ _ _ H) as [ka [ia [kb [ib [Sa Sb]]]]].
    assert (BC := both_cards_slots _ _ _ _ _ _ Sa Sb).
    assert (OK := swap_safe_ok _ _ _ _ _ _ Sa Sb G).
    unfold swap_pre. rewrite <- (pile_place_ok_iff _ _ _ Sa), <- (pile_place_ok_iff _ _ _ Sb).
    assert (Ka := slot_kind _ _ _ Sa). assert (Kb := slot_kind _ _ _ Sb).
    destruct (both_cards a b) eqn:B.
    + destruct ka as [|ra|], kb as [|rb|]; try discriminate.
      destruct Ka as [P1 [N1 [Z1 ->]]]. destruct Kb as [P2 [N2 [Z2 ->]]].
      apply card_swap_cards in H; auto.
      destruct H as [ra' [rb' [za [zb [F [T [Ga [Gb [Ca [Cb _]]]]]]]]]].
      rewrite Z1 in F. injection F as <-. rewrite Z2 in T. injection T as <-.
      split; [congruence|]. split; [congruence|].
      exists (CCard ra), 0%nat, (CCard rb), 0%nat. split; auto. split; auto.
      unfold view. simpl. rewrite Ga, Gb. destruct (z_card za), (z_card zb); try congruence.
      repeat split; discriminate.
    + apply card_swap_simple in H; auto.
      destruct H as [A1 [A2 [M1 [M2 [va [wa [vb [x [y [Pa [Pb [Oa [W [Ow [Ob _]]]]]]]]]]]]]]].
      split; auto. split; auto. exists ka, ia, kb, ib. split; auto. split; auto.
      assert (Ea := plval_slot _ _ Pa). rewrite Sa in Ea. injection Ea as Ea.
      assert (Eb := plval_slot _ _ Pb). rewrite Sb in Eb. injection Eb as Eb.
      split; [unfold occupant in Oa; rewrite <- Ea in Oa; exact Oa|].
      split; [unfold occupant in Ob; rewrite <- Eb in Ob; unfold view; simpl in Ob; congruence|].
      destruct ka, kb; auto.
      * destruct Ka as [Pia _]. destruct Kb as [_ [Nb [Zb _]]]. apply M2; auto.
      * destruct Kb as [Pib _]. destruct Ka as [_ [Na [Za _]]]. apply M1; auto.
  - intros [A1 [A2 [ka [ia [kb [ib [Sa [Sb [Oa [Ob M]]]]]]]]]].
    rewrite <- (pile_place_ok_iff _ _ _ Sa) in A1. rewrite <- (pile_place_ok_iff _ _ _ Sb) in A2.
    assert (BC := both_cards_slots _ _ _ _ _ _ Sa Sb).
    assert (OK := swap_safe_ok _ _ _ _ _ _ Sa Sb G).
    assert (Ka := slot_kind _ _ _ Sa). assert (Kb := slot_kind _ _ _ Sb).
    destruct (both_cards a b) eqn:B.
    + destruct ka as [|ra|], kb as [|rb|]; try discriminate.
      destruct Ka as [P1 [N1 [Z1 ->]]]. destruct Kb as [P2 [N2 [Z2 ->]]].
      unfold view in *. simpl in Oa, Ob.
      destruct (get_zone ra L) as [za|] eqn:Ga; [|simpl in Oa; congruence].
      destruct (get_zone rb L) as [zb|] eqn:Gb; [|simpl in Ob; congruence].
      eexists. apply card_swap_cards; auto. exists ra, rb, za, zb.
      repeat split; auto; [destruct (z_card za)|destruct (z_card zb)]; simpl in *; congruence.
    + destruct (slot_plval _ _ _ Sa) as [va [Pa Ea]]. destruct (slot_plval _ _ _ Sb) as [vb [Pb Eb]].
      assert (Xa : exists x, occupant L (ka, ia) = Some (Some x)).
      { assert (N' := N (ka, ia)). unfold occupant, view in *. simpl in *.
        destruct (nth_error (contents ka L) ia) as [[x|]|]; eauto; congruence. }
      assert (Xb : exists x, occupant L (kb, ib) = Some (Some x)).
      { assert (N' := N (kb, ib)). unfold occupant, view in *. simpl in *.
        destruct (nth_error (contents kb L) ib) as [[x|]|]; eauto; congruence. }
      destruct Xa as [x Xa]. destruct Xb as [y Xb].
      eexists. apply card_swap_simple; auto. split; auto. split; auto.
      split; [|split].
      * intros r Z NM PB. assert (Z' := proj1 (zone_of_inv _ _ Z)).
        destruct ka as [r'|r'|r'], kb as [q|q|q]; try (destruct Ka, Kb; congruence);
          repeat match goal with H : _ /\ _ |- _ => destruct H end; try congruence.
        assert (r = r') by congruence. subst. exact M.
      * intros r Z NM PB. assert (Z' := proj1 (zone_of_inv _ _ Z)).
        destruct ka as [r'|r'|r'], kb as [q|q|q]; try (destruct Ka, Kb; congruence);
          repeat match goal with H : _ /\ _ |- _ => destruct H end; try congruence.
        assert (r = q) by congruence. subst. exact M.
      * exists va, va, vb, x, y. rewrite Ea, Eb. split; auto. split; auto. split; [congruence|].
        split; [apply swap_lval_a_plval; auto|]. split; auto.
Qed.

Lemma card_swap_view : forall a b L L', lay_ok L -> swap_safe a b -> card_swap a b L = Ok L' ->
  exists pa pb, slot a = Some pa /\ slot b = Some pb /\
    match fst pa, fst pb with
    | CCard ra, CCard rb =>
        (forall r, zone_view r L' = exchange zref_eq_dec ra rb (fun r => zone_view r L) r) /\
        (forall r, contents (CPile r) L' = contents (CPile r) L)
    | _, _ => forall pos, occupant L' pos = exchange pos_eq_dec pa pb (occupant L) pos
    end.
Proof.
  intros a b L L' [S N] G H. destruct (card_swap_slots _ _ _ _ H) as [ka [ia [kb [ib [Sa Sb]]]]].
  exists (ka, ia), (kb, ib). split; auto. split; auto.
  assert (BC := both_cards_slots _ _ _ _ _ _ Sa Sb).
  assert (OK := swap_safe_ok _ _ _ _ _ _ Sa Sb G).
  assert (Ka := slot_kind _ _ _ Sa). assert (Kb := slot_kind _ _ _ Sb).
  destruct (both_cards a b) eqn:B.
  - destruct ka as [|ra|], kb as [|rb|]; try discriminate. simpl fst. cbv iota.
    destruct Ka as [P1 [N1 [Z1 ->]]]. destruct Kb as [P2 [N2 [Z2 ->]]].
    apply card_swap_cards in H; auto.
    destruct H as [ra' [rb' [za [zb [F [T [Ga [Gb [Ca [Cb ->]]]]]]]]]].
    rewrite Z1 in F. injection F as <-. rewrite Z2 in T. injection T as <-.
    split; [|intros r; simpl; rewrite !get_pile_set_zone; reflexivity].
    intros r. unfold exchange.
    destruct (zref_eq_dec r ra) as [->|Na]; [|destruct (zref_eq_dec r rb) as [->|Nb]];
      apply zone_view_zone.
    + destruct (zref_eq_dec ra rb) as [<-|Ne].
      * rewrite get_set_zone_same by zs. congruence.
      * rewrite get_set_zone_other by auto. rewrite get_set_zone_same by congruence. auto.
    + rewrite get_set_zone_same by zs. auto.
    + rewrite !get_set_zone_other by auto. reflexivity.
  - apply card_swap_simple in H; auto.
    destruct H as [A1 [A2 [M1 [M2 [va [wa [vb [x [y [Pa [Pb [Oa [W [Ow [Ob ->]]]]]]]]]]]]]]].
    assert (E := swap_ok_lval _ _ _ _ OK W Pa). subst wa.
    assert (Va := plval_valid _ _ Pa). assert (Vb := plval_valid _ _ Pb).
    assert (Ea := plval_slot _ _ Pa). rewrite Sa in Ea. injection Ea as Ea.
    assert (Eb := plval_slot _ _ Pb). rewrite Sb in Eb. injection Eb as Eb.
    assert (Fin : forall pos, occupant (swap_pos (lpos va) (lpos vb) x y L) pos =
              exchange pos_eq_dec (ka, ia) (kb, ib) (occupant L) pos).
    { intros pos. rewrite occupant_swap_pos by auto. rewrite <- Ea, <- Eb in *. unfold exchange.
      destruct (pos_eq_dec pos (ka, ia)); [auto|]. destruct (pos_eq_dec pos (kb, ib)); auto. }
    simpl fst. cbv iota. destruct ka, kb; auto. discriminate.
Qed.

(** ** piles *)
Lemma view_set_pile : forall r l L x, view (set_pile r l L) x = view_set (CPile r) l (view L) x.
Proof.
  intros r l L x. unfold view, view_set. destruct (cont_eq_dec x (CPile r)) as [->|N].
  - simpl. apply get_set_pile_same.
  - destruct x as [q|q|q]; simpl.
    + apply get_set_pile_other. congruence.
    + rewrite get_zone_set_pile. reflexivity.
    + rewrite get_zone_set_pile. reflexivity.
Qed.

Lemma pile_of_iff : forall p r, pile_of p = Ok r <-> exists i, slot p = Some (CPile r, i).
Proof.
  intros p r. split.
  - intros H. apply pile_of_slot in H. eauto.
  - intros [i H]. apply slot_kind in H. tauto.
Qed.

Lemma pile_swap_view : forall a b L L', pile_swap a b L = Ok L' ->
  exists ra rb ia ib, slot a = Some (CPile ra, ia) /\ slot b = Some (CPile rb, ib) /\
    forall x, view L' x = exchange cont_eq_dec (CPile ra) (CPile rb) (view L) x.
Proof.
  intros a b L L' H. apply pile_swap_Ok in H. destruct H as [ra [rb [A [B ->]]]].
  apply pile_of_iff in A. apply pile_of_iff in B. destruct A as [ia A]. destruct B as [ib B].
  exists ra, rb, ia, ib. split; auto. split; auto. intros x. rewrite view_set_pile.
  unfold view_set, exchange. rewrite view_set_pile. unfold view_set, view. simpl.
  destruct (cont_eq_dec x (CPile rb)) as [->|Nb]; auto.
  - destruct (cont_eq_dec (CPile rb) (CPile ra)) as [E|]; auto. injection E as ->. auto.
Qed.

Lemma pile_swap_succeeds : forall a b ra rb ia ib L,
  slot a = Some (CPile ra, ia) -> slot b = Some (CPile rb, ib) ->
  exists L', pile_swap a b L = Ok L'.
Proof.
  intros a b ra rb ia ib L A B. eexists. apply pile_swap_Ok. exists ra, rb.
  repeat split; apply pile_of_iff; eauto.
Qed.

Lemma pile_splice_view : forall from count to rev_ L L', pile_splice from count to rev_ L = Ok L' ->
  exists r1 r2 s t, slot from = Some (CPile r1, s) /\ slot to = Some (CPile r2, t) /\
  exists before cut after, contents (CPile r1) L = before ++ cut ++ after /\
    length before = s /\ length cut = N.to_nat count /\
    let v1 := view_set (CPile r1) (before ++ after) (view L) in
    exists b2 a2, v1 (CPile r2) = b2 ++ a2 /\ length b2 = t /\
      forall x, view L' x =
        view_set (CPile r2) (b2 ++ (if rev_ then rev cut else cut) ++ a2) v1 x.
Proof.
  intros from count to rev_ L L' H. apply pile_splice_Ok in H.
  destruct H as [r1 [r2 [R1 [R2 H]]]]. cbv zeta in H. destruct H as [Hs [Ht [V1 [V2 ->]]]].
  apply pile_of_slot in R1. apply pile_of_slot in R2.
  exists r1, r2, (N.to_nat (p_seq from)), (N.to_nat (p_seq to)). split; auto. split; auto.
  set (s := N.to_nat (p_seq from)) in *. set (n := N.to_nat count) in *.
  set (t := N.to_nat (p_seq to)) in *. set (l1 := get_pile r1 L) in *.
  exists (firstn s l1), (firstn n (skipn s l1)), (skipn (s + n) l1).
  split; [|split; [|split]].
  - simpl. fold l1. rewrite <- (firstn_skipn s l1) at 1. f_equal.
    rewrite <- (firstn_skipn n (skipn s l1)) at 1. f_equal. rewrite skipn_add. reflexivity.
  - rewrite firstn_length. lia.
  - rewrite firstn_length, skipn_length. lia.
  - cbv zeta. set (L1 := set_pile r1 _ L) in *. exists (firstn t (get_pile r2 L1)), (skipn t (get_pile r2 L1)).
    split; [|split].
    + rewrite firstn_skipn. rewrite <- view_set_pile. reflexivity.
    + rewrite firstn_length. lia.
    + intros x. rewrite view_set_pile. unfold view_set at 1 2.
      destruct (cont_eq_dec x (CPile r2)); [reflexivity|]. apply view_set_pile.
Qed.

Lemma pile_splice_succeeds : forall from count to rev_ L r1 r2 s t, nonull L ->
  slot from = Some (CPile r1, s) -> slot to = Some (CPile r2, t) ->
  (s + N.to_nat count <= length (contents (CPile r1) L))%nat ->
  (t <= length (contents (CPile r2) L) - (if pref_eq_dec r1 r2 then N.to_nat count else 0))%nat ->
  exists L', pile_splice from count to rev_ L = Ok L'.
Proof.
  intros from count to rev_ L r1 r2 s t NN S1 S2 H1 H2.
  assert (R1 := proj2 (pile_of_iff _ _) (ex_intro _ _ S1)).
  assert (R2 := proj2 (pile_of_iff _ _) (ex_intro _ _ S2)).
  assert (E1 := proj1 (pile_of_slot _ _) R1). rewrite S1 in E1. injection E1 as ->.
  assert (E2 := proj1 (pile_of_slot _ _) R2). rewrite S2 in E2. injection E2 as ->.
  simpl in H1, H2.
  assert (A1 : all_some (get_pile r1 L)) by (apply nonull_pile; auto).
  assert (A2 : all_some (get_pile r2 L)) by (apply nonull_pile; auto).
  eexists. apply pile_splice_Ok. exists r1, r2. split; auto. split; auto. cbv zeta.
  set (s := N.to_nat (p_seq from)) in *. set (n := N.to_nat count) in *.
  set (t := N.to_nat (p_seq to)) in *. set (l1 := get_pile r1 L) in *.
  assert (B1 : all_some (firstn s l1 ++ skipn (s + n) l1)).
  { apply all_some_app. split; [apply all_some_firstn|apply all_some_skipn]; auto. }
  assert (B2 : all_some (get_pile r2 (set_pile r1 (firstn s l1 ++ skipn (s + n) l1) L))).
  { destruct (pref_eq_dec r1 r2) as [<-|Ne].
    - rewrite get_set_pile_same. auto.
    - rewrite get_set_pile_other by auto. auto. }
  split; auto. split; [|split; [auto|split; [|reflexivity]]].
  - destruct (pref_eq_dec r1 r2) as [<-|Ne].
    + rewrite get_set_pile_same, app_length, firstn_length, skipn_length. fold l1 in H2. lia.
    + rewrite get_set_pile_other by auto. lia.
  - apply all_some_app. split; [apply all_some_firstn; auto|].
    apply all_some_app. split; [|apply all_some_skipn; auto]. unfold spliced.
    destruct rev_; [apply all_some_rev; rewrite rev_involutive|];
      apply all_some_firstn, all_some_skipn; auto.
Qed.

(** ** pile_resize *)
Section Resize.
Variable C : Type.
Variable c0 : C.

Lemma grow_pile_spec : forall n r (f : frame C), inv _ f ->
  exists new, length new = n /\
    (forall x, view (f_lay (grow_pile c0 n r f)) x =
       view_set (CPile r) (view (f_lay f) (CPile r) ++ map Some new) (view (f_lay f)) x) /\
    (forall id, In id new -> ~ live f id) /\
    (forall id, live (grow_pile c0 n r f) id <-> live f id \/ In id new).
Proof.
  induction n as [|n IH]; intros r f I.
  - exists []. split; auto. split; [|split; [simpl; tauto|simpl; tauto]].
    intros x. simpl. unfold view_set. destruct (cont_eq_dec x (CPile r)) as [->|]; auto.
    rewrite app_nil_r. reflexivity.
  - cbn [grow_pile construct_card]. unfold construct_card. cbv beta iota.
    set (f1 := with_lay _ _).
    assert (I1 : inv _ f1) by (exact (inv_grow _ c0 1 r f I)).
    destruct (IH r f1 I1) as [new [Ln [Vw [Nw Lv]]]].
    exists (f_next f :: new). split; [simpl; lia|].
    assert (V1 : forall x, view (f_lay f1) x =
      view_set (CPile r) (view (f_lay f) (CPile r) ++ [Some (f_next f)]) (view (f_lay f)) x).
    { intros x. unfold f1. simpl. apply view_set_pile. }
    assert (L1 : forall id, live f1 id <-> id = f_next f \/ live f id).
    { intros id. unfold live, f1. simpl. split; intros [X|X]; auto. }
    split; [|split].
    + intros x. rewrite Vw. unfold view_set at 1. unfold view_set at 1.
      destruct (cont_eq_dec x (CPile r)) as [->|Nx].
      * rewrite V1. unfold view_set. destruct (cont_eq_dec (CPile r) (CPile r)); [|congruence].
        rewrite <- app_assoc. reflexivity.
      * rewrite V1. unfold view_set. destruct (cont_eq_dec x (CPile r)); [congruence|reflexivity].
    + intros id [<-|X].
      * intros Y. apply (inv_lt _ _ I) in Y. lia.
      * intros Y. apply (Nw _ X). apply L1. auto.
    + intros id. rewrite Lv, L1. simpl. split; intros H; repeat destruct H as [H|H]; auto.
Qed.

Lemma shrink_pile_spec : forall n r (f : frame C), inv _ f ->
  (n <= length (contents (CPile r) (f_lay f)))%nat ->
  exists f', shrink_pile n r f = Ok f' /\ inv _ f' /\
    (forall x, view (f_lay f') x =
       view_set (CPile r) (firstn (length (view (f_lay f) (CPile r)) - n) (view (f_lay f) (CPile r)))
         (view (f_lay f)) x) /\
    (forall id, live f' id <-> live f id /\
       ~ In (Some id) (skipn (length (view (f_lay f) (CPile r)) - n) (view (f_lay f) (CPile r)))).
Proof.
  induction n as [|n IH]; intros r f I Ln.
  - exists f. split; auto. split; auto. unfold view. rewrite Nat.sub_0_r, firstn_all, skipn_all. split.
    + intros x. unfold view_set. destruct (cont_eq_dec x (CPile r)) as [->|]; auto.
    + simpl. tauto.
  - simpl contents in Ln.
    set (l := get_pile r (f_lay f)) in *.
    destruct (nth_error l (length l - 1)) as [[id|]|] eqn:E.
    2:{ exfalso. apply (cons_nonnull (inv_conserved _ _ I) (CPile r, (length l - 1)%nat)). exact E. }
    2:{ apply nth_error_None in E. lia. }
    assert (Lv : live f id) by (eapply (heap_live _ f (CPile r)); eauto).
    destruct (heap_remove_In _ _ _ Lv) as [h Hr].
    set (f1 := mkFrame (f_next f) h (set_pile r (firstn (length l - 1) l) (f_lay f))).
    assert (St : shrink_pile (S n) r f = shrink_pile n r f1).
    { cbn [shrink_pile]. fold l. rewrite E. cbn [or_ub obind deref]. unfold destruct_card. rewrite Hr.
      reflexivity. }
    assert (I1 : inv _ f1).
    { apply (inv_shrink _ 1 r f f1 I). cbn [shrink_pile]. fold l. rewrite E. cbn [or_ub obind deref].
      unfold destruct_card. rewrite Hr. reflexivity. }
    assert (P1 : get_pile r (f_lay f1) = firstn (length l - 1) l).
    { unfold f1. simpl. apply get_set_pile_same. }
    destruct (IH r f1 I1) as [f' [R [I' [Vw Lv']]]].
    { simpl. fold f1. change (f_lay f1) with (f_lay f1).
      replace (get_pile r (set_pile r (firstn (length l - 1) l) (f_lay f))) with (firstn (length l - 1) l)
        by (symmetry; apply get_set_pile_same).
      rewrite firstn_length. lia. }
    exists f'. rewrite St. split; auto. split; auto.
    assert (Vr : view (f_lay f1) (CPile r) = firstn (length l - 1) l) by (exact P1).
    rewrite Vr in Vw, Lv'.
    assert (Ll : (length (firstn (length l - 1) l) - n = length l - S n)%nat).
    { rewrite firstn_length. lia. }
    rewrite Ll in Vw, Lv'. rewrite firstn_firstn in Vw.
    replace (Nat.min (length l - S n) (length l - 1)) with (length l - S n)%nat in Vw by lia.
    change (view (f_lay f) (CPile r)) with l. split.
    + intros x. rewrite Vw. unfold view_set. destruct (cont_eq_dec x (CPile r)) as [->|Nx]; auto.
      unfold f1. simpl. rewrite view_set_pile. unfold view_set.
      destruct (cont_eq_dec x (CPile r)); [congruence|reflexivity].
    + intros x. rewrite Lv'. unfold live at 1. unfold f1 at 1. simpl f_heap.
      rewrite (live_remove _ f id h x (inv_nodup _ _ I) Hr).
      assert (Sp : skipn (length l - S n) l =
                   skipn (length l - S n) (firstn (length l - 1) l) ++ [Some id]).
      { rewrite (firstn_last _ _ _ E) at 2. rewrite skipn_app. f_equal.
        rewrite firstn_length. replace (length l - S n - Nat.min (length l - 1) (length l))%nat with 0%nat by lia.
        reflexivity. }
      rewrite Sp. rewrite in_app_iff. simpl. split.
      * intros [[A B] D]. split; auto. intros [F|[F|[]]]; auto. congruence.
      * intros [A B]. split; [split; auto|]; intros X; apply B; auto. right. left. congruence.
Qed.

Lemma pile_resize_spec : forall p n r i (f : frame C), inv _ f -> slot p = Some (CPile r, i) ->
  exists f' new, pile_resize c0 p n f = Ok f' /\
    let old := contents (CPile r) (f_lay f) in
    length (contents (CPile r) (f_lay f')) = N.to_nat n /\
    (forall x, view (f_lay f') x =
       view_set (CPile r) (firstn (N.to_nat n) old ++ map Some new) (view (f_lay f)) x) /\
    (forall id, In id new -> ~ live f id) /\
    (forall id, live f' id <->
       (live f id /\ ~ In (Some id) (skipn (N.to_nat n) old)) \/ In id new).
Proof.
  intros p n r i f I Sl. assert (R := proj2 (pile_of_iff _ _) (ex_intro _ _ Sl)).
  assert (Pi := pile_of_is_pile _ _ R). unfold pile_resize. rewrite Pi, R. cbn [assert_ obind].
  cbv zeta. set (l := get_pile r (f_lay f)).
  assert (VP : forall f' : frame C, inv _ f' -> verify_pile (get_pile r (f_lay f')) = Ok tt).
  { intros f' I'. apply verify_pile_Ok. apply nonull_pile. apply I'. }
  unfold lenN. destruct (N.ltb_spec (N.of_nat (length l)) n) as [Hg|Hg].
  - set (f' := grow_pile c0 _ r f). assert (I' : inv _ f') by (apply inv_grow; auto).
    destruct (grow_pile_spec (N.to_nat (n - N.of_nat (length l))) r f I) as [new [Ln [Vw [Nw Lv]]]].
    fold f' in Vw, Lv. exists f', new. cbn [obind]. rewrite (VP f' I'). split; auto.
    simpl contents. fold l.
    assert (F1 : firstn (N.to_nat n) l = l) by (apply firstn_all2; lia).
    assert (F2 : skipn (N.to_nat n) l = []) by (apply skipn_all2; lia).
    rewrite F1, F2. split; [|split; [exact Vw|split; [auto|]]].
    + assert (Q := Vw (CPile r)). unfold view_set in Q.
      destruct (cont_eq_dec (CPile r) (CPile r)); [|congruence].
      change (get_pile r (f_lay f')) with (view (f_lay f') (CPile r)). rewrite Q.
      unfold view. simpl. fold l. rewrite app_length, map_length. lia.
    + intros id. rewrite Lv. simpl. tauto.
  - assert (Sh : exists f', (if n <? N.of_nat (length l) then shrink_pile (N.to_nat (N.of_nat (length l) - n)) r f else Ok f)
              = Ok f' /\ inv _ f' /\
      (forall x, view (f_lay f') x = view_set (CPile r) (firstn (N.to_nat n) l) (view (f_lay f)) x) /\
      (forall id, live f' id <-> live f id /\ ~ In (Some id) (skipn (N.to_nat n) l))).
    { destruct (N.ltb_spec n (N.of_nat (length l))) as [Hl|Hl].
      - destruct (shrink_pile_spec (N.to_nat (N.of_nat (length l) - n)) r f I) as [f' [E [I' [Vw Lv]]]].
        { simpl. fold l. lia. }
        exists f'. split; auto. split; auto. unfold view at 2 3 in Vw. unfold view in Lv. simpl in Vw, Lv.
        fold l in Vw, Lv.
        replace (length l - N.to_nat (N.of_nat (length l) - n))%nat with (N.to_nat n) in Vw, Lv by lia.
        auto.
      - exists f. split; auto. split; auto. replace (N.to_nat n) with (length l) by lia.
        rewrite firstn_all, skipn_all. split.
        + intros x. unfold view_set. destruct (cont_eq_dec x (CPile r)) as [->|]; auto.
        + simpl. tauto. }
    destruct Sh as [f' [E [I' [Vw Lv]]]]. rewrite E. cbn [obind]. rewrite (VP f' I').
    exists f', []. split; auto. simpl contents. fold l. simpl map. rewrite app_nil_r.
    split; [|split; [exact Vw|split; [simpl; tauto|]]].
    + assert (Q := Vw (CPile r)). unfold view_set in Q.
      destruct (cont_eq_dec (CPile r) (CPile r)); [|congruence].
      change (get_pile r (f_lay f')) with (view (f_lay f') (CPile r)). rewrite Q.
      rewrite firstn_length. lia.
    + intros id. rewrite Lv. simpl. tauto.
Qed.
End Resize.

(** ** undefined behaviour of the accessors *)
Definition single_loc (loc : N) : Prop := loc = 0 \/ exists k, loc = 2 ^ k.

Lemma pow2_le_log : forall k, 2 ^ k <= 0x400 -> k <= 10.
Proof.
  intros k H. destruct (N.le_gt_cases k 10); auto. exfalso.
  assert (2 ^ 11 <= 2 ^ k) by (apply N.pow_le_mono_r; lia). simpl in *. lia.
Qed.

Lemma single_pile : forall loc, single_loc loc -> loc_is_pile loc = true -> In loc pile_locs.
Proof.
  intros loc [->|[k ->]] H; [discriminate|]. apply loc_is_pile_pow2; auto.
Qed.
Lemma single_zone : forall loc, single_loc loc -> loc_is_zone loc = true -> In loc zone_locs.
Proof.
  intros loc [->|[k ->]] H; [discriminate|]. apply loc_is_zone_pow2; auto.
Qed.

Lemma pile_ref_defined : forall con loc, (0 <= con)%Z -> single_loc loc -> pile_ref con loc <> UB.
Proof.
  intros con loc Hc Sg. unfold pile_ref.
  destruct (Z.leb_spec con 1); simpl; [|discriminate].
  destruct (loc_is_pile loc) eqn:E; simpl; [|discriminate].
  assert (Ci : exists b, con_index con = Ok b).
  { unfold con_index. destruct (Z.eqb_spec con 0); [eauto|]. destruct (Z.eqb_spec con 1); [eauto|lia]. }
  destruct Ci as [b ->]. apply single_pile in E; auto. unfold pile_locs in E. simpl in E.
  repeat destruct E as [<-|E]; try discriminate. tauto.
Qed.

Lemma zone_ref_defined : forall con loc seq, (0 <= con)%Z -> single_loc loc ->
  loc_is_zone loc = true -> zone_ref con loc seq <> UB.
Proof.
  intros con loc seq Hc Sg E. unfold zone_ref.
  destruct (Z.leb_spec con 1); simpl; [|discriminate].
  assert (Ci : exists b, con_index con = Ok b).
  { unfold con_index. destruct (Z.eqb_spec con 0); [eauto|]. destruct (Z.eqb_spec con 1); [eauto|lia]. }
  destruct Ci as [b ->]. apply single_zone in E; auto. unfold zone_locs in E. simpl in E.
  repeat destruct E as [<-|E]; try tauto; simpl;
  match goal with |- context [seq <? ?x] => destruct (seq <? x) end; discriminate.
Qed.

Lemma has_card_defined : forall p L, shape L -> (0 <= p_con p)%Z -> single_loc (p_loc p) ->
  has_card p L <> UB.
Proof.
  intros p L S Hc Sg. unfold has_card. destruct (is_empty p); simpl; [discriminate|].
  destruct (is_pile p).
  - assert (X := pile_ref_defined _ _ Hc Sg). unfold pile_of. destruct (pile_ref _ _); simpl; congruence.
  - destruct (is_zone p) eqn:E; simpl; [|discriminate].
    assert (X := zone_ref_defined _ _ (p_seq p) Hc Sg E). unfold zone_of.
    assert (Y := single_zone _ Sg E).
    assert (Z : zone_seq_lim (p_loc p) <> UB).
    { unfold zone_locs in Y. simpl in Y. repeat destruct Y as [<-|Y]; try discriminate. tauto. }
    destruct (zone_seq_lim (p_loc p)); simpl; try congruence.
    destruct (_ <? _); simpl; [|discriminate].
    destruct (zone_ref _ _ _) as [r| | |] eqn:Q; simpl; try congruence.
    assert (V := valid_zone_some p r L S Q). unfold read_zone.
    destruct (get_zone r L); [|congruence]. simpl. destruct (not_mat p); discriminate.
Qed.

Lemma card_defined : forall C p (f : frame C), inv _ f -> (0 <= p_con p)%Z -> single_loc (p_loc p) ->
  card_at_place p f <> UB.
Proof.
  intros C p f I Hc Sg. assert (S := proj1 (inv_lay _ _ I)).
  assert (X := has_card_defined p _ S Hc Sg). unfold card_at_place.
  destruct (is_empty p) eqn:E; [discriminate|]. cbn [negb assert_ obind].
  destruct (has_card p (f_lay f)) as [b| | |] eqn:H; try congruence; try discriminate.
  destruct b; [|discriminate].
  destruct (has_card_Ok_slot _ _ _ H) as [k [i Sl]].
  destruct (card_at_place_iff _ _ _ _ _ I Sl) as [[_ [id [Cc _]]]|[Y _]]; [|congruence].
  unfold card_at_place in Cc. rewrite E, H in Cc. cbn [negb assert_ obind] in *. rewrite Cc. discriminate.
Qed.
