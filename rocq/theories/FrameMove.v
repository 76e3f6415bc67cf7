(** card_move and card_swap through containers. *)
From Verif Require Import Base BaseProofs Place PlaceProofs Frame FrameSpec FrameLens FrameProofs.

Local Open Scope N_scope.

(** ** card_move *)

(** Execute the computation in the goal using the facts in the context. *)
Ltac run_step :=
  match goal with
  | |- context [obind (Ok _) _] => cbn [obind]
  | |- context [assert_ true] => cbn [assert_ obind]
  | |- context [or_ub (Some _)] => cbn [or_ub obind]
  | E : ?m = Ok _ |- context [obind ?m _] => rewrite E; cbn [obind]
  | E : ?b = true |- context [assert_ ?b] => rewrite E; cbn [assert_ obind]
  | E : ?o = Some _ |- context [or_ub ?o] => rewrite E; cbn [or_ub obind]
  end.
Ltac run := repeat run_step.

Definition both_cards (from to : place) : bool :=
  negb (is_pile from) && negb (is_pile to) && not_mat from && not_mat to.

Lemma take_at_Ok : forall l i c l', take_at l i = Ok (c, l') <->
  exists id, c = Some id /\ nth_error l (N.to_nat i) = Some (Some id) /\
    l' = remove_nth (N.to_nat i) l.
Proof.
  intros l i c l'. unfold take_at. split.
  - intros H. inv_ok. destruct c as [id|]; [|discriminate]. eauto.
  - intros [id [-> [N ->]]]. assert (N.to_nat i < length l)%nat.
    { apply nth_error_Some. congruence. }
    unfold lenN. replace (i <? N.of_nat (length l)) with true by lia.
    rewrite N. reflexivity.
Qed.

Lemma insert_at_Ok : forall l i c l', insert_at l i c = Ok l' <->
  exists id, c = Some id /\ (N.to_nat i <= length l)%nat /\ l' = insert_nth (N.to_nat i) c l.
Proof.
  intros l i c l'. unfold insert_at, lenN. split.
  - intros H. inv_ok. destruct c as [id|]; [|discriminate]. exists id. repeat split. lia.
  - intros [id [-> [N ->]]]. replace (i <=? N.of_nat (length l)) with true by lia. reflexivity.
Qed.

Lemma nth_if : forall (l : list ptr) i x, nth_error l (N.to_nat i) = Some x ->
  (if i <? lenN l then nth_error l (N.to_nat i) else None) = Some x.
Proof.
  intros l i x H. assert (N.to_nat i < length l)%nat by (apply nth_error_Some; congruence).
  unfold lenN. replace (i <? N.of_nat (length l)) with true by lia. exact H.
Qed.

Lemma nth_if_inv : forall (l : list ptr) i x,
  (if i <? lenN l then nth_error l (N.to_nat i) else None) = Some x ->
  nth_error l (N.to_nat i) = Some x.
Proof. intros l i x H. destruct (i <? lenN l); [auto|discriminate]. Qed.

(** Setting the materials of a zone does not touch any zone's card. *)
Lemma null_after_mats : forall r r' z m L z', get_zone r L = Some z ->
  get_zone r' (set_zone r (mkZone (z_card z) m) L) = Some z' ->
  exists z'', get_zone r' L = Some z'' /\ z_card z'' = z_card z'.
Proof.
  intros r r' z m L z' G G'. destruct (zref_eq_dec r r') as [<-|N].
  - rewrite get_set_zone_same in G' by congruence. injection G' as <-. eauto.
  - rewrite get_set_zone_other in G' by auto. eauto.
Qed.

Lemma card_erase_has : forall p c L L1, shape L -> card_erase p L = Ok (c, L1) ->
  has_card p L = Ok true.
Proof.
  intros p c L L1 S H. apply card_erase_slot in H; auto. destruct H as [k [i [Sl [N _]]]].
  rewrite (has_card_slot _ _ _ _ S Sl). f_equal. apply Nat.ltb_lt, nth_error_Some. congruence.
Qed.

(** What [card_move] does when it is not a move of a zone's card to a zone. *)
Lemma card_move_simple : forall from to c L L', shape L -> both_cards from to = false ->
  (card_move from to L = Ok (c, L') <->
   (is_pile from = true -> not_mat from = true) /\
   (is_pile to = true -> not_mat to = true) /\
   exists L1, card_erase from L = Ok (c, L1) /\ card_insert to c L1 = Ok L').
Proof.
  intros from to c L L' S B. unfold both_cards in B. unfold card_move. split.
  - intros H. inv_ok. cbv zeta in H. inv_ok. subst r.
    split; [intros I; rewrite I in *; auto|]. split; [intros I; rewrite I in *; auto|].
    clear r0 r1. unfold read_zone, deref in *.
    unfold card_erase, card_insert, read_zone, deref.
    destruct (is_pile from) eqn:FP, (is_pile to) eqn:TP; simpl in H, B;
      destruct (not_mat from) eqn:FN, (not_mat to) eqn:TN; try discriminate;
      cbn [andb negb] in H; inv_ok;
      repeat match goal with
      | H : take_at _ _ = Ok (?c, ?l) |- _ =>
          is_var l; pose proof (proj1 (take_at_Ok _ _ _ _) H) as [? [? [? ?]]]; subst l
      end; inv_ok; subst;
      repeat match goal with
      | H : nth_error ?l (N.to_nat ?i) = Some ?x |- _ =>
          apply nth_if in H
      | H : Some _ = Some _ |- _ => injection H as H; subst
      end; subst; eexists; (split; [run; reflexivity|]); run; try reflexivity.
    + match goal with H : z_card _ = Some _ |- _ => rewrite H in * end.
      match goal with H : insert_at _ _ _ = Ok _ |- _ => rewrite H end. reflexivity.
    + match goal with G : get_zone _ (set_zone _ _ _) = Some ?z |- context [is_null (z_card ?z)] =>
        eapply null_after_mats in G; [destruct G as [z'' [G1 G2]]|eassumption] end.
      rewrite <- G2. replace z'' with r1 by congruence. run. reflexivity.
  - intros [FI [TI [L1 [He Hi]]]]. rewrite (card_erase_has _ _ _ _ S He). run.
    unfold card_erase, card_insert, read_zone, deref in *. cbv zeta.
    destruct (is_pile from) eqn:FP, (is_pile to) eqn:TP; simpl in B;
      destruct (not_mat from) eqn:FN, (not_mat to) eqn:TN; try discriminate;
      try (specialize (FI eq_refl); discriminate); try (specialize (TI eq_refl); discriminate);
      cbn [andb negb orb]; inv_ok; subst; run;
      repeat match goal with
      | H : (if _ then nth_error ?l ?i else None) = Some ?x |- _ =>
          apply nth_if_inv in H
      end;
      try match goal with
      | H : nth_error ?l (N.to_nat ?i) = Some (Some ?x) |- context [take_at ?l ?i] =>
          rewrite (proj2 (take_at_Ok l i (Some x) (remove_nth (N.to_nat i) l)))
            by (eexists; repeat split; eassumption)
      end; run; try reflexivity.
    match goal with G : get_zone _ (set_zone _ _ _) = Some ?z, N : is_null (z_card ?z) = true |- _ =>
      pose proof G as G'; eapply null_after_mats in G'; [destruct G' as [z'' [G1 G2]]|eassumption];
      rewrite <- G2 in N end.
    run. reflexivity.
Qed.

(** Moving a zone's card to a zone. *)
Lemma card_move_cards : forall from to c L L', shape L -> both_cards from to = true ->
  (card_move from to L = Ok (c, L') <->
   exists r1 r2 z1, zone_of from = Ok r1 /\ zone_of to = Ok r2 /\
     get_zone r1 L = Some z1 /\ z_card z1 = Some c /\ get_zone r2 L = Some zone0 /\
     L' = set_zone r1 zone0 (set_zone r2 z1 L)).
Proof.
  intros from to c L L' S B. unfold both_cards in B.
  apply andb_true_iff in B. destruct B as [B TN]. apply andb_true_iff in B. destruct B as [B FN].
  apply andb_true_iff in B. destruct B as [FP TP].
  apply negb_true_iff in FP. apply negb_true_iff in TP.
  unfold card_move. cbv zeta. rewrite FP, TP, FN, TN. cbn [andb negb orb]. run. split.
  - intros H. inv_ok. subst. unfold read_zone, deref in *. inv_ok.
    match goal with H : _ && _ = true |- _ => apply andb_true_iff in H; destruct H as [N1 N2] end.
    destruct r3 as [c3 m3]. destruct c3; [discriminate|]. destruct m3; [|discriminate].
    assert (N : r1 <> r2) by (intros <-; rewrite E5 in E3; injection E3 as ->; discriminate).
    exists r1, r2, r5. repeat split; auto.
    rewrite get_set_zone_other in E6 by auto. rewrite E3 in E6. injection E6 as <-.
    rewrite get_set_zone_other in E7 by auto. rewrite get_set_zone_same in E7 by congruence.
    injection E7 as <-.
    rewrite get_set_zone_same in E8 by (rewrite get_set_zone_other; congruence).
    injection E8 as <-. cbn [z_card z_mats] in *.
    rewrite get_set_zone_other in E9 by auto. rewrite get_set_zone_other in E9 by auto.
    rewrite get_set_zone_same in E9 by congruence. injection E9 as <-. cbn [z_card z_mats].
    rewrite set_set_zone. rewrite (set_zone_comm r2 r1) by auto. rewrite set_set_zone.
    destruct r5; reflexivity.
  - intros [r1 [r2 [z1 [F [T [G1 [Zc [G2 ->]]]]]]]].
    assert (N : r1 <> r2) by (intros <-; rewrite G1 in G2; injection G2 as ->; discriminate).
    assert (Sl : slot from = Some (CCard r1, 0%nat)).
    { apply zone_of_slot in F. unfold zslot in F. rewrite FN in F. exact F. }
    rewrite (has_card_slot _ _ _ _ S Sl). simpl contents. rewrite G1, Zc. simpl Nat.ltb. run.
    unfold read_zone, deref. run. cbn [zone0 z_card z_mats is_null is_nil andb]. run.
    rewrite (get_set_zone_other r1 r2) by auto. run. cbn [zone0 z_card z_mats].
    rewrite (get_set_zone_other r2 r1) by auto. rewrite (get_set_zone_same r1) by congruence.
    run. rewrite (get_set_zone_same r2) by (rewrite get_set_zone_other by auto; congruence).
    run. cbn [z_card z_mats].
    rewrite (get_set_zone_other r2 r1) by auto. rewrite (get_set_zone_other r2 r1) by auto.
    rewrite (get_set_zone_same r1) by congruence. run. cbn [z_card z_mats]. change (0 <? 1)%nat with true. run.
    do 2 f_equal. rewrite set_set_zone. rewrite (set_zone_comm r2 r1) by auto.
    rewrite set_set_zone. destruct z1 as [c1 m1]. simpl in *. subst. reflexivity.
Qed.

(** ** Inverses *)

Lemma shape_insert : forall p c L L', shape L -> card_insert p c L = Ok L' -> shape L'.
Proof.
  intros p c L L' S H. apply card_insert_slot in H; auto.
  destruct H as [k [i [_ [_ [_ ->]]]]]. apply shape_put; auto.
Qed.

Lemma shape_erase : forall p c L L', shape L -> card_erase p L = Ok (c, L') -> shape L'.
Proof.
  intros p c L L' S H. apply card_erase_slot in H; auto.
  destruct H as [k [i [_ [_ ->]]]]. apply shape_put; auto.
Qed.

Lemma shape_move : forall from to c L L', shape L -> card_move from to L = Ok (c, L') -> shape L'.
Proof.
  intros from to c L L' S H. destruct (both_cards from to) eqn:B.
  - apply card_move_cards in H; auto. destruct H as [r1 [r2 [z1 [_ [_ [_ [_ [_ ->]]]]]]]].
    auto using shape_set_zone.
  - apply card_move_simple in H; auto. destruct H as [_ [_ [L1 [E I]]]].
    eauto using shape_insert, shape_erase.
Qed.

Lemma fits_remove : forall k i l, fits k l -> fits k (remove_nth i l).
Proof.
  intros [r|r|r] i l F; simpl in *; auto. destruct F as [->|[c ->]].
  - left. destruct i; reflexivity.
  - destruct i as [|[|i]]; [left; reflexivity|right; eexists; reflexivity|right; eexists; reflexivity].
Qed.

Lemma erase_insert : forall p c L L', shape L ->
  card_insert p c L = Ok L' -> card_erase p L' = Ok (c, L).
Proof.
  intros p c L L' S H. pose proof (shape_insert _ _ _ _ S H) as S'.
  apply card_insert_slot in H; auto. destruct H as [k [i [Sl [Le [F ->]]]]].
  apply card_erase_slot; auto. exists k, i. pose proof (slot_valid _ _ _ Sl) as V.
  rewrite contents_put_same by auto. split; auto. split.
  - apply nth_error_insert_eq; auto.
  - rewrite remove_insert by auto. rewrite put_put. symmetry. apply put_contents.
Qed.

Lemma insert_erase : forall p c L L', shape L ->
  card_erase p L = Ok (c, L') -> card_insert p c L' = Ok L.
Proof.
  intros p c L L' S H. pose proof (shape_erase _ _ _ _ S H) as S'.
  apply card_erase_slot in H; auto. destruct H as [k [i [Sl [Nt ->]]]].
  apply card_insert_slot; auto. exists k, i. pose proof (slot_valid _ _ _ Sl) as V.
  rewrite contents_put_same by auto using fits_remove, contents_fits.
  rewrite insert_remove by auto. split; auto. split; [|split].
  - assert (i < length (contents k L))%nat by (apply nth_error_Some; congruence).
    rewrite remove_nth_length; lia.
  - apply contents_fits.
  - rewrite put_put. symmetry. apply put_contents.
Qed.

Lemma both_cards_sym : forall a b, both_cards a b = both_cards b a.
Proof.
  intros. unfold both_cards. destruct (is_pile a), (is_pile b), (not_mat a), (not_mat b); reflexivity.
Qed.

Lemma card_move_back : forall from to c L L', shape L ->
  card_move from to L = Ok (c, L') -> card_move to from L' = Ok (c, L).
Proof.
  intros from to c L L' S H. pose proof (shape_move _ _ _ _ _ S H) as S'.
  destruct (both_cards from to) eqn:B.
  - apply card_move_cards in H; auto.
    destruct H as [r1 [r2 [z1 [F [T [G1 [Zc [G2 ->]]]]]]]].
    assert (N : r1 <> r2) by (intros <-; rewrite G1 in G2; injection G2 as ->; discriminate).
    apply card_move_cards; auto. { rewrite both_cards_sym; auto. }
    exists r2, r1, z1. split; auto. split; auto.
    rewrite get_set_zone_other by auto. rewrite get_set_zone_same by congruence.
    split; auto. split; auto.
    rewrite get_set_zone_same by (rewrite get_set_zone_other by auto; congruence).
    split; auto. rewrite set_set_zone. rewrite (set_zone_comm r1 r2) by auto.
    rewrite set_set_zone. rewrite (set_zone_comm r2 r1) by auto.
    rewrite (set_zone_id r2) by auto. rewrite set_zone_id; auto.
  - apply card_move_simple in H; auto. destruct H as [FN [TN [L1 [E I]]]].
    apply card_move_simple; auto. { rewrite both_cards_sym; auto. }
    split; auto. split; auto. exists L1.
    pose proof (shape_erase _ _ _ _ S E) as S1.
    split; [apply erase_insert; auto | apply insert_erase; auto].
Qed.
