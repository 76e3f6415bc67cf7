(** card_swap, pile_splice and pile_swap through containers. *)
From Verif Require Import Base BaseProofs Place PlaceProofs Frame FrameSpec FrameLens
  FrameProofs FrameMove.

Local Open Scope N_scope.

(** ** Swapping two pointers *)

Definition lpos (v : lval) : cont * nat :=
  match v with
  | LvPile r i => (CPile r, N.to_nat i)
  | LvCard r => (CCard r, 0%nat)
  | LvMat r i => (CMats r, N.to_nat i)
  end.

Lemma nth_ptr_Ok : forall l i x, nth_ptr l i = Ok x <-> nth_error l (N.to_nat i) = Some x.
Proof.
  intros l i x. unfold nth_ptr. split; intros H.
  - inv_ok. apply nth_if_inv; auto.
  - rewrite (nth_if _ _ _ H). reflexivity.
Qed.

Lemma read_lval_Some : forall v L x, shape L -> valid_cont (fst (lpos v)) ->
  (read_lval v L = Ok (Some x) <-> occupant L (lpos v) = Some (Some x)).
Proof.
  intros v L x S V. unfold occupant. destruct v as [r i|r|r i]; simpl in *.
  - apply nth_ptr_Ok.
  - destruct (shape_get_zone _ _ S V) as [z G]. unfold read_zone. rewrite G. simpl.
    destruct (z_card z); simpl; (split; intros H; [inversion H|inversion H]); reflexivity.
  - destruct (shape_get_zone _ _ S V) as [z G]. unfold read_zone. rewrite G. simpl.
    apply nth_ptr_Ok.
Qed.

Lemma write_lval_Some : forall v L x y, shape L -> valid_cont (fst (lpos v)) ->
  occupant L (lpos v) = Some (Some x) ->
  write_lval v (Some y) L =
    Ok (put (fst (lpos v)) (upd (snd (lpos v)) (Some y) (contents (fst (lpos v)) L)) L).
Proof.
  intros v L x y S V O. unfold occupant in O. destruct v as [r i|r|r i]; simpl in *.
  - apply nth_ptr_Ok in O. rewrite O. reflexivity.
  - destruct (shape_get_zone _ _ S V) as [z G]. unfold read_zone. rewrite G in *. simpl.
    destruct (z_card z); simpl in *; [reflexivity|discriminate].
  - destruct (shape_get_zone _ _ S V) as [z G]. unfold read_zone. rewrite G in *. simpl.
    apply nth_ptr_Ok in O. rewrite O. reflexivity.
Qed.

(** Exchange the occupants of two positions. *)
Definition swap_pos (a b : cont * nat) (x y : cid) (L : layout) : layout :=
  let L1 := put (fst a) (upd (snd a) (Some y) (contents (fst a) L)) L in
  put (fst b) (upd (snd b) (Some x) (contents (fst b) L1)) L1.

Lemma fits_upd : forall k i y l, fits k l -> fits k (upd i (Some y) l).
Proof.
  intros [r|r|r] i y l F; simpl in *; auto. destruct F as [->|[c ->]].
  - left; destruct i; reflexivity.
  - right. destruct i as [|[|i]]; simpl; eauto.
Qed.

Lemma occupant_put_upd : forall k i y L pos x, shape L -> valid_cont k ->
  occupant L (k, i) = Some x ->
  occupant (put k (upd i (Some y) (contents k L)) L) pos =
    if cont_eq_dec (fst pos) k then
      if Nat.eq_dec (snd pos) i then Some (Some y) else occupant L pos
    else occupant L pos.
Proof.
  intros k i y L [k' i'] x S V O. unfold occupant in *. cbn [fst snd] in *.
  rewrite contents_put by auto using fits_upd, contents_fits. unfold view_set, view.
  destruct (cont_eq_dec k' k) as [->|N]; auto.
  destruct (Nat.eq_dec i' i) as [->|N].
  - apply upd_same. apply nth_error_Some. congruence.
  - apply upd_other. auto.
Qed.

Lemma swap_lval_Some : forall a b L x y, shape L ->
  valid_cont (fst (lpos a)) -> valid_cont (fst (lpos b)) ->
  occupant L (lpos a) = Some (Some x) -> occupant L (lpos b) = Some (Some y) ->
  swap_lval a b L = Ok (swap_pos (lpos a) (lpos b) x y L).
Proof.
  intros a b L x y S Va Vb Oa Ob. unfold swap_lval.
  rewrite (proj2 (read_lval_Some a L x S Va) Oa). cbn [obind].
  rewrite (proj2 (read_lval_Some b L y S Vb) Ob). cbn [obind].
  rewrite (write_lval_Some a L x y S Va Oa). cbn [obind].
  unfold swap_pos. cbv zeta.
  set (L1 := put _ _ L).
  assert (exists z, occupant L1 (lpos b) = Some (Some z)) as [z Oz].
  { subst L1. rewrite (occupant_put_upd _ _ _ _ _ (Some x)); auto.
    destruct (cont_eq_dec _ _); [destruct (Nat.eq_dec _ _)|]; eauto. }
  eapply write_lval_Some; eauto. apply shape_put; auto.
Qed.

Lemma shape_swap_pos : forall a b x y L, shape L -> shape (swap_pos a b x y L).
Proof. intros. unfold swap_pos. auto using shape_put. Qed.

(** The occupants after an exchange. *)
Lemma occupant_swap_pos : forall a b x y L pos, shape L ->
  valid_cont (fst a) -> valid_cont (fst b) ->
  occupant L a = Some (Some x) -> occupant L b = Some (Some y) ->
  occupant (swap_pos a b x y L) pos =
    if pos_eq_dec pos a then Some (Some y)
    else if pos_eq_dec pos b then Some (Some x)
    else occupant L pos.
Proof.
  intros [ka ia] [kb ib] x y L [k i] S Va Vb Oa Ob. unfold swap_pos. cbn [fst snd] in *.
  set (L1 := put ka _ L).
  assert (S1 : shape L1) by (apply shape_put; auto).
  assert (O1 : forall pos, occupant L1 pos =
    if cont_eq_dec (fst pos) ka then
      if Nat.eq_dec (snd pos) ia then Some (Some y) else occupant L pos
    else occupant L pos).
  { intros. apply (occupant_put_upd _ _ _ _ _ (Some x)); auto. }
  assert (exists z, occupant L1 (kb, ib) = Some (Some z)) as [z Oz].
  { rewrite O1. cbn [fst snd]. destruct (cont_eq_dec _ _); [destruct (Nat.eq_dec _ _)|]; eauto. }
  rewrite (occupant_put_upd _ _ _ _ _ (Some z)); auto. cbn [fst snd].
  rewrite O1. cbn [fst snd].
  destruct (pos_eq_dec (k, i) (ka, ia)) as [E|E].
  - injection E as -> ->. destruct (cont_eq_dec ka kb) as [<-|N].
    + destruct (Nat.eq_dec ia ib) as [<-|N']. { congruence. }
      destruct (cont_eq_dec ka ka), (Nat.eq_dec ia ia); congruence.
    + destruct (cont_eq_dec ka ka), (Nat.eq_dec ia ia); congruence.
  - destruct (pos_eq_dec (k, i) (kb, ib)) as [E'|E'].
    + injection E' as -> ->. destruct (cont_eq_dec kb kb), (Nat.eq_dec ib ib); congruence.
    + destruct (cont_eq_dec k kb), (Nat.eq_dec i ib), (cont_eq_dec k ka), (Nat.eq_dec i ia);
        congruence.
Qed.

(** Layouts of the right shape with the same occupants are equal. *)
Lemma occupant_ext : forall L1 L2, shape L1 -> shape L2 ->
  (forall pos, occupant L1 pos = occupant L2 pos) -> L1 = L2.
Proof.
  intros L1 L2 S1 S2 H. apply contents_ext; auto. intros k _. apply nth_error_ext.
  intros i. exact (H (k, i)).
Qed.

Lemma swap_pos_back : forall a b x y L, shape L -> valid_cont (fst a) -> valid_cont (fst b) ->
  occupant L a = Some (Some x) -> occupant L b = Some (Some y) ->
  let L' := swap_pos a b x y L in
  exists x' y', occupant L' a = Some (Some x') /\ occupant L' b = Some (Some y') /\
    swap_pos a b x' y' L' = L.
Proof.
  intros a b x y L S Va Vb Oa Ob L'.
  assert (A : occupant L' a = Some (Some y)).
  { unfold L'. rewrite occupant_swap_pos by auto. destruct (pos_eq_dec a a); congruence. }
  assert (B : occupant L' b = Some (Some x)).
  { unfold L'. rewrite occupant_swap_pos by auto. destruct (pos_eq_dec b a); [congruence|].
    destruct (pos_eq_dec b b); congruence. }
  exists y, x. split; auto. split; auto.
  apply occupant_ext; auto using shape_swap_pos. { unfold L'. auto using shape_swap_pos. }
  intros pos. rewrite occupant_swap_pos; auto. 2: { unfold L'. auto using shape_swap_pos. }
  destruct (pos_eq_dec pos a) as [->|]; [congruence|].
  destruct (pos_eq_dec pos b) as [->|]; [congruence|].
  unfold L'. rewrite occupant_swap_pos by auto.
  destruct (pos_eq_dec pos a); [congruence|]. destruct (pos_eq_dec pos b); congruence.
Qed.

(** ** card_swap *)

Definition nonull (L : layout) : Prop := forall pos, occupant L pos <> Some None.

(** The pointer at a place. *)
Definition plval (p : place) (v : lval) : Prop :=
  (is_pile p = true /\ exists r, pile_of p = Ok r /\ v = LvPile r (p_seq p)) \/
  (is_pile p = false /\ exists r, zone_of p = Ok r /\
     v = if not_mat p then LvCard r else LvMat r (oseqN p)).

Lemma plval_slot : forall p v, plval p v -> slot p = Some (lpos v).
Proof.
  intros p v [[P [r [R ->]]]|[P [r [R ->]]]].
  - apply pile_of_slot in R. exact R.
  - apply zone_of_slot in R. rewrite R. unfold zslot, oseqN. destruct (not_mat p); auto.
    simpl. rewrite Z_N_nat. reflexivity.
Qed.

Lemma plval_valid : forall p v, plval p v -> valid_cont (fst (lpos v)).
Proof. intros p v H. apply plval_slot in H. destruct (lpos v) eqn:E. apply slot_valid in H. auto. Qed.

Lemma slot_plval : forall p k i, slot p = Some (k, i) -> exists v, plval p v /\ lpos v = (k, i).
Proof.
  intros p k i H. destruct (slot_inv _ _ _ H) as [[r [P [R [-> ->]]]]|[r [P [Z E]]]].
  - exists (LvPile r (p_seq p)). split; auto. left. eauto.
  - exists (if not_mat p then LvCard r else LvMat r (oseqN p)). split. { right. eauto. }
    rewrite <- E. unfold zslot, oseqN. destruct (not_mat p); simpl; auto. rewrite Z_N_nat. auto.
Qed.

(** The pointer which card_swap uses for its first place: frame.hpp:400 and 404
    index the materials with [a.seq()]. *)
Definition swap_lval_a (a b : place) (v : lval) : Prop :=
  if negb (is_pile a) && negb (not_mat a) && negb (is_pile b)
  then exists r, zone_of a = Ok r /\ v = LvMat r (p_seq a)
  else plval a v.

(** Materials may not be left behind when a zone's card goes to a pile. *)
Definition no_mats_left (a b : place) (L : layout) : Prop :=
  forall r, zone_of a = Ok r -> not_mat a = true -> is_pile b = true -> contents (CMats r) L = [].

Lemma lval_occupant : forall v L, shape L -> nonull L -> valid_cont (fst (lpos v)) ->
  (match v with LvCard _ => occupant L (lpos v) <> None | _ => True end) ->
  forall c, read_lval v L = Ok c -> exists x, occupant L (lpos v) = Some (Some x).
Proof.
  intros v L S NN V H c R. specialize (NN (lpos v)).
  destruct (occupant L (lpos v)) as [[x|]|] eqn:O; [eauto|congruence|].
  exfalso. unfold occupant in *. destruct v as [r i|r|r i]; simpl in *.
  - apply nth_ptr_Ok in R. congruence.
  - congruence.
  - destruct (shape_get_zone _ _ S V) as [z G]. unfold read_zone in R. rewrite G in *.
    simpl in R. apply nth_ptr_Ok in R. congruence.
Qed.

Lemma swap_lval_read : forall a b L L', swap_lval a b L = Ok L' ->
  (exists x, read_lval a L = Ok x) /\ (exists y, read_lval b L = Ok y).
Proof. intros a b L L' H. unfold swap_lval in H. inv_ok. eauto. Qed.

Lemma set_zone_some : forall r r' v L, get_zone r L <> None -> get_zone r (set_zone r' v L) <> None.
Proof.
  intros r r' v L H. destruct (zref_eq_dec r' r) as [<-|N].
  - rewrite get_set_zone_same by auto. discriminate.
  - rewrite get_set_zone_other by auto. auto.
Qed.
Ltac zs := repeat apply set_zone_some; congruence.

(** Exchange of two zones. *)
Lemma card_swap_cards : forall a b L L', shape L -> both_cards a b = true ->
  (card_swap a b L = Ok L' <->
   exists ra rb za zb, zone_of a = Ok ra /\ zone_of b = Ok rb /\
     get_zone ra L = Some za /\ get_zone rb L = Some zb /\
     z_card za <> None /\ z_card zb <> None /\
     L' = set_zone rb za (set_zone ra zb L)).
Proof.
  intros a b L L' S B. unfold both_cards in B.
  apply andb_true_iff in B. destruct B as [B TN]. apply andb_true_iff in B. destruct B as [B FN].
  apply andb_true_iff in B. destruct B as [FP TP].
  apply negb_true_iff in FP. apply negb_true_iff in TP.
  assert (HC : forall p r z, zone_of p = Ok r -> get_zone r L = Some z -> not_mat p = true ->
    (has_card p L = Ok true <-> z_card z <> None)).
  { intros p r z Z G NM. assert (Sl : slot p = Some (CCard r, 0%nat)).
    { apply zone_of_slot in Z. unfold zslot in Z. rewrite NM in Z. exact Z. }
    rewrite (has_card_slot _ _ _ _ S Sl). simpl. rewrite G. destruct (z_card z); (split; intros X; [try discriminate X; discriminate|try reflexivity; congruence]). }
  assert (Core : forall ra rb za zb x y, get_zone ra L = Some za -> get_zone rb L = Some zb ->
    z_card za = Some x -> z_card zb = Some y ->
    (let! L1 := swap_lval (LvCard ra) (LvCard rb) L in
     let! za := read_zone ra L1 in
     let! zb := read_zone rb L1 in
     let L2 := set_zone ra (mkZone (z_card za) (z_mats zb)) L1 in
     let! zb' := read_zone rb L2 in
     Ok (set_zone rb (mkZone (z_card zb') (z_mats za)) L2)) =
    Ok (set_zone rb za (set_zone ra zb L))).
  { intros ra rb [ca ma] [cb mb] x y Ga Gb Ea Eb. simpl in Ea, Eb. subst.
    unfold swap_lval, read_lval, write_lval, read_zone. run. cbn [z_card z_mats].
    destruct (zref_eq_dec ra rb) as [<-|N].
    - rewrite Ga in Gb. injection Gb as <- <-.
      rewrite !get_set_zone_same by zs. run.
      rewrite !get_set_zone_same by zs. run.
      rewrite !get_set_zone_same by zs. run.
      cbn [z_card z_mats]. rewrite !set_set_zone. reflexivity.
    - rewrite (get_set_zone_other ra rb) by auto. run. cbn [z_card z_mats].
      rewrite (get_set_zone_other rb ra) by auto. rewrite (get_set_zone_same ra) by congruence. run.
      rewrite (get_set_zone_same rb) by zs. run.
      rewrite (get_set_zone_other ra rb) by auto.
      rewrite (get_set_zone_same rb) by zs. run.
      cbn [z_card z_mats]. rewrite (set_zone_comm ra rb) by auto. rewrite !set_set_zone. reflexivity. }
  unfold card_swap. cbv zeta. rewrite FP, TP, FN, TN. cbn [andb negb orb]. run. split.
  - intros H. inv_ok. subst. unfold mats_empty in *. inv_ok. subst.
    unfold read_zone in *. inv_ok.
    repeat match goal with
    | A : ?m = Ok ?x, B : ?m = Ok ?y |- _ => is_var y; rewrite A in B; injection B as <-
    | A : ?m = Some ?x, B : ?m = Some ?y |- _ => is_var y; rewrite A in B; injection B as <-
    end.
    match goal with
    | Z1 : zone_of a = Ok ?ra, Z2 : zone_of b = Ok ?rb, G1 : get_zone ?ra L = Some ?za,
      G2 : get_zone ?rb L = Some ?zb, H1 : has_card a L = Ok true, H2 : has_card b L = Ok true,
      Sw : swap_lval _ _ L = Ok ?L1 |- _ =>
        pose proof (proj1 (HC a ra za Z1 G1 FN) H1) as Na;
        pose proof (proj1 (HC b rb zb Z2 G2 TN) H2) as Nb;
        exists ra, rb, za, zb;
        destruct (z_card za) as [x|] eqn:Ea; [|congruence];
        destruct (z_card zb) as [y|] eqn:Eb; [|congruence];
        specialize (Core ra rb za zb x y G1 G2 Ea Eb); rewrite Sw in Core; cbn [obind] in Core
    end.
    repeat (split; [solve [auto]|]). revert Core. run. congruence.
  - intros [ra [rb [za [zb [Za [Zb [Ga [Gb [Na [Nb ->]]]]]]]]]].
    rewrite (proj2 (HC a ra za Za Ga FN) Na), (proj2 (HC b rb zb Zb Gb TN) Nb). run.
    unfold mats_empty, read_zone. run. rewrite !orb_true_r. run.
    destruct (z_card za) as [x|] eqn:Ea; [|congruence].
    destruct (z_card zb) as [y|] eqn:Eb; [|congruence].
    exact (Core ra rb za zb x y Ga Gb Ea Eb).
Qed.

Lemma has_occupant : forall p v L, shape L -> plval p v ->
  (has_card p L = Ok true <-> occupant L (lpos v) <> None).
Proof.
  intros p v L S P. pose proof (plval_slot _ _ P) as Sl. destruct (lpos v) as [k i] eqn:E.
  rewrite (has_card_slot _ _ _ _ S Sl). unfold occupant. simpl. rewrite nth_error_Some.
  destruct (Nat.ltb_spec i (length (contents k L))); split; intros; try reflexivity; try lia; congruence.
Qed.

Lemma is_nil_true : forall A (l : list A), is_nil l = true -> l = [].
Proof. intros A [|x l] H; [reflexivity|discriminate]. Qed.

Lemma mats_empty_Ok : forall p L e, shape L -> mats_empty p L = Ok e ->
  exists r, zone_of p = Ok r /\ e = is_nil (contents (CMats r) L).
Proof.
  intros p L e S H. unfold mats_empty, read_zone in H. inv_ok. exists r. split; auto.
  simpl. match goal with G : get_zone _ _ = Some _ |- _ => rewrite G end. reflexivity.
Qed.

Lemma mats_empty_run : forall p L r, shape L -> zone_of p = Ok r ->
  mats_empty p L = Ok (is_nil (contents (CMats r) L)).
Proof.
  intros p L r S Z. unfold mats_empty, read_zone. rewrite Z. cbn [obind].
  destruct (zone_of_inv _ _ Z) as [_ [_ [_ [V _]]]].
  destruct (shape_get_zone _ _ S V) as [z G]. simpl. rewrite G. reflexivity.
Qed.

Lemma card_swap_simple : forall a b L L', shape L -> nonull L -> both_cards a b = false ->
  (card_swap a b L = Ok L' <->
   (is_pile a = true -> not_mat a = true) /\ (is_pile b = true -> not_mat b = true) /\
   no_mats_left a b L /\ no_mats_left b a L /\
   exists va wa vb x y, plval a va /\ plval b vb /\ occupant L (lpos va) <> None /\
     swap_lval_a a b wa /\ occupant L (lpos wa) = Some (Some x) /\
     occupant L (lpos vb) = Some (Some y) /\
     L' = swap_pos (lpos wa) (lpos vb) x y L).
Proof.
  intros a b L L' S NN B. split.
  - intros H. unfold card_swap in H. inv_ok. cbv zeta in H. inv_ok. subst.
    destruct (has_card_Ok_slot _ _ _ E) as [ka [ia Sa]].
    destruct (slot_plval _ _ _ Sa) as [va [Pa Ea]].
    match goal with H : has_card b L = _ |- _ => destruct (has_card_Ok_slot _ _ _ H) as [kb [ib Sb]] end.
    destruct (slot_plval _ _ _ Sb) as [vb [Pb Eb]].
    split; [intros I; rewrite I in *; auto|]. split; [intros I; rewrite I in *; auto|].
    split.
    { intros r Z NM Pl. destruct (zone_of_inv _ _ Z) as [PF _]. rewrite PF, NM, Pl in *.
      cbn [orb negb andb] in *. inv_ok. subst. rewrite orb_false_r in *.
      match goal with M : mats_empty a L = _ |- _ =>
        rewrite (mats_empty_run _ _ _ S Z) in M; injection M as M end.
      subst. apply is_nil_true.
      match goal with E : is_nil _ = true |- _ => exact E end. }
    split.
    { intros r Z NM Pl. destruct (zone_of_inv _ _ Z) as [PF _]. rewrite PF, NM, Pl in *.
      cbn [orb negb andb] in *. inv_ok. subst. rewrite orb_false_r in *.
      match goal with M : mats_empty b L = _ |- _ =>
        rewrite (mats_empty_run _ _ _ S Z) in M; injection M as M end.
      subst. apply is_nil_true.
      match goal with E : is_nil _ = true |- _ => exact E end. }
    assert (W : exists wa, swap_lval_a a b wa /\ swap_lval wa vb L = Ok L' /\
              (wa = va \/ exists r i, wa = LvMat r i /\ valid_z r)).
    { clear - H B Pa Pb. unfold both_cards, swap_lval_a in *.
      destruct Pa as [[PA [ra [Ra Va]]]|[PA [ra [Ra Va]]]];
      destruct Pb as [[PB [rb [Rb Vb]]]|[PB [rb [Rb Vb]]]];
      rewrite PA, PB in *; cbn [andb negb orb] in *; rewrite Ra, Rb in H; cbn [obind] in H;
      rewrite <- ?Va, <- ?Vb in H.
      - exists va. split; [left; eauto|auto].
      - exists va. split; [left; eauto|auto].
      - exists va. rewrite andb_false_r. split; [right; eauto|auto].
      - destruct (not_mat a) eqn:NA, (not_mat b) eqn:NB; cbn [andb negb orb] in *;
          try discriminate; subst.
        + eexists. split; [right; rewrite NA; eauto|auto].
        + eexists. split; [eauto|]. split; auto. right. apply zone_of_inv in Ra.
          do 2 eexists; split; [reflexivity|tauto].
        + eexists. split; [eauto|]. split; auto. right. apply zone_of_inv in Ra.
          do 2 eexists; split; [reflexivity|tauto]. }
    destruct W as [wa [W [Sw Wv]]].
    pose proof (proj1 (has_occupant _ _ _ S Pa) E) as Oa.
    match goal with H : has_card b L = _ |- _ => pose proof (proj1 (has_occupant _ _ _ S Pb) H) as Ob end.
    destruct (swap_lval_read _ _ _ _ Sw) as [[cx Rx] [cy Ry]].
    assert (Vw : valid_cont (fst (lpos wa))).
    { destruct Wv as [->|[r [i [-> V]]]]; [eapply plval_valid; eauto|exact V]. }
    pose proof (plval_valid _ _ Pb) as Vb.
    destruct (lval_occupant wa L S NN Vw) with (c := cx) as [x Ox]; auto.
    { destruct Wv as [->|[r [i [-> V]]]]; auto. destruct va; auto. }
    destruct (lval_occupant vb L S NN Vb) with (c := cy) as [y Oy]; auto.
    { destruct vb; auto. }
    exists va, wa, vb, x, y. repeat split; auto.
    rewrite (swap_lval_Some wa vb L x y) in Sw by auto. congruence.
  - intros [AI [BI [MA [MB [va [wa [vb [x [y [Pa [Pb [Oa [W [Ox [Oy ->]]]]]]]]]]]]]]].
    unfold card_swap. rewrite (proj2 (has_occupant _ _ _ S Pa) Oa). run.
    rewrite (proj2 (has_occupant _ _ _ S Pb)) by congruence. run. cbv zeta.
    assert (Vw : valid_cont (fst (lpos wa))).
    { unfold swap_lval_a in W. destruct (_ && _) in W.
      - destruct W as [r [Z ->]]. apply zone_of_inv in Z. simpl. tauto.
      - eapply plval_valid; eauto. }
    pose proof (plval_valid _ _ Pb) as Vb.
    pose proof (swap_lval_Some wa vb L x y S Vw Vb Ox Oy) as Sw.
    unfold no_mats_left in *. rewrite <- Sw. clear Sw Ox Oy Oa NN x y.
    unfold swap_lval_a, both_cards in *.
    destruct Pa as [[PA [ra [Ra Va]]]|[PA [ra [Ra Va]]]];
    destruct Pb as [[PB [rb [Rb Vb']]]|[PB [rb [Rb Vb']]]];
    rewrite PA, PB in *; cbn [andb negb orb] in *;
    rewrite ?AI, ?BI in * by reflexivity; cbn [andb negb orb] in *; run.
    + destruct W as [[_ [r [R Ew]]]|[X _]]; [|congruence]. congruence.
    + destruct (not_mat b) eqn:NB; cbn [andb negb orb] in *; run.
      * rewrite (mats_empty_run _ _ _ S Rb), (MB rb Rb eq_refl eq_refl). cbn [is_nil orb]. run. cbn [orb]. run.
        destruct W as [[_ [r [R Ew]]]|[X _]]; [|congruence]. congruence.
      * destruct W as [[_ [r [R Ew]]]|[X _]]; [|congruence]. congruence.
    + rewrite andb_false_r in W.
      destruct W as [[X _]|[_ [r [R Ew]]]]; [congruence|].
      destruct (not_mat a) eqn:NA; cbn [andb negb orb] in *; run.
      * rewrite (mats_empty_run _ _ _ S Ra), (MA ra Ra eq_refl eq_refl). cbn [is_nil orb]. run. cbn [orb]. run.
        congruence.
      * congruence.
    + destruct (not_mat a) eqn:NA, (not_mat b) eqn:NB; cbn [andb negb orb] in *;
        try discriminate; run; rewrite ?(mats_empty_run _ _ _ S Ra), ?(mats_empty_run _ _ _ S Rb);
        run; rewrite ?orb_true_r; run.
      * destruct W as [[X _]|[_ [r [R Ew]]]]; [congruence|]. rewrite NA in Ew. congruence.
      * destruct W as [r [R Ew]]. congruence.
      * destruct W as [r [R Ew]]. congruence.
Qed.

(** Applying a correct swap twice restores the layout. *)
Definition swap_ok (a b : place) : Prop :=
  is_pile a = true \/ not_mat a = true \/ is_pile b = true \/ oseqN a = p_seq a.

Lemma plval_fun : forall p v w, plval p v -> plval p w -> v = w.
Proof.
  intros p v w [[P [r [R ->]]]|[P [r [R ->]]]] [[P' [r' [R' ->]]]|[P' [r' [R' ->]]]]; try congruence; rewrite R in R'; injection R' as <-; reflexivity.
Qed.

Lemma swap_ok_lval : forall a b wa va, swap_ok a b -> swap_lval_a a b wa -> plval a va -> wa = va.
Proof.
  intros a b wa va K W P. unfold swap_lval_a in W.
  destruct (is_pile a) eqn:PA; cbn [andb negb] in W; [eapply plval_fun; eauto|].
  destruct (not_mat a) eqn:NA; cbn [andb negb] in W; [eapply plval_fun; eauto|].
  destruct (is_pile b) eqn:PB; cbn [andb negb] in W; [eapply plval_fun; eauto|].
  destruct W as [r [Z ->]]. destruct P as [[X _]|[_ [r' [Z' ->]]]]; [congruence|].
  rewrite NA. destruct K as [K|[K|[K|K]]]; congruence.
Qed.
