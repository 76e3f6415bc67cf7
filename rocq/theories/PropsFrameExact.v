(** C11 and C17: exactly what happens where the claims fail. *)
From Verif Require Import Base BaseProofs Place PlaceProofs Frame FrameSpec FrameLens FrameProofs FrameMove
  FrameOps FramePiles FrameInv FrameShuffle FrameFacts HazardSpec HazardProofs PropsFrame.

Local Open Scope N_scope.

(** The place the code takes [a] for when it swaps the material [a] with
    something in a zone: the material whose number is that of the zone. *)
Definition misread (a : place) : place := mkPlace (p_con a) (p_loc a) (p_seq a) (Z.of_N (p_seq a)).

Lemma misread_slot : forall a r i, slot a = Some (CMats r, i) ->
  slot (misread a) = Some (CMats r, N.to_nat (p_seq a)).
Proof.
  intros [con loc seq oseq] r i H. revert H. unfold slot, misread. cbn [p_con p_loc p_seq p_oseq].
  destruct (side_of_con con); [|discriminate]. destruct (assocN loc pile_table); [discriminate|].
  destruct (assocN loc zone_table) as [[z lim]|]; [|discriminate]. destruct (seq <? lim); [|discriminate].
  destruct (oseq <? 0)%Z; [discriminate|]. intros H. inversion H; subst.
  destruct (Z.ltb_spec (Z.of_N seq) 0); [lia|]. do 3 f_equal. lia.
Qed.

Lemma misread_safe : forall a b r i, slot a = Some (CMats r, i) -> swap_safe (misread a) b.
Proof.
  intros a b r i H. unfold swap_safe. rewrite (misread_slot _ _ _ H).
  destruct (slot b) as [[[] ?]|]; auto.
Qed.

Lemma swap_misread : forall a b L r i k j, slot a = Some (CMats r, i) -> slot b = Some (k, j) ->
  (forall q, k <> CPile q) -> has_card a L = Ok true -> has_card (misread a) L = Ok true ->
  card_swap a b L = card_swap (misread a) b L.
Proof.
  intros a b L r i k j Sa Sb NP Ha Hm.
  pose proof (slot_kind _ _ _ Sa) as Ka. cbn in Ka. destruct Ka as [Pa [Na Za]].
  pose proof (slot_kind _ _ _ (misread_slot _ _ _ Sa)) as Km. cbn in Km. destruct Km as [Pm [Nm Zm]].
  assert (Pb : is_pile b = false).
  { pose proof (slot_kind _ _ _ Sb) as Kb. destruct k as [q|q|q]; [destruct (NP q); auto| |]; tauto. }
  unfold card_swap. rewrite Ha, Hm. cbn [assert_ obind]. destruct (has_card b L) as [[|]| | |]; try reflexivity.
  cbn [assert_ obind]. cbv zeta. rewrite Pa, Pm, Pb, Na, Nm, Za, Zm. cbn [negb orb andb assert_ obind].
  reflexivity.
Qed.

(** C11 where it fails: the material [a] and something in a zone.  The code
    exchanges the material numbered like the zone instead of [a] itself, *)
Theorem C11_card_swap_misindexed : forall C (c0 : C) f a b f' r i k j, reachable c0 f ->
  slot a = Some (CMats r, i) -> slot b = Some (k, j) -> (forall q, k <> CPile q) ->
  lift (card_swap a b) f = Ok f' ->
  f_heap f' = f_heap f /\
  forall pos, occupant (f_lay f') pos =
    exchange pos_eq_dec (CMats r, N.to_nat (p_seq a)) (k, j) (occupant (f_lay f)) pos.
Proof.
  intros C c0 f a b f' r i k j R Sa Sb NP H. pose proof (reachable_inv _ _ _ R) as I.
  assert (S : shape (f_lay f)) by apply I.
  assert (Ha : has_card a (f_lay f) = Ok true).
  { unfold lift, card_swap in H. destruct (has_card a (f_lay f)) as [[|]| | |]; try discriminate. reflexivity. }
  assert (Hb : has_card b (f_lay f) = Ok true).
  { unfold lift, card_swap in H. rewrite Ha in H. cbn [assert_ obind] in H.
    destruct (has_card b (f_lay f)) as [[|]| | |]; try discriminate. reflexivity. }
  assert (Hm : has_card (misread a) (f_lay f) = Ok true).
  { apply occupied_has; auto. exists (CMats r, N.to_nat (p_seq a)). split; [exact (misread_slot _ _ _ Sa)|].
    intros N. assert (W : wild_swap a b (f_lay f)).
    { split; [apply occupied_has; auto|]. split; [apply occupied_has; auto|].
      exists r, i, k, j. split; [exact Sa|]. split; [exact Sb|]. split; [exact NP|].
      unfold occupant in N. cbn [fst snd] in N. now apply nth_error_None in N. }
    unfold lift in H. rewrite (swap_ub S W) in H. discriminate H. }
  unfold lift in H. rewrite (swap_misread a b _ r i k j Sa Sb NP Ha Hm) in H.
  assert (G := misread_safe a b r i Sa).
  destruct (C11_card_swap_partial C c0 f (misread a) b f' R G H) as [Hp (pa & pb & Pa & Pb & E)].
  split; [exact Hp|]. rewrite (misread_slot _ _ _ Sa) in Pa. rewrite Sb in Pb.
  inversion Pa; subst pa. inversion Pb; subst pb. exact E.
Qed.
Print Assumptions C11_card_swap_misindexed.

(** works exactly when that one exists too, and is undefined when only that
    one is missing. *)
Theorem C11_card_swap_misindexed_iff : forall C (c0 : C) f a b r i k j, reachable c0 f ->
  slot a = Some (CMats r, i) -> slot b = Some (k, j) -> (forall q, k <> CPile q) ->
  let at_ pos := occupant (f_lay f) pos <> None in
  ((exists f', lift (card_swap a b) f = Ok f') <->
     at_ (CMats r, i) /\ at_ (k, j) /\ at_ (CMats r, N.to_nat (p_seq a))) /\
  (lift (card_swap a b) f = UB <->
     at_ (CMats r, i) /\ at_ (k, j) /\ ~ at_ (CMats r, N.to_nat (p_seq a))).
Proof.
  intros C c0 f a b r i k j R Sa Sb NP at_. pose proof (reachable_inv _ _ _ R) as I.
  assert (S : shape (f_lay f)) by apply I.
  assert (Oc : forall p pos, slot p = Some pos -> (has_card p (f_lay f) = Ok true <-> at_ pos)).
  { intros p pos Sp. rewrite <- (occupied_has p S). unfold occupied, at_. split.
    - intros (x & X & O). congruence.
    - intros O. eauto. }
  pose proof (Oc a _ Sa) as Oa. pose proof (Oc b _ Sb) as Ob. pose proof (Oc _ _ (misread_slot _ _ _ Sa)) as Om.
  assert (N : ~ (at_ (CMats r, i) /\ at_ (k, j)) ->
    ~ (exists f', lift (card_swap a b) f = Ok f') /\ lift (card_swap a b) f <> UB).
  { intros N. unfold lift, card_swap.
    assert (Da : exists x, has_card a (f_lay f) = Ok x).
    { rewrite (has_card_slot _ _ _ _ S Sa). eauto. }
    assert (Db : exists x, has_card b (f_lay f) = Ok x).
    { rewrite (has_card_slot _ _ _ _ S Sb). eauto. }
    destruct Da as [xa Da]. destruct Db as [xb Db]. rewrite Da. cbn [obind].
    destruct xa; cbn [assert_ obind]; [|split; [intros [? X]|]; discriminate].
    rewrite Db. cbn [obind]. destruct xb; cbn [assert_ obind]; [|split; [intros [? X]|]; discriminate].
    exfalso. apply N. split; [apply Oa, Da|apply Ob, Db]. }
  assert (Y : at_ (CMats r, i) /\ at_ (k, j) -> at_ (CMats r, N.to_nat (p_seq a)) ->
    exists f', lift (card_swap a b) f = Ok f').
  { intros [A B] M. unfold lift. rewrite (swap_misread a b _ r i k j Sa Sb NP (proj2 Oa A) (proj2 Om M)).
    assert (G := misread_safe a b r i Sa).
    apply (C11_card_swap_iff_partial C c0 f (misread a) b R G). unfold swap_pre.
    split; [|split].
    - intros X. exfalso. pose proof (misread_slot _ _ _ Sa) as Sm. unfold slot in Sm.
      destruct (side_of_con _); [|discriminate]. destruct (assocN _ pile_table); [discriminate|congruence].
    - intros X. exfalso. unfold slot in Sb. destruct (side_of_con _); [|discriminate].
      destruct (assocN _ pile_table); [|congruence]. inversion Sb; subst. exact (NP _ eq_refl).
    - exists (CMats r), (N.to_nat (p_seq a)), k, j. split; [exact (misread_slot _ _ _ Sa)|].
      split; [exact Sb|]. split; [exact M|]. split; [exact B|]. exact Logic.I. }
  assert (W : at_ (CMats r, i) /\ at_ (k, j) -> ~ at_ (CMats r, N.to_nat (p_seq a)) ->
    lift (card_swap a b) f = UB).
  { intros [A B] M. unfold lift. rewrite swap_ub; [reflexivity|exact S|].
    split; [eexists; split; [exact Sa|exact A]|]. split; [eexists; split; [exact Sb|exact B]|].
    exists r, i, k, j. split; [exact Sa|]. split; [exact Sb|]. split; [exact NP|].
    unfold at_, occupant in M. cbn [fst snd] in M.
    destruct (nth_error (contents (CMats r) (f_lay f)) (N.to_nat (p_seq a))) eqn:E; [exfalso; apply M; discriminate|].
    now apply nth_error_None in E. }
  assert (D : forall pos, at_ pos \/ ~ at_ pos).
  { intros pos. unfold at_. destruct (occupant (f_lay f) pos); [left; discriminate|right; intros X; congruence]. }
  destruct (D (CMats r, i)) as [A|A], (D (k, j)) as [B|B], (D (CMats r, N.to_nat (p_seq a))) as [M|M];
    try (destruct N as [N1 N2]; [tauto|]; tauto).
  - destruct (Y (conj A B) M) as [f' E]. split; [|rewrite E]; split; [tauto|eauto|discriminate|tauto].
  - rewrite (W (conj A B) M). split; split; [intros [? X]; discriminate|tauto|tauto|reflexivity].
Qed.
Print Assumptions C11_card_swap_misindexed_iff.

Definition ex_swap : list fop :=
  [ OpAdd (mkPlace 0 4 1 (-1)); OpAdd (mkPlace 0 4 1 0); OpAdd (mkPlace 0 4 1 1);
    OpAdd (mkPlace 0 4 3 (-1)); OpAdd (mkPlace 0 4 3 0) ].
Example C11_ex_misindexed : exists f f', frun tt ex_swap frame0 = Ok f /\
  slot (mkPlace 0 4 1 0) = Some (CMats (false, ZMonster, 1%nat), 0%nat) /\
  lift (card_swap (mkPlace 0 4 1 0) (mkPlace 0 4 3 (-1))) f = Ok f' /\
  zone_view (false, ZMonster, 1%nat) (f_lay f) = ([Some 0], [Some 1; Some 2]) /\
  zone_view (false, ZMonster, 1%nat) (f_lay f') = ([Some 0], [Some 1; Some 3]) /\
  lift (card_swap (mkPlace 0 4 3 0) (mkPlace 0 4 1 (-1))) f = UB.
Proof. do 2 eexists. split; [vm_compute; reflexivity|]. vm_compute. auto. Qed.

(** ** C17 *)

(** A location value with a bit of one of the tables' locations. *)
Definition touches {A} (t : list (N * A)) (loc : N) : Prop :=
  exists l x, In (l, x) t /\ N.land loc l <> 0.

Lemma touches_mask : forall A (t : list (N * A)) loc,
  touches t loc <-> N.land loc (fold_right (fun e m => N.lor (fst e) m) 0 t) <> 0.
Proof.
  intros A t loc. induction t as [|[l x] t IH]; cbn [fold_right fst].
  - split; [intros (l & x & [] & _)|]. rewrite N.land_0_r. congruence.
  - rewrite N.land_lor_distr_r, N.lor_eq_0_iff. split.
    + intros (l' & x' & [E|I] & T).
      * inversion E; subst. tauto.
      * assert (U : touches t loc) by (exists l', x'; auto). tauto.
    + intros H. destruct (N.eq_dec (N.land loc l) 0) as [Z|Z].
      * destruct (proj2 IH) as (l' & x' & I & T); [tauto|]. exists l', x'. cbn. auto.
      * exists l, x. cbn. auto.
Qed.
Lemma touches_pile : forall loc, touches pile_table loc <-> loc_is_pile loc = true.
Proof.
  intros loc. rewrite touches_mask. unfold loc_is_pile. change (fold_right _ 0 pile_table) with PILE_MASK.
  rewrite negb_true_iff, N.eqb_neq. tauto.
Qed.
Lemma touches_zone : forall loc, touches zone_table loc <-> loc_is_zone loc = true.
Proof.
  intros loc. rewrite touches_mask. unfold loc_is_zone. change (fold_right _ 0 zone_table) with ZONE_MASK.
  rewrite negb_true_iff, N.eqb_neq. tauto.
Qed.

(** What makes the pile of a place, resp. its zone, undefined. *)
Definition stray_pile (p : place) : Prop :=
  (p_con p <= 1)%Z /\ touches pile_table (p_loc p) /\
  ((p_con p < 0)%Z \/ assocN (p_loc p) pile_table = None).
Definition stray_zone (p : place) : Prop :=
  (p_con p <= 1)%Z /\
  match assocN (p_loc p) zone_table with
  | None => True
  | Some (_, lim) => p_seq p < lim /\ (p_con p < 0)%Z
  end.
(** The same for the card at a place: locations that are neither, or all
    zero, stop it. *)
Definition stray (p : place) : Prop :=
  (touches pile_table (p_loc p) /\ stray_pile p) \/
  (~ touches pile_table (p_loc p) /\ touches zone_table (p_loc p) /\
   match assocN (p_loc p) zone_table with
   | None => True
   | Some (_, lim) => p_seq p < lim /\ (p_con p < 0)%Z
   end).

Lemma con_index_ub : forall con, (con <= 1)%Z -> (con_index con = UB <-> (con < 0)%Z).
Proof.
  intros con L. unfold con_index. destruct (Z.eqb_spec con 0) as [->|]; [split; [discriminate|lia]|].
  destruct (Z.eqb_spec con 1) as [->|]; split; try discriminate; try lia; reflexivity.
Qed.
Lemma con_index_cases : forall con, (con <= 1)%Z -> con_index con = UB \/ exists b, con_index con = Ok b.
Proof. intros con L. unfold con_index. destruct (con =? 0)%Z, (con =? 1)%Z; eauto. Qed.

Lemma pile_of_ub : forall p, pile_of p = UB <-> stray_pile p.
Proof.
  intros p. unfold pile_of, pile_ref, stray_pile. rewrite touches_pile.
  destruct (Z.leb_spec (p_con p) 1) as [L|L]; cbn [assert_ obind]; [|split; [discriminate|lia]].
  destruct (loc_is_pile (p_loc p)); cbn [assert_ obind]; [|split; [discriminate|]; intros (_ & X & _); discriminate].
  pose proof (con_index_ub _ L) as U. destruct (con_index_cases _ L) as [E|[b E]]; rewrite E in *.
  - destruct (p_loc p =? LOCATION_MAIN_DECK), (p_loc p =? LOCATION_HAND), (p_loc p =? LOCATION_GRAVEYARD),
      (p_loc p =? LOCATION_BANISHED), (p_loc p =? LOCATION_EXTRA_DECK); cbn [obind]; intuition.
  - assert (~ (p_con p < 0)%Z) by (intros X; apply U in X; discriminate).
    unfold pile_table. cbn [assocN]. change 0x1 with LOCATION_MAIN_DECK. change 0x2 with LOCATION_HAND.
    change 0x10 with LOCATION_GRAVEYARD. change 0x20 with LOCATION_BANISHED. change 0x40 with LOCATION_EXTRA_DECK.
    destruct (p_loc p =? LOCATION_MAIN_DECK); [cbn [obind]; split; [discriminate|intuition discriminate]|].
    destruct (p_loc p =? LOCATION_HAND); [cbn [obind]; split; [discriminate|intuition discriminate]|].
    destruct (p_loc p =? LOCATION_GRAVEYARD); [cbn [obind]; split; [discriminate|intuition discriminate]|].
    destruct (p_loc p =? LOCATION_BANISHED); [cbn [obind]; split; [discriminate|intuition discriminate]|].
    destruct (p_loc p =? LOCATION_EXTRA_DECK); [cbn [obind]; split; [discriminate|intuition discriminate]|].
    intuition.
Qed.

Lemma seq_lim_table : forall loc, zone_seq_lim loc =
  match assocN loc zone_table with Some (_, lim) => Ok lim | None => UB end.
Proof.
  intros loc. unfold zone_seq_lim, zone_table. cbn [assocN]. change 0x4 with LOCATION_MONSTER_ZONE.
  change 0x8 with LOCATION_SPELL_ZONE. change 0x100 with LOCATION_FIELD_ZONE.
  change 0x200 with LOCATION_PENDULUM_ZONE. change 0x400 with LOCATION_SKILL_ZONE.
  repeat match goal with |- context [if ?x then _ else _] => destruct x; [reflexivity|] end. reflexivity.
Qed.
Lemma side_at_table : forall loc z lim, assocN loc zone_table = Some (z, lim) -> side_at loc = Ok z.
Proof.
  intros loc z lim H. unfold zone_table in H. cbn [assocN] in H.
  repeat match type of H with context [?a =? ?b] => destruct (N.eqb_spec a b) as [->|]; [inversion H; reflexivity|] end.
  discriminate H.
Qed.
Lemma zone_of_ub : forall p, zone_of p = UB <-> stray_zone p.
Proof.
  intros p. unfold zone_of, zone_ref, stray_zone. rewrite seq_lim_table.
  destruct (Z.leb_spec (p_con p) 1) as [L|L]; cbn [assert_ obind]; [|split; [discriminate|lia]].
  destruct (assocN (p_loc p) zone_table) as [[z lim]|] eqn:T; cbn [obind]; [|tauto].
  destruct (N.ltb_spec (p_seq p) lim) as [S|S]; cbn [assert_ obind]; [|split; [discriminate|lia]].
  pose proof (con_index_ub _ L) as U. destruct (con_index_cases _ L) as [E|[b E]]; rewrite E in *; cbn [obind].
  - tauto.
  - rewrite (side_at_table _ _ _ T). cbn [obind]. split; [discriminate|]. intros (_ & _ & X). apply U in X. discriminate.
Qed.

Lemma has_card_ub : forall p L, shape L -> (has_card p L = UB <-> stray p).
Proof.
  intros p L S. unfold has_card, stray. rewrite touches_pile, touches_zone. unfold is_pile, is_zone.
  destruct (is_empty p) eqn:Em.
  { apply N.eqb_eq in Em. rewrite Em. cbn. split; [discriminate|]. intros [[X _]|[_ [X _]]]; discriminate. }
  cbn [negb assert_ obind]. destruct (loc_is_pile (p_loc p)) eqn:P.
  - rewrite <- pile_of_ub. destruct (pile_of p); cbn [obind]; intuition; discriminate.
  - destruct (loc_is_zone (p_loc p)) eqn:Z; cbn [assert_ obind]; [|intuition; discriminate].
    rewrite seq_lim_table. destruct (assocN (p_loc p) zone_table) as [[z lim]|] eqn:T; cbn [obind]; [|intuition].
    destruct (N.ltb_spec (p_seq p) lim) as [Sq|Sq]; cbn [assert_ obind].
    + pose proof (zone_of_ub p) as U. unfold stray_zone in U. rewrite T in U.
      destruct (zone_of p) as [r| | |] eqn:Q; cbn [obind].
      * assert (V := valid_zone_some p r L S Q). unfold read_zone.
        destruct (get_zone r L); [|congruence]. cbn [or_ub obind].
        destruct (not_mat p); split; try discriminate; intros [[X _]|(_ & _ & _ & X)]; try discriminate;
          exfalso; apply zone_of_inv in Q; unfold zone_of in *; destruct U as [_ U]; discriminate U; split; lia.
      * split; [discriminate|]. intros [[X _]|(_ & _ & _ & X)]; try discriminate. destruct U as [_ U].
        discriminate U. lia.
      * assert (X := proj1 U eq_refl). intuition.
      * split; [discriminate|]. intros [[X _]|(_ & _ & _ & X)]; try discriminate. destruct U as [_ U].
        discriminate U. lia.
    + split; [discriminate|]. intros [[X _]|(_ & _ & X & _)]; try discriminate. lia.
Qed.

(** C17: exactly the places for which the accessors are undefined. *)
Theorem C17_undefined_iff : forall C (c0 : C) f p, reachable c0 f ->
  (has_card p (f_lay f) = UB <-> stray p) /\ (card_at_place p f = UB <-> stray p) /\
  (pile_of p = UB <-> stray_pile p) /\ (zone_of p = UB <-> stray_zone p).
Proof.
  intros C c0 f p R. apply reachable_inv in R. assert (S : shape (f_lay f)) by apply R.
  pose proof (has_card_ub p (f_lay f) S) as H. split; [exact H|].
  split; [|split; [apply pile_of_ub|apply zone_of_ub]].
  rewrite <- H. unfold card_at_place.
  destruct (is_empty p) eqn:E; cbn [negb assert_ obind].
  { split; [discriminate|]. intros X. exfalso. apply H in X. unfold stray in X.
    rewrite touches_pile, touches_zone in X. apply N.eqb_eq in E. rewrite E in X. cbn in X.
    destruct X as [[X _]|[_ [X _]]]; discriminate. }
  destruct (has_card p (f_lay f)) as [b| | |] eqn:Hc; cbn [obind]; try tauto; try (split; discriminate).
  destruct b; cbn [assert_ obind]; [|split; discriminate].
  destruct (has_card_Ok_slot _ _ _ Hc) as [k [i Sl]].
  destruct (card_at_place_iff _ _ _ _ _ R Sl) as [[_ [id [Cc _]]]|[Y _]]; [|congruence].
  unfold card_at_place in Cc. rewrite E, Hc in Cc. cbn [negb assert_ obind] in *. rewrite Cc. split; discriminate.
Qed.
Print Assumptions C17_undefined_iff.

Example C17_ex_stray : stray (mkPlace (-1) 1 0 (-1)) /\ stray (mkPlace 0 3 0 (-1)) /\ stray (mkPlace 5 0xC 9 0) /\
  ~ stray (mkPlace 5 3 0 (-1)) /\ ~ stray (mkPlace (-1) 0x4 7 (-1)) /\ ~ stray (mkPlace (-1) 0x80 0 0).
Proof.
  pose proof (fun p => has_card_ub p layout0 (proj1 (inv_lay _ _ (reachable_inv unit tt frame0 (ex_intro _ [] eq_refl))))) as H.
  rewrite <- !H. vm_compute. repeat split; discriminate.
Qed.
