(** Moves through the encoder and the parser. *)
From Verif Require Import Base BaseProofs Place PlaceProofs Frame FrameSpec FrameLens FrameProofs FrameMove FrameOps FramePiles FrameInv FrameShuffle FrameFacts
  Msg Event EventSpec EventProofs Query QuerySpec QueryProofs.
From Verif Require Import Encode CoreMsg EncodeSpec EncodeState EncodeE2E Duel DuelView DuelMove DuelCalm.

Local Open Scope N_scope.

(** ** The record of cards that left the field *)
Lemma pplace_inj : forall r i r' i', pplace r i = pplace r' i' -> r = r' /\ i = i'.
Proof.
  intros [w l] i [w' l'] i' H. unfold pplace in H. cbn [fst snd] in H. injection H as H1 H2 H3.
  split; [|now apply Nat2N.inj]. f_equal; [destruct w, w'; try reflexivity; discriminate|].
  destruct l, l'; try reflexivity; discriminate.
Qed.
Lemma find_left_hit : forall p v l, find_left p ((p, v) :: l) = Some v.
Proof. intros. cbn [find_left]. now rewrite (proj2 (place_eqb_eq p p) eq_refl). Qed.
Lemma find_left_miss : forall p k v l, k <> p -> find_left p ((k, v) :: l) = find_left p l.
Proof.
  intros p k v l H. cbn [find_left]. destruct (place_eqb k p) eqn:E; [|reflexivity].
  apply place_eqb_eq in E. congruence.
Qed.

Definition pays (owed : debts) (left : list (place * place)) (e : pref * nat * cid) : Prop :=
  exists z pz, owed z = Some (snd e) /\
    find_left (pplace (fst (fst e)) (snd (fst e))) left = Some pz /\ zone_named pz = Some z.
Definition all_pay (K : cards) (owed : debts) (left : list (place * place)) : Prop :=
  forall r i h, nth_error (k_pile K r) i = Some h -> k_under K h <> [] ->
    exists z pz, owed z = Some h /\ find_left (pplace r i) left = Some pz /\ zone_named pz = Some z.
Lemma all_pay_iff : forall K owed left, (forall e, In e (loaded K) -> pays owed left e) -> all_pay K owed left.
Proof. intros K owed left H r i h N U. apply (H (r, i, h)). apply loaded_In. auto. Qed.

Section Owed.
Variables (K : cards) (owed : debts) (f : frame card) (left : list (place * place)).
Hypothesis Q : quiet K owed f left.

Lemma owed_kept : forall p x z h, card_on p K = Some x -> owed z = Some h -> owed_after p x owed z = Some h.
Proof.
  intros p x z h On O. destruct p as [|r i|z0|r i k|z0 k]; cbn [owed_after]; auto.
  rewrite set_at_ne; [exact O|]. intros ->. cbn [card_on] in On.
  destruct (q_owed _ _ _ _ Q _ _ O) as [X _]. congruence.
Qed.
Lemma old_pays : forall p x e, card_on p K = Some x -> In e (loaded K) -> pays (owed_after p x owed) left e.
Proof.
  intros p x [[r i] h] On H. apply loaded_In in H. destruct H as [H1 H2].
  destruct (q_left _ _ _ _ Q r i h H1 H2) as (z & pz & A & B & C). exists z, pz. cbn [fst snd].
  split; [now apply owed_kept|auto].
Qed.
End Owed.

Lemma spot_eq_dec : forall (r : pref) (i : nat) r0 i0, {r = r0 /\ i = i0} + {~ (r = r0 /\ i = i0)}.
Proof.
  intros r i r0 i0. destruct (pref_eq_dec r r0), (Nat.eq_dec i i0); [left|right|right|right]; tauto.
Defined.

(** ** One event *)
Definition event_step (pp qq : place) (reason : N) (c : ctx) (K' : cards) : Prop :=
  exists e c1 f' owed',
    move_verdict pp qq reason c = Ok (v_event e, c1) /\
    cx_board c1 = cx_board c /\ cx_mwr c1 = cx_mwr c /\ cx_deferred c1 = [] /\
    pparse card0 e (cx_board c) = Ok (set_frame f' (cx_board c)) /\
    quiet K' owed' f' (cx_left c1).

Section Calm.
Variables (c : ctx) (K : cards) (owed : debts).
Hypothesis Snd : ctx_sound c.
Notation f := (b_frame (cx_board c)).
Hypothesis Q : quiet K owed f (cx_left c).
Hypothesis Def : cx_deferred c = [].
Lemma slot_to : forall qq q k i, spot_facts qq q -> target q k i -> slot qq = Some (k, i) /\ pile_place_ok qq.
Proof. intros qq q k i Fq T. destruct Fq as [_ _ _ A B _ _ _]. destruct T; auto. Qed.
Lemma slot_from : forall pp p k i, spot_facts pp p -> stands K owed p k i ->
  match p with UnderPile _ _ _ => False | _ => True end -> slot pp = Some (k, i) /\ pile_place_ok pp.
Proof. intros pp p k i Fp T N. destruct Fp as [_ _ _ A B _ _ _]. destruct T; auto. contradiction. Qed.

Lemma xyz_left_zone : forall pp p z, spot_facts pp p -> match p with InZone y | UnderZone y _ => y = z | _ => False end ->
  has_xyz_mat c pp = Ok (negb (is_nil (seen K owed (CMats z)))).
Proof.
  intros pp p z Fp H. destruct Fp as [_ _ _ _ _ Zn _ _].
  assert (Z : zone_named pp = Some z) by (destruct p; try contradiction; now subst).
  destruct (has_xyz_ok c pp Snd) as [r [Zr X]]; [congruence|]. rewrite X.
  assert (r = z) by congruence. subst r. unfold ctx_layout. rewrite (q_view _ _ _ _ Q).
  destruct (seen K owed (CMats z)); reflexivity.
Qed.

(** *** A card appears *)
Lemma calm_add : forall owed (Q : quiet K owed f (cx_left c)) pp qq q reason K', spot_facts pp Outside -> spot_facts qq q -> put_in q (k_next K) (snd (new_card K)) = Some K' ->
  (exists k i, target q k i) -> (is_in_zone q = true -> owed = no_debts) ->
  all_pay K' owed (cx_left c) -> event_step pp qq reason c K'.
Proof.
  clear owed Q. intros owed Q pp qq q reason K' Fp Fq Put [k [i T]] Fld Pay. destruct (slot_to qq q k i Fq T) as [Sl Pk].
  destruct (quiet_add K owed f _ q K' k i qq Q Put T Sl Fld _ Pay) as [f' [A Q']].
  exists (EvCard reason (CardAdd [qq])), c, f', owed. 
  assert (Nq : p_loc qq =? 0 = false).
  { destruct Fq as [L _ _ _ _ _ _ _]. rewrite L. destruct T; reflexivity. }
  split.
  { unfold move_verdict, LOCATION_UNSPECIFIED. rewrite Nq. rewrite (sf_loc _ _ Fp). reflexivity. }
  split; [reflexivity|]. split; [reflexivity|]. split; [exact Def|]. split; [|exact Q'].
  unfold pparse. cbn [parse_event]. unfold on_frame, do_adds. cbn [ofold]. rewrite A. reflexivity.
Qed.

(** *** A card disappears *)
Lemma calm_remove : forall pp qq p reason x, spot_facts pp p -> spot_facts qq Outside ->
  match p with Outside | UnderPile _ _ _ => False | _ => True end ->
  card_on p K = Some x -> k_under K x = [] ->
  (forall e, In e (loaded (take_out p K)) -> In e (loaded K)) ->
  event_step pp qq reason c (take_out p K).
Proof.
  intros pp qq p reason x Fp Fq Np On Ux Ld.
  destruct (stands_ex _ _ _ _ _ _ Q On) as [k [i St]].
  destruct (slot_from _ _ k i Fp St) as [Sl Pk]; [destruct p; auto|].
  assert (Lq : p_loc qq =? 0 = true) by exact (sf_loc _ _ Fq).
  assert (Lp : p_loc pp =? 0 = false) by (rewrite (sf_loc _ _ Fp); destruct p; tauto).
  assert (Ip : is_pile pp = match p with InPile _ _ | UnderPile _ _ _ => true | _ => false end).
  { apply (sf_pile _ _ Fp). destruct p; try discriminate; contradiction. }
  assert (Nk : forall r j, is_pile pp = false -> pp <> pplace r j).
  { intros [w l] j H ->. destruct l; discriminate H. }
  assert (V : exists c1, move_verdict pp qq reason c = Ok (v_event (EvCard reason (CardRemove [pp])), c1) /\
    cx_board c1 = cx_board c /\ cx_mwr c1 = cx_mwr c /\ cx_deferred c1 = [] /\
    (cx_left c1 = cx_left c \/ is_pile pp = false /\ cx_left c1 = (pp, place0) :: cx_left c)).
  { unfold move_verdict, LOCATION_UNSPECIFIED. rewrite Lp, Lq. cbn [andb].
    destruct (is_pile pp) eqn:E; cbn [negb obind].
    - exists c. auto 10.
    - assert (X : exists b, has_xyz_mat c pp = Ok b).
      { destruct p; try contradiction; try discriminate Ip; erewrite (xyz_left_zone _ _ _ Fp); eauto. }
      destruct X as [b ->]. cbn [obind]. destruct b; [exists (xyz_left pp place0 c)|exists c]; auto 10. }
  destruct V as (c1 & V & B1 & M1 & D1 & L1).
  destruct (quiet_remove K owed f _ p x k i pp Q St On Ux Sl (cx_left c1)) as [f' [A Q']].
  { apply all_pay_iff. intros e He. apply Ld in He. destruct (old_pays _ _ _ _ Q p x e On He) as (z & pz & P1 & P2 & P3).
    exists z, pz. split; [exact P1|]. split; [|exact P3]. destruct L1 as [->|[Hp ->]]; [exact P2|].
    rewrite find_left_miss; [exact P2|]. now apply Nk. }
  exists (EvCard reason (CardRemove [pp])), c1, f', (owed_after p x owed).
  split; [exact V|]. split; [exact B1|]. split; [exact M1|]. split; [exact D1|]. split; [|exact Q'].
  unfold pparse. cbn [parse_event]. unfold on_frame, do_removes. cbn [ofold]. rewrite A. reflexivity.
Qed.

(** *** A card moves *)
Lemma one_move : forall from to r f', fo_move (plain_fo card0) from to f = Ok f' ->
  pparse card0 (EvCard r (CardMove [mkPair from to])) (cx_board c) = Ok (set_frame f' (cx_board c)).
Proof.
  intros from to r f' H. unfold pparse. cbn [parse_event]. unfold on_frame, do_moves. cbn [ofold po_a po_b].
  rewrite H. reflexivity.
Qed.

Lemma put_pile_x : forall K1 x K' r i, put_in (InPile r i) x K1 = Some K' ->
  nth_error (k_pile K' r) i = Some x.
Proof.
  intros K1 x K' r i H. cbn [put_in] in H. destruct (Nat.leb_spec i (length (k_pile K1 r))); [|discriminate].
  inversion H. cbn [with_pile k_pile]. rewrite set_at_eq. now apply nth_error_insert_eq.
Qed.

(** Materials of a card that left the field are still in the zone it left. *)
Lemma left_from : forall pp r1 j1 m1 x k1 i1, spot_facts pp (UnderPile r1 j1 m1) ->
  card_on (UnderPile r1 j1 m1) K = Some x -> stands K owed (UnderPile r1 j1 m1) k1 i1 ->
  exists pz, get_xyz_left c (set_oseq OSEQ_INVALID pp) = Ok pz /\
    slot (set_oseq (p_oseq pp) pz) = Some (k1, i1) /\ pile_place_ok (set_oseq (p_oseq pp) pz).
Proof.
  intros pp r1 j1 m1 x k1 i1 Fp On St.
  cbn [card_on holder_of] in On. destruct (nth_error (k_pile K r1) j1) as [h|] eqn:Nh; [|discriminate].
  destruct (q_left _ _ _ _ Q r1 j1 h Nh) as (z & pz & O & Fl & Zp).
  { intros U. rewrite U in On. destruct m1; discriminate. }
  unfold get_xyz_left, OSEQ_INVALID. assert (Ky := sf_key _ _ Fp). cbn in Ky. rewrite Ky, Fl. cbn [or_ub obind].
  exists pz. split; [reflexivity|].
  assert (Os := sf_oseq _ _ Fp). cbn in Os.
  inversion St as [| | |r2 i2 k2 h2 z2 Nh2 O2]; subst.
  assert (h2 = h) by congruence. subst h2.
  assert (z2 = z).
  { assert (E : CMats z2 = CMats z).
    { apply (quiet_uniq _ _ _ _ Q _ i1 _ i1 x); cbn [seen].
      - destruct (q_owed _ _ _ _ Q _ _ O2) as [-> _]. rewrite O2. exact On.
      - destruct (q_owed _ _ _ _ Q _ _ O) as [-> _]. rewrite O. exact On. }
    congruence. }
  subst z2.
  split.
  { unfold zone_named in Zp. unfold slot, set_oseq. cbn [p_con p_loc p_seq p_oseq].
    destruct (side_of_con (p_con pz)) as [w|] eqn:W; [|discriminate].
    destruct (assocN (p_loc pz) zone_table) as [[zl lim]|] eqn:A; [|discriminate].
    destruct (p_seq pz <? lim) eqn:Lm; [|discriminate]. injection Zp as <-.
    assert (B : assocN (p_loc pz) pile_table = None).
    { clear - A. unfold zone_table in A. cbn [assocN] in A.
      repeat match type of A with (if ?a =? ?b then _ else _) = _ =>
        destruct (N.eqb_spec a b) as [->|]; [reflexivity|] end. discriminate. }
    rewrite B, Os. destruct (Z.ltb_spec (Z.of_nat i1) 0); [lia|]. now rewrite Nat2Z.id. }
  { intros X. exfalso. apply X. unfold zone_named in Zp. unfold set_oseq. cbn [p_loc].
    destruct (side_of_con (p_con pz)) as [w|] eqn:W; [|discriminate].
    destruct (assocN (p_loc pz) zone_table) as [[zl lim]|] eqn:A; [|discriminate].
    clear - A. unfold zone_table in A. cbn [assocN] in A.
    repeat match type of A with (if ?a =? ?b then _ else _) = _ =>
        destruct (N.eqb_spec a b) as [->|]; [reflexivity|] end. discriminate. }
Qed.

(** To a pile. *)
Lemma calm_pile : forall pp qq p r i reason x K', spot_facts pp p -> spot_facts qq (InPile r i) ->
  qq = pplace r i ->
  match p with Outside => False | _ => True end ->
  card_on p K = Some x -> put_in (InPile r i) x (take_out p K) = Some K' ->
  (k_under K x <> [] -> is_in_zone p = true) ->
  (forall e, In e (loaded K') -> e = (r, i, x) \/ In e (loaded K)) ->
  event_step pp qq reason c K'.
Proof.
  intros pp qq p r i reason x K' Fp Fq Kq Np On Put Bare Ld.
  destruct (stands_ex _ _ _ _ _ _ Q On) as [k1 [i1 St]].
  assert (Tg : target (InPile r i) (CPile r) i) by constructor.
  destruct (slot_to _ _ _ _ Fq Tg) as [S2 P2].
  assert (Lp : p_loc pp =? 0 = false) by (rewrite (sf_loc _ _ Fp); destruct p; tauto).
  assert (Lq : p_loc qq =? 0 = false) by exact (sf_loc _ _ Fq).
  assert (Iq : is_pile qq = true) by (apply (sf_pile _ _ Fq); discriminate).
  assert (Mq : not_mat qq = true) by (apply (sf_mat _ _ Fq); discriminate).
  assert (Ip : is_pile pp = match p with InPile _ _ | UnderPile _ _ _ => true | _ => false end).
  { apply (sf_pile _ _ Fp). destruct p; try discriminate; contradiction. }
  assert (Mp : not_mat pp = match p with InPile _ _ | InZone _ => true | _ => false end).
  { apply (sf_mat _ _ Fp). destruct p; try discriminate; contradiction. }
  (* what the encoder says *)
  assert (V : exists from c1, move_verdict pp qq reason c = Ok (v_event (EvCard reason (CardMove [mkPair from qq])), c1) /\
    slot from = Some (k1, i1) /\ pile_place_ok from /\
    cx_board c1 = cx_board c /\ cx_mwr c1 = cx_mwr c /\ cx_deferred c1 = [] /\
    (cx_left c1 = cx_left c /\ (is_in_zone p = true -> k_under K x = []) \/ cx_left c1 = (qq, pp) :: cx_left c)).
  { unfold move_verdict, LOCATION_UNSPECIFIED. rewrite Lp, Lq. cbn [andb]. rewrite Iq, Mq. cbn [negb andb].
    destruct p as [|r1 j1|z1|r1 j1 m1|z1 m1] eqn:Ep; rewrite Ip, Mp; cbn [negb andb obind]; [contradiction| | | |].
    - destruct (slot_from _ _ k1 i1 Fp St) as [S1 P1]; [exact I|]. exists pp, c.
      repeat (split; [first [reflexivity|assumption]|]). left. split; [reflexivity|discriminate].
    - destruct (slot_from _ _ k1 i1 Fp St) as [S1 P1]; [exact I|].
      rewrite (xyz_left_zone _ _ z1 Fp eq_refl). cbn [obind]. cbn [card_on] in On. cbn [seen]. rewrite On.
      destruct (k_under K x) eqn:U; cbn [is_nil negb].
      + exists pp, c. repeat (split; [first [reflexivity|assumption]|]). left. split; reflexivity.
      + exists pp, (xyz_left qq pp c). repeat (split; [first [reflexivity|assumption]|]). now right.
    - destruct (left_from _ _ _ _ _ _ _ Fp On St) as (pz & G & S1 & P1). rewrite G. cbn [obind].
      exists (set_oseq (p_oseq pp) pz), c.
      repeat (split; [first [reflexivity|assumption]|]). left. split; [reflexivity|discriminate].
    - destruct (slot_from _ _ k1 i1 Fp St) as [S1 P1]; [exact I|].
      rewrite (xyz_left_zone _ _ z1 Fp eq_refl). cbn [obind].
      destruct (negb (is_nil (seen K owed (CMats z1)))).
      + exists pp, (xyz_left qq pp c). repeat (split; [first [reflexivity|assumption]|]). now right.
      + exists pp, c. repeat (split; [first [reflexivity|assumption]|]). left. split; [reflexivity|discriminate]. }
  destruct V as (from & c1 & V & S1 & P1 & B1 & M1 & D1 & L1).
  assert (Kx : nth_error (k_pile K' r) i = Some x) by (eapply put_pile_x; exact Put).
  assert (Ux : k_under K' x <> [] -> k_under K x <> []).
  { intros U. destruct (put_under _ _ _ _ _ Put U) as [W|W].
    - now apply take_under in W.
    - discriminate. }
  destruct (quiet_move K owed f _ Q p (InPile r i) x K' k1 (CPile r) i1 i from qq St On Put Tg S1 S2 P1 P2) with (left' := cx_left c1)
    as [f' [A Q']].
  - discriminate.
  - intros _. eauto.
  - apply all_pay_iff. intros [[r0 i0] h0] He.
    destruct (in_dec entry_eq_dec (r0, i0, h0) (loaded K)) as [Hold|Hnew].
    + destruct (old_pays _ _ _ _ Q p x _ On Hold) as (z & pz & A1 & A2 & A3). cbn [fst snd] in *.
      destruct L1 as [[L1 _]|L1].
      * exists z, pz. rewrite L1. auto.
      * destruct (spot_eq_dec r i r0 i0) as [[-> ->]|Ne].
        -- (* then it is x itself *)
           apply loaded_In in He. destruct He as [He Hu]. assert (h0 = x) by congruence. subst h0.
           assert (Hz := Bare (Ux Hu)). destruct p as [|? ?|zp|? ? ?|? ?] eqn:Ep; try discriminate Hz.
           exists zp, pp. cbn [fst snd owed_after]. rewrite set_at_eq. split; [reflexivity|].
           rewrite L1, Kq. split; [apply find_left_hit|]. exact (sf_zone _ _ Fp).
        -- exists z, pz. cbn [fst snd]. split; [exact A1|]. split; [|exact A3].
           rewrite L1, Kq. rewrite find_left_miss; [exact A2|]. intros X. apply pplace_inj in X. tauto.
    + destruct (Ld _ He) as [E|]; [|contradiction]. injection E as -> -> ->.
      apply loaded_In in He. destruct He as [He Hu]. assert (Hz := Bare (Ux Hu)).
      destruct p as [|? ?|zp|? ? ?|? ?] eqn:Ep; try discriminate Hz.
      exists zp, pp. cbn [fst snd owed_after]. rewrite set_at_eq. split; [reflexivity|].
      destruct L1 as [[_ L1]|L1]; [exfalso; apply (Ux Hu); now apply L1|].
      rewrite L1, Kq. split; [apply find_left_hit|]. exact (sf_zone _ _ Fp).
  - exists (EvCard reason (CardMove [mkPair from qq])), c1, f', (owed_after p x owed).
    split; [exact V|]. split; [exact B1|]. split; [exact M1|]. split; [exact D1|].
    split; [now apply one_move|exact Q'].
Qed.

(** To a card on the field, as a material. *)
Lemma calm_mat : forall pp qq p z k reason x K', spot_facts pp p -> spot_facts qq (UnderZone z k) ->
  match p with Outside => False | _ => True end ->
  card_on p K = Some x -> put_in (UnderZone z k) x (take_out p K) = Some K' ->
  k_under K x = [] ->
  (forall e, In e (loaded K') -> In e (loaded K)) ->
  event_step pp qq reason c K'.
Proof.
  intros pp qq p z k reason x K' Fp Fq Np On Put Bare Ld.
  destruct (stands_ex _ _ _ _ _ _ Q On) as [k1 [i1 St]].
  assert (Tg : target (UnderZone z k) (CMats z) k) by constructor.
  destruct (slot_to _ _ _ _ Fq Tg) as [S2 P2].
  assert (Lp : p_loc pp =? 0 = false) by (rewrite (sf_loc _ _ Fp); destruct p; tauto).
  assert (Lq : p_loc qq =? 0 = false) by exact (sf_loc _ _ Fq).
  assert (Iq : is_pile qq = false) by (apply (sf_pile _ _ Fq); discriminate).
  assert (Mq : not_mat qq = false) by (apply (sf_mat _ _ Fq); discriminate).
  assert (Ip : is_pile pp = match p with InPile _ _ | UnderPile _ _ _ => true | _ => false end).
  { apply (sf_pile _ _ Fp). destruct p; try discriminate; contradiction. }
  assert (Mp : not_mat pp = match p with InPile _ _ | InZone _ => true | _ => false end).
  { apply (sf_mat _ _ Fp). destruct p; try discriminate; contradiction. }
  assert (V : exists from, move_verdict pp qq reason c = Ok (v_event (EvCard reason (CardMove [mkPair from qq])), c) /\
    slot from = Some (k1, i1) /\ pile_place_ok from).
  { unfold move_verdict, LOCATION_UNSPECIFIED. rewrite Lp, Lq. cbn [andb]. rewrite Iq, Mq. cbn [negb andb].
    destruct p as [|r1 j1|z1|r1 j1 m1|z1 m1] eqn:Ep; rewrite Ip, Mp; cbn [negb andb obind]; [contradiction| | | |];
      try (destruct (slot_from _ _ k1 i1 Fp St) as [S1 P1]; [exact I|]; now exists pp).
    destruct (left_from _ _ _ _ _ _ _ Fp On St) as (pz & G & S1 & P1). rewrite G. cbn [obind]. eauto. }
  destruct V as (from & V & S1 & P1).
  destruct (quiet_move K owed f _ Q p (UnderZone z k) x K' k1 (CMats z) i1 k from qq St On Put Tg S1 S2 P1 P2) with (left' := cx_left c)
    as [f' [A Q']].
  - discriminate.
  - intros U. now rewrite Bare in U.
  - apply all_pay_iff. intros e He. apply Ld in He. exact (old_pays _ _ _ _ Q p x e On He).
  - exists (EvCard reason (CardMove [mkPair from qq])), c, f', (owed_after p x owed).
    split; [exact V|]. split; [reflexivity|]. split; [reflexivity|]. split; [exact Def|].
    split; [now apply one_move|exact Q'].
Qed.

(** On the field. *)
Lemma rest_pay : forall K', (forall r y, In y (k_pile K' r) -> In y (k_pile K r)) ->
  (forall y, k_under K' y <> [] -> k_under K y <> []) -> at_rest K = true -> forall o l, all_pay K' o l.
Proof.
  intros K' P U R o l r i h N H. exfalso. rewrite at_rest_iff in R.
  apply U in H. apply nth_error_In in N. apply P in N. apply In_nth_error in N. destruct N as [j N].
  apply H. eapply R, N.
Qed.

Lemma calm_zone : forall pp qq p z reason x K', spot_facts pp p -> spot_facts qq (InZone z) ->
  match p with Outside | UnderPile _ _ _ => False | _ => True end ->
  card_on p K = Some x -> put_in (InZone z) x (take_out p K) = Some K' ->
  at_rest K = true -> k_zone K z = None ->
  event_step pp qq reason c K'.
Proof.
  intros pp qq p z reason x K' Fp Fq Np On Put R Zn.
  assert (Q0 := settle _ _ _ _ Q R).
  destruct (stands_ex _ _ _ _ _ _ Q0 On) as [k1 [i1 St]].
  assert (Tg : target (InZone z) (CCard z) 0) by constructor.
  destruct (slot_to _ _ _ _ Fq Tg) as [S2 P2].
  assert (Lp : p_loc pp =? 0 = false) by (rewrite (sf_loc _ _ Fp); destruct p; tauto).
  assert (Lq : p_loc qq =? 0 = false) by exact (sf_loc _ _ Fq).
  assert (Iq : is_pile qq = false) by (apply (sf_pile _ _ Fq); discriminate).
  assert (Mq : not_mat qq = true) by (apply (sf_mat _ _ Fq); discriminate).
  set (c1 := mkCtx (cx_board c) (cx_mwr c) (cx_left c) []).
  assert (V : move_verdict pp qq reason c = Ok (v_event (EvCard reason (CardMove [mkPair pp qq])), c1)).
  { unfold move_verdict, LOCATION_UNSPECIFIED. rewrite Lp, Lq. cbn [andb]. rewrite Iq, Mq. cbn [negb andb].
    unfold take_deferred_xyz_mat. rewrite Def. reflexivity. }
  assert (G : exists f', fo_move (plain_fo card0) pp qq f = Ok f' /\ exists o, quiet K' o f' (cx_left c)).
  { assert (Sf : slot pp = Some (k1, i1) /\ pile_place_ok pp).
    { destruct Fp as [_ _ _ A B _ _ _]. destruct St; auto. contradiction. }
    destruct Sf as [S1 P1].
    destruct (is_in_zone p) eqn:Ez.
    - destruct p as [| |z1| |]; try discriminate. inversion St; subst.
      cbn [card_on] in On. destruct (quiet_zone_move K f (cx_left c) z1 z x pp qq Q0 On Zn S1 S2 P1 P2) as [f' [A B]].
      exists f'. split; [exact A|]. exists no_debts.
      cbn [put_in take_out] in Put. change (k_zone (with_zone z1 None K) z) with (set_at zref_eq_dec z1 None (k_zone K) z) in Put.
      rewrite set_at_ne in Put; [|congruence]. rewrite Zn in Put. injection Put as <-. exact B.
    - assert (Ux : k_under K x = []).
      { assert (Px := stands_seen _ _ _ _ Q0 _ _ _ _ St On).
        destruct p as [|r i|z1|r i m|z1 m]; try discriminate; try contradiction; inversion St; subst.
        - rewrite at_rest_iff in R. eapply R, On.
        - apply (mats_bare _ _ _ _ Q0 _ z1). apply nth_error_In in Px. exact Px. }
      destruct (quiet_move K no_debts f _ Q0 p (InZone z) x K' k1 (CCard z) i1 0 pp qq St On Put Tg S1 S2 P1 P2) with (left' := cx_left c)
        as [f' [A Q']].
      + auto.
      + intros U. now rewrite Ux in U.
      + apply (rest_pay K'); [| |exact R].
        * intros r y. cbn [put_in] in Put. destruct (k_zone _ z); [discriminate|]. injection Put as <-.
          cbn [with_zone k_pile]. destruct p as [|r1 i2|z1|r1 i2 m|z1 m]; cbn [take_out holder_of]; auto.
          -- unfold with_pile, set_at. cbn [k_pile]. destruct (pref_eq_dec r r1) as [->|]; auto. apply In_remove_In.
          -- destruct (nth_error _ _); auto.
          -- destruct (k_zone K z1); auto.
        * intros y U. destruct (put_under _ _ _ _ _ Put U) as [W|W]; [now apply take_under in W|discriminate].
      + eauto. }
  destruct G as [f' [A [o Q']]].
  exists (EvCard reason (CardMove [mkPair pp qq])), c1, f', o.
  split; [exact V|]. split; [reflexivity|]. split; [reflexivity|]. split; [reflexivity|].
  split; [now apply one_move|exact Q'].
Qed.

(** *** As the duel says it *)
Lemma made_ok : forall pp qq q reason K', spot_facts pp Outside -> spot_facts qq q -> is_in_zone q = false ->
  (exists k i, target q k i) ->
  (let '(x, K1) := new_card K in obind_ (put_in q x K1) (fun K' => guard (steady [] K K') (Some K'))) = Some K' ->
  event_step pp qq reason c K'.
Proof.
  intros pp qq q reason K' Fp Fq Nq Tg H. unfold new_card in H.
  destruct (put_in _ _ _) as [K1|] eqn:Put; cbn [obind_] in H; [|discriminate H].
  unfold guard in H. destruct (steady [] K K1) eqn:Sd; [|discriminate H]. injection H as <-.
  eapply (calm_add owed Q); [exact Fp|exact Fq|exact Put|exact Tg|congruence|].
  apply all_pay_iff. intros [[r i] h] He. destruct (steady_In _ _ _ Sd _ He) as [[]|He'].
  apply loaded_In in He'. destruct He' as [H1 H2]. exact (q_left _ _ _ _ Q _ _ _ H1 H2).
Qed.
Lemma gone_ok : forall pp qq p reason x K', spot_facts pp p -> spot_facts qq Outside ->
  match p with Outside | UnderPile _ _ _ => False | _ => True end -> card_on p K = Some x ->
  guard (no_mats x K && steady [] K (take_out p K)) (Some (take_out p K)) = Some K' ->
  event_step pp qq reason c K'.
Proof.
  intros pp qq p reason x K' Fp Fq Np On H. unfold guard in H. destruct (_ && _) eqn:G; [|discriminate].
  injection H as <-. apply andb_prop in G. destruct G as [U Sd]. apply no_mats_true in U.
  eapply calm_remove; eauto. intros e He. now destruct (steady_In _ _ _ Sd _ He) as [[]|].
Qed.
Lemma moved_pile : forall pp qq p r i reason x K', spot_facts pp p -> spot_facts qq (InPile r i) ->
  (forall r0 i0, InPile r i = InPile r0 i0 -> qq = pplace r0 i0) ->
  match p with Outside => False | _ => True end -> card_on p K = Some x ->
  obind_ (put_in (InPile r i) x (take_out p K)) (fun K' => guard (no_mats x K && steady [] K K') (Some K')) = Some K' ->
  event_step pp qq reason c K'.
Proof.
  intros pp qq p r i reason x K' Fp Fq Kq Np On H.
  destruct (put_in _ _ _) as [K1|] eqn:Put; cbn [obind_] in H; [|discriminate H].
  unfold guard in H. destruct (_ && _) eqn:G; [|discriminate].
  injection H as <-. apply andb_prop in G. destruct G as [U Sd]. apply no_mats_true in U.
  eapply (calm_pile _ _ _ _ _ _ _ _ Fp Fq (Kq _ _ eq_refl) Np On Put); [intros X; now rewrite U in X|]. intros e He. destruct (steady_In _ _ _ Sd _ He) as [[]|]. now right.
Qed.
Lemma moved_mat : forall pp qq p z k reason x K', spot_facts pp p -> spot_facts qq (UnderZone z k) ->
  match p with Outside => False | _ => True end -> card_on p K = Some x ->
  obind_ (put_in (UnderZone z k) x (take_out p K)) (fun K' => guard (no_mats x K && steady [] K K') (Some K')) = Some K' ->
  event_step pp qq reason c K'.
Proof.
  intros pp qq p z k reason x K' Fp Fq Np On H.
  destruct (put_in _ _ _) as [K1|] eqn:Put; cbn [obind_] in H; [|discriminate H].
  unfold guard in H. destruct (_ && _) eqn:G; [|discriminate].
  injection H as <-. apply andb_prop in G. destruct G as [U Sd]. apply no_mats_true in U.
  eapply calm_mat; eauto. intros e He. now destruct (steady_In _ _ _ Sd _ He) as [[]|].
Qed.
Lemma moved_zone : forall pp qq p z reason x K', spot_facts pp p -> spot_facts qq (InZone z) ->
  match p with Outside | UnderPile _ _ _ => False | _ => True end -> card_on p K = Some x ->
  guard (at_rest K && is_none (k_zone K z)) (put_in (InZone z) x (take_out p K)) = Some K' ->
  event_step pp qq reason c K'.
Proof.
  intros pp qq p z reason x K' Fp Fq Np On H. unfold guard in H. destruct (_ && _) eqn:G; [|discriminate].
  apply andb_prop in G. destruct G as [R Zn]. eapply calm_zone; eauto.
  destruct (k_zone K z); [discriminate|reflexivity].
Qed.

(** *** All of them *)
Lemma calm_step : forall pp qq p q reason K', spot_facts pp p -> spot_facts qq q ->
  (forall r i, q = InPile r i -> qq = pplace r i) ->
  calm_move p q K = Some K' -> event_step pp qq reason c K'.
Proof.
  intros pp qq p q reason K' Fp Fq Kq H.
  destruct p as [|r1 i1|z1|r1 i1 m1|z1 m1]; destruct q as [|r2 i2|z2|r2 i2 m2|z2 m2]; cbn [calm_move] in H; try discriminate H.
  all: try (destruct (card_on _ K) as [x|] eqn:On; cbn [obind_] in H; [|discriminate H]).
  (* created *)
  - eapply made_ok; eauto. do 2 eexists. constructor.
  - unfold new_card, guard in H. destruct (at_rest K) eqn:R; [|discriminate].
    assert (Q0 := settle _ _ _ _ Q R).
    assert (Put : put_in (InZone z2) (k_next K) (snd (new_card K)) = Some K') by exact H.
    eapply (calm_add no_debts Q0); [exact Fp|exact Fq|exact Put|eexists; eexists; constructor|reflexivity|].
    apply rest_pay; [| |exact R].
    + intros r y. cbn [put_in] in Put. destruct (k_zone _ z2); [discriminate|]. injection Put as <-. exact (fun X => X).
    + intros y U. destruct (put_under _ _ _ _ _ Put U) as [W|W]; [exact W|discriminate].
  - eapply made_ok; eauto. do 2 eexists. constructor.
  (* gone or moved *)
  - eapply gone_ok; eauto. exact I.
  - eapply moved_pile; eauto. exact I.
  - eapply moved_zone; eauto. exact I.
  - eapply moved_mat; eauto. exact I.
  - eapply gone_ok; eauto. exact I.
  - destruct (put_in _ _ _) as [K1|] eqn:Put; cbn [obind_] in H; [|discriminate H].
    unfold guard in H. destruct (steady _ K K1) eqn:Sd; [|discriminate H]. injection H as <-.
    eapply calm_pile; eauto; try exact I. intros e He.
    destruct (steady_In _ _ _ Sd _ He) as [[<-|[]]|He']; auto.
  - eapply moved_zone; eauto. exact I.
  - eapply moved_mat; eauto. exact I.
  - eapply moved_pile; eauto. exact I.
  - eapply moved_mat; eauto. exact I.
  - eapply gone_ok; eauto. exact I.
  - eapply moved_pile; eauto. exact I.
  - eapply moved_zone; eauto. exact I.
  - eapply moved_mat; eauto. exact I.
Qed.
End Calm.
