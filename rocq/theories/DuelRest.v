(** Messages that rearrange piles or rows, set up the field or tell about cards. *)
From Verif Require Import Base BaseProofs Place PlaceProofs Frame FrameSpec FrameLens FrameProofs FrameMove FrameOps FramePiles FrameInv FrameShuffle FrameFacts
  Msg Event EventSpec EventProofs Query QuerySpec QueryProofs.
From Verif Require Import Encode EncodeLocal CoreMsg EncodeSpec EncodeQueryProofs EncodeFrame EncodeState EncodeE2E
  Duel DuelView DuelMove DuelCalm DuelFeed DuelFlush DuelMsg.

Local Open Scope N_scope.

(** ** Rearranging *)
Lemma quiet_rearranged : forall K owed f left K' f', quiet K owed f left ->
  inv card f' -> f_next f' = f_next f -> f_heap f' = f_heap f -> shown f' (seen K' owed) ->
  (forall x, k_under K' x = k_under K x) -> k_field K' = k_field K -> k_next K' = k_next K ->
  (forall x z, In x (seen K' owed (CMats z)) -> exists y, In x (seen K owed (CMats y))) ->
  (forall z, k_zone K z = None -> k_zone K' z = None) ->
  (forall z x, k_zone K' z = Some x -> exists y, k_zone K y = Some x) ->
  (forall e, In e (loaded K') -> In e (loaded K)) ->
  quiet K' owed f' left.
Proof.
  intros K owed f left K' f' Q I' N' H' V' U F Nx Ms Zn Zs Ld.
  constructor; auto.
  - rewrite N', Nx. apply Q.
  - intros x c Hx fl. rewrite F. apply (q_info _ _ _ _ Q). unfold card_of in *. now rewrite <- H'.
  - intros x Ux. rewrite U in Ux. apply (q_under _ _ _ _ Q) in Ux.
    assert (Lx := Ux). apply (located_seen K owed) in Lx. destruct Lx as [k [Lx Lk]].
    apply In_nth_error in Lx. destruct Lx as [i Lx].
    assert (Lv : live f x).
    { apply (heap_live _ _ k i x (q_inv _ _ _ _ Q)). rewrite (q_view _ _ _ _ Q). now apply nth_map_some. }
    assert (Lv' : live f' x) by (unfold live in *; now rewrite H').
    destruct (cons_unique (inv_conserved _ _ I') x Lv') as [[k' i'] [O _]].
    unfold occupant in O. cbn [fst snd] in O. rewrite V' in O. apply (proj1 (nth_map_some _ _ _ _)) in O.
    apply nth_error_In in O. apply (located_seen K' owed). exists k'. split; [exact O|].
    destruct k' as [r|z|z]; [exact I|exact I|]. exfalso.
    destruct (Ms _ _ O) as [y Oy]. exact (mats_not_located _ _ _ _ Q _ _ Oy Ux).
  - intros z h O. destruct (q_owed _ _ _ _ Q _ _ O) as [A B]. split; [now apply Zn|].
    intros y Y. destruct (Zs _ _ Y) as [y' Y']. exact (B _ Y').
  - apply all_pay_iff. intros [[r i] h] He. apply Ld in He. apply loaded_In in He. destruct He as [H1 H2].
    exact (q_left _ _ _ _ Q _ _ _ H1 H2).
Qed.

(** Only piles. *)
Lemma quiet_piles : forall K owed f left K' f', quiet K owed f left ->
  inv card f' -> f_next f' = f_next f -> f_heap f' = f_heap f ->
  (forall r, contents (CPile r) (f_lay f') = map Some (k_pile K' r)) ->
  (forall k, match k with CPile _ => False | _ => True end -> contents k (f_lay f') = contents k (f_lay f)) ->
  k_zone K' = k_zone K -> k_under K' = k_under K -> k_field K' = k_field K -> k_next K' = k_next K ->
  (forall e, In e (loaded K') -> In e (loaded K)) ->
  quiet K' owed f' left.
Proof.
  intros K owed f left K' f' Q I' N' H' Vp Vo Z U F Nx Ld.
  assert (S : forall k, match k with CPile _ => False | _ => True end -> seen K' owed k = seen K owed k).
  { intros [r|z|z] X; [contradiction| |]; cbn [seen]; now rewrite Z, ?U. }
  eapply quiet_rearranged; eauto.
  - intros k. destruct k as [r|z|z]; [apply Vp| |]; rewrite Vo by exact I; rewrite S by exact I; apply (q_view _ _ _ _ Q).
  - intros x. now rewrite U.
  - intros x z H. exists z. now rewrite <- S.
  - intros z. now rewrite Z.
  - intros z x H. exists z. now rewrite <- Z.
Qed.

Lemma splices_next : forall ops f f', do_splices (plain_fo card0) ops f = Ok f' -> f_next f' = f_next f.
Proof.
  unfold do_splices. induction ops as [|o ops IH]; intros f f' H; cbn [ofold] in H; [now inversion H|].
  apply obind_Ok in H. destruct H as [f1 [E H]]. rewrite (IH _ _ H). cbn [plain_fo fo_splice] in E.
  unfold lift in E. apply obind_Ok in E. destruct E as [L [_ E]]. now inversion E.
Qed.

Lemma rearranged_inv : forall o D D', rearranged o D = Some D' ->
  d_doing D = None /\ exists K', o (d_cards D) = Some K' /\ D' = with_cards K' D /\
    forall e, In e (loaded K') -> In e (loaded (d_cards D)).
Proof.
  intros o D D' H. unfold rearranged, guard in H. destruct (d_doing D) eqn:E; [discriminate|]. cbn [is_none] in H.
  split; [reflexivity|]. destruct (o (d_cards D)) as [K'|]; cbn [obind_] in H; [|discriminate].
  destruct (steady [] (d_cards D) K') eqn:S; [|discriminate]. injection H as <-. exists K'.
  split; [reflexivity|]. split; [reflexivity|]. intros e He. now destruct (steady_In _ _ _ S _ He) as [[]|].
Qed.

(** After a splice of piles. *)
Lemma pile_follow : forall D c m reason ops c' K', mirrors D c -> d_doing D = None ->
  encode_one c (ser m) = Ok (mkResult StOk (lenN (ser m)) (Some (mkMsg (MsgEvent (EvPile reason (PileSplice ops))) [])), c) ->
  feed c (ser m) = Ok c' -> only_moved c c' ->
  (forall r, contents (CPile r) (ctx_layout c') = map Some (k_pile K' r)) ->
  (forall k, match k with CPile _ => False | _ => True end -> contents k (ctx_layout c') = contents k (ctx_layout c)) ->
  k_zone K' = k_zone (d_cards D) -> k_under K' = k_under (d_cards D) -> k_field K' = k_field (d_cards D) ->
  k_next K' = k_next (d_cards D) -> (forall e, In e (loaded K') -> In e (loaded (d_cards D))) ->
  follows (with_cards K' D) m c.
Proof.
  intros D c m reason ops c' K' [Snd Mwr Fa Ca] Dn Enc Fe [Ag [Hp [W [Lf Df]]]] Vp Vo Z U F Nx Ld.
  unfold cards_ok in Ca. rewrite Dn in Ca. destruct Ca as [Dc [owed Q]].
  assert (Fn : f_next (b_frame (cx_board c')) = f_next (b_frame (cx_board c))).
  { rewrite (feed_event _ _ _ _ _ Enc) in Fe. apply obind_Ok in Fe. destruct Fe as [b [P E]].
    injection E as <-. cbn [set_board cx_board]. unfold pparse in P. cbn [parse_event] in P. unfold on_frame in P.
    apply obind_Ok in P. destruct P as [f1 [P E]]. injection E as <-. cbn [set_frame b_frame]. eapply splices_next, P. }
  apply (follows_intro _ _ _ c'); auto.
  - congruence.
  - destruct Ag as (_ & A1 & A2 & A3 & A4 & A5 & A6). destruct Fa as [B1 B2 B3 B4 B5 B6].
    assert (X : forall m0, m0 <> MFrame -> ~ In m0 [MFrame]) by (intros m0 Nm [<-|[]]; congruence).
    constructor; cbn [with_cards d_lp d_turn d_player d_phase d_chain d_blocked].
    + intros w. rewrite <- B1. unfold lp_of. rewrite A4; auto. apply X. discriminate.
    + rewrite A2; auto. apply X. discriminate.
    + rewrite A3; auto. apply X. discriminate.
    + rewrite A5; auto. apply X. discriminate.
    + rewrite A1; auto. apply X. discriminate.
    + rewrite A6; auto. apply X. discriminate.
  - unfold cards_ok. cbn [with_cards d_doing d_cards]. rewrite Dn. split; [congruence|]. exists owed. rewrite Lf.
    eapply quiet_piles; eauto. apply sound_inv. eapply feed_sound; eauto.
Qed.

Lemma fits : forall n, fits32 n = true -> N.of_nat n < 2 ^ 32.
Proof. intros n H. now apply N.ltb_lt in H. Qed.
Lemma lenN_map : forall A B (g : A -> B) l, lenN (map g l) = N.of_nat (length l).
Proof. intros. unfold lenN. now rewrite map_length. Qed.

Lemma pile_seen : forall D c w l, mirrors D c -> d_doing D = None ->
  pile_now c w l = map Some (k_pile (d_cards D) (w, l)).
Proof.
  intros D c w l [Snd Mwr Fa Ca] Dn. unfold cards_ok in Ca. rewrite Dn in Ca. destruct Ca as [_ [owed Q]].
  exact (q_view _ _ _ _ Q (CPile (w, l))).
Qed.

Lemma who_side : forall con w, who_of con = Some w -> side_of_con (Z.of_N con) = Some w.
Proof.
  intros con w H. destruct con as [|[]]; cbn in H; try discriminate; injection H as <-; reflexivity.
Qed.

Lemma draw_step : forall D c con l D', mirrors D c -> core_ok (CmDraw con l) ->
  duel_step (CmDraw con l) D = Some D' -> follows D' (CmDraw con l) c.
Proof.
  intros D c con l D' M K H. cbn [duel_step] in H. destruct (who_of con) as [w|] eqn:W; [|discriminate].
  cbn [obind_] in H. apply who_side in W. apply rearranged_inv in H. destruct H as [Dn [K' [H [-> Ld]]]].
  unfold draw, guard in H. destruct (_ && _) eqn:G; [|discriminate]. injection H as <-.
  apply andb_prop in G. destruct G as [G G3]. apply andb_prop in G. destruct G as [G1 G2].
  apply Nat.leb_le in G1. apply fits in G2, G3.
  assert (P := fun l0 => pile_seen D c w l0 M Dn).
  destruct (draw_e2e c con w l [] (mi_sound _ _ M) W K) as (c' & Fe & Om & Ok_ & drawn & E1 & E2 & E3).
  { now rewrite P, map_length. }
  { now rewrite P, lenN_map. }
  { now rewrite P, lenN_map. }
  rewrite app_nil_r in Fe.
  assert (Enc := draw_encode c con w l [] W K). rewrite app_nil_r in Enc.
  set (deck := k_pile (d_cards D) (w, LDeck)) in *. set (n := (length deck - length l)%nat) in *.
  assert (E4 : pile_now c' w LDeck = map Some (firstn n deck) /\ drawn = map Some (skipn n deck)).
  { rewrite P in E1. fold deck in E1. rewrite <- (firstn_skipn n deck) in E1 at 1. rewrite map_app in E1.
    symmetry in E1. apply app_inj_pre in E1; [exact E1|].
    assert (X := f_equal (@length _) E1). rewrite !app_length, !map_length in X. 
    rewrite map_length, firstn_length. rewrite skipn_length in X. rewrite firstn_length in X. unfold n in *. lia. }
  destruct E4 as [E4 E5].
  eapply pile_follow; eauto; try reflexivity.
  - intros r. cbn [with_pile k_pile]. unfold set_at. destruct (pref_eq_dec r (w, LHand)) as [->|N1].
    + change (contents (CPile (w, LHand)) (ctx_layout c')) with (pile_now c' w LHand).
      rewrite E3, P, E5, map_app, map_rev. reflexivity.
    + destruct (pref_eq_dec r (w, LDeck)) as [->|N2]; [exact E4|].
      rewrite Ok_; [destruct r as [w0 l0]; apply (pile_seen D c w0 l0 M Dn)|]. cbn [In]. intros [X|[X|[]]]; congruence.
  - intros k Kk. apply Ok_. cbn [In]. intros [X|[X|[]]]; subst k; contradiction.
Qed.

Lemma reverse_duel_step : forall D c D', mirrors D c -> 
  duel_step CmReverseDeck D = Some D' -> follows D' CmReverseDeck c.
Proof.
  intros D c D' M H. cbn [duel_step] in H. apply rearranged_inv in H. destruct H as [Dn [K' [H [-> Ld]]]].
  unfold guard in H. destruct (_ && _) eqn:G; [|discriminate]. injection H as <-.
  apply andb_prop in G. destruct G as [G1 G2]. apply fits in G1, G2.
  assert (P := fun w l0 => pile_seen D c w l0 M Dn).
  destruct (reverse_e2e c [] (mi_sound _ _ M)) as (c' & Fe & Om & Ok_ & E).
  { intros []; now rewrite P, lenN_map. }
  rewrite app_nil_r in Fe. assert (Enc := reverse_encode c []). rewrite app_nil_r in Enc.
  eapply pile_follow; eauto; try reflexivity.
  - intros r. cbn [with_pile k_pile]. unfold set_at.
    destruct (pref_eq_dec r (true, LDeck)) as [->|N1].
    + change (contents (CPile (true, LDeck)) (ctx_layout c')) with (pile_now c' true LDeck).
      rewrite E, P, map_rev. reflexivity.
    + destruct (pref_eq_dec r (false, LDeck)) as [->|N2].
      * change (contents (CPile (false, LDeck)) (ctx_layout c')) with (pile_now c' false LDeck).
        rewrite E, P, map_rev. reflexivity.
      * rewrite Ok_; [destruct r as [w0 l0]; apply (pile_seen D c w0 l0 M Dn)|]. cbn [In]. intros [X|[X|[]]]; congruence.
  - intros k Kk. apply Ok_. cbn [In]. intros [X|[X|[]]]; subst k; contradiction.
Qed.

Lemma pick_map : forall A B (g : A -> B) want l i, pick want i (map g l) = map g (pick want i l).
Proof.
  intros A B g want l. induction l as [|x l IH]; intros i; [reflexivity|]. cbn [map pick]. rewrite IH, map_app.
  now destruct (want i).
Qed.

Lemma swap_step : forall D c con pos bits D', mirrors D c -> core_ok (CmSwapGraveDeck con pos bits) ->
  duel_step (CmSwapGraveDeck con pos bits) D = Some D' -> follows D' (CmSwapGraveDeck con pos bits) c.
Proof.
  intros D c con pos bits D' M K H. cbn [duel_step] in H. destruct (who_of con) as [w|] eqn:W; [|discriminate].
  cbn [obind_] in H. apply who_side in W. apply rearranged_inv in H. destruct H as [Dn [K' [H [-> Ld]]]].
  unfold swap_grave_deck, guard in H. destruct (_ && _) eqn:G; [|discriminate]. injection H as <-.
  apply andb_prop in G. destruct G as [G G4]. apply andb_prop in G. destruct G as [G G3].
  apply andb_prop in G. destruct G as [G1 G2]. apply N.leb_le in G1, G2. apply fits in G3, G4.
  assert (P := fun l0 => pile_seen D c w l0 M Dn).
  assert (Ln : forall l0, lenN (pile_now c w l0) = lenN (k_pile (d_cards D) (w, l0))).
  { intros l0. rewrite P, lenN_map. reflexivity. }
  destruct (swap_e2e c con w pos bits [] (mi_sound _ _ M) W K) as (c' & Fe & Om & Ok_ & E1 & E2 & E3).
  { now rewrite Ln. }
  { now rewrite Ln. }
  { rewrite !Ln. unfold lenN. lia. }
  { now rewrite Ln. }
  rewrite app_nil_r in Fe.
  destruct (extra_loop_ok (Z.of_N con) pos bits (seqN (size_of c w LGrave)) 0 0 0) as [ops Eo].
  { intros i Hi. apply seqN_In in Hi. change (size_of c w LGrave) with (lenN (pile_now c w LGrave)) in Hi. rewrite Ln in Hi. lia. }
  assert (Enc := swap_encode c con w pos bits ops [] W K ltac:(change (size_of c w LGrave) with (lenN (pile_now c w LGrave)); rewrite Ln; exact G1) Eo).
  rewrite app_nil_r in Enc.
  eapply pile_follow; eauto; try reflexivity.
  - intros r. cbn [with_pile k_pile]. unfold set_at. destruct (pref_eq_dec r (w, LExtra)) as [->|N1].
    { change (contents (CPile (w, LExtra)) (ctx_layout c')) with (pile_now c' w LExtra).
      rewrite E3, !P, pick_map, !map_app, firstn_map, skipn_map. reflexivity. }
    destruct (pref_eq_dec r (w, LDeck)) as [->|N2].
    { change (contents (CPile (w, LDeck)) (ctx_layout c')) with (pile_now c' w LDeck).
      rewrite E2, !P, pick_map. reflexivity. }
    destruct (pref_eq_dec r (w, LGrave)) as [->|N3].
    { change (contents (CPile (w, LGrave)) (ctx_layout c')) with (pile_now c' w LGrave).
      rewrite E1, !P. reflexivity. }
    rewrite Ok_; [destruct r as [w0 l0]; apply (pile_seen D c w0 l0 M Dn)|].
    cbn [In]. intros [X|[X|[X|[]]]]; congruence.
  - intros k Kk. apply Ok_. cbn [In]. intros [X|[X|[X|[]]]]; subst k; contradiction.
Qed.

(** ** Rows of zones *)
Lemma quiet_zones : forall K owed f left K' f' (g : zref -> zref), quiet K owed f left ->
  inv card f' -> f_next f' = f_next f -> f_heap f' = f_heap f ->
  (forall r, contents (CPile r) (f_lay f') = contents (CPile r) (f_lay f)) ->
  (forall z, zone_view z (f_lay f') = zone_view (g z) (f_lay f)) ->
  (forall z, g z <> z -> k_zone K z <> None /\ k_zone K (g z) <> None) ->
  (forall z, k_zone K' z = k_zone K (g z)) -> k_pile K' = k_pile K -> k_under K' = k_under K ->
  k_field K' = k_field K -> k_next K' = k_next K ->
  (forall e, In e (loaded K') -> In e (loaded K)) ->
  quiet K' owed f' left.
Proof.
  intros K owed f left K' f' g Q I' N' H' Vp Vz G Z P U F Nx Ld.
  assert (S : forall z, seen K' owed (CMats z) = seen K owed (CMats (g z))).
  { intros z. cbn [seen]. rewrite Z, U. destruct (zref_eq_dec (g z) z) as [->|Ne]; [reflexivity|].
    destruct (G z Ne) as [_ X]. destruct (k_zone K (g z)); [reflexivity|congruence]. }
  eapply quiet_rearranged; eauto.
  - intros k. destruct k as [r|z|z].
    + rewrite Vp. cbn [seen]. rewrite P. apply (q_view _ _ _ _ Q).
    + assert (X := f_equal fst (Vz z)). cbn [zone_view fst] in X. rewrite X. cbn [seen]. rewrite Z.
      apply (q_view _ _ _ _ Q).
    + assert (X := f_equal snd (Vz z)). cbn [zone_view snd] in X. rewrite X, S. apply (q_view _ _ _ _ Q).
  - intros x. now rewrite U.
  - intros x z H. exists (g z). now rewrite <- S.
  - intros z H. rewrite Z. destruct (zref_eq_dec (g z) z) as [->|Ne]; [exact H|]. now destruct (G z Ne).
  - intros z x H. exists (g z). now rewrite <- Z.
Qed.

Lemma event_feed : forall m e c b, core_ok m -> core_event m = Some e ->
  pparse card0 e (cx_board c) = Ok b -> feed c (ser m) = Ok (set_board b c).
Proof.
  intros m e c b K E P. assert (Enc := event_encode m e K E c []). rewrite app_nil_r in Enc.
  eapply feed_ev; eauto.
Qed.

(** A layout change of the frame that exchanges zones. *)
Lemma zone_follow : forall D c m e L' K' g, mirrors D c -> d_doing D = None -> core_ok m -> core_event m = Some e ->
  pparse card0 e (cx_board c) = Ok (set_frame (with_lay (b_frame (cx_board c)) L') (cx_board c)) ->
  (forall r, contents (CPile r) L' = contents (CPile r) (ctx_layout c)) ->
  (forall z, zone_view z L' = zone_view (g z) (ctx_layout c)) ->
  (forall z, g z <> z -> k_zone (d_cards D) z <> None /\ k_zone (d_cards D) (g z) <> None) ->
  (forall z, k_zone K' z = k_zone (d_cards D) (g z)) -> k_pile K' = k_pile (d_cards D) ->
  k_under K' = k_under (d_cards D) ->
  k_field K' = k_field (d_cards D) -> k_next K' = k_next (d_cards D) ->
  (forall e, In e (loaded K') -> In e (loaded (d_cards D))) ->
  follows (with_cards K' D) m c.
Proof.
  intros D c m e L' K' g [Snd Mwr Fa Ca] Dn Co E P Vp Vz G Z Pi U F Nx Ld.
  unfold cards_ok in Ca. rewrite Dn in Ca. destruct Ca as [Dc [owed Q]].
  assert (Fe := event_feed _ _ _ _ Co E P).
  eapply follows_intro; eauto.
  - destruct Fa. constructor; assumption.
  - unfold cards_ok. cbn [with_cards d_doing d_cards]. rewrite Dn. split; [exact Dc|]. exists owed.
    eapply quiet_zones; eauto; try reflexivity.
    eapply sound_inv, feed_sound; eauto.
Qed.

Lemma exchange_step : forall D c a b D', mirrors D c -> core_ok (CmSwap a b) ->
  duel_step (CmSwap a b) D = Some D' -> follows D' (CmSwap a b) c.
Proof.
  intros D c a b D' M K H. cbn [duel_step] in H.
  destruct (spot_of (core_place (cc_loc a))) as [[| |x| |]|] eqn:Ea; try discriminate.
  destruct (spot_of (core_place (cc_loc b))) as [[| |y| |]|] eqn:Eb; try discriminate.
  apply rearranged_inv in H. destruct H as [Dn [K' [H [-> Ld]]]].
  unfold guard in H. destruct (_ && _) eqn:G; [|discriminate]. injection H as <-.
  apply andb_prop in G. destruct G as [G1 G2].
  assert (Fx := spot_spec _ _ Ea). assert (Fy := spot_spec _ _ Eb).
  assert (Sx := sf_slot _ _ Fx). assert (Sy := sf_slot _ _ Fy). cbn beta iota in Sx, Sy.
  destruct (k_zone (d_cards D) x) as [cx|] eqn:Zx; [|discriminate].
  destruct (k_zone (d_cards D) y) as [cy|] eqn:Zy; [|discriminate].
  assert (Mi := M). destruct M as [Snd Mwr Fa Ca]. unfold cards_ok in Ca. rewrite Dn in Ca. destruct Ca as [Dc [owed Q]].
  set (pa := core_place (cc_loc a)) in *. set (pb := core_place (cc_loc b)) in *.
  assert (Lo : lay_ok (ctx_layout c)) by apply (inv_lay _ _ (q_inv _ _ _ _ Q)).
  assert (Sf : swap_safe pa pb) by (unfold swap_safe; rewrite Sx; exact Logic.I).
  destruct (proj2 (swap_pre_iff pa pb (ctx_layout c) Lo Sf)) as [L' HL].
  { split; [apply (sf_ok _ _ Fx)|]. split; [apply (sf_ok _ _ Fy)|].
    exists (CCard x), 0%nat, (CCard y), 0%nat. unfold view. 
    assert (Vx := q_view _ _ _ _ Q (CCard x)). assert (Vy := q_view _ _ _ _ Q (CCard y)).
    cbn [seen] in Vx, Vy. rewrite Zx in Vx. rewrite Zy in Vy. unfold ctx_layout.
    rewrite Vx, Vy. cbn. repeat split; auto; discriminate. }
  destruct (card_swap_view _ _ _ _ Lo Sf HL) as (pa' & pb' & Ra & Rb & V).
  rewrite Sx in Ra. rewrite Sy in Rb. injection Ra as <-. injection Rb as <-. cbn [fst] in V. destruct V as [V1 V2].
  eapply (zone_follow _ _ _ _ L' _ (exchange zref_eq_dec x y (fun z => z))); eauto; try reflexivity.
  - unfold pparse. cbn [parse_event]. unfold on_frame, do_swaps. cbn [ofold po_a po_b].
    cbn [plain_fo fo_swap]. unfold lift. fold pa pb. unfold ctx_layout in HL. rewrite HL. reflexivity.
  - intros z. rewrite V1. unfold exchange. destruct (zref_eq_dec z x); [reflexivity|].
    destruct (zref_eq_dec z y); reflexivity.
  - intros z. unfold exchange. destruct (zref_eq_dec z x) as [->|]; [intros _; split; congruence|].
    destruct (zref_eq_dec z y) as [->|]; [intros _; split; congruence|congruence].
  - intros z. unfold exchange_zones, exchange. cbn [with_zone k_zone]. unfold set_at.
    destruct (zref_eq_dec z x) as [->|]; [reflexivity|].
    destruct (zref_eq_dec z y) as [->|]; reflexivity.
Qed.

(** ** Shuffles of a row *)
Definition zloc_num (z : zloc) : N :=
  match z with ZMonster => 0x4 | ZSpell => 0x8 | ZField => 0x100 | ZPend => 0x200 | ZSkill => 0x400 end.
Lemma zone_name_spec : forall p z, zone_named p = Some z ->
  p_con p = con_of (fst (fst z)) /\ p_loc p = zloc_num (snd (fst z)) /\ p_seq p = N.of_nat (snd z) /\ (snd z < 7)%nat.
Proof.
  intros p z H. unfold zone_named in H. destruct (side_of_con (p_con p)) as [w|] eqn:W; [|discriminate].
  apply side_con in W. destruct (assocN (p_loc p) zone_table) as [[zl lim]|] eqn:A; [|discriminate].
  destruct (p_seq p <? lim) eqn:Lt; [|discriminate]. apply N.ltb_lt in Lt. injection H as <-. cbn [fst snd].
  split; [exact W|].
  unfold zone_table in A. cbn [assocN] in A.
  repeat match type of A with (if ?a =? ?b then _ else _) = _ =>
    destruct (N.eqb_spec a b); [inversion A; subst; split; [assumption|]; split; lia|] end. discriminate.
Qed.

Definition pair_spots (a : cloc * cloc) (b : zref * zref) : Prop :=
  spot_of (core_place (fst a)) = Some (InZone (fst b)) /\ spot_of (core_place (snd a)) = Some (InZone (snd b)).
Lemma zones_of_spec : forall l m, zones_of l = Some m -> Forall2 pair_spots l m.
Proof.
  induction l as [|[a b] l IH]; intros m H; cbn [zones_of] in H; [injection H as <-; constructor|].
  destruct (spot_of (core_place a)) as [[| |x| |]|] eqn:Ea; try discriminate.
  destruct (spot_of (core_place b)) as [[| |y| |]|] eqn:Eb; try discriminate.
  destruct (zones_of l) as [m'|] eqn:El; [|discriminate]. injection H as <-. constructor; auto. now split.
Qed.
Lemma nodup_zones_spec : forall l, nodup_zones l = true -> NoDup l.
Proof.
  induction l as [|z l IH]; intros H; [constructor|]. cbn [nodup_zones] in H. apply andb_prop in H. destruct H as [H1 H2].
  constructor; [|now apply IH]. now destruct (in_dec zref_eq_dec z l).
Qed.
Lemma old_zone_in : forall m z x, old_zone z m = Some x -> In (x, z) m.
Proof.
  induction m as [|[x0 y0] m IH]; intros z x H; cbn [old_zone] in H; [discriminate|].
  destruct (zref_eq_dec y0 z) as [->|]; [injection H as <-; now left|]. right. now apply IH.
Qed.
Lemma old_zone_none : forall m z, old_zone z m = None -> ~ In z (map snd m).
Proof.
  induction m as [|[x0 y0] m IH]; intros z H; cbn [old_zone] in H; [intros []|].
  destruct (zref_eq_dec y0 z) as [->|]; [discriminate|]. cbn [map snd In]. intros [X|X]; [congruence|].
  exact (IH _ H X).
Qed.
Lemma NoDup_row : forall (row : bool * zloc) (l : list zref), NoDup l -> (forall z, In z l -> fst z = row) ->
  NoDup (map snd l).
Proof.
  intros row l N. induction N as [|z l Nz N IH]; intros R; cbn [map]; constructor.
  - intros X. apply in_map_iff in X. destruct X as [y [E X]]. apply Nz.
    assert (Y : y = z); [|rewrite <- Y; exact X]. destruct y as [y1 y2], z as [z1 z2]. cbn [snd] in E. subst y2.
    assert (R1 := R (y1, z2)). assert (R2 := R (z1, z2)). cbn [fst In] in R1, R2. rewrite R1, R2; auto.
  - apply IH. intros y Y. apply R. now right.
Qed.
Lemma NoDup_of_nat : forall l, NoDup l -> NoDup (map N.of_nat l).
Proof.
  intros l N. induction N as [|z l Nz N IH]; cbn [map]; constructor; auto.
  intros X. apply in_map_iff in X. destruct X as [y [E X]]. apply Nat2N.inj in E. congruence.
Qed.
Lemma Forall2_in_r : forall A B (R : A -> B -> Prop) l m y, Forall2 R l m -> In y m -> exists x, In x l /\ R x y.
Proof.
  intros A B R l m y H. induction H; intros []; [subst; eexists; split; [now left|auto]|].
  destruct IHForall2 as [x0 [X1 X2]]; auto. exists x0. split; [now right|auto].
Qed.
Lemma Forall2_in_l : forall A B (R : A -> B -> Prop) l m x, Forall2 R l m -> In x l -> exists y, In y m /\ R x y.
Proof.
  intros A B R l m y H. induction H; intros []; [subst; eexists; split; [now left|auto]|].
  destruct IHForall2 as [x0 [X1 X2]]; auto. exists x0. split; [now right|auto].
Qed.

Lemma shuffle_step : forall D c loc l D', mirrors D c -> core_ok (CmShuffleSetCard loc l) ->
  duel_step (CmShuffleSetCard loc l) D = Some D' -> follows D' (CmShuffleSetCard loc l) c.
Proof.
  intros D c loc l D' M K H. cbn [duel_step] in H. destruct (zones_of l) as [m|] eqn:Zo; cbn [obind_] in H; [|discriminate].
  apply rearranged_inv in H. destruct H as [Dn [K' [H [-> Ld]]]].
  unfold guard in H. destruct (shuffle_fine m (d_cards D)) eqn:G; [|discriminate]. injection H as <-.
  apply zones_of_spec in Zo. unfold shuffle_fine in G. destruct m as [|[z0 y0] m0]; [discriminate|].
  set (m := (z0, y0) :: m0) in *. apply andb_prop in G. destruct G as [G G3]. apply andb_prop in G. destruct G as [G1 G2].
  apply nodup_zones_spec in G1, G2. rewrite forallb_forall in G3.
  assert (F : forall x y, In (x, y) m -> k_zone (d_cards D) x <> None /\ In y (map fst m) /\ fst x = fst z0).
  { intros x y I. specialize (G3 _ I). cbn [fst snd] in G3. apply andb_prop in G3. destruct G3 as [A B].
    apply andb_prop in A. destruct A as [A1 A2]. unfold row_of in B. split; [destruct (k_zone _ x); discriminate|].
    split; [now destruct (in_dec zref_eq_dec y (map fst m))|]. now destruct (row_eq_dec (fst x) (fst z0)). }
  clear G3.
  assert (Inc : incl (map snd m) (map fst m)).
  { intros y Y. apply in_map_iff in Y. destruct Y as [[x y'] [<- Y]]. now destruct (F _ _ Y) as [_ [B _]]. }
  assert (Inc' : incl (map fst m) (map snd m)).
  { apply NoDup_length_incl; auto. rewrite !map_length. lia. }
  assert (Row : forall z, In z (map fst m) -> fst z = fst z0).
  { intros z Z. apply in_map_iff in Z. destruct Z as [[x y'] [<- Z]]. now destruct (F _ _ Z) as [_ [_ B]]. }
  assert (Occ : forall z, In z (map fst m) -> k_zone (d_cards D) z <> None).
  { intros z Z. apply in_map_iff in Z. destruct Z as [[x y'] [<- Z]]. now destruct (F _ _ Z) as [B _]. }
  set (prev := map (fun x : cloc * cloc => core_place (fst x)) l).
  set (cur := map (fun x : cloc * cloc => core_place (snd x)) l).
  assert (Pv : forall p, In p prev -> exists z, In z (map fst m) /\ spot_facts p (InZone z)).
  { intros p I. unfold prev in I. apply in_map_iff in I. destruct I as [a [<- I]].
    destruct (Forall2_in_l _ _ _ _ _ _ Zo I) as [b [Ib [R _]]]. exists (fst b). split; [now apply in_map|now apply spot_spec]. }
  assert (Cv : forall p, In p cur -> exists z, In z (map snd m) /\ spot_facts p (InZone z)).
  { intros p I. unfold cur in I. apply in_map_iff in I. destruct I as [a [<- I]].
    destruct (Forall2_in_l _ _ _ _ _ _ Zo I) as [b [Ib [_ R]]]. exists (snd b). split; [now apply in_map|now apply spot_spec]. }
  assert (Dis : filter disclosed cur = cur).
  { clear - Cv. induction cur as [|p cu IH]; [reflexivity|]. cbn [filter].
    destruct (Cv p (or_introl eq_refl)) as [z [_ Fz]]. unfold disclosed at 1. rewrite (sf_loc _ _ Fz). cbn [negb].
    f_equal. apply IH. intros q Q. apply Cv. now right. }
  assert (Sq : map p_seq prev = map N.of_nat (map snd (map fst m)) /\ map p_seq cur = map N.of_nat (map snd (map snd m))
     /\ map zone_named prev = map Some (map fst m) /\ map zone_named cur = map Some (map snd m)).
  { unfold prev, cur. clear - Zo. induction Zo as [|a b la lb [R1 R2] H IH]; [now split|].
    destruct IH as [A [B [C E]]]. cbn [map]. apply spot_spec in R1, R2.
    assert (Z1 := sf_zone _ _ R1). assert (Z2 := sf_zone _ _ R2). cbn beta iota in Z1, Z2. rewrite Z1, Z2.
    apply zone_name_spec in Z1, Z2. destruct Z1 as [_ [_ [-> _]]], Z2 as [_ [_ [-> _]]].
    rewrite A, B, C, E. now split. }
  destruct Sq as [Sq1 [Sq2 [Sn1 Sn2]]].
  assert (In_ : shuffle_input (con_of (fst (fst z0))) (zloc_num (snd (fst z0))) prev cur).
  { constructor.
    - intros p I. destruct (Pv p I) as [z [Iz Fz]]. apply sf_zone in Fz. apply zone_name_spec in Fz.
      rewrite <- (Row z Iz). now destruct Fz as [A [B _]].
    - intros p I _. destruct (Cv p I) as [z [Iz Fz]]. apply sf_zone in Fz. apply zone_name_spec in Fz.
      rewrite <- (Row z (Inc _ Iz)). now destruct Fz as [A [B _]].
    - rewrite Sq1. apply NoDup_of_nat. eapply NoDup_row; eauto.
    - rewrite Dis, Sq2. apply NoDup_of_nat. eapply NoDup_row; eauto.
    - unfold prev, cur. now rewrite !map_length. }
  assert (Lm : length l = length m) by (clear - Zo; induction Zo; cbn [length]; congruence).
  assert (Mi := M). destruct M as [Snd Mwr Fa Ca]. unfold cards_ok in Ca. rewrite Dn in Ca. destruct Ca as [Dc [owed Q]].
  assert (Sh : shape (ctx_layout c)) by apply (inv_lay _ _ (q_inv _ _ _ _ Q)).
  destruct (shuffle_runs _ _ _ _ (ctx_layout c) Sh In_) as [L' HL].
  { intros X. apply (f_equal (@length _)) in X. unfold prev in X. rewrite map_length, Lm in X. discriminate. }
  { assert (Lp : length prev = length (map snd (map fst m))) by (unfold prev; rewrite !map_length; exact Lm). rewrite Lp.
    change 7%nat with (length (seq 0 7)). apply NoDup_incl_length; [eapply NoDup_row; eauto|].
    intros i I. apply in_map_iff in I. destruct I as [z [<- I]]. apply in_seq.
    assert (X : In (Some z) (map zone_named prev)) by (rewrite Sn1; now apply in_map).
    apply in_map_iff in X. destruct X as [p [X _]]. apply zone_name_spec in X. lia. }
  { apply Forall_forall. intros p I. destruct (Pv p I) as [z [_ Fz]]. exists z. apply (sf_zone _ _ Fz). }
  { rewrite Dis. apply Forall_forall. intros p I. destruct (Cv p I) as [z [_ Fz]]. exists z. apply (sf_zone _ _ Fz). }
  { apply Forall_forall. intros p I. destruct (Pv p I) as [z [Iz Fz]].
    rewrite (has_card_slot _ _ _ _ Sh (sf_slot _ _ Fz)). unfold ctx_layout. rewrite (q_view _ _ _ _ Q (CCard z)).
    cbn [seen]. destruct (k_zone (d_cards D) z) eqn:X; [reflexivity|]. exfalso. exact (Occ _ Iz X). }
  destruct (shuffle_correct _ _ _ _ _ _ Sh In_ HL) as [V1 [V2 [V3 _]]].
  eapply (zone_follow _ _ _ _ L' _ (fun z => match old_zone z m with Some x => x | None => z end)); eauto; try reflexivity.
  - unfold pparse. cbn [parse_event]. unfold on_frame. fold prev cur.
    cbn [plain_fo fo_shuffle]. unfold lift. unfold ctx_layout in HL. rewrite HL. reflexivity.
  - intros z. destruct (old_zone z m) as [x|] eqn:O.
    + apply old_zone_in in O. apply In_nth_error in O. destruct O as [i O].
      assert (exists a, nth_error l i = Some a /\ pair_spots a (x, z)) as [a [Na [R1 R2]]].
      { clear - Zo O. revert i O. induction Zo; intros [|i] O; try discriminate; cbn [nth_error] in *; [|eauto].
        injection O as ->. eauto. }
      cbn [fst snd] in R1, R2. apply spot_spec in R1, R2.
      destruct (V1 i (core_place (fst a)) (core_place (snd a))) as (rp & rq & A & B & C).
      { unfold prev. now rewrite nth_error_map, Na. }
      { unfold cur. now rewrite nth_error_map, Na. }
      { apply N.eqb_neq. apply (sf_loc _ _ R2). }
      assert (Z1 := sf_zone _ _ R1). assert (Z2 := sf_zone _ _ R2). cbn beta iota in Z1, Z2. congruence.
    + apply old_zone_none in O. apply V2.
      * rewrite Sn1. intros X. apply in_map_iff in X. destruct X as [y [E X]]. injection E as ->. apply O. now apply Inc'.
      * rewrite Dis, Sn2. intros X. apply in_map_iff in X. destruct X as [y [E X]]. injection E as ->. now apply O.
  - intros z. destruct (old_zone z m) as [x|] eqn:O; [|congruence]. intros _. apply old_zone_in in O.
    destruct (F _ _ O) as [A [B _]]. split; [now apply Occ|exact A].
  - intros z. cbn [shuffle_zones k_zone]. destruct (old_zone z m); reflexivity.
Qed.
