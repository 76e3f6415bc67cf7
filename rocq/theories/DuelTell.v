(** Messages that tell about cards, set up the field or only change numbers. *)
From Verif Require Import Base BaseProofs Place PlaceProofs Frame FrameSpec FrameLens FrameProofs FrameMove FrameOps FramePiles FrameInv FrameShuffle FrameFacts
  Msg Event EventSpec EventProofs Query QuerySpec QueryProofs.
From Verif Require Import Encode EncodeLocal CoreMsg EncodeSpec EncodeQueryProofs EncodeFrame EncodeState EncodeE2E
  Duel DuelView DuelMove DuelCalm DuelFeed DuelFlush DuelMsg DuelRest.

Local Open Scope N_scope.

(** ** Queries *)
Lemma quiet_tell : forall K owed f left t K' q, quiet K owed f left -> tell t K = Some K' -> query_matches q t ->
  exists f', parse_query false q f = Ok (0, f') /\ quiet K' owed f' left.
Proof.
  intros K owed f left [p items] K' q Q T [Ep Rd]. cbn [fst snd] in *. unfold tell in T. cbn [fst snd] in T.
  destruct (spot_of p) as [s|] eqn:Es; cbn [obind_] in T; [|discriminate].
  assert (Fs := spot_spec _ _ Es).
  assert (X : exists x k i, card_on s K = Some x /\ stands K owed s k i /\ slot p = Some (k, i) /\
    K' = mkCards (k_pile K) (k_zone K) (k_under K)
            (set_at N.eq_dec x
               (fun f => match query_says f items with Some v => v | None => k_field K x f end)
               (k_field K)) (k_next K)).
  { assert (Sl := sf_slot _ _ Fs).
    destruct s as [|r i|z|r i k|z k]; try discriminate; destruct (card_on _ K) as [x|] eqn:On; try discriminate;
      cbn [option_map] in T; injection T as <-; exists x; do 2 eexists; split; try reflexivity;
      (split; [econstructor|]); split; try reflexivity; exact Sl. }
  clear T. destruct X as (x & k & i & On & St & Sl & ->).
  assert (Se := stands_seen _ _ _ _ Q _ _ _ _ St On).
  assert (I := q_inv _ _ _ _ Q).
  assert (Nt : nth_error (contents k (f_lay f)) i = Some (Some x)).
  { rewrite (q_view _ _ _ _ Q). now apply nth_map_some. }
  destruct (card_at_place_iff card p f k i I Sl) as [[Hc [id [Ca [Lv Nid]]]]|[Hc _]].
  2:{ rewrite (has_card_slot _ _ _ _ (proj1 (inv_lay _ _ I)) Sl) in Hc. injection Hc as Hc. apply Nat.ltb_ge in Hc.
      apply nth_error_None in Hc. congruence. }
  assert (id = x) by congruence. subst id.
  destruct (heap_get x (f_heap f)) as [v|] eqn:Hv.
  2:{ exfalso. apply (proj2 (heap_get_In _ _ _) Lv). exact Hv. }
  assert (P : exists h f', parse_query false q f = Ok (h, f')).
  { unfold parse_query. rewrite Ep, Hc. cbn [obind assert_]. rewrite Ca. cbn [obind]. rewrite Hv. cbn [or_ub obind].
    destruct (parse_data false (qr_data q) v). eauto. }
  destruct P as (h & f' & P). exists f'.
  assert (h = 0).
  { destruct (QueryProofs.query_run _ _ _ _ _ P) as (id & c & _ & _ & _ & _ & _ & _ & _ & Hh). rewrite Hh.
    apply N.bits_inj. intros n. rewrite N.bits_0.
    destruct (N.testbit (snd (parse_data false (qr_data q) c)) n) eqn:B; [|reflexivity].
    destruct (data_no_hit _ _ _ _ B) as (_ & _ & _ & Z & _). discriminate. }
  subst h. split; [exact P|].
  destruct (QueryProofs.query_run _ _ _ _ _ P) as (id & c & Ci & Cc & Ly & Nx & Ids & Cn & Co & _).
  rewrite Ep, Ca in Ci. injection Ci as <-.
  assert (Inf := q_info _ _ _ _ Q).
  constructor; try (destruct Q; assumption).
  - eapply query_inv; eauto.
  - rewrite Nx. apply Q.
  - intros y. rewrite Ly. apply (q_view _ _ _ _ Q).
  - intros y w Hy fl. cbn [k_field]. unfold set_at. destruct (N.eq_dec y x) as [->|Ny].
    + rewrite Cn in Hy. injection Hy as <-. rewrite data_fields, Rd. destruct (query_says fl items); [reflexivity|].
      now apply Inf.
    + rewrite Co in Hy by exact Ny. now apply Inf.
Qed.

Lemma tells : forall qs l, Forall2 query_matches qs l -> forall K owed c K', tell_all l K = Some K' ->
  quiet K owed (b_frame (cx_board c)) (cx_left c) ->
  exists f', ofold ctx_query qs c = Ok (set_board (set_frame f' (cx_board c)) c) /\ quiet K' owed f' (cx_left c).
Proof.
  intros qs l F. induction F as [|q t qs l M F IH]; intros K owed c K' T Q.
  - cbn [tell_all] in T. injection T as <-. exists (b_frame (cx_board c)). split; [|exact Q].
    cbn [ofold]. destruct c as [[] ? ? ?]. reflexivity.
  - cbn [tell_all] in T. destruct (tell t K) as [K1|] eqn:T1; cbn [obind_] in T; [|discriminate].
    destruct (quiet_tell _ _ _ _ _ _ _ Q T1 M) as (f1 & P & Q1).
    destruct (IH K1 owed (set_board (set_frame f1 (cx_board c)) c) K' T Q1) as (f' & O & Q').
    exists f'. split; [|exact Q']. cbn [ofold]. unfold ctx_query at 1. rewrite P. cbn [obind]. rewrite O. reflexivity.
Qed.

Lemma told_step : forall D c m xs D', mirrors D c -> core_ok m -> core_queries m = Some xs ->
  told xs D = Some D' -> follows D' m c.
Proof.
  intros D c m xs D' [Snd Mwr Fa Ca] K E H. unfold told, guard in H.
  destruct (d_doing D) eqn:Dn; [discriminate|]. cbn [is_none] in H.
  destruct (tell_all xs (d_cards D)) as [K'|] eqn:T; [|discriminate]. injection H as <-.
  unfold cards_ok in Ca. rewrite Dn in Ca. destruct Ca as [Dc [owed Q]].
  destruct (queries_encode m xs K E) as [qs [F Enc]]. specialize (Enc c []). rewrite app_nil_r in Enc.
  destruct (tells _ _ F _ _ _ _ T Q) as (f' & O & Q').
  eapply (follows_intro _ _ _ (set_board (set_frame f' (cx_board c)) c)); auto.
  - unfold feed. rewrite Enc. cbn [obind]. unfold follow. cbn [r_msg]. unfold ctx_parse. cbn [m_t m_queries obind]. exact O.
  - destruct Fa. constructor; assumption.
  - unfold cards_ok. cbn [with_cards d_doing d_cards]. rewrite Dn. split; [exact Dc|]. exists owed. exact Q'.
Qed.

(** ** Setting up the field *)
Definition bare (K : cards) : Prop := forall r i h, nth_error (k_pile K r) i = Some h -> k_under K h = [].
Lemma bare_left : forall K owed left, bare K -> forall r i h, nth_error (k_pile K r) i = Some h -> k_under K h <> [] ->
  exists z pz, owed z = Some h /\ find_left (pplace r i) left = Some pz /\ zone_named pz = Some z.
Proof. intros K owed left B r i h N U. exfalso. apply U. eapply B, N. Qed.

Lemma contents0 : forall k, contents k layout0 = [].
Proof.
  assert (G : forall r z, get_zone r layout0 = Some z -> z = zone0).
  { intros [[[] []] i] z H; cbn in H;
      repeat (destruct i as [|i]; [cbn in H; injection H as <-; reflexivity|]); destruct i; discriminate. }
  intros [[[] []]|r|r]; try reflexivity; cbn [contents];
    (destruct (get_zone r layout0) as [z|] eqn:E; [|reflexivity]); now rewrite (G _ _ E).
Qed.
Lemma quiet_start : forall f left, inv card f ->
  quiet (no_cards (f_next f)) no_debts (mkFrame (f_next f) [] layout0) left /\ bare (no_cards (f_next f)).
Proof.
  intros f left I.
  assert (B : bare (no_cards (f_next f))) by (intros r i h H; destruct i; discriminate).
  split; [|exact B]. constructor; try reflexivity.
  - eapply inv_clear; [exact I|]. now apply clear_run.
  - intros k. cbn [f_lay]. rewrite contents0. now destruct k.
  - intros x v H. discriminate.
  - intros x H. now contradiction H.
  - intros z h H. discriminate.
  - now apply bare_left.
Qed.

Lemma quiet_place : forall l K f left K', quiet K no_debts f left -> bare K -> place_all l K = Some K' ->
  exists f', do_adds (plain_fo card0) l f = Ok f' /\ quiet K' no_debts f' left /\ bare K' /\ k_pile K' = k_pile K.
Proof.
  induction l as [|p l IH]; intros K f left K' Q B H; cbn [place_all] in H.
  - injection H as <-. exists f. split; [reflexivity|]. split; [exact Q|]. split; [exact B|reflexivity].
  - destruct (spot_of p) as [s|] eqn:Es; cbn [obind_] in H; [|discriminate].
    assert (Fs := spot_spec _ _ Es). unfold new_card in H. cbv iota in H.
    assert (X : exists k i, target s k i /\ slot p = Some (k, i) /\
      obind_ (put_in s (k_next K) (snd (new_card K))) (place_all l) = Some K' /\
      match s with InZone _ | UnderZone _ _ => True | _ => False end).
    { assert (Sl := sf_slot _ _ Fs). destruct s; try discriminate; do 2 eexists; (split; [econstructor|]);
        (split; [exact Sl|]); split; try exact H; exact Logic.I. }
    clear H. destruct X as (k & i & Tg & Sl & H & Sp).
    destruct (put_in s (k_next K) (snd (new_card K))) as [K1|] eqn:P; cbn [obind_] in H; [|discriminate].
    assert (Pi : k_pile K1 = k_pile K /\ forall h r i, nth_error (k_pile K r) i = Some h -> k_under K1 h = []).
    { destruct s as [|r j|z|r j m|z m]; try contradiction; cbn [put_in holder_of] in P.
      - destruct (k_zone _ z); [discriminate|]. injection P as <-. split; [reflexivity|]. intros h r j N. cbn. eapply B, N.
      - destruct (k_zone (snd (new_card K)) z) as [y|] eqn:Zy; [|discriminate]. destruct (_ <=? _)%nat; [|discriminate].
        injection P as <-. split; [reflexivity|]. intros h r j N. cbn [with_under k_under]. unfold set_at.
        destruct (N.eq_dec h y) as [->|]; [|cbn; eapply B, N]. exfalso.
        eapply (pile_card_disj _ _ _ _ Q); [eapply nth_error_In, N|exact Zy]. }
    destruct Pi as [Pi Bu].
    assert (B1 : bare K1). { intros r j h N. rewrite Pi in N. eapply Bu; eauto. }
    destruct (quiet_add K no_debts f left s K1 k i p Q P Tg Sl ltac:(reflexivity) left (bare_left _ _ _ B1)) as (f1 & A & Q1).
    destruct (IH K1 f1 left K' Q1 B1 H) as (f' & A' & Q' & B' & Pi').
    exists f'. split; [|split; [exact Q'|split; [exact B'|congruence]]].
    unfold do_adds in *. cbn [ofold]. rewrite A. cbn [obind]. exact A'.
Qed.

Lemma insert_last : forall A (x : A) l, insert_nth (length l) x l = l ++ [x].
Proof. intros A x l. unfold insert_nth. rewrite firstn_all, skipn_all. reflexivity. Qed.

Lemma quiet_deal : forall n r K f left, quiet K no_debts f left -> bare K ->
  quiet (deal n r K) no_debts (grow_pile card0 n r f) left /\ bare (deal n r K) /\
  (forall r', r' <> r -> k_pile (deal n r K) r' = k_pile K r').
Proof.
  induction n as [|n IH]; intros r K f left Q B; cbn [deal grow_pile]; [auto|].
  set (K1 := with_pile r (k_pile K r ++ [k_next K]) (snd (new_card K))).
  assert (Put : put_in (InPile r (length (k_pile K r))) (k_next K) (snd (new_card K)) = Some K1).
  { cbn [put_in new_card snd k_pile]. rewrite Nat.leb_refl, insert_last. reflexivity. }
  assert (B1 : bare K1).
  { intros r' i h N. unfold K1 in *. cbn [with_pile k_pile k_under new_card snd] in *. unfold set_at in N.
    destruct (pref_eq_dec r' r) as [->|]; [|eapply B, N].
    destruct (Nat.lt_ge_cases i (length (k_pile K r))) as [Lt|Ge].
    - rewrite nth_error_app1 in N by exact Lt. eapply B, N.
    - rewrite nth_error_app2 in N by exact Ge. destruct (i - length (k_pile K r))%nat as [|[]]; try discriminate.
      injection N as <-. apply (fresh_under _ _ _ _ Q). lia. }
  assert (Sl : slot (pplace r (length (k_pile K r))) = Some (CPile r, length (k_pile K r))).
  { unfold slot, pplace. cbn [p_con p_loc p_seq]. rewrite Nat2N.id. destruct r as [[] []]; reflexivity. }
  destruct (quiet_add K no_debts f left _ K1 _ _ _ Q Put (tg_pile _ _) Sl ltac:(reflexivity) left (bare_left _ _ _ B1))
    as (f1 & A & Q1).
  assert (E : f1 = with_lay (snd (construct_card card0 f)) (set_pile r (get_pile r (f_lay f) ++ [Some (f_next f)]) (f_lay f))).
  { cbn [plain_fo fo_add] in A. unfold card_add in A. cbn [construct_card] in A. cbv iota in A.
    apply obind_Ok in A. destruct A as [[c f2] [A Ef]]. injection Ef as <-. unfold construct_card in A. cbv iota zeta beta in A.
    apply obind_Ok in A. destruct A as [L [A Ef]]. injection Ef as _ <-. 
    assert (V := q_view _ _ _ _ Q (CPile r)). cbn [contents seen] in V.
    unfold card_insert in A.
    assert (Po := proj2 (pile_of_iff _ _) (ex_intro _ _ Sl)).
    assert (Ip : is_pile (pplace r (length (k_pile K r))) = true) by (destruct r as [[] []]; reflexivity).
    rewrite Ip, Po in A. cbn [obind f_lay] in A. unfold insert_at in A. apply obind_Ok in A. destruct A as [l [A El]].
    injection El as <-. apply obind_Ok in A. destruct A as [_ [_ A]]. apply obind_Ok in A. destruct A as [_ [_ A]].
    injection A as <-. unfold construct_card. cbn [snd]. unfold with_lay. cbn [f_next f_heap]. f_equal. f_equal.
    cbn [pplace p_seq]. rewrite Nat2N.id.
    replace (length (k_pile K r)) with (length (get_pile r (f_lay f))) by (rewrite V; apply map_length).
    apply insert_last. }
  destruct (IH r K1 f1 left Q1 B1) as (Q2 & B2 & O2). rewrite E in Q2. split; [exact Q2|]. split; [exact B2|].
  intros r' Nr. cbn [construct_card new_card] in *. etransitivity; [exact (O2 r' Nr)|]. unfold K1. cbn. unfold set_at.
  now destruct (pref_eq_dec r' r).
Qed.

Lemma quiet_resize : forall K f left w l n, quiet K no_debts f left -> bare K -> k_pile K (w, l) = [] ->
  exists f', fo_resize (plain_fo card0) (mkPlace (con_of w) (loc_of l) 0 (-1)) n f = Ok f' /\
    quiet (deal (N.to_nat n) (w, l) K) no_debts f' left /\ bare (deal (N.to_nat n) (w, l) K) /\
    (forall r', r' <> (w, l) -> k_pile (deal (N.to_nat n) (w, l) K) r' = k_pile K r').
Proof.
  intros K f left w l n Q B E. destruct (quiet_deal (N.to_nat n) (w, l) K f left Q B) as (Q' & B' & O').
  exists (grow_pile card0 (N.to_nat n) (w, l) f). split; [|auto].
  assert (V := q_view _ _ _ _ Q (CPile (w, l))). cbn [contents seen] in V. rewrite E in V.
  assert (V' := q_view _ _ _ _ Q' (CPile (w, l))). cbn [contents seen] in V'.
  cbn [plain_fo fo_resize]. unfold pile_resize.
  set (p := mkPlace (con_of w) (loc_of l) 0 (-1)).
  assert (Ip : is_pile p = true) by (destruct w, l; reflexivity).
  assert (Po : pile_of p = Ok (w, l)) by (destruct w, l; reflexivity).
  rewrite Ip, Po. cbn [assert_ obind]. rewrite V. cbn [map]. change (lenN []) with 0.
  assert (X : (if 0 <? n then Ok (grow_pile card0 (N.to_nat (n - 0)) (w, l) f)
     else if n <? 0 then shrink_pile (N.to_nat (0 - n)) (w, l) f else Ok f) = Ok (grow_pile card0 (N.to_nat n) (w, l) f)).
  { rewrite N.sub_0_r. destruct (N.ltb_spec 0 n); [reflexivity|]. assert (n = 0) by lia. subst n. reflexivity. }
  rewrite X. cbn [obind]. rewrite V'.
  rewrite (proj2 (verify_pile_Ok _)); [reflexivity|]. intros I. apply in_map_iff in I. destruct I as [y [I _]]. discriminate.
Qed.

Definition whole (x : pref * N) : resize_op := whole_pile (con_of (fst (fst x))) (loc_of (snd (fst x))) (snd x).
Lemma quiet_resizes : forall l K f left, quiet K no_debts f left -> bare K -> NoDup (map fst l) ->
  (forall r, In r (map fst l) -> k_pile K r = []) ->
  exists f', do_resizes (plain_fo card0) (map whole l) f = Ok f' /\
    quiet (fold_left (fun K x => deal (N.to_nat (snd x)) (fst x) K) l K) no_debts f' left.
Proof.
  induction l as [|[[w lo] n] l IH]; intros K f left Q B Nd E; [exists f; split; [reflexivity|exact Q]|].
  cbn [map fst] in Nd. inversion Nd as [|? ? Nr Nd']; subst.
  destruct (quiet_resize K f left w lo n Q B (E _ (or_introl eq_refl))) as (f1 & R & Q1 & B1 & O1).
  destruct (IH (deal (N.to_nat n) (w, lo) K) f1 left Q1 B1 Nd') as (f' & R' & Q').
  { intros r I. rewrite O1 by (intros ->; contradiction). apply E. now right. }
  exists f'. split; [|exact Q']. unfold do_resizes in *. cbn [map ofold].
  change (rz_place (whole (w, lo, n))) with (mkPlace (con_of w) (loc_of lo) 0 (-1)).
  change (rz_count (whole (w, lo, n))) with n. rewrite R. cbn [obind]. exact R'.
Qed.

Ltac nodup := repeat constructor; cbn [In]; intuition discriminate.

Lemma state_runs : forall s b lp0 lp1 f1 f2, inv card (b_frame b) -> bs_lps s = [lp0; lp1] ->
  do_adds (plain_fo card0) (bs_add s) (mkFrame (f_next (b_frame b)) [] layout0) = Ok f1 ->
  do_resizes (plain_fo card0) (bs_resize s) f1 = Ok f2 ->
  pparse card0 (EvBoard (BoardState s)) b = Ok (@mkBoard (frame card) plain f2 (bs_chains s)
    (if (0 <=? bs_turn_counter s)%Z then Z.to_N (bs_turn_counter s) else b_turn b)
    (b_turn_controller b) (lp0, lp1) (b_phase b) (b_blocked b)).
Proof.
  intros s b lp0 lp1 f1 f2 I L A R. destruct b as [f0 ch tn tc [la lb] ph bk]. cbn [b_frame] in *.
  unfold pparse. cbn [parse_event]. unfold parse_state. rewrite L. cbn [nth_error or_ub obind].
  unfold assign_lp. change (lp_index 0) with (Ok false). change (lp_index 1) with (Ok true). cbn [obind].
  set (b0 := if (0 <=? bs_turn_counter s)%Z then _ else _). unfold on_frame.
  assert (E : (let! f3 := clear f0 in let! f4 := do_adds (plain_fo card0) (bs_add s) f3 in
    do_resizes (plain_fo card0) (bs_resize s) f4) = Ok f2).
  { rewrite (clear_run _ f0 I). cbn [obind]. rewrite A. exact R. }
  unfold b0. destruct (0 <=? bs_turn_counter s)%Z;
    (match goal with |- obind ?x _ = _ => assert (X : x = Ok f2) by exact E; rewrite X end); reflexivity.
Qed.

Lemma start_step : forall D c r lp0 lp1 md0 ed0 md1 ed1 D', mirrors D c -> core_ok (CmStart r lp0 lp1 md0 ed0 md1 ed1) ->
  duel_step (CmStart r lp0 lp1 md0 ed0 md1 ed1) D = Some D' -> follows D' (CmStart r lp0 lp1 md0 ed0 md1 ed1) c.
Proof.
  intros D c r lp0 lp1 md0 ed0 md1 ed1 D' [Snd Mwr Fa Ca] K H. cbn [duel_step] in H. unfold guard in H.
  destruct (_ && _) eqn:G; [|discriminate]. injection H as <-.
  apply andb_prop in G. destruct G as [G G4]. apply andb_prop in G. destruct G as [G G3].
  apply andb_prop in G. destruct G as [G1 G2]. apply N.eqb_eq in G2. apply Z.eqb_eq in G3.
  destruct (d_doing D) eqn:Dn; [discriminate|]. destruct (d_blocked D) eqn:Bl; [|discriminate].
  unfold cards_ok in Ca. rewrite Dn in Ca. destruct Ca as [Dc [owed Q]].
  assert (I := q_inv _ _ _ _ Q). destruct (quiet_start _ (cx_left c) I) as [Q0 B0].
  set (l := [((false, LDeck), md0); ((false, LExtra), ed0); ((true, LDeck), md1); ((true, LExtra), ed1)]).
  destruct (quiet_resizes l _ _ _ Q0 B0) as (f' & R & Q'); [nodup|reflexivity|].
  rewrite (q_next _ _ _ _ Q) in Q' at 1.
  eapply (follows_intro _ _ _ (set_board (@mkBoard (frame card) plain f' [] 0 (b_turn_controller (cx_board c)) (lp0, lp1)
    (b_phase (cx_board c)) (b_blocked (cx_board c))) c)); auto.
  - eapply event_feed; [exact K|reflexivity|]. eapply state_runs; [exact I|reflexivity|reflexivity|]. exact R.
  - destruct Fa. constructor; cbn; try reflexivity; try congruence.
  - unfold cards_ok. cbn [d_doing d_cards]. split; [exact Dc|]. exists no_debts. exact Q'.
Qed.

Lemma deal_side_fold : forall w s K, deal_side w s K =
  fold_left (fun K x => deal (N.to_nat (snd x)) (fst x) K)
    [((w, LDeck), sd_main s); ((w, LHand), sd_hand s); ((w, LGrave), sd_grave s); ((w, LBan), sd_ban s); ((w, LExtra), sd_extra s)] K.
Proof. reflexivity. Qed.

Lemma reload_step : forall D c fl s0 s1 links D', mirrors D c -> core_ok (CmReloadField fl s0 s1 links) ->
  duel_step (CmReloadField fl s0 s1 links) D = Some D' -> follows D' (CmReloadField fl s0 s1 links) c.
Proof.
  intros D c fl s0 s1 links D' [Snd Mwr Fa Ca] K H. cbn [duel_step] in H. unfold guard in H.
  destruct (d_doing D) eqn:Dn; [discriminate|]. cbn [is_none] in H.
  unfold cards_ok in Ca. rewrite Dn in Ca. destruct Ca as [Dc [owed Q]].
  assert (I := q_inv _ _ _ _ Q). destruct (quiet_start _ (cx_left c) I) as [Q0 B0].
  rewrite <- (q_next _ _ _ _ Q) in H.
  destruct (place_all _ _) as [K1|] eqn:P; cbn [obind_] in H; [|discriminate]. injection H as <-.
  destruct (quiet_place _ _ _ _ _ Q0 B0 P) as (f1 & A & Q1 & B1 & Pi).
  rewrite !deal_side_fold, <- fold_left_app.
  set (l := _ ++ _). destruct (quiet_resizes l _ _ _ Q1 B1) as (f' & R & Q').
  { nodup. }
  { intros r _. now rewrite Pi. }
  eapply (follows_intro _ _ _ (set_board (@mkBoard (frame card) plain f' (map core_chain links) (b_turn (cx_board c)) (b_turn_controller (cx_board c))
    (sd_lp s0, sd_lp s1) (b_phase (cx_board c)) (b_blocked (cx_board c))) c)); auto.
  - eapply event_feed; [exact K|reflexivity|]. eapply state_runs; [exact I|reflexivity|exact A|]. exact R.
  - destruct Fa. constructor; cbn; try reflexivity; try congruence.
  - unfold cards_ok. cbn [d_doing d_cards]. split; [exact Dc|]. exists no_debts. exact Q'.
Qed.
