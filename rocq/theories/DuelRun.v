(** Every message, and whole streams. *)
From Verif Require Import Base BaseProofs Place PlaceProofs Frame FrameSpec FrameLens FrameProofs FrameMove FrameOps FramePiles FrameInv FrameShuffle FrameFacts
  Msg Event EventSpec EventProofs Query QuerySpec QueryProofs.
From Verif Require Import Encode EncodeLocal CoreMsg EncodeSpec EncodeQueryProofs EncodeFrame EncodeState EncodeE2E
  Duel DuelView DuelMove DuelCalm DuelFeed DuelFlush DuelMsg DuelRest DuelTell.

Local Open Scope N_scope.

(** Messages that leave the cards alone. *)
Lemma number_step : forall D c m e b D', mirrors D c -> core_ok m -> core_event m = Some e ->
  pparse card0 e (cx_board c) = Ok b -> b_frame b = b_frame (cx_board c) ->
  d_cards D' = d_cards D -> d_doing D' = d_doing D -> facts D' b -> follows D' m c.
Proof.
  intros D c m e b D' [Snd Mwr Fa Ca] K E P Fr Dc Dd F.
  eapply (follows_intro _ _ _ (set_board b c)); auto.
  - eapply event_feed; eauto.
  - unfold cards_ok in *. cbn [set_board cx_board cx_left cx_deferred]. rewrite Dd, Dc, Fr. exact Ca.
Qed.

Lemma same_step : forall D c m c', mirrors D c -> feed c (ser m) = Ok c' ->
  cx_board c' = cx_board c -> cx_left c' = cx_left c -> cx_deferred c' = cx_deferred c -> cx_mwr c' <> None ->
  follows D m c.
Proof.
  intros D c m c' [Snd Mwr Fa Ca] F B L De W. apply (follows_intro _ _ _ c'); auto.
  - now rewrite B.
  - unfold cards_ok in *. now rewrite B, L, De.
Qed.

Lemma event_same : forall D c m e, mirrors D c -> core_ok m -> core_event m = Some e ->
  (forall b, pparse card0 e b = Ok b) -> follows D m c.
Proof.
  intros D c m e M K E P. eapply same_step; [exact M| | | | |].
  - eapply event_feed; eauto.
  - destruct c; reflexivity.
  - destruct c; reflexivity.
  - destruct c; reflexivity.
  - apply M.
Qed.
Lemma request_same : forall D c m to rq, mirrors D c -> core_ok m -> core_request m = Some (to, rq) -> follows D m c.
Proof.
  intros D c m to rq M K E. assert (Enc := request_encode m to rq K E c []). rewrite app_nil_r in Enc.
  apply (same_step _ _ _ c M); auto; [|apply M]. unfold feed. rewrite Enc. reflexivity.
Qed.
Lemma silent_same : forall D c m, mirrors D c -> core_ok m -> core_silent m = true -> follows D m c.
Proof.
  intros D c m M K E. assert (Enc := silent_encode m K E c []). rewrite app_nil_r in Enc.
  apply (same_step _ _ _ c M); auto; [|apply M]. unfold feed. rewrite Enc. reflexivity.
Qed.

Lemma lp_index_who : forall con w, who_of con = Some w -> lp_index (Z.of_N con) = Ok w.
Proof. intros con w H. destruct con as [|[]]; cbn in H; try discriminate; injection H as <-; reflexivity. Qed.

Lemma lp_step : forall D c m con w t n, mirrors D c -> core_ok m -> core_event m = Some (EvLp (Z.of_N con) t) ->
  who_of con = Some w -> new_lp t (d_lp D w) = n -> follows (set_lp_of w n D) m c.
Proof.
  intros D c m con w t n M K E W Nn. assert (Mi := M). destruct Mi as [Snd Mwr Fa Ca].
  eapply (number_step D); [exact M|exact K|exact E| | | | |].
  - unfold pparse. cbn [parse_event]. rewrite (lp_index_who _ _ W). cbn [obind]. reflexivity.
  - reflexivity.
  - reflexivity.
  - reflexivity.
  - destruct Fa as [B1 B2 B3 B4 B5 B6]. constructor; auto. intros x. cbn [set_lp_of d_lp].
    assert (Bw := B1 w). assert (Bx := B1 x). unfold lp_of in *. cbn [set_lp b_lp].
    destruct (cx_board c) as [fr ch tn tc [la lb] ph bk]. cbn [b_lp] in *.
    destruct w, x; cbn in *; subst; auto.
Qed.

Theorem duel_follows : forall D c m D', mirrors D c -> core_ok m -> duel_step m D = Some D' -> follows D' m c.
Proof.
  intros D c m D' M K H. assert (Mi := M). destruct Mi as [Snd Mwr Fa Ca].
  destruct m;
    try solve [ cbn [duel_step] in H; injection H as <-;
      first [ eapply event_same; [exact M|exact K|reflexivity|intros; reflexivity]
            | eapply request_same; [exact M|exact K|reflexivity]
            | eapply silent_same; [exact M|exact K|reflexivity] ] ].
  - now apply (shuffle_step D).
  - cbn [duel_step] in H. unfold guard in H. destruct (_ <? _) eqn:G; [|discriminate]. injection H as <-.
    apply N.ltb_lt in G. destruct Fa as [B1 B2 B3 B4 B5 B6].
    eapply (number_step D); [exact M|exact K|reflexivity|reflexivity|reflexivity|reflexivity|reflexivity|].
    constructor; auto. cbn. rewrite B2. unfold u32, wrap. now apply N.mod_small.
  - cbn [duel_step] in H. injection H as <-. destruct Fa as [B1 B2 B3 B4 B5 B6].
    eapply (number_step D); [exact M|exact K|reflexivity|reflexivity|reflexivity|reflexivity|reflexivity|].
    constructor; auto.
  - now apply (exchange_step D).
  - cbn [duel_step] in H. injection H as <-. destruct Fa as [B1 B2 B3 B4 B5 B6].
    eapply (number_step D); [exact M|exact K|reflexivity|reflexivity|reflexivity|reflexivity|reflexivity|].
    constructor; auto.
  - cbn [duel_step] in H. injection H as <-. destruct Fa as [B1 B2 B3 B4 B5 B6].
    eapply (number_step D); [exact M|exact K|reflexivity|reflexivity|reflexivity|reflexivity|reflexivity|].
    constructor; auto. cbn. now rewrite B5.
  - cbn [duel_step] in H. destruct Fa as [B1 B2 B3 B4 B5 B6].
    destruct (d_chain D) as [|k l] eqn:Ch; [discriminate|]. injection H as <-.
    eapply (number_step D); [exact M|exact K|reflexivity| | | | |].
    + unfold pparse. cbn [parse_event plain_vo vo_pop]. rewrite B5. reflexivity.
    + reflexivity.
    + reflexivity.
    + reflexivity.
    + constructor; auto.
  - cbn [duel_step] in H. destruct (who_of con) as [w|] eqn:W; [|discriminate]. injection H as <-.
    eapply lp_step; eauto; try reflexivity. cbn [new_lp]. destruct (N.ltb_spec (d_lp D w) n); lia.
  - cbn [duel_step] in H. destruct (who_of con) as [w|] eqn:W; [|discriminate]. cbn [obind_] in H.
    unfold guard in H. destruct (_ <? _) eqn:G; [|discriminate]. injection H as <-. apply N.ltb_lt in G.
    eapply lp_step; eauto; try reflexivity. cbn [new_lp]. unfold u32, wrap. now apply N.mod_small.
  - cbn [duel_step] in H. destruct (who_of con) as [w|] eqn:W; [|discriminate]. injection H as <-.
    eapply lp_step; eauto; reflexivity.
  - cbn [duel_step] in H. destruct (who_of con) as [w|] eqn:W; [|discriminate]. injection H as <-.
    eapply lp_step; eauto; try reflexivity. cbn [new_lp]. destruct (N.ltb_spec (d_lp D w) n); lia.
  - now apply (start_step D).
  - discriminate.
  - now apply (reload_step D).
  - cbn [duel_step core_queries obind_] in H. eapply told_step; eauto. reflexivity.
  - cbn [duel_step core_queries obind_] in H. eapply told_step; eauto. reflexivity.
  - cbn [duel_step] in H. injection H as <-. destruct (cx_mwr c) as [mr|] eqn:W; [|congruence].
    destruct K as [K1 K2]. assert (Enc := win_encode c player reason mr [] K1 K2 W). rewrite app_nil_r in Enc.
    eapply same_step; [exact M| | | | |].
    + eapply feed_ev; [exact Enc|reflexivity|]. destruct (player =? 2); reflexivity.
    + destruct c; reflexivity.
    + destruct c; reflexivity.
    + destruct c; reflexivity.
    + destruct c; cbn in *; congruence.
  - cbn [duel_step] in H. destruct (who_of con) as [w|] eqn:W; [|discriminate]. injection H as <-.
    apply who_side in W. destruct K as (K1 & K2 & K3 & K4).
    assert (Enc := deck_top_encode c con w seq code pos [] W K1 K2 K3 K4). rewrite app_nil_r in Enc.
    eapply same_step; [exact M| | | | |].
    + eapply feed_ev; [exact Enc|reflexivity|]. reflexivity.
    + destruct c; reflexivity.
    + destruct c; reflexivity.
    + destruct c; reflexivity.
    + destruct c; cbn in *; congruence.
  - now apply (move_step D).
  - now apply (swap_step D).
  - now apply (draw_step D).
  - now apply (reverse_duel_step D).
  - cbn [duel_step] in H. injection H as <-.
    assert (Enc := match_kill_encode c reason [] K). rewrite app_nil_r in Enc.
    apply (same_step _ _ _ (match_win_reason reason c) M); try reflexivity; [|discriminate].
    unfold feed. rewrite Enc. reflexivity.
Qed.

(** ** Streams *)
Lemma mirrors0 : mirrors duel0 ctx_value_init.
Proof.
  constructor.
  - constructor.
  - discriminate.
  - constructor; try reflexivity. intros []; reflexivity.
  - unfold cards_ok. cbn [duel0 d_doing d_cards]. split; [reflexivity|]. exists no_debts.
    apply (quiet_start (@frame0 card) []). apply inv0.
Qed.

Lemma run_none : forall ms, fold_left (fun o m => obind_ o (duel_step m)) ms (@None duel) = None.
Proof. induction ms as [|m ms IH]; [reflexivity|exact IH]. Qed.

Theorem stream_follows : forall ms D c D', mirrors D c -> Forall core_ok ms -> duel_run ms D = Some D' ->
  exists c', feed_all c ms = Ok c' /\ mirrors D' c'.
Proof.
  unfold duel_run, feed_all. induction ms as [|m ms IH]; intros D c D' M K H; cbn [fold_left ofold] in *.
  - injection H as <-. eauto.
  - inversion K as [|? ? K1 K2]; subst. cbn [obind_] in H. destruct (duel_step m D) as [D1|] eqn:E.
    2:{ rewrite run_none in H. discriminate. }
    destruct (duel_follows _ _ _ _ M K1 E) as (c1 & F & M1). rewrite F. cbn [obind]. eapply IH; eauto.
Qed.

Lemma mirrors_shows : forall D c, mirrors D c -> d_doing D = None -> shows D c.
Proof.
  intros D c [Snd Mwr Fa Ca] Dn. unfold cards_ok in Ca. rewrite Dn in Ca. destruct Ca as [_ [owed Q]].
  destruct Fa. constructor; auto.
  - intros r. apply (q_view _ _ _ _ Q (CPile r)).
  - intros z. unfold ctx_layout. rewrite (q_view _ _ _ _ Q (CCard z)). cbn [seen]. now destruct (k_zone (d_cards D) z).
  - intros R z. apply settle in Q; [|exact R]. unfold ctx_layout. rewrite (q_view _ _ _ _ Q (CMats z)). cbn [seen].
    unfold mats_of, no_debts. reflexivity.
  - intros s x On. destruct (stands_ex _ _ _ _ _ _ Q On) as (k & i & St).
    assert (Se := stands_seen _ _ _ _ Q _ _ _ _ St On). apply nth_error_In in Se.
    destruct (shown_card _ _ (q_inv _ _ _ _ Q) (q_view _ _ _ _ Q) _ _ Se) as [v V].
    exists v. split; [exact V|]. intros f. now apply (q_info _ _ _ _ Q).
Qed.
