(** The invariant of the stream, and the messages that do not rearrange whole
    piles or rows. *)
From Verif Require Import Base BaseProofs Place PlaceProofs Frame FrameSpec FrameLens FrameProofs FrameMove FrameOps FramePiles FrameInv FrameShuffle FrameFacts
  Msg Event EventSpec EventProofs Query QuerySpec QueryProofs.
From Verif Require Import Encode CoreMsg EncodeSpec EncodeQueryProofs EncodeFrame EncodeState EncodeE2E
  Duel DuelView DuelMove DuelCalm DuelFeed DuelFlush.

Local Open Scope N_scope.

(** ** The invariant *)
Record facts (D : duel) (b : pboard card) : Prop := {
  fa_lp : forall w, lp_of w b = d_lp D w;
  fa_turn : b_turn b = d_turn D;
  fa_player : b_turn_controller b = d_player D;
  fa_phase : b_phase b = d_phase D;
  fa_chain : b_chain b = d_chain D;
  fa_blocked : b_blocked b = d_blocked D
}.
Definition cards_ok (D : duel) (c : ctx) : Prop :=
  match d_doing D with
  | None => cx_deferred c = [] /\ exists owed, quiet (d_cards D) owed (b_frame (cx_board c)) (cx_left c)
  | Some (h, from) =>
      from <> [] /\ exists K0, at_rest K0 = true /\ quiet K0 no_debts (b_frame (cx_board c)) (cx_left c) /\
        attached h K0 (cx_deferred c) from (d_cards D)
  end.
Record mirrors (D : duel) (c : ctx) : Prop := {
  mi_sound : ctx_sound c;
  mi_mwr : cx_mwr c <> None;
  mi_facts : facts D (cx_board c);
  mi_cards : cards_ok D c
}.

Lemma feed_ev : forall c bs st n e c1 b, encode_one c bs = Ok (mkResult st n (Some (mkMsg (MsgEvent e) [])), c1) ->
  cx_board c1 = cx_board c -> pparse card0 e (cx_board c) = Ok b -> feed c bs = Ok (set_board b c1).
Proof.
  intros c bs st n e c1 b H B P. unfold feed. rewrite H. cbn [obind]. unfold follow. cbn [r_msg].
  unfold ctx_parse. cbn [m_t m_queries]. rewrite B, P. reflexivity.
Qed.

Definition follows (D' : duel) (m : core_msg) (c : ctx) : Prop :=
  exists c', feed c (ser m) = Ok c' /\ mirrors D' c'.

Lemma follows_intro : forall D' m c c', ctx_sound c -> feed c (ser m) = Ok c' ->
  cx_mwr c' <> None -> facts D' (cx_board c') -> cards_ok D' c' -> follows D' m c.
Proof.
  intros D' m c c' S F M A B. exists c'. split; [exact F|]. constructor; auto. eapply feed_sound; eauto.
Qed.

(** ** Moves *)
Lemma move_step : forall D c code p q reason D', mirrors D c -> core_ok (CmMove code p q reason) ->
  duel_step (CmMove code p q reason) D = Some D' -> follows D' (CmMove code p q reason) c.
Proof.
  intros D c code p q reason D' M Ok_ H. destruct M as [Snd Mwr Fa Ca]. cbn [duel_step] in H.
  destruct (spot_of (core_place p)) as [a|] eqn:Ea; [|discriminate].
  destruct (spot_of (core_place q)) as [b|] eqn:Eb; [|discriminate].
  assert (Fp := spot_spec _ _ Ea). assert (Fq := spot_spec _ _ Eb).
  assert (Kq : forall r i, b = InPile r i -> core_place q = pplace r i).
  { intros r i ->. now apply core_key. }
  assert (Enc : forall v c', move_verdict (core_place p) (core_place q) reason c = Ok (v, c') ->
    encode_one c (ser (CmMove code p q reason)) = Ok (mkResult (v_state v) (lenN (ser (CmMove code p q reason))) (v_msg v), c')).
  { intros v c' V. rewrite <- (app_nil_r (ser (CmMove code p q reason))) at 1. now apply move_encode. }
  (* nothing happens *)
  assert (Nothing : a = Outside -> b = Outside -> D' = D -> follows D' (CmMove code p q reason) c).
  { intros -> -> ->. assert (V : move_verdict (core_place p) (core_place q) reason c = Ok (v_swallowed, c)).
    { unfold move_verdict, LOCATION_UNSPECIFIED. now rewrite (sf_loc _ _ Fp), (sf_loc _ _ Fq). }
    apply Enc in V. apply (follows_intro _ _ _ c); auto. unfold feed. rewrite V. reflexivity. }
  (* a material is put aside *)
  assert (Aside : forall r i k h from K0 K', b = UnderPile r i k ->
    attach h a r i k (d_cards D) = Some K' -> at_rest K0 = true ->
    quiet K0 no_debts (b_frame (cx_board c)) (cx_left c) -> attached h K0 (cx_deferred c) from (d_cards D) ->
    D' = with_doing (Some (h, from ++ [a])) (with_cards K' D) -> follows D' (CmMove code p q reason) c).
  { intros r i k h from K0 K' -> At R Q A ->.
    assert (Na : a <> Outside) by (intros ->; discriminate At).
    assert (V : move_verdict (core_place p) (core_place q) reason c = Ok (v_swallowed, xyz_mat_defer (core_place p) c)).
    { unfold move_verdict, LOCATION_UNSPECIFIED. rewrite (sf_loc _ _ Fp), (sf_loc _ _ Fq).
      rewrite (sf_pile _ _ Fq), (sf_mat _ _ Fq) by discriminate. destruct a; try reflexivity. congruence. }
    apply Enc in V. apply (follows_intro _ _ _ (xyz_mat_defer (core_place p) c)); auto.
    - unfold feed. rewrite V. reflexivity.
    - destruct Fa. constructor; assumption.
    - unfold cards_ok. cbn [with_doing d_doing d_cards with_cards]. split; [destruct from; discriminate|].
      exists K0. split; [exact R|]. split; [exact Q|]. cbn [xyz_mat_defer cx_deferred]. econstructor; eauto. }
  unfold duel_move in H. unfold cards_ok in Ca. destruct (d_doing D) as [[h from]|] eqn:Ed.
  - (* during a summon *)
    destruct Ca as [Ne [K0 [R [Q A]]]].
    destruct b as [|r i|z|r i k|z k].
    + destruct a; try discriminate H. injection H as <-. now apply Nothing.
    + destruct a; discriminate H.
    + destruct a as [|r i|z0|r i k|z0 k]; try discriminate H.
      destruct (card_on (InPile r i) (d_cards D)) as [x|] eqn:On; cbn [obind_] in H; [|discriminate H].
      unfold guard in H. destruct (_ && _) eqn:G; [|discriminate H]. apply andb_prop in G. destruct G as [Gx Gm].
      apply N.eqb_eq in Gx. subst x.
      destruct (put_in (InZone z) h (take_out (InPile r i) (d_cards D))) as [K'|] eqn:Put; [|discriminate H].
      injection H as <-.
      destruct (flush_moves _ _ _ _ _ z _ _ (core_place q) A Q R Ne Gm Fq) as [f1 [F1 M1]].
      cbn [put_in] in Put. change (k_zone (take_out (InPile r i) (d_cards D)) z) with (k_zone (d_cards D) z) in Put.
      destruct (k_zone (d_cards D) z) eqn:Zn; [discriminate Put|]. injection Put as <-.
      destruct (flush_last z h _ _ _ (cx_left c) r i (core_place p) (core_place q) M1 On Zn Fp Fq) as [f2 [F2 Q2]].
      set (c1 := mkCtx (cx_board c) (cx_mwr c) (cx_left c) []).
      set (e := EvCard reason (CardMove (deferred_moves (core_place q) 0 (cx_deferred c) ++ [mkPair (core_place p) (core_place q)]))).
      assert (V : move_verdict (core_place p) (core_place q) reason c = Ok (v_event e, c1)).
      { unfold move_verdict, LOCATION_UNSPECIFIED. rewrite (sf_loc _ _ Fp), (sf_loc _ _ Fq).
        rewrite (sf_pile _ _ Fq), (sf_mat _ _ Fq) by discriminate. reflexivity. }
      apply Enc in V. cbn [v_event v_state v_msg] in V.
      assert (P : pparse card0 e (cx_board c) = Ok (set_frame f2 (cx_board c))).
      { unfold pparse, e. cbn [parse_event]. unfold on_frame, do_moves in *. rewrite ofold_app, F1. cbn [obind ofold po_a po_b].
        rewrite F2. reflexivity. }
      apply (follows_intro _ _ _ (set_board (set_frame f2 (cx_board c)) c1)); auto.
      * eapply feed_ev; [exact V|reflexivity|exact P].
      * destruct Fa. constructor; assumption.
      * unfold cards_ok. cbn [with_doing d_doing d_cards with_cards set_board set_frame cx_board cx_left cx_deferred b_frame c1].
        split; [reflexivity|]. exists no_debts. exact Q2.
    + destruct a as [|r1 i1|z1|r1 i1 k1|z1 k1]; try discriminate H;
        (match type of H with option_map _ (attach ?u ?v ?w ?x ?y ?t) = _ => destruct (attach u v w x y t) as [K'|] eqn:At end;
         [|discriminate H]; injection H as <-; eapply Aside; eauto).
    + destruct a; discriminate H.
  - (* otherwise *)
    destruct Ca as [Df [owed Q]].
    assert (Calm : forall K', calm_move a b (d_cards D) = Some K' -> D' = with_cards K' D ->
      follows D' (CmMove code p q reason) c).
    { intros K' Cm ->.
      destruct (calm_step c _ owed Snd Q Df _ _ _ _ reason K' Fp Fq Kq Cm) as (e & c1 & f' & owed' & V & B1 & W1 & D1 & P & Q').
      apply Enc in V. cbn [v_event v_state v_msg] in V.
      apply (follows_intro _ _ _ (set_board (set_frame f' (cx_board c)) c1)); auto.
      - eapply feed_ev; [exact V|exact B1|exact P].
      - cbn [set_board cx_mwr]. congruence.
      - destruct Fa. constructor; assumption.
      - unfold cards_ok. cbn [with_cards d_doing]. rewrite Ed. split; [exact D1|]. exists owed'. exact Q'. }
    assert (First : forall r i k, b = UnderPile r i k ->
      obind_ (nth_error (k_pile (take_out a (d_cards D)) r) i) (fun h =>
            guard (at_rest (d_cards D))
              (option_map (fun K' => with_doing (Some (h, [a])) (with_cards K' D)) (attach h a r i k (d_cards D)))) = Some D' ->
      follows D' (CmMove code p q reason) c).
    { intros r i k Eq G. destruct (nth_error _ _) as [h|]; cbn [obind_] in G; [|discriminate G].
      unfold guard in G. destruct (at_rest (d_cards D)) eqn:R; [|discriminate G].
      destruct (attach h a r i k (d_cards D)) as [K'|] eqn:At; [|discriminate G]. injection G as <-.
      eapply (Aside r i k h [] (d_cards D)); eauto.
      - now apply (settle _ owed).
      - rewrite Df. constructor. }
    destruct b as [|r i|z|r i k|z k].
    2,3,5: destruct a; (match type of H with option_map _ ?o = _ => destruct o as [K'|] eqn:Cm end; [|discriminate H]; injection H as <-; eapply Calm; eauto; fail).
    + destruct a; try (match type of H with option_map _ ?o = _ => destruct o as [K'|] eqn:Cm end; [|discriminate H]; injection H as <-; eapply Calm; eauto; fail).
      injection H as <-. now apply Nothing.
    + destruct a; (eapply First; [reflexivity|exact H]).
Qed.
