(** Boards that were given the same State event look the same from then on. *)
From Verif Require Import LimboUndo.
From Verif Require Import Base BaseProofs Place PlaceProofs Frame FrameSpec FrameLens FrameProofs FrameMove FrameOps FramePiles
  FrameInv FrameFacts Limbo LimboSpec LimboProofs Msg Event EventSpec EventProofs Query QuerySpec QueryProofs
  UQuery UQuerySpec UReplaySpec UReplay BoardAgree UReplayAgree.
From Verif Require Import Reader Encode CoreMsg EncodeSpec EncodeQueryProofs EncodeFrame EncodeLocal EncodeState
  Duel DuelMsg DuelRun DuelReplaySpec DuelReplay ClientSpec ClientProofs LateSpec Rename.

Set Implicit Arguments.
Local Open Scope N_scope.

(** ** The members a State does not tell have no bearing on the others *)
Definition over (t : N) (w : Z) (ph : N) (bl : list place) (b : pboard card) : pboard card :=
  mkBoard plain (b_frame b) (b_chain b) t w (b_lp b) ph bl.
(** The second board has all identities [d] higher, and may differ in those. *)
Definition late (d : N) (a b : pboard card) : Prop := exists t w ph bl, b = over t w ph bl (rb d a).

Lemma parse_over : forall e t w ph bl b,
  orel (fun x y => exists t w ph bl, y = over t w ph bl x) (pparse card0 e b) (pparse card0 e (over t w ph bl b)).
Proof.
  intros e t w ph bl b. unfold pparse.
  assert (F : forall op, orel (fun x y => exists t w ph bl, y = over t w ph bl x) (on_frame op b) (on_frame op (over t w ph bl b))).
  { intros op. unfold on_frame. cbn [over b_frame]. destruct (op (b_frame b)); cbn; auto. exists t, w, ph, bl. reflexivity. }
  destruct e as [|[|x|s]|rs [|l|l|l|l|p c]|[|c|x]|con|wr mr ft|con t'|m|ph'|rs [|l|x|l]|r|l]; cbn [parse_event];
    try apply F; try (cbn; repeat eexists; fail).
  - unfold parse_state, assign_lp, on_frame. change (lp_index 0) with (Ok false). change (lp_index 1) with (Ok true).
    destruct (nth_error (bs_lps s) 0); cbn [or_ub obind]; [|exact Logic.I].
    destruct (nth_error (bs_lps s) 1); cbn [or_ub obind]; [|exact Logic.I].
    destruct (0 <=? bs_turn_counter s)%Z; cbn; destruct (clear (b_frame b)) as [f1| | |]; cbn; auto;
      destruct (do_adds (plain_fo card0) (bs_add s) f1) as [f2| | |]; cbn; auto;
      destruct (do_resizes (plain_fo card0) (bs_resize s) f2) as [f3| | |]; cbn; auto;
      do 4 eexists; reflexivity.
  - cbn [over b_chain]. destruct (vo_pop plain_vo (b_chain b)); cbn; auto. do 4 eexists. reflexivity.
  - destruct (lp_index con); cbn; auto. do 4 eexists. reflexivity.
Qed.

Lemma orel_trans : forall A B C (R : A -> B -> Prop) (S : B -> C -> Prop) (T : A -> C -> Prop) x y z,
  (forall a b c, R a b -> S b c -> T a c) -> orel R x y -> orel S y z -> orel T x z.
Proof. intros A B C R S T [] [] [] H; cbn; try contradiction; eauto. Qed.

Lemma play_over : forall use s t w ph bl b,
  orel (fun x y => fst x = fst y /\ exists t w ph bl, snd y = over t w ph bl (snd x))
    (pplay use s b) (pplay use s (over t w ph bl b)).
Proof.
  intros use [e|q] t w ph bl b; cbn [pplay].
  - eapply orel_bind; [apply parse_over|]. intros x y H. cbn. split; [reflexivity|exact H].
  - cbn [over b_frame]. destruct (parse_query use q (b_frame b)) as [[h f]| | |]; cbn; auto.
    split; [reflexivity|]. exists t, w, ph, bl. reflexivity.
Qed.

Lemma play_late : forall use s d a b, late d a b ->
  orel (fun x y => fst x = fst y /\ late d (snd x) (snd y)) (pplay use s a) (pplay use s b).
Proof.
  intros use s d a b (t & w & ph & bl & ->).
  eapply orel_trans; [|exact (pplay_r d use s a)|apply play_over].
  intros x y z [E G] [E' (t' & w' & ph' & bl' & G')]. split; [congruence|].
  exists t', w', ph', bl'. rewrite G', G. reflexivity.
Qed.
Lemma plays_late : forall use ss d a b, late d a b ->
  orel (late d) (pplay_all use ss a) (pplay_all use ss b).
Proof.
  intros use ss d a b H. unfold pplay_all. apply orel_fold; [|exact H]. intros s x y L.
  eapply orel_bind; [apply play_late; exact L|]. intros [] [] [_ G]. exact G.
Qed.

(** ** A State event *)
Lemma state_late : forall use s b, inv card (b_frame b) ->
  orel (fun x y => fst x = fst y /\ late (f_next (b_frame b)) (snd x) (snd y))
    (pplay use (REvent (EvBoard (BoardState s))) (pboard0 card)) (pplay use (REvent (EvBoard (BoardState s))) b).
Proof.
  intros use s b V. set (d := f_next (b_frame b)). cbn [pplay].
  eapply orel_bind with (R := late d); [|intros x y H; cbn; split; [reflexivity|exact H]].
  unfold pparse. cbn [parse_event]. unfold parse_state, assign_lp, on_frame.
  change (lp_index 0) with (Ok false). change (lp_index 1) with (Ok true).
  destruct (nth_error (bs_lps s) 0) as [l0|]; cbn [or_ub obind]; [|exact Logic.I].
  destruct (nth_error (bs_lps s) 1) as [l1|]; cbn [or_ub obind]; [|exact Logic.I].
  assert (X : forall b1 b2, b_frame b1 = frame0 -> b_frame b2 = b_frame b ->
    (forall f, late d (set_frame f b1) (set_frame (rf d f) b2)) ->
    orel (late d)
      (let! x := (let! f1 := fo_clear (plain_fo card0) (b_frame b1) in
                  let! f2 := do_adds (plain_fo card0) (bs_add s) f1 in
                  do_resizes (plain_fo card0) (bs_resize s) f2) in Ok (set_frame x b1))
      (let! x := (let! f1 := fo_clear (plain_fo card0) (b_frame b2) in
                  let! f2 := do_adds (plain_fo card0) (bs_add s) f1 in
                  do_resizes (plain_fo card0) (bs_resize s) f2) in Ok (set_frame x b2))).
  { intros b1 b2 E1 E2 L. rewrite E1, E2. cbn [fo_clear plain_fo].
    assert (C1 : clear (@frame0 card) = Ok frame0) by reflexivity.
    rewrite C1, (clear_run card (b_frame b) V). cbn [obind]. fold d.
    change (mkFrame d [] layout0) with (rf d (@frame0 card)).
    eapply orel_bind with (R := gf (C := card) d); [|intros f ? ->; cbn; apply L].
    eapply orel_bind with (R := gf (C := card) d); [apply adds_r|]. intros f ? ->. apply resizes_r. }
  destruct (0 <=? bs_turn_counter s)%Z; apply X; cbn; try reflexivity; intros f;
    do 4 eexists; reflexivity.
Qed.

Lemma alike_trans : forall C (f g h : frame C), alike f g -> alike g h -> alike f h.
Proof. intros C f g h A B k. rewrite A. apply B. Qed.
Lemma alike_sym : forall C (f g : frame C), alike f g -> alike g f.
Proof. intros C f g A k. symmetry. apply A. Qed.

Lemma late_alike : forall d a b, late d a b -> board_alike a b.
Proof.
  intros d a b (t & w & ph & bl & ->). split; [|reflexivity|reflexivity]. apply rf_alike.
Qed.

Lemma pplay_all_inv : forall use ss b b', inv card (b_frame b) -> pplay_all use ss b = Ok b' -> inv card (b_frame b').
Proof.
  intros use ss. induction ss as [|s ss IH]; intros b b' V H.
  - injection H as <-. exact V.
  - unfold pplay_all in H. cbn [ofold] in H. apply obind_Ok in H as [b1 [H1 H2]].
    apply obind_Ok in H1 as [[h b2] [H1 E]]. injection E as <-. eapply IH; [|exact H2]. eapply pplay_inv; eauto.
Qed.
Lemma played_inv : forall use b, has_played use b -> inv card (b_frame b).
Proof. intros use b [ss H]. eapply pplay_all_inv; [|exact H]. apply inv0. Qed.

Lemma orel_sym : forall A B (R : A -> B -> Prop) (S : B -> A -> Prop) x y,
  (forall a b, R a b -> S b a) -> orel R x y -> orel S y x.
Proof. intros A B R S [] [] H; cbn; auto. Qed.

Lemma state_then : forall use s ss b, inv card (b_frame b) ->
  orel (late (f_next (b_frame b))) (pplay_all use (REvent (EvBoard (BoardState s)) :: ss) (pboard0 card))
    (pplay_all use (REvent (EvBoard (BoardState s)) :: ss) b).
Proof.
  intros use s ss b V. unfold pplay_all. cbn [ofold]. eapply orel_bind.
  - eapply orel_bind; [apply state_late; exact V|]. intros [h x] [h' y] [_ L]. exact L.
  - intros x y L. apply plays_late, L.
Qed.

Lemma caught_up : forall use s ss a b, inv card (b_frame a) -> inv card (b_frame b) ->
  ends_alike (@board_alike card) (pplay_all use (REvent (EvBoard (BoardState s)) :: ss) a)
    (pplay_all use (REvent (EvBoard (BoardState s)) :: ss) b).
Proof.
  intros use s ss a b Va Vb. change (@ends_alike) with (@orel).
  eapply orel_trans with (R := fun x y => late (f_next (b_frame a)) y x) (S := late (f_next (b_frame b))).
  - intros x y z L1 L2. apply late_alike in L1, L2. destruct L1 as [F1 P1 C1], L2 as [F2 P2 C2].
    split; [|congruence|congruence]. eapply alike_trans; [apply alike_sym, F1|exact F2].
  - eapply orel_sym; [|apply state_then; exact Va]. auto.
  - apply state_then. exact Vb.
Qed.

(** ** The other members *)
Definition next_turn (s : rstep) (t : N) : N :=
  match s with
  | REvent (EvNextTurn _) => u32 (t + 1)
  | REvent (EvBoard (BoardState st)) => if (0 <=? bs_turn_counter st)%Z then Z.to_N (bs_turn_counter st) else t
  | _ => t
  end.
Definition next_player (s : rstep) (w : Z) : Z := match s with REvent (EvNextTurn con) => con | _ => w end.
Definition next_phase (s : rstep) (ph : N) : N := match s with REvent (EvNextPhase x) => x | _ => ph end.
Definition next_blocked (s : rstep) (l : list place) : list place := match s with REvent (EvZoneBlock x) => x | _ => l end.

Lemma step_members : forall use s a h a', pplay use s a = Ok (h, a') ->
  b_turn a' = next_turn s (b_turn a) /\ b_turn_controller a' = next_player s (b_turn_controller a) /\
  b_phase a' = next_phase s (b_phase a) /\ b_blocked a' = next_blocked s (b_blocked a).
Proof.
  intros use [e|q] a h a' A; cbn [pplay] in A; apply obind_Ok in A as [x [A Ea]].
  - injection Ea as <- <-. unfold pparse in A.
    assert (T : forall p : pboard card, forall op x, on_frame op p = Ok x -> exists f, x = set_frame f p).
    { intros p op z H. unfold on_frame in H. apply obind_Ok in H as [f [_ E]]. injection E as <-. eauto. }
    destruct e as [|[|z|s]|rs [|l|l|l|l|p c]|[|c|z]|con|wr mr ft|con t'|m|ph'|rs [|l|z|l]|r|l]; cbn [parse_event] in A;
      try (unfold parse_exchange in A);
      try (injection A as <-); try (apply T in A; destruct A as [fa ->]); try (solve [repeat split]).
    + unfold parse_state, assign_lp in A. change (lp_index 0) with (Ok false) in A. change (lp_index 1) with (Ok true) in A.
      apply obind_Ok in A as [l0 [_ A]]. cbn [obind] in A. apply obind_Ok in A as [l1 [_ A]]. cbn [obind] in A.
      apply T in A. destruct A as [f ->]. cbn [next_turn]. destruct (0 <=? bs_turn_counter s)%Z; repeat split.
    + apply obind_Ok in A as [y [_ E]]. injection E as <-. repeat split.
    + apply obind_Ok in A as [y [_ A]]. apply obind_Ok in A as [y' [_ A]]. injection A as <-. repeat split.
  - destruct x as [h' f]. injection Ea as <- <-. repeat split.
Qed.

Lemma rest_step : forall use s a b h h' a' b', pplay use s a = Ok (h, a') -> pplay use s b = Ok (h', b') ->
  (b_turn_controller a = b_turn_controller b \/ tells_player s -> b_turn_controller a' = b_turn_controller b') /\
  (b_phase a = b_phase b \/ tells_phase s -> b_phase a' = b_phase b') /\
  (b_blocked a = b_blocked b \/ tells_blocked s -> b_blocked a' = b_blocked b') /\
  (b_turn a = b_turn b \/ tells_turn s -> b_turn a' = b_turn b') /\
  (~ tells_turn s -> ((Z.of_N (b_turn a') - Z.of_N (b_turn b')) mod 2 ^ 32 = (Z.of_N (b_turn a) - Z.of_N (b_turn b)) mod 2 ^ 32)%Z).
Proof.
  intros use s a b h h' a' b' A B. apply step_members in A, B.
  destruct A as (-> & -> & -> & ->), B as (-> & -> & -> & ->).
  split; [intros [->|[x ->]]; reflexivity|]. split; [intros [->|[x ->]]; reflexivity|].
  split; [intros [->|[x ->]]; reflexivity|].
  split.
  - intros [->|[x [-> H]]]; [reflexivity|]. cbn [next_turn]. apply Z.leb_le in H. now rewrite H.
  - intros Nt. destruct s as [e|q]; [|reflexivity].
    destruct e as [|[|x|st]| | |con| | | | | | |]; cbn [next_turn]; try reflexivity.
    + destruct (Z.leb_spec 0 (bs_turn_counter st)) as [H|H]; [|reflexivity]. destruct Nt. exists st. auto.
    + unfold u32, wrap. rewrite !N2Z.inj_mod by discriminate. change (Z.of_N (2 ^ 32)) with (2 ^ 32)%Z.
      rewrite <- Zminus_mod. f_equal. lia.
Qed.

Lemma rest_all : forall use ss a b a' b', pplay_all use ss a = Ok a' -> pplay_all use ss b = Ok b' ->
  (b_turn_controller a = b_turn_controller b \/ Exists tells_player ss -> b_turn_controller a' = b_turn_controller b') /\
  (b_phase a = b_phase b \/ Exists tells_phase ss -> b_phase a' = b_phase b') /\
  (b_blocked a = b_blocked b \/ Exists tells_blocked ss -> b_blocked a' = b_blocked b') /\
  (b_turn a = b_turn b \/ Exists tells_turn ss -> b_turn a' = b_turn b') /\
  (~ Exists tells_turn ss -> ((Z.of_N (b_turn a') - Z.of_N (b_turn b')) mod 2 ^ 32 = (Z.of_N (b_turn a) - Z.of_N (b_turn b)) mod 2 ^ 32)%Z).
Proof.
  intros use ss. induction ss as [|s ss IH]; intros a b a' b' A B.
  - injection A as <-. injection B as <-.
    repeat split; try (intros [E|E]; [exact E|inversion E]).
  - unfold pplay_all in A, B. cbn [ofold] in A, B.
    apply obind_Ok in A as [a1 [A1 A]]. apply obind_Ok in A1 as [[h a2] [A1 E]]. injection E as <-.
    apply obind_Ok in B as [b1 [B1 B]]. apply obind_Ok in B1 as [[h' b2] [B1 E]]. injection E as <-.
    destruct (rest_step _ _ _ _ A1 B1) as (P1 & P2 & P3 & P4 & P5).
    destruct (IH _ _ _ _ A B) as (Q1 & Q2 & Q3 & Q4 & Q5).
    split; [|split; [|split; [|split]]].
    + intros [E|E]; [apply Q1; left; auto|]. apply Exists_cons in E. destruct E; apply Q1; auto.
    + intros [E|E]; [apply Q2; left; auto|]. apply Exists_cons in E. destruct E; apply Q2; auto.
    + intros [E|E]; [apply Q3; left; auto|]. apply Exists_cons in E. destruct E; apply Q3; auto.
    + intros [E|E]; [apply Q4; left; auto|]. apply Exists_cons in E. destruct E; apply Q4; auto.
    + intros N. assert (N1 : ~ tells_turn s) by (intros X; apply N; now left).
      assert (N2 : ~ Exists tells_turn ss) by (intros X; apply N; now right).
      rewrite (Q5 N2). exact (P5 N1).
Qed.

(** ** What the messages tell *)
Lemma one_event : forall c m e r c1, core_ok m -> core_event m = Some e -> encode_one c (ser m) = Ok (r, c1) ->
  msg_steps (r_msg r) = [REvent e].
Proof.
  intros c m e r c1 K E H. assert (X := event_encode m e K E c []). rewrite app_nil_r, H in X. injection X as -> _. reflexivity.
Qed.
Lemma reload_steps : forall c m r c1, is_reload m -> core_ok m -> encode_one c (ser m) = Ok (r, c1) ->
  exists s, msg_steps (r_msg r) = [REvent (EvBoard (BoardState s))].
Proof.
  intros c m r c1 R K H. destruct m; try destruct R. eexists. eapply one_event; eauto. reflexivity.
Qed.

Lemma steps_tell : forall c m r c1, core_ok m -> encode_one c (ser m) = Ok (r, c1) ->
  (is_turn m -> Exists tells_player (msg_steps (r_msg r))) /\
  (is_phase m -> Exists tells_phase (msg_steps (r_msg r))) /\
  (is_blocking m -> Exists tells_blocked (msg_steps (r_msg r))) /\
  (is_start m <-> Exists tells_turn (msg_steps (r_msg r))).
Proof.
  intros c m r c1 K H.
  split; [|split; [|split]].
  - intros M. destruct m; try destruct M. erewrite one_event; eauto; [|reflexivity]. left. eexists. reflexivity.
  - intros M. destruct m; try destruct M. erewrite one_event; eauto; [|reflexivity]. left. eexists. reflexivity.
  - intros M. destruct m; try destruct M. erewrite one_event; eauto; [|reflexivity]. left. eexists. reflexivity.
  - split.
    + intros M. destruct m; try destruct M. erewrite one_event; eauto; [|reflexivity]. left. eexists.
      split; [reflexivity|]. cbn. lia.
    + destruct (core_event m) as [e|] eqn:Ev.
      * rewrite (@one_event c m e r c1 K Ev H). intros T. apply Exists_cons in T. destruct T as [T|T]; [|inversion T].
        destruct T as [st [E T]]. injection E as ->.
        destruct m; try discriminate Ev; cbn [core_event] in Ev; injection Ev as <-; [exact Logic.I|].
        cbn in T. lia.
      * destruct (core_kind m Ev) as [k [Kn Ek]]. apply encode_ok in H.
        destruct H as [b [tl [v [rest [Eb [-> [_ Dp]]]]]]]. unfold ser in Eb. injection Eb as <- <-.
        rewrite Kn in Dp. pose proof (dispatch_calm k c Ek _ _ _ Dp) as Cv. unfold calm_verdict in Cv. cbn [fst] in Cv.
        cbn [r_msg]. intros T. exfalso. destruct (v_msg v) as [g|]; [|inversion T]. unfold msg_steps in T.
        apply Exists_app in T. destruct T as [T|T].
        -- destruct (m_t g); inversion T as [? ? X|? ? X]; subst; [|inversion X]. destruct X as [st [E _]]. injection E as ->. exact Cv.
        -- apply Exists_exists in T. destruct T as [x [Hx [st [-> _]]]]. apply in_map_iff in Hx. destruct Hx as [q [E _]]. discriminate E.
Qed.

Lemma stream_tells : forall ms c rs, Forall core_ok ms -> recording ms c = Ok rs ->
  (Exists is_turn ms -> Exists tells_player (concat rs)) /\
  (Exists is_phase ms -> Exists tells_phase (concat rs)) /\
  (Exists is_blocking ms -> Exists tells_blocked (concat rs)) /\
  (Exists is_start ms <-> Exists tells_turn (concat rs)).
Proof.
  induction ms as [|m ms IH]; intros c rs K R.
  - injection R as <-. cbn. repeat split; intros E; inversion E.
  - destruct (recording_cons _ _ _ _ R) as (r & c1 & c2 & rs' & En & _ & _ & R' & ->).
    apply Forall_cons_iff in K as [K1 K2]. destruct (IH _ _ K2 R') as (I1 & I2 & I3 & I4).
    destruct (@steps_tell c m r c1 K1 En) as (S1 & S2 & S3 & S4). cbn [concat].
    rewrite !Exists_cons, !Exists_app. tauto.
Qed.

(** ** Latecomers with a plain board *)
Lemma plain_late : forall use c m ms rs, ctx_sound c -> is_reload m -> Forall core_ok (m :: ms) -> recording (m :: ms) c = Ok rs ->
  exists b c', pplay_all use (concat rs) (pboard0 card) = Ok b /\ feed_all c (m :: ms) = Ok c' /\
    late (f_next (b_frame (cx_board c))) b (cx_board c').
Proof.
  intros use c m ms rs Sc Rl K R.
  destruct (proj2 (server_runs _ _ _ R) (length (m :: ms))) as (c' & Fc & Pc).
  rewrite firstn_all in Fc. rewrite <- (proj1 (server_runs _ _ _ R)), firstn_all in Pc. specialize (Pc use).
  destruct (recording_cons _ _ _ _ R) as (r & c1 & c2 & rs' & En & _ & _ & R' & ->).
  apply Forall_cons_iff in K as [K1 K2]. destruct (@reload_steps c m r c1 Rl K1 En) as [s Es].
  cbn [concat] in *. rewrite Es in *. cbn [app] in *.
  pose proof (state_then use s (concat rs') (cx_board c) (sound_inv _ Sc)) as O. rewrite Pc in O.
  destruct (pplay_all use _ (pboard0 card)) as [b| | |]; try contradiction. exists b, c'. auto.
Qed.

Lemma plain_rest : forall use c m ms rs b c', is_reload m -> Forall core_ok (m :: ms) -> recording (m :: ms) c = Ok rs ->
  pplay_all use (concat rs) (pboard0 card) = Ok b -> feed_all c (m :: ms) = Ok c' ->
  (Exists is_turn ms -> b_turn_controller b = b_turn_controller (cx_board c')) /\
  (Exists is_phase ms -> b_phase b = b_phase (cx_board c')) /\
  (Exists is_blocking ms -> b_blocked b = b_blocked (cx_board c')) /\
  (Exists is_start ms -> b_turn b = b_turn (cx_board c')) /\
  (~ Exists is_start ms ->
     ((Z.of_N (b_turn (cx_board c')) - Z.of_N (b_turn b)) mod 2 ^ 32 = Z.of_N (b_turn (cx_board c)) mod 2 ^ 32)%Z).
Proof.
  intros use c m ms rs b c' Rl K R P Fc.
  destruct (proj2 (server_runs _ _ _ R) (length (m :: ms))) as (x & Fx & Pc).
  rewrite firstn_all in Fx. rewrite Fc in Fx. injection Fx as <-.
  rewrite <- (proj1 (server_runs _ _ _ R)), firstn_all in Pc. specialize (Pc use).
  destruct (@stream_tells (m :: ms) c rs K R) as (T1 & T2 & T3 & T4).
  destruct (@rest_all use (concat rs) (cx_board c) (pboard0 card) _ _ Pc P) as (Q1 & Q2 & Q3 & Q4 & Q5).
  split; [intros E; symmetry; apply Q1; right; apply T1; now right|].
  split; [intros E; symmetry; apply Q2; right; apply T2; now right|].
  split; [intros E; symmetry; apply Q3; right; apply T3; now right|].
  split; [intros E; symmetry; apply Q4; right; apply T4; now right|].
  intros E. rewrite Q5.
  - cbn [pboard0 b_turn]. now rewrite Z.sub_0_r.
  - rewrite <- T4. intros X. apply Exists_cons in X. destruct X as [X|X]; [|auto]. destruct m; destruct Rl. destruct X.
Qed.

(** ** With an undoable board *)
Lemma late_lengths : forall d a b k, late d a b ->
  length (contents k (f_lay (b_frame a))) = length (contents k (f_lay (b_frame b))).
Proof.
  intros d a b k L. apply late_alike in L. destruct L as [F _ _]. specialize (F k).
  apply (f_equal (@length _)) in F. now rewrite !map_length in F.
Qed.
Lemma tag_late : forall d p c m, late d p (cx_board c) -> tag_piles (set_board p c) m = tag_piles c m.
Proof.
  intros d p c m L. unfold tag_piles. destruct m; auto. destruct (side_of_con (Z.of_N con)) as [who|]; auto.
  unfold pile_now, ctx_layout. cbn [set_board cx_board].
  change (get_pile (who, LDeck) (f_lay (b_frame p))) with (contents (CPile (who, LDeck)) (f_lay (b_frame p))).
  rewrite !(@late_lengths d p (cx_board c) _ L). reflexivity.
Qed.
Lemma bad_late : forall d p c m, late d p (cx_board c) -> (bad_tag (set_board p c) m <-> bad_tag c m).
Proof. intros d p c m L. unfold bad_tag. rewrite (@tag_late d p c m L). tauto. Qed.

Lemma fate_late : forall use ms d c rs p u f, Forall core_ok ms -> recording ms c = Ok rs -> late d p (cx_board c) ->
  bsim u p -> client_fate c ms f -> ends_as f (play_all use (concat rs) u).
Proof.
  intros use. induction ms as [|m ms IH]; intros d c rs p u f K H L B Ft.
  - cbn in H. injection H as <-. inversion Ft; subst. cbn. eauto.
  - destruct (recording_cons _ _ _ _ H) as (r & c1 & c2 & rs' & E & Fo & F & R & ->).
    apply Forall_cons_iff in K as [K1 K2].
    assert (P := follow_plays _ _ _ Fo). rewrite (encode_board _ _ _ _ E) in P. apply (pplay_all_same use) in P.
    pose proof (@plays_late use (msg_steps (r_msg r)) d p _ L) as O. rewrite P in O.
    destruct (pplay_all use (msg_steps (r_msg r)) p) as [p2| | |] eqn:Pp; try contradiction. cbn in O.
    destruct (msg_client_at use c (set_board p c) m r c1 p2 u K1 E Pp B) as (A1 & A2 & A3 & _).
    rewrite (@bad_late d p c m L) in A2, A3.
    cbn [concat]. rewrite play_all_app. inversion Ft; subst; cbn [ends_as].
    + rewrite A1 by assumption. reflexivity.
    + rewrite A2 by assumption. reflexivity.
    + match goal with H : feed c _ = Ok ?x |- _ => rewrite H in F; injection F as -> end.
      destruct A3 as [u' [U B']]; auto. rewrite U. cbn [obind]. eapply IH; eauto.
Qed.

Lemma fate_reload : forall use c m ms rs f, ctx_sound c -> is_reload m -> Forall core_ok (m :: ms) ->
  recording (m :: ms) c = Ok rs -> client_fate c (m :: ms) f -> ends_as f (play_all use (concat rs) (uboard0 ucard)).
Proof.
  intros use c m ms rs f Sc Rl K H Ft.
  destruct (recording_cons _ _ _ _ H) as (r & c1 & c2 & rs' & E & Fo & F & R & ->).
  apply Forall_cons_iff in K as [K1 K2].
  assert (P := follow_plays _ _ _ Fo). rewrite (encode_board _ _ _ _ E) in P. apply (pplay_all_same use) in P.
  assert (B : bsim (uboard0 ucard) (pboard0 card)) by exact (bsim0 ucard card UReplayAgree.shows).
  destruct (@reload_steps c m r c1 Rl K1 E) as [s Es].
  pose proof (state_then use s [] (cx_board c) (sound_inv _ Sc)) as O. rewrite <- Es, P in O.
  destruct (pplay_all use (msg_steps (r_msg r)) (pboard0 card)) as [p2| | |] eqn:Pp; try contradiction. cbn in O.
  destruct (msg_client_at use c (set_board (pboard0 card) c) m r c1 p2 _ K1 E Pp B) as (_ & _ & A3 & _).
  destruct A3 as [u' [U B']].
  { intros X. destruct m; destruct Rl. destruct X. }
  { intros X. destruct m; destruct Rl. inversion X. }
  cbn [concat]. rewrite play_all_app, U. cbn [obind].
  inversion Ft as [|? ? ? X|? ? ? X|? ? ? c3 ? _ _ X Y]; subst.
  - destruct m; destruct Rl. destruct X.
  - destruct m; destruct Rl. inversion X.
  - rewrite X in F. injection F as ->. eapply fate_late; eauto.
Qed.

Lemma undoable_shows : forall u p, bsim u p ->
  forall k, map (uface u) (contents k (sn_layout (scene_of u))) = map (face (b_frame p)) (contents k (f_lay (b_frame p))).
Proof.
  intros u p B k. pose proof (bsim_scene _ _ B) as Sc. rewrite <- Sc. cbn [plain_scene sn_layout].
  apply map_ext_in. intros [id|] Hi; [|reflexivity]. apply In_nth_error in Hi. destruct Hi as [i Hi].
  destruct (bsim_card u p (k, i) id B) as (c & C1 & C2 & _).
  { unfold occupant. cbn [fst snd]. apply (f_equal sn_layout) in Sc. cbn in Sc. rewrite <- Sc. exact Hi. }
  cbn [uface face]. unfold plain_card in C2. rewrite C1, C2. reflexivity.
Qed.
