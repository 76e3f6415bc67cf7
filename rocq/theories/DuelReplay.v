(** The recording of a duel can be watched in both directions. *)
From Verif Require Import LimboUndo.
From Verif Require Import Base BaseProofs Place PlaceProofs Frame FrameSpec FrameLens FrameProofs FrameMove FrameOps FramePiles
  FrameInv FrameFacts Limbo LimboSpec LimboProofs Msg Event EventSpec EventProofs Query QuerySpec QueryProofs
  UQuery UQuerySpec UReplaySpec UReplay BoardAgree UReplayAgree.
From Verif Require Import Reader Encode CoreMsg EncodeSpec EncodeQueryProofs EncodeFrame EncodeLocal EncodeState
  Duel DuelMsg DuelRun DuelReplaySpec.

Local Open Scope N_scope.

(** ** Events that are good for a viewer *)
Fixpoint grows (sh : bool) (acts : list lact) (f : frame card) : Prop :=
  match acts with
  | [] => True
  | a :: acts' =>
      match a with
      | LResize p n => forall r i, slot p = Some (CPile r, i) ->
          (length (contents (CPile r) (f_lay f)) <= N.to_nat n)%nat
      | LShuffle _ _ => sh = true
      | LAdd _ | LRemove _ | LClear | LMove _ _ | LSwap _ _ | LSplice _ _ _ _ | LPileSwap _ _ => True
      | _ => False
      end /\
      forall f', fstep card0 (plain_op a) f = Ok f' -> grows sh acts' f'
  end.
Definition good (sh : bool) (s : rstep) : Prop :=
  match s with
  | REvent e => no_chain e /\ forall f, inv card f -> grows sh (event_acts e) f
  | RQuery _ => True
  end.

Lemma grows_fit : forall sh acts f, grows sh acts f -> resizes_fit card0 acts f.
Proof.
  induction acts as [|a acts IH]; intros f G; [exact Logic.I|]. destruct G as [G1 G2]. split.
  - destruct a; auto. intros r i Sl. left. exact (G1 r i Sl).
  - intros f' H. apply IH, G2, H.
Qed.

Lemma pplay_inv : forall use s p h p', inv card (b_frame p) -> pplay use s p = Ok (h, p') -> inv card (b_frame p').
Proof.
  intros use [e|q] p h p' V H; cbn [pplay] in H; apply obind_Ok in H.
  - destruct H as [b [H1 H2]]. injection H2 as <- <-. eapply pparse_inv; eauto.
  - destruct H as [[hs f] [H1 H2]]. injection H2 as <- <-. cbn [set_frame b_frame]. eapply query_inv; eauto.
Qed.

Lemma good_fit : forall sh use ss p, Forall (good sh) ss -> inv card (b_frame p) -> steps_fit use ss p.
Proof.
  induction ss as [|s ss IH]; intros p G V; [exact Logic.I|]. inversion G as [|? ? G1 G2]; subst. split.
  - destruct s as [e|q]; auto. destruct G1 as [Nc G1]. split; [exact Nc|]. eapply grows_fit, G1, V.
  - intros h p' H. apply IH; [exact G2|]. eapply pplay_inv; eauto.
Qed.

Lemma grows_undoable : forall acts w f, Forall event_act acts -> fsim w f -> grows false acts f ->
  acts_undoable ucard0 acts w.
Proof.
  induction acts as [|a acts IH]; intros w f Ea Sm G; [exact Logic.I|]. destruct G as [G1 G2].
  inversion Ea as [|? ? E1 E2]; subst. split.
  - destruct a; cbn [act_undoable]; try exact Logic.I; try exact G1; try discriminate G1.
    intros r i Sl. left. destruct Sm as [_ [_ [_ [EL _]]]]. rewrite <- EL. exact (G1 r i Sl).
  - intros w' H. destruct (sim_act ucard card ucard0 card0 UReplayAgree.shows shows0 a E1 w f w' Sm H) as [f' [F Sm']].
    eapply IH; eauto.
Qed.

Lemma good_undoable : forall use ss u p, Forall (good false) ss -> bsim u p -> steps_undoable use ss u.
Proof.
  induction ss as [|s ss IH]; intros u p G B; [exact Logic.I|]. inversion G as [|? ? G1 G2]; subst. split.
  - destruct s as [e|q]; auto. destruct G1 as [_ G1]. destruct B as [Sm _].
    eapply grows_undoable; [apply event_acts_ok|exact Sm|]. apply G1. apply Sm.
  - intros h u' H. destruct (play_sim _ _ _ _ _ _ B H) as [p' [_ B']]. eapply IH; eauto.
Qed.

(** ** Which events are good *)
Definition easy (a : lact) : Prop :=
  match a with LAdd _ | LRemove _ | LMove _ _ | LSplice _ _ _ _ | LPileSwap _ _ => True | _ => False end.
Lemma easy_grows : forall sh acts f, Forall easy acts -> grows sh acts f.
Proof.
  induction acts as [|a acts IH]; intros f E; [exact Logic.I|]. inversion E as [|? ? E1 E2]; subst. split.
  - destruct a; try exact Logic.I; destruct E1.
  - intros f' _. now apply IH.
Qed.
Lemma easy_map : forall X (g : X -> lact) l, (forall x, easy (g x)) -> Forall easy (map g l).
Proof. intros X g l H. induction l; cbn [map]; constructor; auto. Qed.

(** No board, exchange or chain event. *)
Definition calm_event (e : event) : Prop :=
  match e with
  | EvBoard (BoardExchange _) | EvBoard (BoardState _) => False
  | EvCard _ (CardExchange _) | EvCard _ (CardShuffle _ _) => False
  | EvChainStack (ChainPush _) | EvChainStack (ChainPop _) => False
  | _ => True
  end.
Lemma calm_good : forall sh e, calm_event e -> good sh (REvent e).
Proof.
  intros sh e H. split.
  - destruct e as [| | |[]| | | | | | | |]; cbn in *; auto.
  - intros f _. destruct e as [|[|x|s]|re [|l|l|l|l|pv cu]|[|c|pp]|con|wr mr ft|con t|me|ph'|re [|l|l|l]|rs|zs];
      cbn [event_acts]; try destruct H; try exact Logic.I;
      apply easy_grows; apply easy_map; intros; exact Logic.I.
Qed.

(** A State event: the piles are empty when they are resized. *)
Definition not_pile (p : place) : Prop := match slot p with Some (CPile _, _) => False | _ => True end.
Definition target (o : resize_op) : option cont := option_map fst (slot (rz_place o)).

Lemma resizes_grow : forall sh l f, inv card f -> NoDup (map target l) ->
  (forall o r, In o l -> target o = Some (CPile r) -> contents (CPile r) (f_lay f) = []) ->
  grows sh (resize_acts l) f.
Proof.
  induction l as [|o l IH]; intros f V N E; [exact Logic.I|]. unfold resize_acts. cbn [map].
  inversion N as [|? ? N1 N2]; subst. split.
  - intros r i Sl. rewrite (E o r); [cbn; lia|now left|]. unfold target. now rewrite Sl.
  - intros f' H. cbn [plain_op] in H. apply IH; [eapply inv_step; eauto|exact N2|].
    intros o' r Ho Tr. cbn [fstep] in H.
    destruct (slot (rz_place o)) as [[k i]|] eqn:Sl.
    + destruct k as [r0|z|z].
      * destruct (pile_resize_spec card card0 _ (rz_count o) r0 i f V Sl) as [f2 [new [H2 [_ [Vw _]]]]].
        rewrite H in H2. injection H2 as <-. specialize (Vw (CPile r)). unfold view, view_set in Vw.
        destruct (cont_eq_dec (CPile r) (CPile r0)) as [Eq|Ne].
        -- exfalso. apply N1. replace (target o) with (target o'); [now apply in_map|].
           rewrite Tr. unfold target. rewrite Sl. now rewrite Eq.
        -- rewrite Vw. apply (E o' r); [now right|exact Tr].
      * exfalso. destruct (resizes_run card card0 [o] f V) as [[R1 _] _].
        assert (X : exists f1, do_resizes (plain_fo card0) [o] f = Ok f1).
        { exists f'. unfold do_resizes. cbn [ofold plain_fo fo_resize]. rewrite H. reflexivity. }
        apply R1 in X. inversion X as [|? ? [r1 [i1 X1]] _]; subst. congruence.
      * exfalso. destruct (resizes_run card card0 [o] f V) as [[R1 _] _].
        assert (X : exists f1, do_resizes (plain_fo card0) [o] f = Ok f1).
        { exists f'. unfold do_resizes. cbn [ofold plain_fo fo_resize]. rewrite H. reflexivity. }
        apply R1 in X. inversion X as [|? ? [r1 [i1 X1]] _]; subst. congruence.
    + exfalso. destruct (resizes_run card card0 [o] f V) as [[R1 _] _].
      assert (X : exists f1, do_resizes (plain_fo card0) [o] f = Ok f1).
      { exists f'. unfold do_resizes. cbn [ofold plain_fo fo_resize]. rewrite H. reflexivity. }
      apply R1 in X. inversion X as [|? ? [r1 [i1 X1]] _]; subst. congruence.
Qed.

Lemma adds_grow : forall sh adds l f, inv card f -> Forall not_pile adds -> NoDup (map target l) ->
  (forall r, contents (CPile r) (f_lay f) = []) -> grows sh (map LAdd adds ++ resize_acts l) f.
Proof.
  induction adds as [|p adds IH]; intros l f V Np N E.
  - cbn [map app]. apply resizes_grow; auto.
  - cbn [map app]. inversion Np as [|? ? N1 N2]; subst. split; [exact Logic.I|].
    intros f' H. apply IH; auto; [eapply inv_step; eauto|].
    intros r. cbn [plain_op fstep] in H. apply obind_Ok in H as [[id f1] [H1 H2]]. injection H2 as <-.
    destruct (card_add_Ok card card0 _ _ _ _ V H1) as (k & i & Sl & _ & _ & _ & _ & _ & Vw).
    specialize (Vw (CPile r)). unfold not_pile in N1. rewrite Sl in N1. unfold view, view_insert, view_set in Vw.
    destruct (cont_eq_dec (CPile r) k) as [<-|_]; [destruct N1|]. rewrite Vw. apply E.
Qed.

Lemma state_good : forall sh s, Forall not_pile (bs_add s) -> NoDup (map target (bs_resize s)) ->
  good sh (REvent (EvBoard (BoardState s))).
Proof.
  intros sh s A N. split; [exact Logic.I|]. intros f V. cbn [event_acts]. split; [exact Logic.I|].
  intros f' H. cbn [plain_op fstep] in H. apply adds_grow; auto.
  - eapply inv_clear; eauto.
  - rewrite (clear_run _ _ V) in H. injection H as <-. intros [[] []]; reflexivity.
Qed.

(** ** The events of a duel *)
Definition calm_verdict (v : verdict * ctx) : Prop :=
  match v_msg (fst v) with
  | Some m => match m_t m with MsgEvent e => calm_event e | _ => True end
  | None => True
  end.
Lemma move_calm : forall p q r c v, move_verdict p q r c = Ok v -> calm_verdict v.
Proof.
  intros prev curr reason c v H. unfold move_verdict, take_deferred_xyz_mat in H.
  repeat match type of H with
  | context [if ?b then _ else _] =>
      match b with _ && _ => idtac | negb _ => idtac | _ => idtac end; destruct b; cbn [obind or_ub] in H
  end;
  try (apply obind_Ok in H; destruct H as [had [_ H]]);
  inversion H; subst; exact Logic.I.
Qed.
Lemma dispatch_calm : forall k c, event_case k = None -> yields calm_verdict (dispatch k c).
Proof.
  intros k c E. unfold dispatch. rewrite E.
  destruct (request_case k) as [r|] eqn:F.
  - apply yields_bind. intros z. apply yields_bind. intros q. apply yields_ret. exact Logic.I.
  - destruct k; try discriminate;
      unfold win_case, deck_top_case, swap_grave_deck_case, draw_case, reverse_deck_case, move_case;
      repeat (apply yields_bind; intros ?); try (apply yields_ret; exact Logic.I).
    intros bs v rest H. unfold rlift in H. apply obind_Ok in H. destruct H as [w [H I]].
    inversion I; subst. eapply move_calm, H.
Qed.

Lemma calm_steps : forall sh o, match o with Some m => match m_t m with MsgEvent e => calm_event e | _ => True end
  | None => True end -> Forall (good sh) (msg_steps o).
Proof.
  intros sh [m|] H; [|constructor]. unfold msg_steps. apply Forall_app. split.
  - destruct (m_t m); constructor; [now apply calm_good|constructor].
  - apply Forall_forall. intros s Hs. apply in_map_iff in Hs. destruct Hs as [q [<- _]]. exact Logic.I.
Qed.

Lemma core_kind : forall m, core_event m = None -> exists k, kind_of (msg_number m) = Some k /\ event_case k = None.
Proof. intros m E. destruct m; try discriminate E; eexists; split; reflexivity. Qed.

Lemma spot_not_pile : forall p s, spot_of p = Some s ->
  match s with InZone _ | UnderZone _ _ => not_pile p | _ => True end.
Proof.
  intros p s H. unfold spot_of in H. destruct (p_loc p =? 0); [injection H as <-; exact Logic.I|].
  destruct (side_of_con (p_con p)) as [w|] eqn:Ec; [|discriminate].
  destruct (assocN (p_loc p) pile_table) as [l|] eqn:El.
  - injection H as <-. destruct (p_oseq p <? 0)%Z; exact Logic.I.
  - assert (X : not_pile p).
    { unfold not_pile, slot. rewrite Ec, El. destruct (assocN (p_loc p) zone_table) as [[z lim]|]; auto.
      destruct (p_seq p <? lim); auto. destruct (p_oseq p <? 0)%Z; auto. }
    destruct s; auto.
Qed.

Lemma placed_not_pile : forall l K K', place_all l K = Some K' -> Forall not_pile l.
Proof.
  induction l as [|p l IH]; intros K K' H; [constructor|]. cbn [place_all] in H.
  destruct (spot_of p) as [s|] eqn:E; cbn [obind_] in H; [|discriminate]. apply spot_not_pile in E.
  destruct (new_card K) as [x K1]. destruct s; try discriminate;
    (match type of H with obind_ ?o _ = _ => destruct o as [K2|] end; cbn [obind_] in H; [|discriminate];
     constructor; [exact E|eapply IH, H]).
Qed.

Lemma step_good : forall sh m D D' c r c1, core_ok m -> duel_step m D = Some D' -> linkless m ->
  (sh = false -> shuffleless m) -> encode_one c (ser m) = Ok (r, c1) -> Forall (good sh) (msg_steps (r_msg r)).
Proof.
  intros sh m D D' c r c1 K H Ll Sl En.
  destruct (core_event m) as [e|] eqn:Ev.
  - assert (E := event_encode m e K Ev c []). rewrite app_nil_r, En in E. injection E as -> _.
    cbn [r_msg msg_steps m_t m_queries map app]. constructor; [|constructor].
    destruct m; try discriminate Ev; cbn [core_event] in Ev; injection Ev as <-;
      try (apply calm_good; exact Logic.I).
    + (* shuffled set cards *)
      split; [exact Logic.I|]. intros f _. cbn [event_acts]. split; [|intros f' _; exact Logic.I].
      destruct sh; [reflexivity|]. destruct (Sl eq_refl).
    + (* a swap *)
      split; [exact Logic.I|]. intros f _. split; [exact Logic.I|intros f' _; exact Logic.I].
    + destruct Ll.
    + destruct Ll.
    + (* start *)
      apply state_good; [constructor|]. repeat (apply NoDup_cons; [vm_compute; intuition discriminate|]). constructor.
    + (* tag swap *)
      discriminate H.
    + (* reload *)
      cbn [duel_step] in H. unfold guard in H. destruct (is_none (d_doing D)); [|discriminate].
      destruct (place_all _ _) as [K1|] eqn:P; cbn [obind_] in H; [|discriminate].
      apply state_good.
      * unfold reload_state. cbn [bs_add]. eapply placed_not_pile, P.
      * repeat (apply NoDup_cons; [vm_compute; intuition discriminate|]). constructor.
  - destruct (core_kind m Ev) as [k [Kn Ek]]. apply encode_ok in En.
    destruct En as [b [tl [v [rest [Eb [-> [_ Dp]]]]]]]. unfold ser in Eb. injection Eb as <- <-.
    rewrite Kn in Dp. apply calm_steps. cbn [r_msg]. exact (dispatch_calm k c Ek _ _ _ Dp).
Qed.

(** ** The recording and the parser's board *)
Lemma follow_plays : forall r c c', follow r c = Ok c' ->
  pplay_all false (msg_steps (r_msg r)) (cx_board c) = Ok (cx_board c').
Proof.
  intros r c c' H. unfold follow in H. destruct (r_msg r) as [m|]; [|injection H as <-; reflexivity].
  unfold ctx_parse in H. apply obind_Ok in H as [c1 [H1 H2]]. unfold msg_steps, pplay_all. rewrite ofold_app.
  assert (E : ofold (fun s b => let! (_, b') := pplay false s b in Ok b')
    match m_t m with MsgEvent e => [REvent e] | _ => [] end (cx_board c) = Ok (cx_board c1)).
  { destruct (m_t m); try (injection H1 as <-; reflexivity). apply obind_Ok in H1 as [b [H0 H1]]. injection H1 as <-.
    cbn [ofold pplay]. rewrite H0. reflexivity. }
  rewrite E. cbn [obind]. clear E H1. revert c1 H2. induction (m_queries m) as [|q qs IH]; intros c1 H2.
  - injection H2 as <-. reflexivity.
  - cbn [ofold map] in *. apply obind_Ok in H2 as [c2 [H1 H2]]. unfold ctx_query in H1.
    apply obind_Ok in H1 as [[h f] [H0 H1]]. injection H1 as <-. cbn [pplay]. rewrite H0. cbn [obind].
    exact (IH _ H2).
Qed.

(** A cache hit leaves the card as it is. *)
Lemma cache_same : forall use d c, fst (parse_data use d c) = fst (parse_data false d c).
Proof. intros. now rewrite !data_eq. Qed.
Lemma pplay_same : forall use s p h p', pplay false s p = Ok (h, p') -> exists h', pplay use s p = Ok (h', p').
Proof.
  intros use [e|q] p h p' H; cbn [pplay] in *; [eauto|]. apply obind_Ok in H as [[hs f] [H1 H2]].
  injection H2 as <- <-. unfold parse_query in *.
  apply obind_Ok in H1 as [b [E1 H1]]. rewrite E1. cbn [obind].
  apply obind_Ok in H1 as [[] [E2 H1]]. rewrite E2. cbn [obind].
  apply obind_Ok in H1 as [id [E3 H1]]. rewrite E3. cbn [obind].
  apply obind_Ok in H1 as [cd [E4 H1]]. rewrite E4. cbn [obind].
  assert (X := cache_same use (qr_data q) cd).
  destruct (parse_data use (qr_data q) cd) as [v hu]. destruct (parse_data false (qr_data q) cd) as [v' hf].
  cbn [fst] in X. subst v'. injection H1 as <- <-. eexists. cbn [obind]. reflexivity.
Qed.
Lemma pplay_all_same : forall use ss p p', pplay_all false ss p = Ok p' -> pplay_all use ss p = Ok p'.
Proof.
  induction ss as [|s ss IH]; intros p p' H; unfold pplay_all in *; cbn [ofold] in *; [exact H|].
  apply obind_Ok in H as [p1 [H1 H2]]. apply obind_Ok in H1 as [[h p2] [H0 H1]]. injection H1 as <-.
  destruct (pplay_same use _ _ _ _ H0) as [h' E]. rewrite E. cbn [obind]. now apply IH.
Qed.

Lemma pplay_all_app : forall use a b p, pplay_all use (a ++ b) p = let! p' := pplay_all use a p in pplay_all use b p'.
Proof. intros. unfold pplay_all. apply ofold_app. Qed.

Lemma run_cons : forall m ms D D', duel_run (m :: ms) D = Some D' ->
  exists D1, duel_step m D = Some D1 /\ duel_run ms D1 = Some D'.
Proof.
  intros m ms D D' H. unfold duel_run in *. cbn [fold_left obind_] in H.
  destruct (duel_step m D) as [D1|]; [eauto|]. rewrite run_none in H. discriminate.
Qed.

(** Everything about the recording: its items are good, and after each message
    the parser's board mirrors the duel. *)
Theorem recorded : forall sh ms D c D', mirrors D c -> Forall core_ok ms -> duel_run ms D = Some D' ->
  Forall linkless ms -> (sh = false -> Forall shuffleless ms) ->
  exists rs, recording ms c = Ok rs /\ length rs = length ms /\ Forall (good sh) (concat rs) /\
    forall k, exists Dk ck, duel_run (firstn k ms) D = Some Dk /\ mirrors Dk ck /\
      pplay_all false (concat (firstn k rs)) (cx_board c) = Ok (cx_board ck).
Proof.
  intros sh. induction ms as [|m ms IH]; intros D c D' M K H Ll Sl.
  - exists []. split; [reflexivity|]. split; [reflexivity|]. split; [constructor|]. intros k. exists D, c.
    rewrite !firstn_nil. split; [reflexivity|]. split; [exact M|reflexivity].
  - inversion K as [|? ? K1 K2]; subst. inversion Ll as [|? ? L1 L2]; subst.
    apply run_cons in H. destruct H as [D1 [E H]].
    destruct (duel_follows _ _ _ _ M K1 E) as (c2 & F & M2). unfold feed in F. apply obind_Ok in F as [[r c1] [F1 F2]].
    assert (S1 : sh = false -> shuffleless m) by (intros X; specialize (Sl X); now inversion Sl).
    assert (S2 : sh = false -> Forall shuffleless ms) by (intros X; specialize (Sl X); now inversion Sl).
    destruct (IH D1 c2 D' M2 K2 H L2 S2) as (rs & R & Ln & G & P).
    exists (msg_steps (r_msg r) :: rs). cbn [recording]. rewrite F1. cbn [obind]. rewrite F2. cbn [obind].
    rewrite R. cbn [obind]. split; [reflexivity|]. split; [cbn [length]; now rewrite Ln|]. split.
    + cbn [concat]. apply Forall_app. split; [|exact G]. eapply step_good; eauto.
    + intros [|k].
      * exists D, c. split; [reflexivity|]. split; [exact M|reflexivity].
      * destruct (P k) as (Dk & ck & A & B & C). exists Dk, ck. split; [|split; [exact B|]].
        -- cbn [firstn]. unfold duel_run in *. cbn [fold_left obind_]. rewrite E. exact A.
        -- cbn [firstn concat]. rewrite pplay_all_app.
           assert (X := follow_plays _ _ _ F2). rewrite (encode_board _ _ _ _ F1) in X. rewrite X. cbn [obind]. exact C.
Qed.

(** A board showing the same scene and cards as the parser's. *)
Lemma viewed : forall D c b, mirrors D c -> d_doing D = None -> plain_scene (cx_board c) = scene_of b ->
  (forall pos id, occupant (sn_layout (scene_of b)) pos = Some (Some id) ->
     exists v, content b id = Some v /\ plain_card (cx_board c) id = Some (shown v)) ->
  view_shows D b.
Proof.
  intros D c b M Dn Sc Ca. assert (Sh := mirrors_shows _ _ M Dn). destruct Sh.
  assert (V : inv card (b_frame (cx_board c))) by (apply sound_inv, M).
  constructor; try rewrite <- Sc; unfold plain_scene;
    cbn [sn_layout sn_chain sn_turn sn_turn_controller sn_lp sn_phase sn_blocked]; auto.
  - intros s x On. destruct (sh_card s x On) as [v [E F]].
    assert (Lv : live (b_frame (cx_board c)) x) by (unfold live; apply heap_get_In; unfold card_of in E; congruence).
    destruct (cons_unique (inv_conserved _ _ V) x Lv) as [pos [O _]].
    assert (O' : occupant (sn_layout (scene_of b)) pos = Some (Some x)) by (rewrite <- Sc; exact O).
    destruct (Ca _ _ O') as [u [U1 U2]]. exists u. split; [exact U1|].
    unfold plain_card in U2. unfold card_of in E. rewrite E in U2. injection U2 as ->. exact F.
  - rewrite <- (sh_lp false), <- (sh_lp true). unfold lp_of. now destruct (b_lp (cx_board c)).
Qed.
