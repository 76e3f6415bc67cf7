(** Recordings played forward: the undoable board shows what the plain one does. *)
From Verif Require Import Base BaseProofs Place Frame FrameSpec FrameLens FrameProofs FrameMove FrameOps FramePiles FrameInv FrameFacts Limbo LimboSpec
  LimboProofs LimboNat Msg Event EventSpec Query QuerySpec QueryProofs EncodeState UQuery UQuerySpec UQueryFacts
  UReplaySpec UReplay BoardAgree.

Local Open Scope N_scope.

Definition shows (a : ucard) (b : card) : Prop := all_newest a /\ shown a = b.
Notation bsim := (bsim ucard card shows).
Notation fsim := (fsim ucard card shows).

Lemma shows0 : shows ucard0 card0.
Proof. split; [intros []; reflexivity|reflexivity]. Qed.

Lemma heap_set_ids' : forall C id (c : C) h, map fst (heap_set id c h) = map fst h.
Proof.
  induction h as [|[k v] h IH]; auto. cbn. destruct (N.eqb_spec k id) as [->|]; cbn; congruence.
Qed.

Lemma set_card_linv : forall id (c : ucard) w, linv ucard w -> linv ucard (l_set_card id c w).
Proof.
  intros id c w [nx [h [L [P [F [-> O]]]]]]. exists nx, (heap_set id c h), L, P, F. split; [reflexivity|].
  assert (E : map fst (heap_set id c h) = map fst h) by apply heap_set_ids'.
  assert (K : forall l, Forall (op_ok ucard h) l -> Forall (op_ok ucard (heap_set id c h)) l).
  { intros l. apply Forall_impl. intros [[i|]|n s|M]; cbn; rewrite ?E; auto. }
  destruct O. split; rewrite ?E; auto.
Qed.

Lemma query_sim : forall use q w f hits w', fsim w f -> uparse_query use q w = Ok (hits, w') ->
  exists f', parse_query use q f = Ok (hits, f') /\ fsim w' f'.
Proof.
  intros use q w f hits w' [Li [Ae [I [EL [EN S]]]]] H. apply uquery_run in H.
  destruct H as [Hc [id [Pl E]]].
  assert (Pf : exists b, card_at_place (qr_place q) f = Ok id /\ heap_get id (f_heap f) = Some b).
  { rewrite <- EL in Hc. destruct (has_card_true _ _ (proj1 (inv_lay _ _ I)) Hc) as [k [i [Sl Ln]]].
    destruct (card_at_place_iff _ _ _ _ _ I Sl) as [[_ [id' [P' [Lv Nt]]]]|[X _]]; [|congruence].
    assert (id' = id) as ->.
    { assert (P2 : card_at_place (qr_place q) (lb_frame w) = Ok id').
      { apply (card_at_place_slot ucard _ _ k i); auto.
        - change (f_lay (lb_frame w)) with (lb_lay w). rewrite <- EL. apply (inv_lay _ _ I).
        - change (f_lay (lb_frame w)) with (lb_lay w). rewrite <- EL. exact Nt.
        - apply heap_get_In in Lv. destruct (heap_get id' (f_heap f)) as [b|] eqn:G; [|congruence].
          destruct (S id' b G) as [a [Ga _]]. congruence. }
      congruence. }
    apply heap_get_In in Lv. destruct (heap_get id (f_heap f)) as [b|] eqn:G; [eauto|congruence]. }
  destruct Pf as [b [Pf G]]. destruct (S id b G) as [a [Ga [Na Sb]]].
  assert (Hh : holds ucard ucard0 (lb_frame w) id = a) by (unfold holds; rewrite Ga; reflexivity).
  rewrite Hh in E. injection E as -> ->.
  destruct (udata_plain use (qr_data q) a Na) as [U1 [U2 U3]].
  unfold parse_query. rewrite EL, Hc. cbn [assert_ obind]. rewrite Pf. cbn [obind]. rewrite G. cbn [or_ub obind].
  rewrite <- Sb. rewrite U2. destruct (parse_data use (qr_data q) (shown a)) as [b' hits] eqn:Ep.
  cbn [fst snd] in *. eexists. split; [reflexivity|].
  split; [apply set_card_linv; auto|]. split; [exact Ae|]. split; [|split; [reflexivity|split; [exact EN|]]].
  - apply (query_inv use q f hits); auto. unfold parse_query. rewrite EL, Hc. cbn [assert_ obind]. rewrite Pf.
    cbn [obind]. rewrite G. cbn [or_ub obind]. rewrite <- Sb, Ep. reflexivity.
  - intros x y. cbn [f_heap l_set_card lb_with_frame lb_frame].
    rewrite heap_set_get' by congruence. rewrite heap_set_get' by congruence.
    destruct (N.eq_dec x id) as [->|]; [|apply S]. intros X. injection X as <-.
    eexists. split; [reflexivity|]. split; auto.
Qed.

Lemma play_sim : forall use s u p hits u', bsim u p -> play use s u = Ok (hits, u') ->
  exists p', pplay use s p = Ok (hits, p') /\ bsim u' p'.
Proof.
  intros use [e|q] u p hits u' S H; cbn [play pplay] in *.
  - apply obind_Ok in H as [b [H1 H2]]. injection H2 as <- <-.
    destruct (bsim_parse ucard card ucard0 card0 shows shows0 e u p b S H1) as [p' [E S']].
    rewrite E. cbn [obind]. eauto.
  - apply obind_Ok in H as [[hs w] [H1 H2]]. injection H2 as <- <-. destruct S as [S K].
    destruct (query_sim use q _ _ _ _ S H1) as [f' [E S']]. rewrite E. cbn [obind].
    eexists. split; [reflexivity|]. split; [exact S'|exact K].
Qed.

Lemma play_all_sim : forall use ss u p u', bsim u p -> play_all use ss u = Ok u' ->
  exists p', pplay_all use ss p = Ok p' /\ bsim u' p'.
Proof.
  induction ss as [|s ss IH]; intros u p u' S H; unfold play_all, pplay_all in *; cbn [ofold] in *.
  - injection H as <-. eauto.
  - apply obind_Ok in H as [u1 [H1 H2]]. apply obind_Ok in H1 as [[hits u2] [H0 H1]]. injection H1 as <-.
    destruct (play_sim _ _ _ _ _ _ S H0) as [p1 [E S1]]. rewrite E. cbn [obind]. eapply IH; eauto.
Qed.

Lemma bsim_scene : forall u p, bsim u p -> plain_scene p = scene_of u.
Proof.
  intros u p [[_ [_ [_ [EL _]]]] [[_ K1] [[_ K2] [[_ K3] [[_ K4] [[_ K5] [[_ K6] [_ K7]]]]]]]].
  unfold plain_scene, scene_of. rewrite EL, K1, K2, K3, K4, K5, K6, K7. destruct (b_lp p); reflexivity.
Qed.

Lemma bsim_card : forall u p pos id, bsim u p -> occupant (lb_lay (b_frame u)) pos = Some (Some id) ->
  exists c, content u id = Some c /\ plain_card p id = Some (shown c) /\ all_newest c.
Proof.
  intros u p [k i] id [[_ [_ [I [EL [_ S]]]]] _] Oc. rewrite <- EL in Oc.
  pose proof (heap_live _ _ k i id I Oc) as Lv. unfold live in Lv. apply heap_get_In in Lv.
  unfold plain_card. destruct (heap_get id (f_heap (b_frame p))) as [b|] eqn:G; [|congruence].
  destruct (S id b G) as [a [Ga [Na <-]]]. eauto.
Qed.

(** The other direction: what the plain board accepts. *)
Lemma query_back : forall use q w f hits f', fsim w f -> parse_query use q f = Ok (hits, f') ->
  exists h w', uparse_query use q w = Ok (h, w').
Proof.
  intros use q w f hits f' [Li [Ae [I [EL [EN S]]]]] H. unfold parse_query in H.
  apply obind_Ok in H as [b [Hb H]]. apply obind_Ok in H as [[] [Ha H]]. destruct b; [|discriminate].
  destruct (has_card_true _ _ (proj1 (inv_lay _ _ I)) Hb) as [k [i [Sl Ln]]].
  destruct (card_at_place_iff _ _ _ _ _ I Sl) as [[_ [id [P' [Lv Nt]]]]|[X _]]; [|congruence].
  do 2 eexists. apply uquery_run. split; [rewrite <- EL; exact Hb|]. exists id. split; [|reflexivity].
  apply (card_at_place_slot ucard _ _ k i); auto.
  - change (f_lay (lb_frame w)) with (lb_lay w). rewrite <- EL. apply (inv_lay _ _ I).
  - change (f_lay (lb_frame w)) with (lb_lay w). rewrite <- EL. exact Nt.
  - apply heap_get_In in Lv. destruct (heap_get id (f_heap f)) as [b|] eqn:G; [|congruence].
    destruct (S id b G) as [a [Ga _]]. congruence.
Qed.

Lemma play_back : forall use s u p hits p', bsim u p -> pplay use s p = Ok (hits, p') ->
  match s with REvent e => no_chain e /\ resizes_fit card0 (event_acts e) (b_frame p) | RQuery _ => True end ->
  exists u', play use s u = Ok (hits, u').
Proof.
  intros use [e|q] u p hits p' S H X; cbn [play pplay] in *.
  - apply obind_Ok in H as [b [H1 H2]]. injection H2 as <- <-.
    destruct (parse_back ucard card ucard0 card0 shows shows0 e u p b S H1 (proj1 X) (proj2 X)) as [u' E].
    rewrite E. cbn [obind]. eauto.
  - apply obind_Ok in H as [[hs f] [H1 H2]]. injection H2 as <- <-. destruct S as [S K].
    destruct (query_back use q _ _ _ _ S H1) as [h [w' E]].
    destruct (query_sim use q _ _ _ _ S E) as [f' [E' _]]. rewrite H1 in E'. injection E' as -> <-.
    rewrite E. cbn [obind]. eauto.
Qed.

Lemma play_all_back : forall use ss u p p', bsim u p -> pplay_all use ss p = Ok p' ->
  steps_fit use ss p -> exists u', play_all use ss u = Ok u'.
Proof.
  induction ss as [|s ss IH]; intros u p p' S H F; unfold play_all, pplay_all in *; cbn [ofold] in *; [eauto|].
  apply obind_Ok in H as [p1 [H1 H2]]. apply obind_Ok in H1 as [[hits p2] [H0 H1]]. injection H1 as <-.
  destruct F as [F1 F2]. destruct (play_back _ _ _ _ _ _ S H0 F1) as [u1 E]. rewrite E. cbn [obind].
  destruct (play_sim _ _ _ _ _ _ S E) as [p3 [E3 S3]]. rewrite H0 in E3. injection E3 as <-.
  eapply IH; eauto.
Qed.

Lemma play_all_fit : forall use ss u p u', bsim u p -> play_all use ss u = Ok u' -> steps_fit use ss p.
Proof.
  induction ss as [|s ss IH]; intros u p u' S H; [exact Logic.I|]. unfold play_all in H. cbn [ofold] in H.
  apply obind_Ok in H as [u1 [H1 H2]]. apply obind_Ok in H1 as [[hits u2] [H0 H1]]. injection H1 as <-.
  split.
  - destruct s as [e|q]; auto. cbn [play] in H0. apply obind_Ok in H0 as [b [H1 _]].
    exact (parse_fit ucard card ucard0 card0 shows shows0 e u p b S H1).
  - intros h p1 E. destruct (play_sim _ _ _ _ _ _ S H0) as [p2 [E2 S2]]. rewrite E in E2. injection E2 as -> ->.
    eapply IH; eauto.
Qed.
