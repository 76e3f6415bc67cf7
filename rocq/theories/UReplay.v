(** Walking through a recording of events and queries. *)
From Verif Require Import Base BaseProofs Place PlaceProofs Frame FrameSpec Limbo LimboSpec LimboProofs LimboFacts
  LimboUndo LimboNat FrameFacts
  Msg Event EventSpec EventUndo BoardNat Query QuerySpec QueryProofs UQuery UQuerySpec UQueryProofs UQueryFacts
  UReplaySpec.

Local Open Scope N_scope.

Notation fr b := (lb_frame (b_frame b)).
Notation held f id := (holds ucard ucard0 f id).
Notation strip b := (bmap ucard unit (fun _ => tt) b).

Definition evof (s : rstep) : event := match s with REvent e => e | RQuery _ => EvNotSet end.

(** ** One query in a frame *)

Lemma heap_set_get' : forall C id (c : C) (h : list (N * C)) x, heap_get id h <> None ->
  heap_get x (heap_set id c h) = if N.eq_dec x id then Some c else heap_get x h.
Proof.
  induction h as [|[k v] h IH]; intros x H; simpl in *; [congruence|].
  destruct (N.eqb_spec k id) as [->|Nk]; simpl.
  - destruct (N.eqb_spec id x) as [->|Nx]; destruct (N.eq_dec x _); congruence.
  - destruct (N.eqb_spec k x) as [->|Nx]; [destruct (N.eq_dec x id); congruence|auto].
Qed.

Lemma strip_set : forall id c (w : limbo ucard),
  lmap ucard unit (fun _ => tt) (l_set_card id c w) = lmap ucard unit (fun _ => tt) w.
Proof.
  intros id c [[nx h L] o p l]. unfold l_set_card, lmap, fmap, lb_with_frame. cbn. f_equal. f_equal.
  induction h as [|[k v] h IH]; auto. cbn. destruct (N.eqb_spec k id) as [->|]; cbn; f_equal; auto.
Qed.

Lemma strip_set_frame : forall id c (b : uboard ucard),
  strip (set_frame (l_set_card id c (b_frame b)) b) = strip b.
Proof. intros. unfold bmap, set_frame. cbn [b_frame b_chain b_turn b_turn_controller b_lp b_phase b_blocked].
  rewrite strip_set. reflexivity.
Qed.

Lemma fresh_set : forall id c (w : limbo ucard), fresh ucard (lb_frame w) ->
  fresh ucard (lb_frame (l_set_card id c w)).
Proof.
  intros id c [[nx h L] o p l] H. unfold fresh in *. cbn in *.
  induction H as [|[k v] h X H IH]; cbn; auto. destruct (N.eqb_spec k id) as [->|]; constructor; auto.
Qed.

Lemma held_set : forall id c (w : limbo ucard) x, heap_get id (f_heap (lb_frame w)) <> None ->
  held (lb_frame (l_set_card id c w)) x = if N.eq_dec x id then c else held (lb_frame w) x.
Proof.
  intros id c w x H. unfold holds. cbn. rewrite heap_set_get' by auto. destruct (N.eq_dec x id); auto.
Qed.

Lemma place_alive : forall p (f : frame ucard) id, card_at_place p f = Ok id -> heap_get id (f_heap f) <> None.
Proof. intros p f id H. unfold card_at_place in H. inv_ok. congruence. Qed.

Lemma card_at_same : forall p (f f' : frame ucard) id, f_lay f' = f_lay f -> card_at_place p f = Ok id ->
  heap_get id (f_heap f') <> None -> card_at_place p f' = Ok id.
Proof.
  intros p f f' id E H A. unfold card_at_place in *. rewrite E. inv_ok.
  rewrite E0, E1. cbn [assert_ obind]. rewrite E3. cbn [obind]. rewrite E4. cbn [obind].
  destruct (heap_get id (f_heap f')); [reflexivity|congruence].
Qed.

(** What parsing a query comes to. *)
Lemma uquery_run : forall use q (w : limbo ucard) hits w',
  uparse_query use q w = Ok (hits, w') <->
  has_card (qr_place q) (lb_lay w) = Ok true /\ exists id,
    card_at_place (qr_place q) (lb_frame w) = Ok id /\
    (w', hits) = (l_set_card id (fst (uparse_data use (qr_data q) (held (lb_frame w) id))) w,
                  snd (uparse_data use (qr_data q) (held (lb_frame w) id))).
Proof.
  intros use q w hits w'. unfold uparse_query. split.
  - intros H. inv_ok. subst. split; [exact E|]. exists r1. split; [exact E1|].
    unfold holds. rewrite E2. destruct (uparse_data use (qr_data q) r2). injection H as <- <-. reflexivity.
  - intros [H [id [P E]]]. rewrite H. cbn [assert_ obind]. rewrite P. cbn [obind].
    pose proof (place_alive _ _ _ P) as A. unfold holds in E.
    destruct (heap_get id (f_heap (lb_frame w))) as [c|]; [|congruence]. cbn [or_ub obind].
    destruct (uparse_data use (qr_data q) c). injection E as -> ->. reflexivity.
Qed.

Section Replay.
Variable use : bool.
Variable ss : list rstep.
Variable bn : uboard ucard.
Notation b0 := (uboard0 ucard).
Hypothesis rec : play_all use ss b0 = Ok bn.

Let n := length ss.
Let st (i : nat) : uboard ucard := match play_all use (firstn i ss) b0 with Ok b => b | _ => b0 end.
Let sv (i : nat) : rstep := nth i ss (REvent EvNotSet).
Let es : list event := map evof ss.

Lemma firstn_S_sv : forall i, (i < n)%nat -> firstn (S i) ss = firstn i ss ++ [sv i].
Proof.
  unfold n, sv. clear. induction ss as [|e l IH]; intros i H; [simpl in H; lia|].
  destruct i; [reflexivity|]. simpl in *. rewrite <- IH by lia. reflexivity.
Qed.

Lemma rrec_prefix : forall i, (i <= n)%nat -> play_all use (firstn i ss) b0 = Ok (st i).
Proof.
  intros i H. unfold st. pose proof rec as R. rewrite <- (firstn_skipn i ss) in R.
  unfold play_all in *. rewrite ofold_app in R. apply obind_Ok in R as [b [E _]]. rewrite E. auto.
Qed.

Lemma rrec_step : forall i, (i < n)%nat -> exists hits, play use (sv i) (st i) = Ok (hits, st (S i)).
Proof.
  intros i H. pose proof (rrec_prefix (S i) H) as E. rewrite firstn_S_sv in E by auto.
  unfold play_all in E. rewrite ofold_app in E. fold (play_all use (firstn i ss) b0) in E.
  rewrite rrec_prefix in E by lia. cbn [obind ofold] in E.
  apply obind_Ok in E as [b [E X]]. injection X as ->.
  apply obind_Ok in E as [[h b'] [E X]]. injection X as ->. eauto.
Qed.

Lemma play_strip : forall s b hits b', play use s b = Ok (hits, b') ->
  uparse tt (evof s) (strip b) = Ok (strip b').
Proof.
  intros [e|q] b hits b' H; cbn [play evof] in *.
  - inv_ok. pose proof (uparse_map ucard unit (fun _ => tt) ucard0 tt eq_refl e b) as M.
    rewrite E in M. exact M.
  - apply obind_Ok in H as [[h w] [H X]]. injection X as <- <-.
    apply uquery_run in H. destruct H as [_ [id [_ E]]]. injection E as -> ->.
    rewrite strip_set_frame. reflexivity.
Qed.

Lemma play_all_strip : forall l b b', play_all use l b = Ok b' ->
  parse_all tt (map evof l) (strip b) = Ok (strip b').
Proof.
  induction l as [|s l IH]; intros b b' H.
  - injection H as <-. reflexivity.
  - unfold play_all in H. cbn [ofold] in H. apply obind_Ok in H as [b1 [H1 H2]].
    apply obind_Ok in H1 as [[h b2] [H1 X]]. injection X as <-. apply play_strip in H1.
    unfold parse_all. cbn [map ofold]. rewrite H1. cbn [obind]. apply IH. exact H2.
Qed.

Lemma rec' : parse_all tt es (strip b0) = Ok (strip bn).
Proof. apply play_all_strip. exact rec. Qed.
Lemma und' : steps_undoable use ss b0 -> all_undoable tt es (strip b0).
Proof.
  unfold es. intros U. pose proof rec as R. revert U R. generalize b0 as b. clear rec.
  unfold es in *. clear es. unfold sv in *. clear sv st n. induction ss as [|s l IH]; intros b U R; [exact I|].
  destruct U as [U1 U2]. unfold play_all in R. cbn [ofold] in R. apply obind_Ok in R as [b1 [R1 R2]].
  apply obind_Ok in R1 as [[h b2] [R1 X]]. injection X as <-. cbn [map]. split.
  - destruct s; [|exact I]. apply (event_undoable_map ucard unit (fun _ => tt) ucard0 tt eq_refl). exact U1.
  - intros b' E. rewrite (play_strip _ _ _ _ R1) in E. injection E as <-. apply IH; eauto.
Qed.
Lemma reach' : board_reachable tt (strip b0).
Proof. exists []. reflexivity. Qed.
Lemma live' : board_live (strip b0).
Proof. repeat split; reflexivity. Qed.

(** The stripped live run is the live run of the events. *)
Lemma st_strip : forall i, (i <= n)%nat ->
  match parse_all tt (firstn i es) (strip b0) with Ok b => b | _ => strip b0 end = strip (st i).
Proof.
  intros i H. unfold es. rewrite firstn_map, (play_all_strip _ _ _ (rrec_prefix i H)). reflexivity.
Qed.

(** Which card a query is about, what it makes its members record, its hits. *)
Definition about (i : nat) : option cid :=
  match sv i with
  | RQuery q => match card_at_place (qr_place q) (fr (st i)) with Ok id => Some id | _ => None end
  | REvent _ => None
  end.
Definition part (id : cid) (x : field) (i : nat) : option (fval -> fval) :=
  match sv i, about i with
  | RQuery q, Some t =>
      if N.eq_dec id t then
        option_map (fun v _ => v)
          (records use (qr_data q) x (u_get (ucard_field x (held (fr (st i)) id))))
      else None
  | _, _ => None
  end.
Definition hits_at (i : nat) : N :=
  match sv i, about i with
  | RQuery q, Some t => snd (parse_data use (qr_data q) (shown (held (fr (st i)) t)))
  | _, _ => 0
  end.
Fixpoint hits_before (i : nat) : list N :=
  match i with O => [] | S j => hits_at j :: hits_before j end.

Definition cards_at (i m : nat) (b : uboard ucard) : Prop :=
  forall id x, vat fval (part id x) (fun j => ucard_field x (held (fr (st j)) id)) i m
    (ucard_field x (held (fr b) id)).

Lemma st_fresh : forall i, (i <= n)%nat -> fresh ucard (fr (st i)).
Proof.
  induction i; intros H.
  - unfold st. cbn. constructor.
  - specialize (IHi ltac:(lia)). destruct (rrec_step i H) as [h E].
    destruct (sv i) as [e|q]; cbn [play] in E.
    + inv_ok. apply (uparse_new ucard ucard0) in E0. eapply only_new_fresh; eauto.
    + apply obind_Ok in E as [[h' w] [E X]]. injection X as _ X. rewrite <- X. cbn [b_frame set_frame].
      apply uquery_run in E. destruct E as [_ [id [_ E]]]. injection E as -> _. apply fresh_set. auto.
Qed.

Lemma put_vstep : forall o u, put_in o u = vstep (option_map (fun v _ => v) o) u.
Proof. intros [v|] u; reflexivity. Qed.

Lemma cards_step : forall id x i, (i < n)%nat ->
  ucard_field x (held (fr (st (S i))) id) = vstep (part id x i) (ucard_field x (held (fr (st i)) id)).
Proof.
  intros id x i H. destruct (rrec_step i H) as [h E]. unfold part, about.
  destruct (sv i) as [e|q]; cbn [play] in E.
  - inv_ok. apply (uparse_new ucard ucard0) in E0.
    rewrite (only_new_holds ucard ucard0 _ _ id E0) by (apply st_fresh; lia). reflexivity.
  - apply obind_Ok in E as [[h' w] [E X]]. injection X as _ X. rewrite <- X. cbn [b_frame set_frame].
    apply uquery_run in E. destruct E as [_ [t [P E]]]. injection E as -> _. rewrite P.
    rewrite held_set by (eapply place_alive; eauto). destruct (N.eq_dec id t) as [->|]; [|reflexivity].
    rewrite udata_field, put_vstep. reflexivity.
Qed.

Lemma cards_live : forall id x, u_next (ucard_field x (held (fr (st 0)) id)) = [].
Proof. intros id x. unfold st. cbn. destruct x; reflexivity. Qed.

Lemma hits_ok : forall i h b', (i < n)%nat -> play use (sv i) (st i) = Ok (h, b') -> h = hits_at i.
Proof.
  intros i h b' H E. unfold hits_at, about. destruct (sv i) as [e|q]; cbn [play] in E.
  - inv_ok. reflexivity.
  - apply obind_Ok in E as [[h' w] [E X]]. injection X as <- _.
    apply uquery_run in E. destruct E as [_ [t [P E]]]. injection E as _ ->. rewrite P. apply udata_hits.
Qed.

Definition rat (i m : nat) (b : uboard ucard) : Prop :=
  bat unit tt es (strip b0) i m (strip b) /\ fresh ucard (fr b) /\ cards_at i m b.

Lemma ev_nth : forall i, nth i es EvNotSet = evof (sv i).
Proof. intros i. unfold es, sv. exact (map_nth evof ss (REvent EvNotSet) i). Qed.

Lemma len_es : length es = n.
Proof. unfold es. apply map_length. Qed.

Lemma rat_view : forall i m b, (i <= m)%nat -> (m <= n)%nat -> rat i m b ->
  scene_of b = scene_of (st i) /\
  (forall id, content (st i) id <> None -> content b id <> None) /\
  (forall id, same_so_far (held (fr b) id) (held (fr (st i)) id)).
Proof.
  intros i m b Hi Hm (B & _ & K). rewrite <- len_es in Hm.
  destruct (bat_scene unit tt es (strip b0) reach' live' (strip bn) rec' i m (strip b) Hi Hm B)
    as [S1 S2].
  rewrite len_es in Hm. rewrite st_strip in S1, S2 by lia. refine (conj _ (conj _ _)).
  - rewrite !scene_map in S1. exact S1.
  - intros id H. specialize (S2 id). rewrite !content_map in S2. intros X. rewrite X in S2.
    destruct (content (st i) id); [|congruence]. cbn in S2. specialize (S2 ltac:(discriminate)).
    discriminate.
  - intros id x. rewrite (K id x). split; reflexivity.
Qed.

Lemma so_far_shown : forall c c', same_so_far c c' -> shown c = shown c'.
Proof. intros c c' H. apply card_ext. intros x. rewrite !shown_field. apply (H x). Qed.

Lemma query_here : forall i m b q, (i <= m)%nat -> (m <= n)%nat -> (i < n)%nat -> rat i m b ->
  sv i = RQuery q -> exists t, about i = Some t /\ has_card (qr_place q) (lb_lay (b_frame b)) = Ok true /\
    card_at_place (qr_place q) (fr b) = Ok t.
Proof.
  intros i m b q Hi Hm Hn R Sv. destruct (rat_view i m b Hi Hm R) as [V1 [V2 V3]].
  destruct (rrec_step i Hn) as [h E]. rewrite Sv in E. cbn [play] in E.
  apply obind_Ok in E as [[h' w] [E X]]. apply uquery_run in E. destruct E as [Hc [t [P _]]].
  exists t. unfold about. rewrite Sv, P. split; auto.
  assert (L : lb_lay (b_frame b) = lb_lay (b_frame (st i))) by (injection V1; auto).
  split; [rewrite L; auto|]. eapply card_at_same; [exact L|exact P|].
  apply (V2 t). apply (place_alive _ _ _ P).
Qed.

Lemma rat_step : forall i m m' b,
  (i = m /\ m' = S m \/ i < m /\ m' = m)%nat -> (i < n)%nat -> (m <= n)%nat -> rat i m b ->
  exists b', play use (sv i) b = Ok (hits_at i, b') /\ rat (S i) m' b'.
Proof.
  intros i m m' b Hm' Hi Hm R. assert (Him : (i <= m)%nat) by lia.
  destruct (rat_view i m b Him Hm R) as [V1 [V2 V3]]. pose proof R as R0. destruct R0 as (B & Fb & K).
  assert (K' : forall id x, vat fval (part id x) (fun j => ucard_field x (held (fr (st j)) id)) (S i) m'
    (vstep (part id x i) (ucard_field x (held (fr b) id)))).
  { intros id x. destruct Hm' as [[-> ->]|[H ->]].
    - apply (vat_live fval n (part id x) (fun j => ucard_field x (held (fr (st j)) id))); auto.
      apply cards_live. intros j Hj. apply cards_step; auto.
    - apply (vat_redo fval n (part id x) (fun j => ucard_field x (held (fr (st j)) id))); auto.
      apply cards_live. intros j Hj. apply cards_step; auto. }
  destruct (bat_step unit tt es (strip b0) reach' live' (strip bn) rec' i m m' (strip b) Hm'
    ltac:(rewrite len_es; lia) ltac:(rewrite len_es; lia) B) as [bs [E B']].
  rewrite ev_nth in E. destruct (sv i) as [e|q] eqn:Sv; cbn [evof] in E.
  - pose proof (uparse_map ucard unit (fun _ => tt) ucard0 tt eq_refl e b) as M.
    destruct (uparse ucard0 e b) as [b'| | |] eqn:P; try (exfalso; eapply M; exact E).
    rewrite E in M. injection M as ->. cbn [play]. rewrite P. cbn [obind].
    exists b'. split; [unfold hits_at; rewrite Sv; reflexivity|].
    apply (uparse_new ucard ucard0) in P. refine (conj B' (conj _ _)).
    + eapply only_new_fresh; eauto.
    + intros id x. rewrite (only_new_holds ucard ucard0 _ _ id P Fb).
      specialize (K' id x). unfold part in K' at 2. rewrite Sv in K'. exact K'.
  - injection E as <-. destruct (query_here i m b q Him Hm Hi R Sv) as [t [Ab [Hc P]]].
    cbn [play].
    assert (Q := proj2 (uquery_run use q (b_frame b)
      (snd (uparse_data use (qr_data q) (held (fr b) t)))
      (l_set_card t (fst (uparse_data use (qr_data q) (held (fr b) t))) (b_frame b)))
      (conj Hc (ex_intro _ t (conj P eq_refl)))).
    rewrite Q. cbn [obind]. eexists. split.
    + unfold hits_at. rewrite Sv, Ab, udata_hits, (so_far_shown _ _ (V3 t)). reflexivity.
    + refine (conj _ (conj _ _)).
      * rewrite strip_set_frame. exact B'.
      * apply fresh_set. exact Fb.
      * intros id x. cbn [b_frame set_frame].
        rewrite held_set by (eapply place_alive; eauto).
        specialize (K' id x). unfold part in K' at 2. rewrite Sv, Ab in K'.
        destruct (N.eq_dec id t) as [->|]; [|exact K'].
        rewrite udata_field, put_vstep. unfold u_get at 1. rewrite (proj1 (V3 t x)). exact K'.
Qed.

Lemma rat_back_board : forall i m b bs, (S i <= m)%nat -> (m <= n)%nat -> rat (S i) m b ->
  uundo tt (nth i es EvNotSet) (strip b) = Ok bs -> bat unit tt es (strip b0) i m bs ->
  exists b', unplay (sv i) (hits_at i) b = Ok b' /\ rat i m b'.
Proof.
  intros i m b bs Hi Hm R E B'. pose proof R as R0. destruct R0 as (B & Fb & K).
  assert (K' : forall id x, exists u', vundo (part id x i) (ucard_field x (held (fr b) id)) = Ok u' /\
    vat fval (part id x) (fun j => ucard_field x (held (fr (st j)) id)) i m u').
  { intros id x.
    apply (vat_undo fval n (part id x) (fun j => ucard_field x (held (fr (st j)) id))); auto.
    apply cards_live. intros j Hj. apply cards_step; auto. }
  rewrite ev_nth in E. destruct (sv i) as [e|q] eqn:Sv; cbn [evof] in E.
  - rewrite (uundo_map ucard unit (fun _ => tt) ucard0 tt eq_refl) in E. unfold omap in E.
    apply obind_Ok in E as [b' [P X]]. injection X as <-. cbn [unplay]. exists b'. split; [exact P|].
    apply (uundo_new ucard ucard0) in P. refine (conj B' (conj _ _)).
    + eapply only_new_fresh; eauto.
    + intros id x. rewrite (only_new_holds ucard ucard0 _ _ id P Fb).
      destruct (K' id x) as [u' [U V]]. unfold part in U. rewrite Sv in U. injection U as <-. exact V.
  - injection E as <-.
    (* the layout and the cards alive are those of position i *)
    assert (Hm1 : (m <= length es)%nat) by (rewrite len_es; lia).
    destruct (bat_scene unit tt es (strip b0) reach' live' (strip bn) rec' i m (strip b)
      ltac:(lia) Hm1 B') as [S1 S2].
    rewrite st_strip in S1, S2 by lia. rewrite !scene_map in S1.
    assert (L : lb_lay (b_frame b) = lb_lay (b_frame (st i))) by (injection S1; auto).
    destruct (rrec_step i ltac:(lia)) as [h Q]. rewrite Sv in Q. cbn [play] in Q.
    apply obind_Ok in Q as [[h' w] [Q _]]. apply uquery_run in Q. destruct Q as [_ [t [P _]]].
    assert (Ab : about i = Some t) by (unfold about; rewrite Sv, P; reflexivity).
    assert (Al : heap_get t (f_heap (fr b)) <> None).
    { specialize (S2 t). rewrite !content_map in S2. pose proof (place_alive _ _ _ P) as A.
      unfold content in S2. destruct (heap_get t (f_heap (fr (st i)))); [|congruence].
      specialize (S2 ltac:(discriminate)). destruct (heap_get t (f_heap (fr b))); discriminate. }
    assert (P' : card_at_place (qr_place q) (fr b) = Ok t) by (eapply card_at_same; eauto).
    assert (Nd : forall x, needs_undo (qr_data q) (hits_at i) x =
      match part t x i with Some _ => true | None => false end).
    { intros x. unfold hits_at, part. rewrite Sv, Ab, needs_records, shown_field.
      destruct (N.eq_dec t t); [|congruence]. destruct (records _ _ _ _); reflexivity. }
    destruct (take_back_exists (qr_data q) (hits_at i) (held (fr b) t)) as [c' T].
    { intros x X. rewrite Nd in X. destruct (K' t x) as [u' [U _]].
      destruct (part t x i); [|discriminate]. cbn [vundo] in U. unfold u_undo in U.
      destruct (u_past _); discriminate. }
    cbn [unplay]. exists (set_frame (l_set_card t c' (b_frame b)) b). split.
    + unfold on_frame, take_back_query. rewrite P'. cbn [obind]. unfold holds in T.
      destruct (heap_get t (f_heap (fr b))) as [c|]; [|congruence]. cbn [or_ub obind]. rewrite T. reflexivity.
    + refine (conj _ (conj _ _)).
      * rewrite strip_set_frame. exact B'.
      * apply fresh_set. exact Fb.
      * intros id x. cbn [b_frame set_frame]. rewrite held_set by auto.
        destruct (K' id x) as [u' [U V]].
        destruct (N.eq_dec id t) as [->|Ne].
        -- pose proof (proj1 (take_back_fields _ _ _ _) T x) as F. rewrite Nd in F.
           assert (Y : u_undo_if (match part t x i with Some _ => true | None => false end)
             (ucard_field x (held (fr b) t)) = vundo (part t x i) (ucard_field x (held (fr b) t))).
           { destruct (part t x i); reflexivity. }
           rewrite Y, U in F. injection F as <-. exact V.
        -- unfold part in U. rewrite Sv, Ab in U. destruct (N.eq_dec id t); [congruence|].
           injection U as <-. exact V.
Qed.

Lemma rat_back : steps_undoable use ss b0 -> forall i m b, (S i <= m)%nat -> (m <= n)%nat -> rat (S i) m b ->
  exists b', unplay (sv i) (hits_at i) b = Ok b' /\ rat i m b'.
Proof.
  intros und i m b Hi Hm R. pose proof (proj1 R) as B.
  destruct (bat_back unit tt es (strip b0) reach' live' (strip bn) rec' i m (strip b) Hi
    ltac:(rewrite len_es; lia)
    (und_at unit tt es (strip b0) (strip bn) rec' (und' und) i ltac:(rewrite len_es; lia)) B) as [bs [E B']].
  eapply rat_back_board; eauto.
Qed.

(** Whatever can be taken back leads back. *)
Lemma rat_undone : forall i m b b', (S i <= m)%nat -> (m <= n)%nat -> rat (S i) m b ->
  unplay (sv i) (hits_at i) b = Ok b' -> rat i m b'.
Proof.
  intros i m b b' Hi Hm R H. pose proof (proj1 R) as B.
  assert (X : exists bs, uundo tt (nth i es EvNotSet) (strip b) = Ok bs).
  { rewrite ev_nth. destruct (sv i) as [e|q]; cbn [unplay evof] in *.
    - rewrite (uundo_map ucard unit (fun _ => tt) ucard0 tt eq_refl), H. eexists. reflexivity.
    - eexists. reflexivity. }
  destruct X as [bs E].
  pose proof (bat_undone unit tt es (strip b0) reach' live' (strip bn) rec' i m (strip b) bs Hi
    ltac:(rewrite len_es; lia) B E) as B'.
  destruct (rat_back_board i m b bs Hi Hm R E B') as [b2 [U A]]. rewrite H in U. injection U as <-.
  exact A.
Qed.

Lemma nth_sv : forall i, (i < n)%nat -> nth_error ss i = Some (sv i).
Proof. intros i H. apply nth_error_nth'. exact H. Qed.

Lemma rat_start : rat 0 0 b0.
Proof.
  refine (conj _ (conj _ _)).
  - apply (bat_start unit tt es (strip b0) reach' live' (strip bn) rec').
  - constructor.
  - intros id x.
    apply (vat_start fval (part id x) (fun j => ucard_field x (held (fr (st j)) id))).
    apply cards_live.
Qed.

Theorem rwalk_rat : steps_undoable use ss b0 -> forall ms, exists i m b, rwalk use ss ms (0%nat, [], b0) = Ok (i, hits_before i, b) /\
  (i <= m)%nat /\ (m <= n)%nat /\ rat i m b.
Proof.
  intros und. assert (G : forall ms i m b, (i <= m)%nat -> (m <= n)%nat -> rat i m b ->
    exists i' m' b', rwalk use ss ms (i, hits_before i, b) = Ok (i', hits_before i', b') /\
      (i' <= m')%nat /\ (m' <= n)%nat /\ rat i' m' b').
  { induction ms as [|mv ms IH]; intros i m b Hi Hm B.
    - exists i, m, b. repeat split; auto; apply B.
    - unfold rwalk. cbn [ofold]. destruct mv; cbn [rmove].
      + destruct (Nat.eq_dec i n) as [->|Hn].
        * replace (nth_error ss n) with (@None rstep) by (symmetry; apply nth_error_None; unfold n; lia).
          cbn [obind]. apply (IH n m b); auto.
        * rewrite nth_sv by lia.
          set (m' := if Nat.eqb i m then S m else m).
          assert (Hm' : (i = m /\ m' = S m \/ i < m /\ m' = m)%nat).
          { unfold m'. destruct (Nat.eqb_spec i m); lia. }
          destruct (rat_step i m m' b Hm' ltac:(lia) Hm B) as [b' [E B']].
          rewrite E. cbn [obind]. apply (IH (S i) m' b'); auto; lia.
      + destruct i as [|i].
        * cbn [obind]. apply (IH 0%nat m b); auto.
        * cbn [hits_before]. rewrite nth_sv by lia. destruct (rat_back und i m b Hi Hm B) as [b' [E B']].
          rewrite E. cbn [obind]. apply (IH i m b'); auto; lia. }
  intros ms. apply (G ms 0%nat 0%nat b0); try lia. apply rat_start.
Qed.

(** A walk that gets through. *)
Theorem rwalked_rat : forall ms i hs b, rwalk use ss ms (0%nat, [], b0) = Ok (i, hs, b) ->
  hs = hits_before i /\ exists m, (i <= m)%nat /\ (m <= n)%nat /\ rat i m b.
Proof.
  assert (G : forall ms i m b i' hs b', (i <= m)%nat -> (m <= n)%nat -> rat i m b ->
    rwalk use ss ms (i, hits_before i, b) = Ok (i', hs, b') ->
    hs = hits_before i' /\ exists m', (i' <= m')%nat /\ (m' <= n)%nat /\ rat i' m' b').
  { induction ms as [|mv ms IH]; intros i m b i' hs b' Hi Hm B W.
    - injection W as <- <- <-. split; [reflexivity|]. exists m. repeat split; auto; apply B.
    - unfold rwalk in W. cbn [ofold] in W. apply obind_Ok in W as [[[j hj] c] [W1 W2]].
      destruct mv; cbn [rmove] in W1.
      + destruct (Nat.eq_dec i n) as [->|Hn].
        * replace (nth_error ss n) with (@None rstep) in W1
            by (symmetry; apply nth_error_None; unfold n; lia).
          injection W1 as <- <- <-. apply (IH n m b i' hs b'); auto.
        * rewrite nth_sv in W1 by lia.
          set (m' := if Nat.eqb i m then S m else m).
          assert (Hm' : (i = m /\ m' = S m \/ i < m /\ m' = m)%nat).
          { unfold m'. destruct (Nat.eqb_spec i m); lia. }
          destruct (rat_step i m m' b Hm' ltac:(lia) Hm B) as [b1 [E B']].
          rewrite E in W1. injection W1 as <- <- <-. apply (IH (S i) m' b1 i' hs b'); auto; lia.
      + destruct i as [|i].
        * injection W1 as <- <- <-. apply (IH 0%nat m b i' hs b'); auto.
        * cbn [hits_before] in W1. rewrite nth_sv in W1 by lia.
          apply obind_Ok in W1 as [b1 [E X]]. injection X as <- <- <-.
          pose proof (rat_undone i m b b1 Hi Hm B E) as B'. apply (IH i m b1 i' hs b'); auto; lia. }
  intros ms i hs b W. apply (G ms 0%nat 0%nat b0 i hs b); try lia; auto. apply rat_start.
Qed.

Lemma st_alive : forall i pos id, (i <= n)%nat -> occupant (lb_lay (b_frame (st i))) pos = Some (Some id) ->
  content (st i) id <> None.
Proof.
  intros i pos id H Oc.
  destruct (frame_live_at unit tt es (strip b0) reach' live' (strip bn) rec' i
    ltac:(rewrite len_es; lia)) as [nx [h [L [P [E O]]]]].
  rewrite st_strip in E by lia.
  assert (I : linv unit (b_frame (strip (st i)))) by (rewrite E; unfold linv; eauto 10).
  destruct (limbo_refs unit _ I) as [A _]. specialize (A pos id Oc).
  unfold card_alive, live in A. apply heap_get_In in A. intros X. apply A.
  change (content (strip (st i)) id = None). rewrite content_map, X. reflexivity.
Qed.

Lemma rat_shows : forall i m b, (i <= m)%nat -> (m <= n)%nat -> rat i m b ->
  exists bi, play_all use (firstn i ss) b0 = Ok bi /\ scene_of b = scene_of bi /\
  (forall pos id, occupant (lb_lay (b_frame b)) pos = Some (Some id) ->
     exists c c', content bi id = Some c /\ content b id = Some c' /\ same_so_far c' c) /\
  forall id c, content bi id = Some c -> exists c', content b id = Some c' /\ same_so_far c' c.
Proof.
  intros i m b Hi Hm R. exists (st i).
  split; [apply rrec_prefix; lia|]. destruct (rat_view i m b Hi Hm R) as [V1 [V2 V3]]. split; [exact V1|].
  assert (G : forall id c, content (st i) id = Some c ->
    exists c', content b id = Some c' /\ same_so_far c' c).
  { intros id c H. specialize (V2 id). specialize (V3 id). unfold content, holds in *. rewrite H in *.
    destruct (heap_get id (f_heap (fr b))) as [c'|]; [|exfalso; apply V2; congruence].
    exists c'. auto. }
  split; [|exact G]. intros pos id Oc.
  assert (L : lb_lay (b_frame b) = lb_lay (b_frame (st i))) by (injection V1; auto).
  rewrite L in Oc. apply st_alive in Oc; [|lia].
  destruct (content (st i) id) as [c|] eqn:Hc; [|congruence].
  destruct (G id c Hc) as [c' K]. exists c, c'. auto.
Qed.

(** Wherever a viewer has scrubbed to, they see what the recording showed when
    it was first played up to there. *)
Theorem rwalk_scene : steps_undoable use ss b0 -> forall ms, exists i hs b bi,
  rwalk use ss ms (0%nat, [], b0) = Ok (i, hs, b) /\ (i <= length ss)%nat /\
  play_all use (firstn i ss) b0 = Ok bi /\ scene_of b = scene_of bi /\
  (forall pos id, occupant (lb_lay (b_frame b)) pos = Some (Some id) ->
     exists c c', content bi id = Some c /\ content b id = Some c' /\ same_so_far c' c) /\
  forall id c, content bi id = Some c -> exists c', content b id = Some c' /\ same_so_far c' c.
Proof.
  intros und ms. destruct (rwalk_rat und ms) as [i [m [b [E [Hi [Hm R]]]]]].
  destruct (rat_shows i m b Hi Hm R) as [bi G].
  exists i, (hits_before i), b, bi. split; [exact E|]. split; [fold n; lia|]. exact G.
Qed.

Theorem rwalked_scene : forall ms i hs b, rwalk use ss ms (0%nat, [], b0) = Ok (i, hs, b) ->
  (i <= length ss)%nat /\ exists bi, play_all use (firstn i ss) b0 = Ok bi /\ scene_of b = scene_of bi /\
  (forall pos id, occupant (lb_lay (b_frame b)) pos = Some (Some id) ->
     exists c c', content bi id = Some c /\ content b id = Some c' /\ same_so_far c' c) /\
  forall id c, content bi id = Some c -> exists c', content b id = Some c' /\ same_so_far c' c.
Proof.
  intros ms i hs b W. destruct (rwalked_rat ms i hs b W) as [_ [m [Hi [Hm R]]]].
  split; [fold n; lia|]. exact (rat_shows i m b Hi Hm R).
Qed.

End Replay.
