(** C76-C78: queries on undoable cards, and replays of events and queries. *)
From Verif Require Import Base BaseProofs Place Frame FrameSpec Limbo LimboSpec Msg Event EventSpec EventUndo
  LimboNat Query QuerySpec QueryProofs UQuery UQuerySpec UQueryProofs UQueryFacts UReplaySpec UReplay PropsBoard
  PropsQuery.

Local Open Scope N_scope.

Notation cell w id := (heap_get id (f_heap (lb_frame w))).

(** C76: one card is touched; with all its members at their newest value, each
    member the query carries shows the query's value and records it on top of
    the earlier ones, unless caching found it there already.  Missing: members
    whose last values were undone, see below. *)
Theorem C76_undoable_query_partial : forall use q w hits w', uparse_query use q w = Ok (hits, w') ->
  exists id c c', card_at_place (qr_place q) (lb_frame w) = Ok id /\ cell w id = Some c /\
    cell w' id = Some c' /\ (forall y, y <> id -> cell w' y = cell w y) /\
    lb_lay w' = lb_lay w /\ lb_op w' = lb_op w /\ lb_processed w' = lb_processed w /\ lb_ops w' = lb_ops w /\
    (all_newest c -> all_newest c' /\ forall x,
      match query_field x (qr_data q) with
      | None => ucard_field x c' = ucard_field x c
      | Some v =>
          u_cur (ucard_field x c') = v /\
          (use = true /\ cached_field x /\ u_cur (ucard_field x c) = v ->
             ucard_field x c' = ucard_field x c) /\
          (~ (use = true /\ cached_field x /\ u_cur (ucard_field x c) = v) ->
             u_past (ucard_field x c') = u_cur (ucard_field x c) :: u_past (ucard_field x c))
      end).
Proof.
  intros use q w hits w' H. apply uquery_run in H. destruct H as [_ [id [P E]]]. injection E as -> _.
  pose proof (place_alive _ _ _ P) as A. unfold holds.
  destruct (cell w id) as [c|] eqn:Hc; [|congruence].
  exists id, c, (fst (uparse_data use (qr_data q) c)).
  split; auto. split; auto.
  assert (G : forall y, cell (l_set_card id (fst (uparse_data use (qr_data q) c)) w) y =
    if N.eq_dec y id then Some (fst (uparse_data use (qr_data q) c)) else cell w y).
  { intros y. cbn. apply heap_set_get'. congruence. }
  split; [rewrite G; destruct (N.eq_dec id id); congruence|].
  split; [intros y Hy; rewrite G; destruct (N.eq_dec y id); congruence|].
  split; auto. split; auto. split; auto. split; auto. intros N0.
  split; [apply udata_plain; auto|]. intros x. rewrite (udata_history use (qr_data q) c x N0).
  destruct (query_field x (qr_data q)) as [v|] eqn:Q; auto.
  assert (B : (use && negb (listy x) && fval_eqb (u_cur (ucard_field x c)) v)%bool = true <->
    use = true /\ cached_field x /\ u_cur (ucard_field x c) = v).
  { rewrite !andb_true_iff. split.
    - intros [[U L] F]. apply fval_eqb_eq in F. split; auto. split; auto.
      destruct x; try discriminate; split; discriminate.
    - intros [U [[C1 C2] F]]. assert (L : listy x = false) by (destruct x; auto; congruence).
      rewrite L. split; auto. rewrite <- F.
      change (u_cur (ucard_field x c)) with (u_get (ucard_field x c)). rewrite <- shown_field.
      apply fval_eqb_refl; auto. }
  destruct (use && negb (listy x) && fval_eqb (u_cur (ucard_field x c)) v)%bool.
  - destruct B as [B _]. specialize (B eq_refl). split; [apply B|]. split; auto. intros X. contradiction.
  - cbn. split; auto. split; auto. intros X. apply B in X. discriminate.
Qed.
Print Assumptions C76_undoable_query_partial.

(** The hits reported, whatever was undone before. *)
Theorem C76_hits : forall use q w hits w' id c, uparse_query use q w = Ok (hits, w') ->
  card_at_place (qr_place q) (lb_frame w) = Ok id -> cell w id = Some c ->
  forall x, cached_field x ->
    (N.land hits (flag x) <> 0 <-> use = true /\ query_field x (qr_data q) = Some (u_cur (ucard_field x c))).
Proof.
  intros use q w hits w' id c H P Hc x X. apply uquery_run in H. destruct H as [_ [id' [P' E]]].
  rewrite P in P'. injection P' as <-. injection E as _ ->. unfold holds. rewrite Hc, udata_hits.
  rewrite (data_hit use (qr_data q) (shown c) x X), shown_field. reflexivity.
Qed.
Print Assumptions C76_hits.

(** Undoable cards show the same as plain ones would. *)
Theorem C76_same_as_plain : forall use d c, all_newest c ->
  shown (fst (uparse_data use d c)) = fst (parse_data use d (shown c)) /\
  snd (uparse_data use d c) = snd (parse_data use d (shown c)).
Proof. intros use d c H. destruct (udata_plain use d c H) as [A [B _]]. auto. Qed.
Print Assumptions C76_same_as_plain.

(** It works for every card the frame has. *)
Theorem C76_succeeds : forall use q w id, has_card (qr_place q) (lb_lay w) = Ok true ->
  card_at_place (qr_place q) (lb_frame w) = Ok id -> exists hits w', uparse_query use q w = Ok (hits, w').
Proof. intros use q w id H P. do 2 eexists. apply uquery_run. eauto. Qed.
Print Assumptions C76_succeeds.

Definition set_code (n : N) : qdata :=
  mkQData (Some n) None None None None None None None None None None None None None None None None None None
    None None None None None.

(** C76 as stated fails while values are undone: the query's value is dropped
    and the one that had been undone comes back. *)
Theorem C76_mid_history_refuted : exists c d x, query_field x d = Some (VN 7) /\
  (exists c0, take_back (set_code 5) 0 (fst (uparse_data false (set_code 5) c0)) = Ok c) /\
  forall use, u_cur (ucard_field x (fst (uparse_data use d c))) = VN 5.
Proof.
  eexists. exists (set_code 7), F_code. split; [reflexivity|]. split.
  - exists ucard0. vm_compute. reflexivity.
  - intros []; vm_compute; reflexivity.
Qed.
Print Assumptions C76_mid_history_refuted.

(** C77: a query can be taken back with the hits it returned; every card shows
    what it did and has the same past, and parsing the query again gives the
    very same frame and hits. *)
Lemma heap_set_id : forall C id (c : C) h, heap_get id h = Some c -> heap_set id c h = h.
Proof.
  induction h as [|[k v] h IH]; intros H; cbn in *; [discriminate|].
  destruct (N.eqb_spec k id) as [->|]; [congruence|]. f_equal. auto.
Qed.
Lemma heap_set_set : forall C id (c c' : C) h, heap_set id c' (heap_set id c h) = heap_set id c' h.
Proof.
  induction h as [|[k v] h IH]; cbn; auto. destruct (N.eqb_spec k id) as [->|Hk]; cbn.
  - rewrite N.eqb_refl. reflexivity.
  - destruct (N.eqb_spec k id); [congruence|]. f_equal. auto.
Qed.

Theorem C77_take_back : forall use q w hits w', uparse_query use q w = Ok (hits, w') ->
  exists w2, take_back_query q hits w' = Ok w2 /\
    lb_lay w2 = lb_lay w /\ lb_op w2 = lb_op w /\ lb_processed w2 = lb_processed w /\ lb_ops w2 = lb_ops w /\
    (forall id, match cell w id with
       | Some c => exists c2, cell w2 id = Some c2 /\ same_so_far c2 c
       | None => cell w2 id = None
       end) /\
    uparse_query use q w2 = Ok (hits, w').
Proof.
  intros use q w hits w' H. apply uquery_run in H. destruct H as [Hh [id [P E]]].
  pose proof (place_alive _ _ _ P) as A. unfold holds in E.
  destruct (cell w id) as [c|] eqn:Hc; [|congruence].
  destruct (uparse_data use (qr_data q) c) as [c1 h1] eqn:U. cbn [fst snd] in E. injection E as -> ->.
  destruct (take_back_ok _ _ _ _ _ U) as [c2 [T [S R]]].
  assert (G1 : forall y, cell (l_set_card id c1 w) y = if N.eq_dec y id then Some c1 else cell w y).
  { intros y. cbn. apply heap_set_get'. congruence. }
  assert (P1 : card_at_place (qr_place q) (lb_frame (l_set_card id c1 w)) = Ok id).
  { eapply card_at_same; [|exact P|]; [reflexivity|]. rewrite G1. destruct (N.eq_dec id id); congruence. }
  exists (l_set_card id c2 (l_set_card id c1 w)). split.
  { unfold take_back_query. rewrite P1. cbn [obind]. rewrite G1. destruct (N.eq_dec id id); [|congruence].
    cbn [or_ub obind]. rewrite T. reflexivity. }
  assert (G2 : forall y, cell (l_set_card id c2 (l_set_card id c1 w)) y =
    if N.eq_dec y id then Some c2 else cell w y).
  { intros y. change (heap_get y (heap_set id c2 (f_heap (lb_frame (l_set_card id c1 w)))) =
      if N.eq_dec y id then Some c2 else cell w y). rewrite heap_set_get'.
    - destruct (N.eq_dec y id) as [|Hy]; auto. rewrite G1. destruct (N.eq_dec y id); congruence.
    - rewrite G1. destruct (N.eq_dec id id); congruence. }
  split; auto. split; auto. split; auto. split; auto. split.
  - intros y. rewrite G2. destruct (N.eq_dec y id) as [->|Hy].
    + rewrite Hc. eauto.
    + destruct (cell w y) as [c'|]; auto. exists c'. split; auto. intros x. auto.
  - apply uquery_run. split; [exact Hh|]. exists id. split.
    + eapply card_at_same; [|exact P|]; [reflexivity|]. rewrite G2. destruct (N.eq_dec id id); congruence.
    + unfold holds. rewrite G2. destruct (N.eq_dec id id); [|congruence]. rewrite R. cbn [fst snd].
      f_equal. unfold l_set_card, lb_with_frame. cbn. rewrite !heap_set_set. reflexivity.
Qed.
Print Assumptions C77_take_back.

(** The caching mode has to stay the same: a query recorded with caching and
    replayed without moves on to values of later queries. *)
Theorem C77_other_mode_differs : exists d1 d2 c2 c1, 
  snd (uparse_data true d1 (fst (uparse_data false d1 ucard0))) = flag F_code /\
  take_back d2 0 c2 = Ok c1 /\ shown c1 = shown (fst (uparse_data false d1 ucard0)) /\
  shown (fst (uparse_data true d1 c1)) = shown c1 /\
  shown (fst (uparse_data false d1 c1)) = shown c2 /\ shown c2 <> shown c1.
Proof.
  exists (set_code 5), (set_code 7),
    (fst (uparse_data true (set_code 7) (fst (uparse_data false (set_code 5) ucard0)))).
  eexists. split; [vm_compute; reflexivity|]. split; [vm_compute; reflexivity|].
  split; [vm_compute; reflexivity|]. split; [vm_compute; reflexivity|].
  split; [vm_compute; reflexivity|]. vm_compute. discriminate.
Qed.
Print Assumptions C77_other_mode_differs.

(** ** An example recording: the events of PropsBoard with queries in between *)
Definition ask (p : place) (d : qdata) : rstep := RQuery (mkQuery p d).
Definition ex_recording : list rstep :=
  map REvent (firstn 3 ex_events) ++
  [ask (mkPlace 0 4 1 (-1)) (set_code 100); ask (mkPlace 0 4 1 (-1)) ex_data;
   ask (mkPlace 0 1 4 (-1)) (set_code 200)] ++
  map REvent (firstn 4 (skipn 3 ex_events)) ++
  [ask (mkPlace 0 2 0 (-1)) (set_code 200); ask (mkPlace 0 4 1 (-1)) (set_code 300)] ++
  map REvent (skipn 7 ex_events).
Definition ex_rboard : uboard ucard :=
  match play_all true ex_recording (uboard0 ucard) with Ok b => b | _ => uboard0 ucard end.

Example C76_ex : exists w hits w', uparse_query true ex_query w = Ok (hits, w') /\
  has_card (qr_place ex_query) (lb_lay w) = Ok true /\
  (exists id c, card_at_place (qr_place ex_query) (lb_frame w) = Ok id /\ cell w id = Some c /\
     all_newest c /\ u_cur (ucard_field F_code c) = VN 5 /\
     exists c', cell w' id = Some c' /\ u_cur (ucard_field F_code c') = VN 89631139 /\
       u_past (ucard_field F_code c') = [VN 5; VN 0]).
Proof.
  exists (match lrun ucard0 [LAdd (mkPlace 0 4 2 (-1)); LAdd (mkPlace 0 4 2 0)] limbo0 with
    | Ok w => match uparse_query true (mkQuery (mkPlace 0 4 2 0) (set_code 5)) w with
              | Ok (_, w') => w' | _ => limbo0 end
    | _ => limbo0 end).
  do 2 eexists. split; [vm_compute; reflexivity|]. split; [vm_compute; reflexivity|].
  do 2 eexists. split; [vm_compute; reflexivity|]. split; [vm_compute; reflexivity|].
  split; [intros []; vm_compute; reflexivity|]. split; [vm_compute; reflexivity|].
  eexists. split; [vm_compute; reflexivity|]. split; vm_compute; reflexivity.
Qed.

Example C77_ex : exists w hits w' w2, uparse_query true ex_query w = Ok (hits, w') /\
  take_back_query ex_query hits w' = Ok w2 /\
  exists id c c' c2, cell w id = Some c /\ cell w' id = Some c' /\ cell w2 id = Some c2 /\
    u_cur (ucard_field F_code c) = VN 5 /\ u_cur (ucard_field F_code c') = VN 89631139 /\
    u_cur (ucard_field F_code c2) = VN 5.
Proof.
  exists (match lrun ucard0 [LAdd (mkPlace 0 4 2 (-1)); LAdd (mkPlace 0 4 2 0)] limbo0 with
    | Ok w => match uparse_query true (mkQuery (mkPlace 0 4 2 0) (set_code 5)) w with
              | Ok (_, w') => w' | _ => limbo0 end
    | _ => limbo0 end).
  do 3 eexists. split; [vm_compute; reflexivity|]. split; [vm_compute; reflexivity|].
  exists 1. do 3 eexists. do 3 (split; [vm_compute; reflexivity|]).
  split; [vm_compute; reflexivity|]. split; vm_compute; reflexivity.
Qed.

Definition ract_undoable_b (a : lact) (w : limbo ucard) : bool :=
  match a with
  | LAdd _ | LRemove _ | LMove _ _ | LSplice _ _ _ _ | LPileSwap _ _ | LClear | LSwap _ _ => true
  | LResize p n =>
      match slot p with
      | Some (CPile r, _) => Nat.leb (length (contents (CPile r) (lb_lay w))) (N.to_nat n)
      | _ => true
      end
  | _ => false
  end.
Fixpoint racts_undoable_b (acts : list lact) (w : limbo ucard) : bool :=
  match acts with
  | [] => true
  | a :: l => ract_undoable_b a w && match lstep ucard0 a w with Ok w' => racts_undoable_b l w' | _ => true end
  end.
Fixpoint steps_undoable_b (use : bool) (ss : list rstep) (b : uboard ucard) : bool :=
  match ss with
  | [] => true
  | s :: l =>
      match s with REvent e => racts_undoable_b (event_acts e) (b_frame b) | RQuery _ => true end &&
      match play use s b with Ok (_, b') => steps_undoable_b use l b' | _ => true end
  end.
Lemma racts_undoable_true : forall acts w, racts_undoable_b acts w = true -> acts_undoable ucard0 acts w.
Proof.
  induction acts as [|a l IH]; intros w H; cbn [acts_undoable racts_undoable_b] in *; auto.
  apply andb_prop in H as [H1 H2]. split.
  - destruct a; simpl in *; auto; try discriminate.
    intros r i S. rewrite S in H1. apply Nat.leb_le in H1. left. exact H1.
  - intros w' E. rewrite E in H2. auto.
Qed.
Lemma steps_undoable_true : forall use ss b, steps_undoable_b use ss b = true -> steps_undoable use ss b.
Proof.
  induction ss as [|s l IH]; intros b H; cbn [steps_undoable steps_undoable_b] in *; auto.
  apply andb_prop in H as [H1 H2]. split.
  - destruct s; auto. apply racts_undoable_true. exact H1.
  - intros h b' E. rewrite E in H2. auto.
Qed.

(** C78: walking through any recording of events and queries, the board and
    every card on it show the same whenever the viewer is at the same position,
    namely what was shown when the recording was first played up to there. *)
Theorem C78_scrubbing : forall use ss bn, play_all use ss (uboard0 ucard) = Ok bn ->
  forall ms i hs b, rwalk use ss ms (0%nat, [], uboard0 ucard) = Ok (i, hs, b) ->
    (i <= length ss)%nat /\ exists bi, play_all use (firstn i ss) (uboard0 ucard) = Ok bi /\
    scene_of b = scene_of bi /\
    (forall pos id, occupant (lb_lay (b_frame b)) pos = Some (Some id) ->
       exists c c', content bi id = Some c /\ content b id = Some c' /\ same_so_far c' c) /\
    forall id c, content bi id = Some c -> exists c', content b id = Some c' /\ same_so_far c' c.
Proof. intros use ss bn R. exact (rwalked_scene use ss bn R). Qed.
Print Assumptions C78_scrubbing.

(** What is seen depends on the position only. *)
Theorem C78_same_cards : forall use ss bn, play_all use ss (uboard0 ucard) = Ok bn ->
  forall ms ms' i hs hs' b b', rwalk use ss ms (0%nat, [], uboard0 ucard) = Ok (i, hs, b) ->
    rwalk use ss ms' (0%nat, [], uboard0 ucard) = Ok (i, hs', b') ->
    scene_of b = scene_of b' /\
    forall pos id, occupant (lb_lay (b_frame b)) pos = Some (Some id) ->
      exists c c', content b id = Some c /\ content b' id = Some c' /\ shown c = shown c'.
Proof.
  intros use ss bn R ms ms' i hs hs' b b' W W'.
  destruct (C78_scrubbing use ss bn R ms i hs b W) as (_ & bi & A2 & A3 & A4 & _).
  destruct (C78_scrubbing use ss bn R ms' i hs' b' W') as (_ & bi' & B2 & B3 & B4 & _).
  rewrite A2 in B2. injection B2 as <-. assert (Sc : scene_of b = scene_of b') by congruence.
  split; [exact Sc|].
  intros pos id Oc. destruct (A4 pos id Oc) as (d & c & D & E1 & E2).
  assert (L : lb_lay (b_frame b) = lb_lay (b_frame b')) by (injection Sc; auto).
  rewrite L in Oc. destruct (B4 pos id Oc) as (d' & c' & D' & E1' & E2').
  rewrite D in D'. injection D' as <-. exists c, c'. split; auto. split; auto.
  rewrite (so_far_shown _ _ E2), (so_far_shown _ _ E2'). reflexivity.
Qed.
Print Assumptions C78_same_cards.

(** If the events have working inverses (see C32) no walk fails. *)
Theorem C78_no_step_fails : forall use ss bn, play_all use ss (uboard0 ucard) = Ok bn ->
  steps_undoable use ss (uboard0 ucard) ->
  forall ms, exists i hs b, rwalk use ss ms (0%nat, [], uboard0 ucard) = Ok (i, hs, b).
Proof.
  intros use ss bn R U ms. destruct (rwalk_scene use ss bn R U ms) as (i & hs & b & bi & W & _). eauto.
Qed.
Print Assumptions C78_no_step_fails.

Example C78_ex : play_all true ex_recording (uboard0 ucard) = Ok ex_rboard /\
  steps_undoable true ex_recording (uboard0 ucard) /\
  exists hs b c, rwalk true ex_recording (repeat Forward 12 ++ repeat Backward 8 ++ repeat Forward 20 ++
     repeat Backward 13) (0%nat, [], uboard0 ucard) = Ok (4%nat, hs, b) /\
    card_at_place (mkPlace 0 4 1 (-1)) (lb_frame (b_frame b)) = Ok 0 /\
    content b 0 = Some c /\ u_cur (ucard_field F_code c) = VN 100.
Proof.
  split; [vm_compute; reflexivity|]. split; [apply steps_undoable_true; vm_compute; reflexivity|].
  do 3 eexists. split; [vm_compute; reflexivity|]. split; [vm_compute; reflexivity|].
  split; vm_compute; reflexivity.
Qed.

(** Otherwise a walk can stop on an assertion: stepping back over a shuffle
    aborts. *)
Theorem C78_shuffle_stops : exists ss bn, play_all true ss (uboard0 ucard) = Ok bn /\
  rwalk true ss [Forward; Forward; Forward; Backward] (0%nat, [], uboard0 ucard) = Abort.
Proof.
  exists [REvent (EvCard 0 (CardAdd [mkPlace 0 4 0 (-1); mkPlace 0 4 1 (-1)]));
          ask (mkPlace 0 4 0 (-1)) (set_code 5);
          REvent (EvCard 0 (CardShuffle [mkPlace 0 4 0 (-1); mkPlace 0 4 1 (-1)]
                                        [mkPlace 0 4 1 (-1); mkPlace 0 4 0 (-1)]))].
  eexists. split; vm_compute; reflexivity.
Qed.
Print Assumptions C78_shuffle_stops.
