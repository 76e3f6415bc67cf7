(** From frames to boards: scrubbing events, and events with queries. *)
From Verif Require Import LimboUndo.
From Verif Require Import Base BaseProofs Place Frame FrameSpec Limbo LimboSpec LimboProofs Msg Event EventSpec EventUndo
  Query UQuery UQuerySpec UReplaySpec UReplay LostSpec LostProofs.

Section Events.
Variable C : Type.
Variable c0 : C.
Notation inv := LimboUndo.inv.

Lemma uundo_frame_eq : forall e b b', uundo c0 e b = Ok b' ->
  lrun c0 (rev (map inv (event_acts e))) (b_frame b) = Ok (b_frame b').
Proof.
  intros e b b' H. unfold uundo in H.
  assert (Fr : forall (m : limbo C -> outcome (limbo C)) acts,
    m (b_frame b) = lrun c0 acts (b_frame b) -> on_frame m b = Ok b' ->
    lrun c0 acts (b_frame b) = Ok (b_frame b')).
  { intros m acts E X. apply on_frame_iff in X. destruct X as [w' [X ->]]. cbn [b_frame set_frame]. congruence. }
  destruct e as [|[|x|s]|re [|l|l|l|l|pv cu]|[|c|pp]|con|wr mr ft|con t|me|ph'|re [|l|l|l]|rs|zs];
    cbn [undo_parse_event event_acts] in *; try discriminate H.
  all: try (solve [revert H; clear; intros H; repeat (let b1 := fresh in apply obind_Ok in H as [b1 [_ H]]);
    injection H as <-; reflexivity]).
  - (* exchange *)
    eapply Fr; [|exact H]. cbv beta.
    rewrite !map_app, !rev_app_distr, lrun_app, lrun_app. rewrite (undo_adds_run _ c0).
    destruct (lrun c0 (rev (map inv (map LAdd (bx_add x)))) (b_frame b)) as [w1| | |]; cbn [obind]; auto.
    rewrite (undo_removes_run _ c0).
    destruct (lrun c0 (rev (map inv (map LRemove (bx_remove x)))) w1); cbn [obind]; auto.
    apply undo_resizes_run.
  - (* state *)
    assert (Lp : forall z b1 b2, undo_lp (limbo_uo C) z b1 = Ok b2 -> b_frame b2 = b_frame b1).
    { intros z b1 b2 X. unfold undo_lp in X. apply obind_Ok in X as [i [_ X]]. apply obind_Ok in X as [y [_ X]].
      injection X as <-. reflexivity. }
    unfold undo_state in H. apply obind_Ok in H as [b1 [H H2]].
    assert (E : b_frame b' = b_frame b1).
    { apply obind_Ok in H2 as [ch [_ H2]]. apply obind_Ok in H2 as [b3 [X3 H2]].
      apply obind_Ok in H2 as [b4 [X4 H2]]. apply Lp in X3, X4.
      assert (b_frame b' = b_frame b4).
      { destruct (0 <=? bs_turn_counter s)%Z; [|congruence].
        apply obind_Ok in H2 as [t [_ H2]]. injection H2 as <-. reflexivity. }
      rewrite H0, X4, X3. reflexivity. }
    rewrite E. apply on_frame_iff in H.
    destruct H as [w' [H ->]]. cbn [b_frame set_frame]. rewrite <- H. clear.
    cbn [map rev]. rewrite !map_app, !rev_app_distr, lrun_app, lrun_app, (undo_resizes_run _ c0).
    destruct (lrun c0 (rev (map inv (resize_acts (bs_resize s)))) (b_frame b)) as [w1| | |]; cbn [obind]; auto.
    rewrite (undo_adds_run _ c0).
    destruct (lrun c0 (rev (map inv (map LAdd (bs_add s)))) w1) as [w2| | |]; cbn [obind]; auto.
    unfold lrun. cbn [ofold inv lstep]. cbn [uo_clear limbo_uo]. destruct (l_undo_clear w2); reflexivity.
  - eapply Fr; [|exact H]. apply undo_adds_run.
  - eapply Fr; [|exact H]. rewrite (do_swaps_run _ c0), map_map, <- map_rev. reflexivity.
  - eapply Fr; [|exact H]. unfold lrun. rewrite map_map, <- map_rev, <- ofold_map. reflexivity.
  - eapply Fr; [|exact H]. apply undo_removes_run.
  - eapply Fr; [|exact H]. rewrite (do_pile_swaps_run _ c0), map_map, <- map_rev. reflexivity.
  - eapply Fr; [|exact H]. unfold undo_splices, lrun. rewrite map_map, <- map_rev, <- ofold_map. reflexivity.
Qed.

Lemma uparse_frame_eq : forall e b b', uparse c0 e b = Ok b' ->
  lrun c0 (event_acts e) (b_frame b) = Ok (b_frame b').
Proof.
  intros e b b' H. apply uparse_iff in H. destruct H as [_ [w' [H ->]]]. exact H.
Qed.

(** The frame decides about a recording of accepted events. *)
Lemma parse_all_frame : forall es b w', Forall accepted es ->
  lrun c0 (flat_map event_acts es) (b_frame b) = Ok w' ->
  exists b', parse_all c0 es b = Ok b' /\ b_frame b' = w'.
Proof.
  induction es as [|e es IH]; intros b w' A H.
  - injection H as <-. exists b. split; reflexivity.
  - inversion A; subst. cbn [flat_map] in H. rewrite lrun_app in H. apply obind_Ok in H as [w1 [H1 H]].
    unfold parse_all. cbn [ofold].
    assert (X : uparse c0 e b = Ok (parsed _ e b w1)) by (apply uparse_iff; eauto).
    rewrite X. cbn [obind]. apply IH; auto.
Qed.

Section Walk.
Variable es : list event.
Hypothesis Keep : all_keep c0 es.
Let AA := map event_acts es.

Lemma AA_ev : Forall (Forall event_act) AA.
Proof. unfold AA. rewrite Forall_map. apply Forall_forall. intros e _. apply event_acts_ok. Qed.
Lemma AA_keep : acts_keep c0 (concat AA) limbo0.
Proof. unfold AA. rewrite <- flat_map_concat_map. exact Keep. Qed.

(** Where a walk can get to: [m] is the furthest position it came to. *)
Lemma walk_scrub : forall ms i b, walk c0 es ms (0%nat, uboard0 C) = Ok (i, b) -> exists m,
  scrub C c0 AA i m (b_frame b) /\ Forall accepted (firstn m es) /\
  exists k b', walk c0 es (firstn k ms) (0%nat, uboard0 C) = Ok (m, b').
Proof.
  intros ms. induction ms as [|mv ms IH] using rev_ind; intros i b H.
  - injection H as <- <-. exists 0%nat. split; [apply scrub0|]. split; [constructor|].
    exists 0%nat, (uboard0 C). reflexivity.
  - unfold walk in H. rewrite ofold_app in H. apply obind_Ok in H as [[j b1] [H1 H]].
    destruct (IH _ _ H1) as [m [Sc [Ac [k [bk Hk]]]]]. cbn [ofold] in H.
    apply obind_Ok in H as [[i' b'] [H X]]. injection X as -> ->.
    assert (Old : exists k0 b', walk c0 es (firstn k0 (ms ++ [mv])) (0%nat, uboard0 C) = Ok (m, b')).
    { exists (Nat.min k (length ms)), bk. rewrite firstn_app.
      replace (Nat.min k (length ms) - length ms)%nat with 0%nat by lia. rewrite app_nil_r.
      replace (firstn (Nat.min k (length ms)) ms) with (firstn k ms); [exact Hk|].
      rewrite <- (firstn_all ms) at 1. now rewrite firstn_firstn. }
    unfold wstep in H. destruct mv.
    + destruct (nth_error es j) as [e|] eqn:N; [|injection H as <- <-; exists m; auto].
      apply obind_Ok in H as [b2 [U H]]. injection H as <- <-.
      assert (NA : nth_error AA j = Some (event_acts e)) by (unfold AA; now apply map_nth_error).
      exists (Nat.max m (S j)). split; [eapply scrub_forward; eauto using AA_ev, AA_keep, uparse_frame_eq|].
      destruct (Nat.leb_spec (S j) m) as [Le|Gt].
      * rewrite Nat.max_l by lia. auto.
      * rewrite Nat.max_r by lia. assert (j = m) as -> by (destruct Sc; lia). split.
        -- assert (E : firstn (S m) es = firstn m es ++ [e]).
           { clear - N. revert m N. induction es as [|x l IH]; intros [|m] N; try discriminate.
             - injection N as ->. reflexivity.
             - cbn [firstn app]. f_equal. now apply IH. }
           rewrite E. apply Forall_app. split; [exact Ac|]. constructor; [|constructor].
           apply uparse_iff in U. apply U.
        -- exists (length (ms ++ [Forward])), b2. rewrite firstn_all. unfold walk. rewrite ofold_app.
           unfold walk in H1. rewrite H1. cbn [obind ofold]. unfold wstep. rewrite N, U. reflexivity.
    + destruct j as [|j]; [injection H as <- <-; exists m; auto|].
      destruct (nth_error es j) as [e|] eqn:N; [|injection H as <- <-; exists m; auto].
      apply obind_Ok in H as [b2 [U H]]. injection H as <- <-.
      assert (NA : nth_error AA j = Some (event_acts e)) by (unfold AA; now apply map_nth_error).
      exists m. split; [|auto]. eapply scrub_backward; eauto using uundo_frame_eq.
Qed.

Lemma walk_reach : forall ms i b, walk c0 es ms (0%nat, uboard0 C) = Ok (i, b) ->
  forall id, card_alive (b_frame b) id -> within_reach (b_frame b) id.
Proof. intros ms i b H. destruct (walk_scrub _ _ _ H) as [m [Sc _]]. eapply scrub_reach; eauto. Qed.

Lemma walk_cards : forall ms i b, walk c0 es ms (0%nat, uboard0 C) = Ok (i, b) -> exists m bm,
  (i <= m <= length es)%nat /\ (exists k b', walk c0 es (firstn k ms) (0%nat, uboard0 C) = Ok (m, b')) /\
  parse_all c0 (firstn m es) (uboard0 C) = Ok bm /\
  forall id, card_alive (b_frame b) id <-> card_alive (b_frame bm) id.
Proof.
  intros ms i b H. destruct (walk_scrub _ _ _ H) as [m [Sc [Ac Old]]].
  destruct (scrub_cards _ _ _ _ _ _ Sc) as [v [R E]]. unfold AA in R.
  rewrite firstn_map in R. 
  assert (R' : lrun c0 (flat_map event_acts (firstn m es)) (b_frame (uboard0 C)) = Ok v).
  { rewrite flat_map_concat_map. exact R. }
  destruct (parse_all_frame _ _ _ Ac R') as [bm [P Eb]]. exists m, bm.
  split; [destruct Sc as [B _]; unfold AA in B; rewrite map_length in B; exact B|].
  split; [exact Old|]. split; [exact P|]. rewrite Eb. exact E.
Qed.
End Walk.
End Events.

Section Queries.
Variable use : bool.
Variable ss : list rstep.
Hypothesis Keep : steps_keep ss.
Let AA := map step_acts ss.

Lemma SA_ev : Forall (Forall event_act) AA.
Proof.
  unfold AA. rewrite Forall_map. apply Forall_forall. intros [e|q] _; [apply event_acts_ok|constructor].
Qed.
Lemma SA_keep : acts_keep ucard0 (concat AA) limbo0.
Proof. unfold AA. rewrite <- flat_map_concat_map. exact Keep. Qed.

Lemma rwalk_scrub : forall ms i hs b, rwalk use ss ms (0%nat, [], uboard0 ucard) = Ok (i, hs, b) ->
  exists m, scrub ucard ucard0 AA i m (b_frame b).
Proof.
  intros ms. induction ms as [|mv ms IH] using rev_ind; intros i hs b H.
  - injection H as <- <- <-. exists 0%nat. apply scrub0.
  - unfold rwalk in H. rewrite ofold_app in H. apply obind_Ok in H as [[[j hj] b1] [H1 H]].
    destruct (IH _ _ _ H1) as [m Sc]. cbn [ofold] in H.
    apply obind_Ok in H as [[[i' hs'] b'] [H X]]. injection X as -> -> ->.
    unfold rmove in H. destruct mv.
    + destruct (nth_error ss j) as [x|] eqn:N; [|injection H as <- <- <-; exists m; auto].
      assert (NA : nth_error AA j = Some (step_acts x)) by (unfold AA; now apply map_nth_error).
      apply obind_Ok in H as [[hits b2] [U H]]. injection H as <- <- <-. exists (Nat.max m (S j)).
      destruct x as [e|q]; cbn [play] in U.
      * apply obind_Ok in U as [b3 [U X]]. injection X as <- <-.
        eapply scrub_forward; eauto using SA_ev, SA_keep. now apply uparse_frame_eq.
      * apply obind_Ok in U as [[h2 w] [U X]]. injection X as <- <-. cbn [b_frame set_frame].
        apply uquery_run in U. destruct U as [_ [id [_ X]]]. injection X as -> _.
        apply scrub_set. eapply scrub_forward; eauto using SA_ev, SA_keep.
    + destruct j as [|j]; [injection H as <- <- <-; exists m; auto|].
      destruct hj as [|hit hj]; [injection H as <- <- <-; exists m; auto|].
      destruct (nth_error ss j) as [x|] eqn:N; [|injection H as <- <- <-; exists m; auto].
      assert (NA : nth_error AA j = Some (step_acts x)) by (unfold AA; now apply map_nth_error).
      apply obind_Ok in H as [b2 [U H]]. injection H as <- <- <-. exists m.
      destruct x as [e|q]; cbn [unplay] in U.
      * eapply scrub_backward; eauto. now apply uundo_frame_eq.
      * apply on_frame_iff in U. destruct U as [w' [U ->]]. cbn [b_frame set_frame].
        unfold take_back_query in U. apply obind_Ok in U as [id [_ U]]. apply obind_Ok in U as [c [_ U]].
        apply obind_Ok in U as [c' [_ U]]. injection U as <-. apply scrub_set.
        eapply scrub_backward; eauto.
Qed.

Lemma rwalk_reach : forall ms i hs b, rwalk use ss ms (0%nat, [], uboard0 ucard) = Ok (i, hs, b) ->
  forall id, card_alive (b_frame b) id -> within_reach (b_frame b) id.
Proof. intros ms i hs b H. destruct (rwalk_scrub _ _ _ _ H) as [m Sc]. eapply scrub_reach; eauto. Qed.
End Queries.

(** ** What can be taken back keeps its cards *)
Lemma undoable_keeps : forall C (a : lact) (w v : limbo C), lb_lay v = lb_lay w -> act_undoable a w -> act_keeps a v.
Proof. intros C a w v E U. destruct a; try exact Logic.I. unfold act_keeps, act_undoable in *. rewrite E. exact U. Qed.

(** [v] is [w] but for what is written on the cards and for the past. *)
Definition alongside (w v : limbo ucard) : Prop :=
  exists nx h hs L P Ps, w = tape ucard nx h L P [] /\ v = tape ucard nx hs L Ps [] /\ map fst hs = map fst h /\
    tape_ok ucard nx h L P [].

Lemma alongside_step : forall a w v w', event_act a -> alongside w v -> lstep ucard0 a w = Ok w' ->
  exists v', lstep ucard0 a v = Ok v' /\ alongside w' v'.
Proof.
  intros a w v w' Ea [nx [h [hs [L [P [Ps [-> [-> [E K]]]]]]]]] H.
  destruct (live_any _ _ _ _ _ _ _ _ Ea (to_lay _ _ _ _ _ _ K) H) as [nx' [new [L' [p [E1 Any]]]]].
  eexists. split; [apply Any; intros id; now rewrite E|].
  exists nx', (new ++ h), (new ++ hs), L', (p ++ P), (p ++ Ps). split; [exact E1|]. split; [reflexivity|].
  split; [rewrite !map_app; now f_equal|]. eapply tape_ok_step; [exact K|]. rewrite <- E1. exact H.
Qed.

Lemma undoable_acts_keep : forall acts w v w', Forall event_act acts -> alongside w v ->
  acts_undoable ucard0 acts w -> lrun ucard0 acts w = Ok w' ->
  acts_keep ucard0 acts v /\ forall v', lrun ucard0 acts v = Ok v' -> alongside w' v'.
Proof.
  induction acts as [|a acts IH]; intros w v w' Ea A U H.
  - injection H as <-. split; [exact Logic.I|]. intros v' X. injection X as <-. exact A.
  - inversion Ea as [|? ? E1 E2]; subst. destruct U as [U1 U2]. unfold lrun in H. cbn [ofold] in H.
    apply obind_Ok in H as [w1 [H1 H]].
    destruct (alongside_step _ _ _ _ E1 A H1) as [v1 [V1 A1]].
    destruct (IH _ _ _ E2 A1 (U2 _ H1) H) as [Kp R]. split.
    + split; [|intros v2 X; rewrite V1 in X; injection X as <-; exact Kp].
      destruct A as [nx [h [hs [L [P [Ps [-> [-> _]]]]]]]]. eapply undoable_keeps; [|exact U1]. reflexivity.
    + intros v' X. unfold lrun in X. cbn [ofold] in X. rewrite V1 in X. cbn [obind] in X. now apply R.
Qed.

Lemma acts_keep_join : forall l1 l2 (v : limbo ucard), acts_keep ucard0 l1 v ->
  (forall v', lrun ucard0 l1 v = Ok v' -> acts_keep ucard0 l2 v') -> acts_keep ucard0 (l1 ++ l2) v.
Proof.
  induction l1 as [|a l1 IH]; intros l2 v K H; [now apply H|]. destruct K as [K1 K2]. split; [exact K1|].
  intros v1 X. apply IH; [now apply K2|]. intros v' Y. apply H. unfold lrun. cbn [ofold]. rewrite X. exact Y.
Qed.

Lemma undoable_steps_keep : forall use ss b bn v, alongside (b_frame b) v -> steps_undoable use ss b ->
  play_all use ss b = Ok bn -> acts_keep ucard0 (flat_map step_acts ss) v.
Proof.
  induction ss as [|s ss IH]; intros b bn v A U H; [exact Logic.I|].
  destruct U as [U1 U2]. unfold play_all in H. cbn [ofold] in H. apply obind_Ok in H as [b1 [H1 H]].
  apply obind_Ok in H1 as [[hits b2] [H1 X]]. injection X as ->. specialize (U2 _ _ H1). cbn [flat_map].
  destruct s as [e|q]; cbn [play step_acts] in *.
  - apply obind_Ok in H1 as [b3 [H1 X]]. injection X as <- ->. apply uparse_frame_eq in H1.
    destruct (undoable_acts_keep _ _ _ _ (event_acts_ok e) A U1 H1) as [Kp R].
    apply acts_keep_join; [exact Kp|]. intros v' X. eapply IH; eauto.
  - apply obind_Ok in H1 as [[h2 w] [H1 X]]. injection X as <- <-. apply uquery_run in H1.
    destruct H1 as [_ [id [_ X]]]. injection X as -> _. eapply IH; [|exact U2|exact H].
    cbn [b_frame set_frame]. destruct A as [nx [h [hs [L [P [Ps [E [-> [Ei O]]]]]]]]]. rewrite E at 2.
    eexists nx, _, hs, L, P, Ps. split; [reflexivity|]. split; [reflexivity|]. rewrite heap_set_ids.
    split; [exact Ei|now apply tape_ok_set].
Qed.

Lemma undoable_keep : forall use ss bn, play_all use ss (uboard0 ucard) = Ok bn ->
  steps_undoable use ss (uboard0 ucard) -> steps_keep ss.
Proof.
  intros use ss bn H U. eapply undoable_steps_keep; eauto.
  exists 0%N, [], [], layout0, [], []. split; [reflexivity|]. split; [reflexivity|]. split; [reflexivity|].
  apply tape_ok0.
Qed.
