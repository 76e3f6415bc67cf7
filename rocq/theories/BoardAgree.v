(** A plain board and an undoable one that is only played forward show the same. *)
From Verif Require Import LimboUndo.
From Verif Require Import Base BaseProofs Place PlaceProofs Frame FrameSpec FrameLens FrameProofs
  FrameMove FrameOps FramePiles FrameInv FrameFacts Limbo LimboSpec LimboProofs Msg Event EventSpec
  EventUndo UReplaySpec.

Local Open Scope N_scope.

Section Agree.
Variables A B : Type.
Variable a0 : A.
Variable b0 : B.
(** How a recorded content relates to a plain one. *)
Variable R : A -> B -> Prop.
Hypothesis R0 : R a0 b0.

(** Every plain card has its counterpart, under the same identity. *)
Definition heap_sim (hb : list (N * B)) (ha : list (N * A)) : Prop :=
  forall id b, heap_get id hb = Some b -> exists a, heap_get id ha = Some a /\ R a b.

Definition fsim (w : limbo A) (f : frame B) : Prop :=
  linv A w /\ at_end w /\ inv B f /\ f_lay f = lb_lay w /\ f_next f = f_next (lb_frame w) /\
  heap_sim (f_heap f) (f_heap (lb_frame w)).

Lemma end_tape : forall w, linv A w -> at_end w ->
  exists nx h L P, w = tape A nx h L P [] /\ tape_ok A nx h L P [].
Proof.
  intros w [nx [h [L [P [F [-> O]]]]]] E. unfold at_end, tape in E. cbn [lb_op lb_ops] in E.
  rewrite app_length, rev_length in E. destruct F; [eauto 8|cbn [length] in E; lia].
Qed.

Lemma tape_end : forall nx h L P, at_end (tape A nx h L P []).
Proof. intros. unfold at_end, tape. cbn [lb_op lb_ops]. rewrite app_nil_r, rev_length. reflexivity. Qed.

Lemma heap_sim_new : forall nx hb ha, heap_sim hb ha -> heap_sim ((nx, b0) :: hb) ((nx, a0) :: ha).
Proof.
  intros nx hb ha H id b. cbn [heap_get fst snd]. destruct (nx =? id); [|apply H].
  intros E. injection E as <-. eauto.
Qed.

Lemma heap_sim_fresh : forall n nx hb ha, heap_sim hb ha ->
  heap_sim (fresh_cells B b0 nx n ++ hb) (fresh_cells A a0 nx n ++ ha).
Proof.
  unfold fresh_cells. intros n nx hb ha H.
  rewrite <- !map_rev. generalize (rev (news nx n)) as l. induction l as [|i l IH]; auto.
  cbn [map app]. apply heap_sim_new. exact IH.
Qed.

Lemma heap_get_remove : forall c (h h' : list (N * B)) id b, NoDup (map fst h) ->
  heap_remove c h = Some h' -> heap_get id h' = Some b -> heap_get id h = Some b.
Proof.
  intros c h h' id b ND H G. apply heap_remove_Some in H. destruct H as [h1 [v [h2 [-> ->]]]].
  assert (Nc : ~ In c (map fst (h1 ++ h2))).
  { rewrite map_app in *. cbn [map fst] in ND. apply NoDup_remove_2 in ND. exact ND. }
  assert (id <> c).
  { intros ->. apply Nc. apply heap_get_In. congruence. }
  clear ND Nc. induction h1 as [|[k x] h1 IH]; cbn [app heap_get fst snd] in *.
  - destruct (N.eqb_spec c id); [congruence|auto].
  - destruct (k =? id); auto.
Qed.

Lemma heap_sim_remove : forall c hb hb' ha, NoDup (map fst hb) -> heap_remove c hb = Some hb' ->
  heap_sim hb ha -> heap_sim hb' ha.
Proof. intros c hb hb' ha ND H S id b G. apply S. eapply heap_get_remove; eauto. Qed.

Lemma inv_in : forall (f : frame B) id, inv B f -> (0 < cntL (f_lay f) id)%nat -> In id (map fst (f_heap f)).
Proof.
  intros f id I H. rewrite (inv_cnt _ _ I) in H. unfold hcnt in H. apply count_occ_In in H. exact H.
Qed.

(** Shrinking a plain pile. *)
Lemma shrink_sim : forall n r nx hb L ha, inv B (mkFrame nx hb L) -> (n <= length (get_pile r L))%nat ->
  heap_sim hb ha ->
  exists hb', shrink_pile n r (mkFrame nx hb L) =
    Ok (mkFrame nx hb' (set_pile r (firstn (length (get_pile r L) - n) (get_pile r L)) L)) /\
    heap_sim hb' ha.
Proof.
  induction n as [|n IH]; intros r nx hb L ha I Ln S.
  - exists hb. split; auto. cbn [shrink_pile]. rewrite Nat.sub_0_r, firstn_all, set_pile_id. reflexivity.
  - set (l := get_pile r L) in *.
    destruct (nth_error l (length l - 1)) as [[id|]|] eqn:E.
    2:{ exfalso. apply (cons_nonnull (inv_conserved _ _ I) (CPile r, (length l - 1)%nat)). exact E. }
    2:{ apply nth_error_None in E. lia. }
    assert (Lv : live (mkFrame nx hb L) id) by (eapply (heap_live _ (mkFrame nx hb L) (CPile r)); eauto).
    destruct (heap_remove_In _ _ _ Lv) as [h Hr]. cbn [f_heap] in Hr.
    set (L1 := set_pile r (firstn (length l - 1) l) L).
    assert (St : shrink_pile (Datatypes.S n) r (mkFrame nx hb L) = shrink_pile n r (mkFrame nx h L1)).
    { cbn [shrink_pile f_lay]. fold l. rewrite E. cbn [or_ub obind deref]. unfold destruct_card. cbn [f_heap].
      rewrite Hr. reflexivity. }
    assert (I1 : inv B (mkFrame nx h L1)).
    { apply (inv_shrink _ 1 r (mkFrame nx hb L) _ I). cbn [shrink_pile f_lay]. fold l. rewrite E.
      cbn [or_ub obind deref]. unfold destruct_card. cbn [f_heap]. rewrite Hr. reflexivity. }
    assert (G : get_pile r L1 = firstn (length l - 1) l) by apply get_set_pile_same.
    destruct (IH r nx h L1 ha I1) as [hb' [E' S']].
    { rewrite G, firstn_length. lia. }
    { eapply heap_sim_remove; eauto. apply (inv_nodup _ _ I). }
    exists hb'. split; auto. rewrite St, E', G. do 2 f_equal. unfold L1. rewrite set_set_pile.
    rewrite firstn_firstn, firstn_length. f_equal. f_equal. lia.
Qed.

(** [op] on the undoable frame is matched by [op'] on the plain one. *)
Definition matched (op : limbo A -> outcome (limbo A)) (op' : frame B -> outcome (frame B)) : Prop :=
  forall w f w', fsim w f -> op w = Ok w' -> exists f', op' f = Ok f' /\ fsim w' f'.

Lemma matched_fold : forall X (op : X -> limbo A -> outcome (limbo A)) op' l,
  (forall x, matched (op x) (op' x)) -> matched (ofold op l) (ofold op' l).
Proof.
  induction l as [|x l IH]; intros M w f w' S H; cbn [ofold] in *.
  - injection H as <-. eauto.
  - apply obind_Ok in H as [w1 [H1 H2]]. destruct (M x _ _ _ S H1) as [f1 [E1 S1]].
    rewrite E1. cbn [obind]. eapply IH; eauto.
Qed.

Lemma matched_seq : forall op1 op1' op2 op2', matched op1 op1' -> matched op2 op2' ->
  matched (fun w => let! w1 := op1 w in op2 w1) (fun f => let! f1 := op1' f in op2' f1).
Proof.
  intros op1 op1' op2 op2' M1 M2 w f w' S H. apply obind_Ok in H as [w1 [H1 H2]].
  destruct (M1 _ _ _ S H1) as [f1 [E1 S1]]. rewrite E1. cbn [obind]. eauto.
Qed.

(** One step, both frames written out. *)
Lemma matched_step : forall a op' (op : limbo A -> outcome (limbo A)),
  (forall w, op w = lstep a0 a w) ->
  (forall nx h L P hb w', tape_ok A nx h L P [] -> inv B (mkFrame nx hb L) -> heap_sim hb h ->
     lstep a0 a (tape A nx h L P []) = Ok w' ->
     exists nx' h' L' P' hb', w' = tape A nx' h' L' P' [] /\ op' (mkFrame nx hb L) = Ok (mkFrame nx' hb' L') /\
       heap_sim hb' h') ->
  (forall f f', inv B f -> op' f = Ok f' -> inv B f') ->
  matched op op'.
Proof.
  intros a op' op Eo M K w f w' [Li [Ae [I [EL [EN S]]]]] H. rewrite Eo in H.
  destruct (linv_step A a0 a w w' Li H) as [Li' _].
  destruct (end_tape w Li Ae) as [nx [h [L [P [-> O]]]]].
  destruct f as [fn fh fl]. cbn [f_lay f_next f_heap lb_frame tape lb_lay] in *. subst fl fn.
  destruct (M nx h L P fh w' O I S H) as [nx' [h' [L' [P' [hb' [-> [E S']]]]]]].
  eexists. split; [exact E|]. split; auto. split; [apply tape_end|]. split; [eapply K; eauto|]. auto.
Qed.

Lemma sim_add : forall p, matched (fo_add (limbo_fo a0) p) (fo_add (plain_fo b0) p).
Proof.
  intros p. apply (matched_step (LAdd p)); [reflexivity| |].
  - intros nx h L P hb w' O I S H. cbn [lstep] in H. apply obind_Ok in H as [[c w1] [H1 H2]].
    injection H2 as <-. apply add_live in H1. destruct H1 as [L' [E [-> ->]]].
    do 5 eexists. split; [reflexivity|]. split.
    + cbn [plain_fo fo_add]. unfold card_add, construct_card. cbn [f_lay f_next f_heap]. rewrite E.
      reflexivity.
    + apply heap_sim_new; auto.
  - intros f f' I H. exact (inv_step B b0 (OpAdd p) f f' I H).
Qed.

Lemma sim_remove : forall p, matched (fo_remove (limbo_fo a0) p) (fo_remove (plain_fo b0) p).
Proof.
  intros p. apply (matched_step (LRemove p)); [reflexivity| |].
  - intros nx h L P hb w' O I S H. cbn [lstep] in H.
    assert (Sh : shape L) by apply (to_lay _ _ _ _ _ _ O).
    apply remove_live in H; auto. destruct H as [c [L' [E [_ ->]]]].
    assert (In c (map fst hb)).
    { apply (inv_in (mkFrame nx hb L) c I). cbn [f_lay]. apply lay_ok_erase in E; [|apply (to_lay _ _ _ _ _ _ O)].
      destruct E as [_ E]. specialize (E c). rewrite cnt_single_eq in E. destruct (N.eq_dec c c); [lia|congruence]. }
    destruct (heap_remove_In _ _ _ H) as [hb' Hr].
    do 5 eexists. split; [reflexivity|]. split.
    + cbn [plain_fo fo_remove]. unfold card_remove. cbn [f_lay]. erewrite erase_has by eauto.
      cbn [assert_ obind]. rewrite E. cbn [obind]. unfold destruct_card, with_lay. cbn [f_heap f_next f_lay].
      rewrite Hr. reflexivity.
    + eapply heap_sim_remove; eauto. apply (inv_nodup _ _ I).
  - intros f f' I H. exact (inv_step B b0 (OpRemove p) f f' I H).
Qed.

Lemma sim_move : forall a b, matched (fo_move (limbo_fo a0) a b) (fo_move (plain_fo b0) a b).
Proof.
  intros a b. apply (matched_step (LMove a b)); [reflexivity| |].
  - intros nx h L P hb w' O I S H. cbn [lstep] in H. apply obind_Ok in H as [[c w1] [H1 H2]].
    injection H2 as <-. apply l_move_tape in H1. destruct H1 as [L' [E [_ ->]]].
    do 5 eexists. split; [reflexivity|]. split; [|exact S].
    cbn [plain_fo fo_move]. unfold f_card_move. cbn [f_lay f_heap]. rewrite E. cbn [obind].
    assert (G : heap_get c hb <> None); [|destruct (heap_get c hb); [reflexivity|congruence]].
    assert (Sh : shape L) by apply (to_lay _ _ _ _ _ _ O).
    pose proof (card_move_back _ _ _ _ _ Sh E) as Eb. apply card_move_view in Eb; [|eapply shape_move; eauto].
    destruct Eb as [_ [[k i] [_ Oc]]]. apply heap_get_In.
    exact (heap_live _ (mkFrame nx hb L) k i c I Oc).
  - intros f f' I H. exact (inv_step B b0 (OpMove a b) f f' I H).
Qed.

Lemma sim_lift : forall act fop op (o1 : limbo A -> outcome (limbo A)) o2,
  (forall w, o1 w = lstep a0 act w) -> (forall w, lstep a0 act w = l_lift op w) ->
  (forall f, o2 f = fstep b0 fop f) -> (forall f, o2 f = lift op f) -> matched o1 o2.
Proof.
  intros act fop op o1 o2 E1 E2 E3 E4. apply (matched_step act); auto.
  - intros nx h L P hb w' O I S H. rewrite E2 in H. apply l_lift_tape in H. destruct H as [L' [E ->]].
    do 5 eexists. split; [reflexivity|]. split; [|exact S]. rewrite E4. unfold lift. cbn [f_lay].
    rewrite E. reflexivity.
  - intros f f' I H. rewrite E3 in H. eapply inv_step; eauto.
Qed.

Lemma sim_clear : matched (fo_clear (limbo_fo a0)) (fo_clear (plain_fo b0)).
Proof.
  apply (matched_step LClear); [reflexivity| |].
  - intros nx h L P hb w' O I S H. cbn [lstep] in H. rewrite clear_live in H. injection H as <-.
    do 5 eexists. split; [reflexivity|]. split.
    + cbn [plain_fo fo_clear]. rewrite (clear_run _ _ I). reflexivity.
    + intros id b X. discriminate.
  - intros f f' I H. exact (inv_step B b0 OpClear f f' I H).
Qed.

Lemma sim_resize : forall p n, matched (fo_resize (limbo_fo a0) p n) (fo_resize (plain_fo b0) p n).
Proof.
  intros p n. apply (matched_step (LResize p n)); [reflexivity| |].
  - intros nx h L P hb w' O I S H. cbn [lstep] in H.
    assert (Nn : nonull L) by apply (to_lay _ _ _ _ _ _ O).
    apply resize_live in H; auto. destruct H as [r [l' [s' [Rp [E [Ln [Al ->]]]]]]]. cbv zeta.
    cbn [plain_fo fo_resize]. unfold pile_resize. rewrite (pile_of_is_pile _ _ Rp), Rp. cbn [assert_ obind].
    cbn [f_lay]. unfold resized in E. unfold lenN. set (l := get_pile r L) in *.
    destruct (Nat.ltb_spec (length l) (N.to_nat n)) as [Hg|Hg].
    + injection E as <- <-. replace (N.of_nat (length l) <? n) with true by lia.
      rewrite grow_tape. cbn [obind f_lay]. rewrite get_set_pile_same. fold l.
      replace (N.to_nat (n - N.of_nat (length l))) with (N.to_nat n - length l)%nat by lia.
      rewrite (proj2 (verify_pile_Ok _) Al). cbn [obind]. do 5 eexists. split; [reflexivity|].
      split; [reflexivity|]. apply heap_sim_fresh; auto.
    + replace (N.of_nat (length l) <? n) with false by lia.
      replace (N.to_nat n - length l)%nat with 0%nat by lia. unfold fresh_cells. cbn [news map rev app].
      change (N.of_nat 0) with 0. rewrite N.add_0_r.
      destruct (Nat.ltb_spec (N.to_nat n) (length l)) as [Hl|Hl].
      * apply obind_Ok in E as [s2 [_ E]]. injection E as <- <-.
        replace (n <? N.of_nat (length l)) with true by lia.
        destruct (shrink_sim (N.to_nat (N.of_nat (length l) - n)) r nx hb L h I) as [hb' [E' S']]; auto.
        { fold l. lia. }
        rewrite E'. cbn [obind f_lay]. rewrite get_set_pile_same. fold l.
        replace (length l - N.to_nat (N.of_nat (length l) - n))%nat with (N.to_nat n) by lia.
        rewrite (proj2 (verify_pile_Ok _) Al). cbn [obind]. do 5 eexists. split; [reflexivity|].
        split; [reflexivity|]. exact S'.
      * injection E as <- <-. replace (n <? N.of_nat (length l)) with false by lia. cbn [obind f_lay]. fold l.
        rewrite (proj2 (verify_pile_Ok _) Al). cbn [obind]. unfold l. rewrite set_pile_id.
        do 5 eexists. split; [reflexivity|]. split; [reflexivity|]. exact S.
  - intros f f' I H. exact (inv_step B b0 (OpResize p n) f f' I H).
Qed.

(** *** Boards *)
Definition val {T} (u : undoable T) (x : plain T) : Prop := u_next u = [] /\ u_get u = x.

Definition bsim (u : uboard A) (p : pboard B) : Prop :=
  fsim (b_frame u) (b_frame p) /\ val (b_chain u) (b_chain p) /\ val (b_turn u) (b_turn p) /\
  val (b_turn_controller u) (b_turn_controller p) /\ val (fst (b_lp u)) (fst (b_lp p)) /\
  val (snd (b_lp u)) (snd (b_lp p)) /\ val (b_phase u) (b_phase p) /\ val (b_blocked u) (b_blocked p).

Lemma val_set : forall T (v : T) u x, val u x -> val (u_set v u) v.
Proof. intros T v [p c n] x [H E]. cbn in *. subst. split; reflexivity. Qed.

Lemma bsim_frame : forall op op' u p u', matched op op' -> bsim u p -> on_frame op u = Ok u' ->
  exists p', on_frame op' p = Ok p' /\ bsim u' p'.
Proof.
  intros op op' u p u' M [S K] H. unfold on_frame in *. apply obind_Ok in H as [w [H1 H2]].
  injection H2 as <-. destruct (M _ _ _ S H1) as [f [E S']]. rewrite E. cbn [obind].
  eexists. split; [reflexivity|]. split; [exact S'|exact K].
Qed.

Lemma bsim_lp : forall i v u p, bsim u p ->
  bsim (set_lp (put2 i (u_set v (sel i (b_lp u))) (b_lp u)) u) (set_lp (put2 i v (b_lp p)) p).
Proof.
  intros i v u p [S [K1 [K2 [K3 [K4 [K5 [K6 K7]]]]]]].
  destruct i; (split; [exact S|]); repeat split; cbn; try apply K1; try apply K2; try apply K3;
    try apply K4; try apply K5; try apply K6; try apply K7;
    try (eapply val_set; [exact K4]); try (eapply val_set; exact K5).
Qed.

Theorem bsim_parse : forall e u p u', bsim u p -> uparse a0 e u = Ok u' ->
  exists p', pparse b0 e p = Ok p' /\ bsim u' p'.
Proof.
  intros e u p u' Sm H. unfold uparse, pparse in *.
  assert (Madds : forall l, matched (do_adds (limbo_fo a0) l) (do_adds (plain_fo b0) l)).
  { intros l. unfold do_adds. apply matched_fold. exact sim_add. }
  assert (Mrems : forall l, matched (do_removes (limbo_fo a0) l) (do_removes (plain_fo b0) l)).
  { intros l. unfold do_removes. apply matched_fold. exact sim_remove. }
  assert (Mrs : forall l, matched (do_resizes (limbo_fo a0) l) (do_resizes (plain_fo b0) l)).
  { intros l. unfold do_resizes. apply matched_fold. intros x. apply sim_resize. }
  assert (Same : Ok u = Ok u' -> exists p', Ok p = Ok p' /\ bsim u' p').
  { intros X. injection X as <-. eauto. }
  destruct e as [|[|x|s]|re [|l|l|l|l|a b]|[|c|pp]|con|wr mr ft|con t|me|ph'|re [|l|l|l]|rs|zs];
    cbn [parse_event] in *;
    try (exact (Same H)).
  - (* exchange *)
    eapply bsim_frame; [|exact Sm|exact H].
    apply (matched_seq _ _ (fun f => let! f2 := do_removes (limbo_fo a0) (bx_remove x) f in
                                     do_adds (limbo_fo a0) (bx_add x) f2)
                           (fun f => let! f2 := do_removes (plain_fo b0) (bx_remove x) f in
                                     do_adds (plain_fo b0) (bx_add x) f2) (Mrs _)).
    apply matched_seq; auto.
  - (* state *)
    unfold parse_state in *. cbv zeta in *. apply obind_Ok in H as [lp0 [L0 H]]. rewrite L0. cbn [obind].
    match type of H with obind (assign_lp _ _ _ ?q) _ = _ => set (u1 := q) in H end.
    match goal with |- exists p', obind (assign_lp _ _ _ ?q) _ = _ /\ _ => set (p1 := q) end.
    assert (S1 : bsim u1 p1).
    { unfold u1, p1. destruct (0 <=? bs_turn_counter s)%Z; auto.
      destruct Sm as [S0 [K1 [K2 K3]]]. split; [exact S0|]. split; [exact K1|]. split; [|exact K3].
      exact (val_set _ _ _ _ K2). }
    unfold assign_lp in *. cbn [lp_index obind] in *.
    change (lp_index 0) with (Ok false) in *. change (lp_index 1) with (Ok true) in *. cbn [obind] in *.
    apply obind_Ok in H as [lp1 [L1 H]]. rewrite L1. cbn [obind].
    pose proof (bsim_lp true lp1 _ _ (bsim_lp false lp0 _ _ S1)) as S2.
    cbn [undoable_vo plain_vo vo_set vo_get] in *.
    match goal with |- exists p', on_frame _ (set_chain _ ?q) = _ /\ _ => set (p3 := q) in * end.
    match type of H with on_frame _ (set_chain _ ?q) = _ => set (u3 := q) in * end.
    assert (S3 : bsim (set_chain (u_set (bs_chains s) (b_chain u3)) u3) (set_chain (bs_chains s) p3)).
    { destruct S2 as [S0 [K1 K2]]. split; [exact S0|]. split; [|exact K2]. exact (val_set _ _ _ _ K1). }
    eapply bsim_frame; [|exact S3|exact H].
    apply (matched_seq _ _ (fun f => let! f2 := do_adds (limbo_fo a0) (bs_add s) f in
                                     do_resizes (limbo_fo a0) (bs_resize s) f2)
                           (fun f => let! f2 := do_adds (plain_fo b0) (bs_add s) f in
                                     do_resizes (plain_fo b0) (bs_resize s) f2) sim_clear).
    apply matched_seq; auto.
  - eapply bsim_frame; eauto.
  - eapply bsim_frame; [|exact Sm|exact H]. apply matched_fold. intros o.
    apply (sim_lift (LSwap (po_a o) (po_b o)) (OpSwap (po_a o) (po_b o)) (card_swap (po_a o) (po_b o))); reflexivity.
  - eapply bsim_frame; [|exact Sm|exact H]. apply matched_fold. intros o. apply sim_move.
  - eapply bsim_frame; eauto.
  - eapply bsim_frame; [|exact Sm|exact H].
    apply (sim_lift (LShuffle a b) (OpShuffle a b) (card_shuffle a b)); reflexivity.
  - discriminate.
  - discriminate.
  - injection H as <-. eexists. split; [reflexivity|].
    destruct Sm as [S0 [K1 [K2 [K3 K4]]]]. split; [exact S0|]. split; [exact K1|]. split; [|split; [|exact K4]].
    + cbn. destruct K2 as [K2 E2]. rewrite <- E2. eapply val_set. split; [exact K2|exact E2].
    + exact (val_set _ _ _ _ K3).
  - apply obind_Ok in H as [i [Hi H]]. rewrite Hi in *. cbn [obind] in *. injection H as <-.
    eexists. split; [reflexivity|]. cbn [undoable_vo plain_vo vo_set vo_get].
    replace (sel i (b_lp p)) with (u_get (sel i (b_lp u))).
    + apply bsim_lp. exact Sm.
    + destruct Sm as [_ [_ [_ [_ [K4 [K5 _]]]]]]. destruct i; [apply K5|apply K4].
  - injection H as <-. eexists. split; [reflexivity|].
    destruct Sm as [S0 [K1 [K2 [K3 [K4 [K5 [K6 K7]]]]]]].
    repeat (split; [assumption|]). split; [exact (val_set _ _ _ _ K6)|exact K7].
  - eapply bsim_frame; [|exact Sm|exact H]. apply matched_fold. intros o.
    apply (sim_lift (LPileSwap (po_a o) (po_b o)) (OpPileSwap (po_a o) (po_b o)) (pile_swap (po_a o) (po_b o)));
      reflexivity.
  - eapply bsim_frame; [|exact Sm|exact H]. apply matched_fold. intros o.
    apply (sim_lift (LSplice (sp_from o) (sp_count o) (sp_to o) (sp_reverse o))
             (OpSplice (sp_from o) (sp_count o) (sp_to o) (sp_reverse o))
             (pile_splice (sp_from o) (sp_count o) (sp_to o) (sp_reverse o))); reflexivity.
  - injection H as <-. eexists. split; [reflexivity|].
    destruct Sm as [S0 [K1 [K2 [K3 [K4 [K5 [K6 K7]]]]]]].
    repeat (split; [assumption|]). exact (val_set _ _ _ _ K7).
Qed.

(** *** The other direction *)
Lemma sim_act : forall a, event_act a -> matched (lstep a0 a) (fstep b0 (plain_op a)).
Proof.
  intros [p|p|p n| |p|p|p n| |a b| |a b|a b|a b|a n b r|a b] H; try destruct H.
  - exact (sim_add p).
  - exact (sim_remove p).
  - exact (sim_resize p n).
  - exact sim_clear.
  - exact (sim_move a b).
  - apply (sim_lift (LSwap a b) (OpSwap a b) (card_swap a b)); reflexivity.
  - apply (sim_lift (LShuffle a b) (OpShuffle a b) (card_shuffle a b)); reflexivity.
  - apply (sim_lift (LSplice a n b r) (OpSplice a n b r) (pile_splice a n b r)); reflexivity.
  - apply (sim_lift (LPileSwap a b) (OpPileSwap a b) (pile_swap a b)); reflexivity.
Qed.

Lemma act_back : forall a w f f', event_act a -> fsim w f -> fstep b0 (plain_op a) f = Ok f' ->
  resizes_fit b0 [a] f -> exists w', lstep a0 a w = Ok w'.
Proof.
  intros a w f f' Ea [Li [Ae [I [EL [EN S]]]]] H [Fit _].
  destruct (end_tape w Li Ae) as [nx [h [L [P [-> O]]]]].
  destruct f as [fn fh fl]. cbn [f_lay f_next f_heap lb_frame tape lb_lay] in *. subst fl fn.
  assert (Sh : shape L) by apply (to_lay _ _ _ _ _ _ O).
  assert (Nn : nonull L) by apply (to_lay _ _ _ _ _ _ O).
  assert (Lift : forall op, lift op (mkFrame nx fh L) = Ok f' ->
    exists w', l_lift op (tape A nx h L P []) = Ok w').
  { intros op X. unfold lift in X. cbn [f_lay] in X. apply obind_Ok in X as [L' [E _]].
    eexists. apply l_lift_tape. eauto. }
  destruct a as [p|p|p n| |p|p|p n| |a b| |a b|a b|a b|a n b r|a b]; try destruct Ea;
    cbn [plain_op fstep] in H; try (exact (Lift _ H)).
  - unfold card_add, construct_card in H. cbn [f_lay f_next f_heap] in H.
    apply obind_Ok in H as [[c f1] [H _]]. apply obind_Ok in H as [L' [E' _]].
    cbn [lstep]. eexists.
    rewrite (proj2 (add_live A a0 p nx h L P nx
      (tape A (nx + 1) ((nx, a0) :: h) L' (CardOp (Some nx) :: P) []))); [reflexivity|eauto].
  - unfold card_remove in H. cbn [f_lay] in H. inv_ok. cbn [lstep].
    match goal with E : card_erase _ _ = Ok (?c, ?L') |- _ => pose proof E as E' end.
    eexists. apply remove_live; auto. do 2 eexists. split; [exact E'|]. split; [|reflexivity].
    apply (to_cnt _ _ _ _ _ _ O). apply lay_ok_erase in E'; [|apply (to_lay _ _ _ _ _ _ O)].
    destruct E' as [_ E']. rewrite E', cnt_single_eq. destruct (N.eq_dec _ _); [lia|congruence].
  - unfold pile_resize in H. cbn [f_lay] in H. apply obind_Ok in H as [[] [Hp H]].
    apply obind_Ok in H as [r [Rp H]]. cbn [lstep].
    assert (Sl : exists i, slot p = Some (CPile r, i)) by (apply pile_of_iff; auto).
    destruct Sl as [i Sl]. specialize (Fit r i Sl). cbv zeta in Fit. cbn [contents f_lay] in Fit.
    set (l := get_pile r L) in *. pose proof (nonull_pile r L Nn) as Al. fold l in Al.
    assert (X : exists l' s', resized true nx l [] (N.to_nat n) = Ok (l', s') /\
      length l' = N.to_nat n /\ all_some l').
    { unfold resized. destruct (Nat.ltb_spec (length l) (N.to_nat n)) as [Hg|Hg].
      - do 2 eexists. split; [reflexivity|]. rewrite app_length, map_length, news_length. split; [lia|].
        apply all_some_app. split; auto. intros X. apply in_map_iff in X. destruct X as [y [X _]]. discriminate.
      - destruct (Nat.ltb_spec (N.to_nat n) (length l)) as [Hl|Hl].
        + destruct Fit as [Fit|Fit]; [lia|]. unfold copy_to.
          rewrite skipn_length, resize_ptrs_len.
          destruct (Nat.leb_spec (length l - (length l - N.to_nat n)) (length l - N.to_nat n)); [|lia].
          cbn [obind]. do 2 eexists. split; [reflexivity|]. rewrite firstn_length. split; [lia|].
          apply all_some_firstn; auto.
        + do 2 eexists. split; [reflexivity|]. split; [lia|auto]. }
    destruct X as [l' [s' [E1 [E2 E3]]]]. eexists. apply resize_live; auto.
    exists r, l', s'. fold l. repeat (split; [eassumption|]). reflexivity.
  - cbn [lstep]. rewrite clear_live. eauto.
  - unfold f_card_move in H. cbn [f_lay f_heap] in H. inv_ok. cbn [lstep].
    match goal with E : card_move _ _ _ = Ok (?c, ?L') |- _ => pose proof E as E'; set (c1 := c) in *; set (L1 := L') in * end.
    eexists. rewrite (proj2 (l_move_tape A a b nx h L P [] c1 (tape A nx h L1 P []))); [reflexivity|].
    exists L1. split; [exact E'|]. split; auto.
    pose proof (card_move_back _ _ _ _ _ Sh E') as Eb. apply card_move_view in Eb; [|eapply shape_move; eauto].
    destruct Eb as [_ [[k i] [_ Oc]]].
    pose proof (heap_live _ (mkFrame nx fh L) k i c1 I Oc) as Lv. unfold live in Lv. cbn [f_heap] in Lv.
    apply heap_get_In in Lv. destruct (heap_get c1 fh) as [v|] eqn:G; [|congruence].
    destruct (S c1 v G) as [x [Gx _]]. apply heap_get_In. congruence.
Qed.

Lemma acts_back : forall acts w f f', Forall event_act acts -> fsim w f ->
  ofold (fun a => fstep b0 (plain_op a)) acts f = Ok f' -> resizes_fit b0 acts f ->
  exists w', lrun a0 acts w = Ok w'.
Proof.
  induction acts as [|a acts IH]; intros w f f' Fa S H Fit; unfold lrun; cbn [ofold] in *; [eauto|].
  apply obind_Ok in H as [f1 [H1 H2]]. destruct Fit as [Fit1 Fit2].
  apply Forall_cons_iff in Fa as [Ea Fa].
  destruct (act_back a w f f1 Ea S H1) as [w1 W1]; [split; [exact Fit1|intros; exact Logic.I]|].
  rewrite W1. cbn [obind]. destruct (sim_act a Ea w f w1 S W1) as [f2 [E2 S2]].
  rewrite E2 in H1. injection H1 as ->. eapply IH; eauto.
Qed.

Notation pstep := (fun a => fstep b0 (plain_op a)).
Lemma p_fold : forall X (op : X -> frame B -> outcome (frame B)) (g : X -> lact) l f,
  (forall x f, op x f = fstep b0 (plain_op (g x)) f) -> ofold op l f = ofold pstep (map g l) f.
Proof.
  induction l as [|x l IH]; intros f E; cbn [ofold map]; auto. rewrite E.
  destruct (fstep b0 (plain_op (g x)) f); cbn [obind]; auto.
Qed.

Lemma pparse_acts : forall e p p', pparse b0 e p = Ok p' -> no_chain e ->
  accepted e /\ exists f', ofold pstep (event_acts e) (b_frame p) = Ok f'.
Proof.
  intros e p p' H Nc. unfold pparse in H.
  assert (Fr : forall op q, on_frame op q = Ok p' -> exists f', op (b_frame q) = Ok f').
  { intros op q X. unfold on_frame in X. apply obind_Ok in X as [f [X _]]. eauto. }
  destruct e as [|[|x|s]|re [|l|l|l|l|a b]|[|c|pp]|con|wr mr ft|con t|me|ph'|re [|l|l|l]|rs|zs];
    cbn [parse_event no_chain accepted event_acts] in *; try (destruct Nc; fail);
    try (split; [exact Logic.I|]; eexists; reflexivity).
  - split; auto. unfold parse_exchange in H. apply Fr in H. destruct H as [f' H]. exists f'. rewrite ofold_app.
    unfold do_resizes, do_removes, do_adds in H. unfold resize_acts.
    rewrite <- (p_fold _ (fun o => fo_resize (plain_fo b0) (rz_place o) (rz_count o))) by reflexivity.
    apply obind_Ok in H as [f1 [E1 H]]. rewrite E1. cbn [obind].
    rewrite ofold_app. rewrite <- (p_fold _ (fo_remove (plain_fo b0))) by reflexivity.
    apply obind_Ok in H as [f2 [E2 H]]. rewrite E2. cbn [obind].
    rewrite <- (p_fold _ (fo_add (plain_fo b0))) by reflexivity. exact H.
  - unfold parse_state in H. cbv zeta in H. apply obind_Ok in H as [lp0 [L0 H]].
    apply obind_Ok in H as [b2 [B2 H]]. apply obind_Ok in H as [lp1 [L1 H]].
    apply obind_Ok in H as [b3 [B3 H]]. apply Fr in H. destruct H as [f' H]. cbv beta in H. split.
    + unfold or_ub in L1. destruct (bs_lps s) as [|? [|? ?]]; cbn in *; try discriminate; lia.
    + exists f'.
      assert (b_frame p = b_frame (set_chain (vo_set plain_vo (bs_chains s) (b_chain b3)) b3)) as ->.
      { unfold assign_lp in *. inv_ok. destruct (0 <=? bs_turn_counter s)%Z; reflexivity. }
      cbn [ofold plain_op fstep].
      change (fo_clear (plain_fo b0)) with (@clear B) in H.
      apply obind_Ok in H as [f1 [E1 H]]. rewrite E1. cbn [obind].
      unfold do_adds, do_resizes in H. unfold resize_acts. rewrite ofold_app.
      rewrite <- (p_fold _ (fo_add (plain_fo b0))) by reflexivity.
      apply obind_Ok in H as [f2 [E2 H]]. rewrite E2. cbn [obind].
      rewrite <- (p_fold _ (fun o => fo_resize (plain_fo b0) (rz_place o) (rz_count o))) by reflexivity.
      exact H.
  - split; auto. apply Fr in H. destruct H as [f' H]. exists f'. unfold do_adds in H.
    rewrite <- (p_fold _ (fo_add (plain_fo b0))) by reflexivity. exact H.
  - split; auto. apply Fr in H. destruct H as [f' H]. exists f'. unfold do_swaps in H.
    rewrite <- (p_fold _ (fun o => fo_swap (plain_fo b0) (po_a o) (po_b o))) by reflexivity. exact H.
  - split; auto. apply Fr in H. destruct H as [f' H]. exists f'. unfold do_moves in H.
    rewrite <- (p_fold _ (fun o => fo_move (plain_fo b0) (po_a o) (po_b o))) by reflexivity. exact H.
  - split; auto. apply Fr in H. destruct H as [f' H]. exists f'. unfold do_removes in H.
    rewrite <- (p_fold _ (fo_remove (plain_fo b0))) by reflexivity. exact H.
  - split; auto. apply Fr in H. destruct H as [f' H]. exists f'. cbn [ofold plain_op fstep].
    change (fo_shuffle (plain_fo b0) a b (b_frame p)) with (lift (card_shuffle a b) (b_frame p)) in H.
    rewrite H. reflexivity.
  - apply obind_Ok in H as [i [Hi H]]. split; [eauto|]. eexists. reflexivity.
  - split; auto. apply Fr in H. destruct H as [f' H]. exists f'. unfold do_pile_swaps in H.
    rewrite <- (p_fold _ (fun o => fo_pile_swap (plain_fo b0) (po_a o) (po_b o))) by reflexivity. exact H.
  - split; auto. apply Fr in H. destruct H as [f' H]. exists f'. unfold do_splices in H.
    rewrite <- (p_fold _ (fun o => fo_splice (plain_fo b0) (sp_from o) (sp_count o) (sp_to o) (sp_reverse o)))
      by reflexivity. exact H.
Qed.

Theorem parse_back : forall e u p p', bsim u p -> pparse b0 e p = Ok p' -> no_chain e ->
  resizes_fit b0 (event_acts e) (b_frame p) -> exists u', uparse a0 e u = Ok u'.
Proof.
  intros e u p p' [S K] H Nc Fit. destruct (pparse_acts e p p' H Nc) as [Ac [f' Hf]].
  destruct (acts_back _ _ _ _ (event_acts_ok e) S Hf Fit) as [w' W].
  eexists. apply uparse_iff. split; eauto.
Qed.

(** The conditions are also necessary. *)
Lemma acts_fit : forall acts w f w', Forall event_act acts -> fsim w f -> lrun a0 acts w = Ok w' ->
  resizes_fit b0 acts f.
Proof.
  induction acts as [|a acts IH]; intros w f w' Fa S H; [exact Logic.I|]. unfold lrun in H. cbn [ofold] in H.
  apply obind_Ok in H as [w1 [H1 H2]]. apply Forall_cons_iff in Fa as [Ea Fa].
  destruct (sim_act a Ea w f w1 S H1) as [f1 [E1 S1]]. split.
  - destruct a; auto. intros r i Sl. destruct S as [Li [Ae [I [EL [EN S]]]]].
    destruct (end_tape w Li Ae) as [nx [h [L [P [-> O]]]]]. cbn [lb_lay tape lb_frame f_lay] in EL. rewrite EL.
    cbn [lstep] in H1. apply resize_live in H1; [|apply (to_lay _ _ _ _ _ _ O)].
    destruct H1 as [r' [l' [s' [Rp [E [Ln _]]]]]].
    assert (R' := proj2 (pile_of_iff _ _) (ex_intro _ _ Sl)). rewrite Rp in R'. injection R' as ->.
    cbv zeta. cbn [contents]. unfold resized in E.
    destruct (Nat.ltb_spec (length (get_pile r L)) (N.to_nat count)); [lia|].
    destruct (Nat.ltb_spec (N.to_nat count) (length (get_pile r L))); [|lia].
    apply obind_Ok in E as [s2 [E _]]. unfold copy_to in E. rewrite skipn_length, resize_ptrs_len in E.
    destruct (Nat.leb_spec (length (get_pile r L) - (length (get_pile r L) - N.to_nat count))
      (length (get_pile r L) - N.to_nat count)); [lia|discriminate].
  - intros f' E. rewrite E in E1. injection E1 as ->. eapply IH; eauto.
Qed.

Theorem parse_fit : forall e u p u', bsim u p -> uparse a0 e u = Ok u' ->
  no_chain e /\ resizes_fit b0 (event_acts e) (b_frame p).
Proof.
  intros e u p u' [S K] H. apply uparse_iff in H. destruct H as [Ac [w' [W _]]]. split.
  - destruct e as [| | |[]| | | | | | | |]; cbn in *; auto.
  - exact (acts_fit _ _ _ _ (event_acts_ok e) S W).
Qed.

Lemma bsim0 : bsim (uboard0 A) (pboard0 B).
Proof.
  split; [|repeat split]. split; [apply linv0|]. split; [reflexivity|]. split; [apply inv0|].
  split; [reflexivity|]. split; [reflexivity|]. intros id b H. discriminate.
Qed.
End Agree.
