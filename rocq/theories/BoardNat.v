(** What cards hold does not matter to parse_event and undo_parse_event on an
    undoable board either. *)
From Verif Require Import Base BaseProofs Place Frame FrameSpec Limbo LimboSpec LimboUndo LimboNat Msg Event
  EventSpec EventUndo.

Local Open Scope N_scope.

Lemma undo_splices_run : forall C (c0 : C) l w, undo_splices (limbo_fo c0) l w =
  lrun c0 (map (fun o => LSplice (sp_to o) (sp_count o) (sp_from o) (sp_reverse o)) (rev l)) w.
Proof. intros. unfold lrun. rewrite <- ofold_map. reflexivity. Qed.

Section Nat.
Variables A B : Type.
Variable g : A -> B.
Variables (a0 : A) (b0 : B).
Hypothesis g0 : g a0 = b0.

Notation lm := (lmap A B g).
Definition bmap (b : uboard A) : uboard B :=
  mkBoard undoable (lm (b_frame b)) (b_chain b) (b_turn b) (b_turn_controller b) (b_lp b)
    (b_phase b) (b_blocked b).

Lemma lrun_m : forall acts w, lrun b0 acts (lm w) = omap lm (lrun a0 acts w).
Proof. exact (lrun_map A B g a0 b0 g0). Qed.

Lemma on_frame_map : forall (m : limbo A -> outcome (limbo A)) (m' : limbo B -> outcome (limbo B)) b,
  (forall w, m' (lm w) = omap lm (m w)) -> on_frame m' (bmap b) = omap bmap (on_frame m b).
Proof.
  intros m m' b H. unfold on_frame. cbn [b_frame bmap]. rewrite H.
  destruct (m (b_frame b)); reflexivity.
Qed.

Theorem uparse_map : forall e b, match uparse a0 e b with
  | Ok b' => uparse b0 e (bmap b) = Ok (bmap b')
  | _ => forall b', uparse b0 e (bmap b) <> Ok b'
  end.
Proof.
  intros e b. destruct (uparse a0 e b) as [b'| | |] eqn:E.
  - apply uparse_iff in E. destruct E as [Ac [w' [R ->]]]. apply uparse_iff. split; auto.
    exists (lm w'). cbn [b_frame bmap]. rewrite lrun_m, R. split; reflexivity.
  - intros b' H. apply uparse_iff in H. destruct H as [Ac [w' [R ->]]]. cbn [b_frame bmap] in R.
    rewrite lrun_m in R. unfold omap in R. inv_ok.
    assert (X : uparse a0 e b = Ok (parsed A e b r)) by (apply uparse_iff; eauto). congruence.
  - intros b' H. apply uparse_iff in H. destruct H as [Ac [w' [R ->]]]. cbn [b_frame bmap] in R.
    rewrite lrun_m in R. unfold omap in R. inv_ok.
    assert (X : uparse a0 e b = Ok (parsed A e b r)) by (apply uparse_iff; eauto). congruence.
  - intros b' H. apply uparse_iff in H. destruct H as [Ac [w' [R ->]]]. cbn [b_frame bmap] in R.
    rewrite lrun_m in R. unfold omap in R. inv_ok.
    assert (X : uparse a0 e b = Ok (parsed A e b r)) by (apply uparse_iff; eauto). congruence.
Qed.

Lemma undo_adds_map : forall l w, undo_adds (limbo_uo B) l (lm w) = omap lm (undo_adds (limbo_uo A) l w).
Proof. intros. rewrite (undo_adds_run B b0), (undo_adds_run A a0). apply lrun_m. Qed.
Lemma undo_removes_map : forall l w,
  undo_removes (limbo_uo B) l (lm w) = omap lm (undo_removes (limbo_uo A) l w).
Proof. intros. rewrite (undo_removes_run B b0), (undo_removes_run A a0). apply lrun_m. Qed.
Lemma undo_resizes_map : forall l w,
  undo_resizes (limbo_uo B) l (lm w) = omap lm (undo_resizes (limbo_uo A) l w).
Proof. intros. rewrite (undo_resizes_run B b0), (undo_resizes_run A a0). apply lrun_m. Qed.

Lemma undo_lp_map : forall con b,
  undo_lp (limbo_uo B) con (bmap b) = omap bmap (undo_lp (limbo_uo A) con b).
Proof.
  intros con b. unfold undo_lp. destruct (lp_index con) as [i| | |]; cbn [obind]; try reflexivity.
  cbn [b_lp bmap uo_undo limbo_uo]. destruct (u_undo _); reflexivity.
Qed.

Theorem uundo_map : forall e b, uundo b0 e (bmap b) = omap bmap (uundo a0 e b).
Proof.
  intros e b. unfold uundo.
  destruct e as [|[|x|s]|re [|l|l|l|l|pv cu]|[|c|pp]|con|wr mr ft|con t|me|ph'|re [|l|l|l]|rs|zs];
    cbn [undo_parse_event]; try reflexivity.
  - apply on_frame_map. intros w. apply bind_map with (h := lm); [apply undo_adds_map|]. intros w1.
    apply bind_map with (h := lm); [apply undo_removes_map|]. intros w2. apply undo_resizes_map.
  - unfold undo_state. apply bind_map with (h := bmap).
    { apply on_frame_map. intros w. apply bind_map with (h := lm); [apply undo_resizes_map|]. intros w1.
      apply bind_map with (h := lm); [apply undo_adds_map|]. intros w2. apply (undo_clear_map A B g). }
    intros b1. cbn [b_chain bmap uo_undo limbo_uo].
    destruct (u_undo (b_chain b1)); cbn [obind]; try reflexivity.
    apply bind_map with (h := bmap); [apply (undo_lp_map 1 (set_chain a b1))|]. intros b2.
    apply bind_map with (h := bmap); [apply undo_lp_map|]. intros b3.
    destruct (0 <=? bs_turn_counter s)%Z; [|reflexivity]. cbn [b_turn bmap].
    destruct (u_undo (b_turn b3)); reflexivity.
  - apply on_frame_map. intros w. apply undo_adds_map.
  - apply on_frame_map. intros w. rewrite !do_swaps_run. apply lrun_m.
  - apply on_frame_map. intros w.
    change (fun o : pair_op => fo_move (limbo_fo b0) (po_b o) (po_a o)) with
      (fun o : pair_op => lstep b0 (LMove (po_b o) (po_a o))).
    change (fun o : pair_op => fo_move (limbo_fo a0) (po_b o) (po_a o)) with
      (fun o : pair_op => lstep a0 (LMove (po_b o) (po_a o))).
    rewrite (ofold_map _ _ _ (lstep b0) (fun o => LMove (po_b o) (po_a o))).
    rewrite (ofold_map _ _ _ (lstep a0) (fun o => LMove (po_b o) (po_a o))). apply lrun_m.
  - apply on_frame_map. intros w. apply undo_removes_map.
  - cbn [uo_undo limbo_uo b_turn bmap]. destruct (u_undo (b_turn b)); cbn [obind]; try reflexivity.
    cbn [b_turn_controller set_turn bmap]. destruct (u_undo (b_turn_controller b)); reflexivity.
  - apply undo_lp_map.
  - cbn [uo_undo limbo_uo b_phase bmap]. destruct (u_undo (b_phase b)); reflexivity.
  - apply on_frame_map. intros w. rewrite !do_pile_swaps_run. apply lrun_m.
  - apply on_frame_map. intros w. rewrite !undo_splices_run. apply lrun_m.
  - cbn [uo_undo limbo_uo b_blocked bmap]. destruct (u_undo (b_blocked b)); reflexivity.
Qed.

Lemma acts_undoable_map : forall acts w, acts_undoable a0 acts w -> acts_undoable b0 acts (lm w).
Proof.
  induction acts as [|a acts IH]; intros w H; [exact I|]. destruct H as [H1 H2]. split.
  - destruct a; exact H1.
  - intros w' E. rewrite (lstep_map A B g a0 b0 g0) in E. unfold omap in E. inv_ok. auto.
Qed.
Lemma event_undoable_map : forall e b, event_undoable a0 e b -> event_undoable b0 e (bmap b).
Proof. intros e b H. apply acts_undoable_map. exact H. Qed.

Lemma scene_map : forall b, scene_of (bmap b) = scene_of b.
Proof. reflexivity. Qed.
Lemma content_map : forall b id, content (bmap b) id = option_map g (content b id).
Proof. intros. apply (hmap_get A B g). Qed.
End Nat.

(** ** Contents of cards *)
Section Contents.
Variable C : Type.
Variable c0 : C.

Notation fr b := (lb_frame (b_frame b)).

Lemma uparse_new : forall e b b', uparse c0 e b = Ok b' -> only_new C c0 (fr b) (fr b').
Proof.
  intros e b b' H. apply uparse_iff in H. destruct H as [_ [w' [R ->]]].
  apply (lrun_new C c0) in R. exact R.
Qed.

Lemma on_frame_new : forall m (b b' : uboard C), on_frame m b = Ok b' ->
  (forall w w', m w = Ok w' -> only_new C c0 (lb_frame w) (lb_frame w')) -> only_new C c0 (fr b) (fr b').
Proof. intros m b b' H K. unfold on_frame in H. inv_ok. apply K in E. exact E. Qed.

Lemma undo_lp_frame : forall con (b b' : uboard C), undo_lp (limbo_uo C) con b = Ok b' ->
  b_frame b' = b_frame b.
Proof. intros con b b' H. unfold undo_lp in H. inv_ok. reflexivity. Qed.

Lemma uundo_new : forall e b b', uundo c0 e b = Ok b' -> only_new C c0 (fr b) (fr b').
Proof.
  intros e b b' H. unfold uundo in H.
  assert (Rn := lrun_new C c0).
  destruct e as [|[|x|s]|re [|l|l|l|l|pv cu]|[|c|pp]|con|wr mr ft|con t|me|ph'|re [|l|l|l]|rs|zs];
    cbn [undo_parse_event] in H; try (injection H as <-; apply only_new_same); try discriminate.
  - eapply on_frame_new; eauto. cbv beta. intros w w' K. inv_ok.
    rewrite (undo_adds_run C c0) in E. rewrite (undo_removes_run C c0) in E0.
    rewrite (undo_resizes_run C c0) in K. apply Rn in E, E0, K.
    eapply only_new_trans; [exact E|]. eapply only_new_trans; [exact E0|exact K].
  - unfold undo_state in H. inv_ok. eapply on_frame_new in E.
    2:{ cbv beta. intros w w' K. inv_ok. rewrite (undo_resizes_run C c0) in E3.
        rewrite (undo_adds_run C c0) in E4. apply (lstep_new C c0 LUndoClear) in K. apply Rn in E3, E4.
        eapply only_new_trans; [exact E3|]. eapply only_new_trans; [exact E4|exact K]. }
    apply undo_lp_frame in E1. apply undo_lp_frame in E2. cbn [b_frame set_chain] in E1.
    assert (F : b_frame b' = b_frame r2).
    { destruct (0 <=? bs_turn_counter s)%Z; inv_ok; reflexivity. }
    rewrite F, E2, E1. exact E.
  - eapply on_frame_new; eauto. intros w w' K. rewrite (undo_adds_run C c0) in K. eauto.
  - eapply on_frame_new; eauto. intros w w' K. rewrite do_swaps_run in K. eauto.
  - eapply on_frame_new; eauto. intros w w' K.
    change (fun o : pair_op => fo_move (limbo_fo c0) (po_b o) (po_a o)) with
      (fun o : pair_op => lstep c0 (LMove (po_b o) (po_a o))) in K.
    rewrite (ofold_map _ _ _ (lstep c0) (fun o => LMove (po_b o) (po_a o))) in K. eapply Rn. exact K.
  - eapply on_frame_new; eauto. intros w w' K. rewrite (undo_removes_run C c0) in K. eauto.
  - inv_ok. apply only_new_same.
  - apply undo_lp_frame in H. rewrite H. apply only_new_same.
  - inv_ok. apply only_new_same.
  - eapply on_frame_new; eauto. intros w w' K. rewrite do_pile_swaps_run in K. eauto.
  - eapply on_frame_new; eauto. intros w w' K. rewrite undo_splices_run in K. eauto.
  - inv_ok. apply only_new_same.
Qed.
End Contents.
