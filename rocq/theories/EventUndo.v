(** Undoing events and walking through a recorded list of events. *)
From Verif Require Import Base BaseProofs Place Frame FrameSpec Limbo LimboSpec LimboProofs LimboFacts
  LimboUndo FrameFacts Msg Event EventSpec.

(** ** What an event does to each value of the board *)
Section Parts.

Definition vstep {T} (o : option (T -> T)) (u : undoable T) : undoable T :=
  match o with Some f => u_set (f (u_get u)) u | None => u end.
Definition vundo {T} (o : option (T -> T)) (u : undoable T) : outcome (undoable T) :=
  match o with Some _ => u_undo u | None => Ok u end.

Definition chain_part (e : event) : option (list chain -> list chain) :=
  match e with EvBoard (BoardState s) => Some (fun _ => bs_chains s) | _ => None end.
Definition turn_part (e : event) : option (N -> N) :=
  match e with
  | EvBoard (BoardState s) =>
      if (0 <=? bs_turn_counter s)%Z then Some (fun _ => Z.to_N (bs_turn_counter s)) else None
  | EvNextTurn _ => Some (fun t => u32 (t + 1))
  | _ => None
  end.
Definition tc_part (e : event) : option (Z -> Z) :=
  match e with EvNextTurn c => Some (fun _ => c) | _ => None end.
Definition lp_part (who : bool) (e : event) : option (N -> N) :=
  match e with
  | EvBoard (BoardState s) => Some (fun _ => nth (if who then 1 else 0) (bs_lps s) 0%N)
  | EvLp c t =>
      match lp_index c with
      | Ok i => if Bool.eqb i who then Some (fun x => new_lp t x) else None
      | _ => None
      end
  | _ => None
  end.
Definition phase_part (e : event) : option (N -> N) :=
  match e with EvNextPhase p => Some (fun _ => p) | _ => None end.
Definition blocked_part (e : event) : option (list place -> list place) :=
  match e with EvZoneBlock l => Some (fun _ => l) | _ => None end.

(** What the event itself must satisfy to be parsed on an undoable board. *)
Definition accepted (e : event) : Prop :=
  match e with
  | EvBoard (BoardState s) => (2 <= length (bs_lps s))%nat
  | EvChainStack (ChainPush _) | EvChainStack (ChainPop _) => False
  | EvLp c _ => exists i, lp_index c = Ok i
  | _ => True
  end.
End Parts.

Section Undo.
Variable C : Type.
Variable c0 : C.
Implicit Types b : uboard C.

Lemma ofold_map : forall A B S (f : A -> S -> outcome S) (g : B -> A) l s,
  ofold (fun x => f (g x)) l s = ofold f (map g l) s.
Proof. induction l; intros; simpl; auto. destruct (f (g a) s); simpl; auto. Qed.

Lemma ofold_ext : forall A S (f g : A -> S -> outcome S) l s,
  (forall a s, f a s = g a s) -> ofold f l s = ofold g l s.
Proof. induction l; intros; simpl; auto. rewrite H. destruct (g a s); simpl; auto. Qed.

(** The frame part of parse_event and undo_parse_event. *)
Lemma do_adds_run : forall l w, do_adds (limbo_fo c0) l w = lrun c0 (map LAdd l) w.
Proof. intros. unfold do_adds, lrun. rewrite <- ofold_map. reflexivity. Qed.
Lemma do_removes_run : forall l w, do_removes (limbo_fo c0) l w = lrun c0 (map LRemove l) w.
Proof. intros. unfold do_removes, lrun. rewrite <- ofold_map. reflexivity. Qed.
Lemma do_resizes_run : forall l w, do_resizes (limbo_fo c0) l w = lrun c0 (resize_acts l) w.
Proof. intros. unfold do_resizes, lrun, resize_acts. rewrite <- ofold_map. reflexivity. Qed.
Lemma do_swaps_run : forall l w,
  do_swaps (limbo_fo c0) l w = lrun c0 (map (fun o => LSwap (po_a o) (po_b o)) l) w.
Proof. intros. unfold do_swaps, lrun. rewrite <- ofold_map. reflexivity. Qed.
Lemma do_moves_run : forall l w,
  do_moves (limbo_fo c0) l w = lrun c0 (map (fun o => LMove (po_a o) (po_b o)) l) w.
Proof. intros. unfold do_moves, lrun. rewrite <- ofold_map. reflexivity. Qed.
Lemma do_splices_run : forall l w,
  do_splices (limbo_fo c0) l w =
  lrun c0 (map (fun o => LSplice (sp_from o) (sp_count o) (sp_to o) (sp_reverse o)) l) w.
Proof. intros. unfold do_splices, lrun. rewrite <- ofold_map. reflexivity. Qed.
Lemma do_pile_swaps_run : forall l w,
  do_pile_swaps (limbo_fo c0) l w = lrun c0 (map (fun o => LPileSwap (po_a o) (po_b o)) l) w.
Proof. intros. unfold do_pile_swaps, lrun. rewrite <- ofold_map. reflexivity. Qed.

Lemma undo_adds_run : forall l w,
  undo_adds (limbo_uo C) l w = lrun c0 (rev (map inv (map LAdd l))) w.
Proof. intros. unfold undo_adds, lrun. rewrite map_map, <- map_rev, <- ofold_map. reflexivity. Qed.
Lemma undo_removes_run : forall l w,
  undo_removes (limbo_uo C) l w = lrun c0 (rev (map inv (map LRemove l))) w.
Proof. intros. unfold undo_removes, lrun. rewrite map_map, <- map_rev, <- ofold_map. reflexivity. Qed.
Lemma undo_resizes_run : forall l w,
  undo_resizes (limbo_uo C) l w = lrun c0 (rev (map inv (resize_acts l))) w.
Proof.
  intros. unfold undo_resizes, lrun, resize_acts. rewrite map_map, <- map_rev, <- ofold_map. reflexivity.
Qed.

Lemma lrun_app : forall a1 a2 w, lrun c0 (a1 ++ a2) w = (let! w' := lrun c0 a1 w in lrun c0 a2 w').
Proof. intros. apply ofold_app. Qed.

Definition parsed e b w' : uboard C :=
  mkBoard undoable w' (vstep (chain_part e) (b_chain b)) (vstep (turn_part e) (b_turn b))
    (vstep (tc_part e) (b_turn_controller b))
    (vstep (lp_part false e) (fst (b_lp b)), vstep (lp_part true e) (snd (b_lp b)))
    (vstep (phase_part e) (b_phase b)) (vstep (blocked_part e) (b_blocked b)).

Lemma on_frame_iff : forall (m : limbo C -> outcome (limbo C)) b b',
  on_frame m b = Ok b' <-> exists w', m (b_frame b) = Ok w' /\ b' = set_frame w' b.
Proof.
  intros. unfold on_frame. split.
  - intros H. inv_ok. eauto.
  - intros [w' [E ->]]. rewrite E. reflexivity.
Qed.

Lemma no_frame_iff : forall (b' r : uboard C) w (f : limbo C -> uboard C), f w = r ->
  (Ok r = Ok b' <-> True /\ exists w', lrun c0 [] w = Ok w' /\ b' = f w').
Proof.
  intros b' r w f <-. split.
  - intros H. injection H as <-. split; auto. exists w. auto.
  - intros [_ [w' [E ->]]]. injection E as <-. reflexivity.
Qed.

Lemma on_frame_parsed : forall (m : limbo C -> outcome (limbo C)) acts b b' (f : limbo C -> uboard C),
  m (b_frame b) = lrun c0 acts (b_frame b) -> (forall w', f w' = set_frame w' b) ->
  (on_frame m b = Ok b' <-> True /\ exists w', lrun c0 acts (b_frame b) = Ok w' /\ b' = f w').
Proof.
  intros m acts b b' f E G. rewrite on_frame_iff, E. split.
  - intros [w' [H ->]]. split; auto. exists w'. rewrite G. auto.
  - intros [_ [w' [H ->]]]. exists w'. rewrite <- G. auto.
Qed.

Lemma uparse_iff : forall e b b', uparse c0 e b = Ok b' <->
  accepted e /\ exists w', lrun c0 (event_acts e) (b_frame b) = Ok w' /\ b' = parsed e b w'.
Proof.
  intros e b b'. destruct b as [w ch tu tc [l0 l1] ph bl]. unfold uparse, parsed.
  destruct e as [|[|x|s]|re [|l|l|l|l|pv cu]|[|c|pp]|con|wr mr ft|con t|me|ph'|re [|l|l|l]|rs|zs];
    cbn [parse_event accepted event_acts chain_part turn_part tc_part lp_part phase_part
     blocked_part vstep b_frame b_chain b_turn b_turn_controller b_lp b_phase b_blocked fst snd];
    try (apply (no_frame_iff _ _ w (fun w' => mkBoard undoable w' _ _ _ _ _ _)); reflexivity).
  - (* exchange *)
    unfold parse_exchange. apply on_frame_parsed; [|reflexivity]. cbn [b_frame].
    rewrite lrun_app, do_resizes_run. destruct (lrun c0 (resize_acts (bx_resize x)) w); cbn [obind]; auto.
    rewrite lrun_app, do_removes_run. destruct (lrun c0 (map LRemove (bx_remove x)) a); cbn [obind]; auto.
    apply do_adds_run.
  - (* state *)
    unfold parse_state. destruct s as [sh tcn lps chs add rsz].
    cbn [bs_turn_counter bs_lps bs_chains bs_add bs_resize].
    destruct lps as [|x0 [|x1 lps]]; cbn [nth_error or_ub obind length nth].
    + split; [discriminate|]. intros [A _]. lia.
    + split; [|intros [A _]; lia]. intros H. inv_ok.
    + assert (E : forall b', on_frame (fun f => let! f1 := fo_clear (limbo_fo c0) f in
          let! f2 := do_adds (limbo_fo c0) add f1 in do_resizes (limbo_fo c0) rsz f2) b' =
        on_frame (lrun c0 (LClear :: map LAdd add ++ resize_acts rsz)) b').
      { intros [w2 ? ? ? ? ? ?]. unfold on_frame. cbn [b_frame]. unfold lrun at 1. cbn [ofold].
        cbn [fo_clear limbo_fo lstep]. destruct (l_clear w2); cbn [obind]; auto.
        change (ofold (lstep c0)) with (lrun c0). rewrite lrun_app, do_adds_run.
        destruct (lrun c0 (map LAdd add) a); cbn [obind]; auto. rewrite do_resizes_run. reflexivity. }
      destruct (0 <=? tcn)%Z; unfold assign_lp; cbn [lp_index of_signed]; 
        change (lp_index 0) with (@Ok bool false); change (lp_index 1) with (@Ok bool true);
        cbn [obind]; rewrite E, on_frame_iff; cbn [b_frame set_frame set_chain set_lp set_turn];
        (split; [intros [w' [R ->]]; split; [lia|]; exists w'; split; [exact R|reflexivity]
                |intros [_ [w' [R ->]]]; exists w'; split; [exact R|reflexivity]]).
  - apply on_frame_parsed; [|reflexivity]. apply do_adds_run.
  - apply on_frame_parsed; [|reflexivity]. apply do_swaps_run.
  - apply on_frame_parsed; [|reflexivity]. apply do_moves_run.
  - apply on_frame_parsed; [|reflexivity]. apply do_removes_run.
  - apply on_frame_parsed; [|reflexivity]. unfold lrun. cbn [ofold b_frame fo_shuffle limbo_fo lstep].
    destruct (l_lift (card_shuffle pv cu) w); reflexivity.
  - (* push *) split; [discriminate|intros [[] _]].
  - split; [discriminate|intros [[] _]].
  - (* lp *)
    destruct (lp_index con) as [i| | |]; cbn [obind];
      try (split; [discriminate|intros [[i E] _]; discriminate]).
    split.
    + intros H. injection H as <-. split; [eauto|]. exists w. split; [reflexivity|].
      destruct i; reflexivity.
    + intros [_ [w' [E ->]]]. injection E as <-. destruct i; reflexivity.
  - apply on_frame_parsed; [|reflexivity]. apply do_pile_swaps_run.
  - apply on_frame_parsed; [|reflexivity]. apply do_splices_run.
Qed.

Lemma on_frame_Ok : forall (m : limbo C -> outcome (limbo C)) b w', m (b_frame b) = Ok w' ->
  on_frame m b = Ok (set_frame w' b).
Proof. intros. apply on_frame_iff. eauto. Qed.

(** undo_parse_event undoes the frame operations in reverse order, and each
    value the event assigned. *)
Lemma uundo_Ok : forall e b w' ch tu tc l0 l1 ph bl, accepted e ->
  lrun c0 (rev (map inv (event_acts e))) (b_frame b) = Ok w' ->
  vundo (chain_part e) (b_chain b) = Ok ch -> vundo (turn_part e) (b_turn b) = Ok tu ->
  vundo (tc_part e) (b_turn_controller b) = Ok tc ->
  vundo (lp_part false e) (fst (b_lp b)) = Ok l0 -> vundo (lp_part true e) (snd (b_lp b)) = Ok l1 ->
  vundo (phase_part e) (b_phase b) = Ok ph -> vundo (blocked_part e) (b_blocked b) = Ok bl ->
  uundo c0 e b = Ok (mkBoard undoable w' ch tu tc (l0, l1) ph bl).
Proof.
  intros e b w' ch tu tc l0 l1 ph bl A R Hch Htu Htc Hl0 Hl1 Hph Hbl.
  destruct b as [w ch1 tu1 tc1 [l01 l11] ph1 bl1]. unfold uundo.
  destruct e as [|[|x|s]|re [|l|l|l|l|pv cu]|[|c|pp]|con|wr mr ft|con t|me|ph'|re [|l|l|l]|rs|zs];
    cbn [undo_parse_event accepted event_acts chain_part turn_part tc_part lp_part phase_part
     blocked_part vundo b_frame b_chain b_turn b_turn_controller b_lp b_phase b_blocked fst snd] in *;
    repeat match goal with H : Ok _ = Ok _ |- _ => injection H as <- end;
    try (injection R as <-; reflexivity);
    try (rewrite on_frame_Ok with (w' := w'); [reflexivity|]; cbn [b_frame]).
  - (* exchange *)
    rewrite !map_app, !rev_app_distr, lrun_app, lrun_app in R. rewrite undo_adds_run.
    apply obind_Ok in R as [w2 [R R3]]. apply obind_Ok in R as [w1 [R1 R2]].
    rewrite R1. cbn [obind]. rewrite undo_removes_run, R2. cbn [obind]. rewrite undo_resizes_run. auto.
  - (* state *)
    unfold undo_state. cbn [map rev] in R. rewrite !map_app, !rev_app_distr, lrun_app, lrun_app in R.
    apply obind_Ok in R as [w2 [R R3]]. apply obind_Ok in R as [w1 [R1 R2]].
    rewrite on_frame_Ok with (w' := w').
    2:{ cbn [b_frame]. rewrite undo_resizes_run, R1. cbn [obind].
        rewrite undo_adds_run, R2. cbn [obind]. unfold lrun in R3. cbn [ofold inv lstep] in R3.
        cbn [uo_clear limbo_uo]. destruct (l_undo_clear w2); cbn [obind] in R3; auto; discriminate. }
    cbn [obind b_chain set_frame]. cbn [uo_undo limbo_uo]. rewrite Hch. cbn [obind].
    unfold undo_lp. change (lp_index 0) with (@Ok bool false); change (lp_index 1) with (@Ok bool true).
    cbn [obind b_lp set_chain set_frame sel snd fst uo_undo limbo_uo].
    rewrite Hl1. cbn [obind put2 set_lp b_lp sel fst snd]. rewrite Hl0.
    cbn [obind put2 fst snd b_turn set_lp set_chain set_frame].
    destruct (0 <=? bs_turn_counter s)%Z; cbn [vundo] in Htu.
    + rewrite Htu. reflexivity.
    + injection Htu as <-. reflexivity.
  - rewrite undo_adds_run. auto.
  - rewrite do_swaps_run. rewrite map_map, <- map_rev in R. auto.
  - unfold lrun in R. rewrite map_map, <- map_rev, <- ofold_map in R. exact R.
  - rewrite undo_removes_run. auto.
  - discriminate.
  - destruct A.
  - destruct A.
  - (* turn *)
    cbn [uo_undo limbo_uo]. rewrite Htu. cbn [obind b_turn_controller set_turn]. rewrite Htc.
    injection R as <-. reflexivity.
  - (* lp *)
    unfold undo_lp. destruct A as [i A]. rewrite A in *. cbn [obind]. injection R as <-.
    cbn [uo_undo limbo_uo b_lp]. destruct i; cbn [Bool.eqb vundo sel fst snd] in *.
    + injection Hl0 as <-. rewrite Hl1. reflexivity.
    + injection Hl1 as <-. rewrite Hl0. reflexivity.
  - cbn [uo_undo limbo_uo]. rewrite Hph. injection R as <-. reflexivity.
  - rewrite do_pile_swaps_run. rewrite map_map, <- map_rev in R. auto.
  - unfold undo_splices. unfold lrun in R. rewrite map_map, <- map_rev, <- ofold_map in R. exact R.
  - cbn [uo_undo limbo_uo]. rewrite Hbl. injection R as <-. reflexivity.
Qed.

(** Undoing an event undoes its frame operations. *)
Lemma uundo_frame : forall e b b', uundo c0 e b = Ok b' ->
  exists w', lrun c0 (rev (map inv (event_acts e))) (b_frame b) = Ok w'.
Proof.
  intros e b b' H. unfold uundo in H.
  assert (Fr : forall (m : limbo C -> outcome (limbo C)) acts,
    m (b_frame b) = lrun c0 acts (b_frame b) -> on_frame m b = Ok b' ->
    exists w', lrun c0 acts (b_frame b) = Ok w').
  { intros m acts E X. apply on_frame_iff in X. destruct X as [w' [X _]]. exists w'. congruence. }
  destruct e as [|[|x|s]|re [|l|l|l|l|pv cu]|[|c|pp]|con|wr mr ft|con t|me|ph'|re [|l|l|l]|rs|zs];
    cbn [undo_parse_event event_acts] in *; try (eexists; reflexivity); try discriminate H.
  - (* exchange *)
    eapply Fr; [|exact H]. cbv beta.
    rewrite !map_app, !rev_app_distr, lrun_app, lrun_app. rewrite undo_adds_run.
    destruct (lrun c0 (rev (map inv (map LAdd (bx_add x)))) (b_frame b)) as [w1| | |]; cbn [obind]; auto.
    rewrite undo_removes_run.
    destruct (lrun c0 (rev (map inv (map LRemove (bx_remove x)))) w1); cbn [obind]; auto.
    apply undo_resizes_run.
  - (* state *)
    unfold undo_state in H. apply obind_Ok in H as [b1 [H _]]. apply on_frame_iff in H.
    destruct H as [w' [H _]]. exists w'. rewrite <- H. clear.
    cbn [map rev]. rewrite !map_app, !rev_app_distr, lrun_app, lrun_app, undo_resizes_run.
    destruct (lrun c0 (rev (map inv (resize_acts (bs_resize s)))) (b_frame b)) as [w1| | |]; cbn [obind]; auto.
    rewrite undo_adds_run.
    destruct (lrun c0 (rev (map inv (map LAdd (bs_add s)))) w1) as [w2| | |]; cbn [obind]; auto.
    unfold lrun. cbn [ofold inv lstep]. cbn [uo_clear limbo_uo]. destruct (l_undo_clear w2); reflexivity.
  - eapply Fr; [|exact H]. apply undo_adds_run.
  - eapply Fr; [|exact H]. rewrite do_swaps_run, map_map, <- map_rev. reflexivity.
  - eapply Fr; [|exact H]. unfold lrun. rewrite map_map, <- map_rev, <- ofold_map. reflexivity.
  - eapply Fr; [|exact H]. apply undo_removes_run.
  - eapply Fr; [|exact H]. rewrite do_pile_swaps_run, map_map, <- map_rev. reflexivity.
  - eapply Fr; [|exact H]. unfold undo_splices, lrun. rewrite map_map, <- map_rev, <- ofold_map. reflexivity.
Qed.

(** ** Replays of one value *)
Section Value.
Variable T : Type.
Variable n : nat.
Variable part : nat -> option (T -> T).
Variable st : nat -> undoable T.
Hypothesis st_live : u_next (st 0) = [].
Hypothesis st_step : forall i, (i < n)%nat -> st (S i) = vstep (part i) (st i).

Fixpoint nexts (k i : nat) : list T :=
  match k with
  | O => []
  | S k' => match part i with Some _ => [u_get (st (S i))] | None => [] end ++ nexts k' (S i)
  end.
Definition vat (i m : nat) (u : undoable T) : Prop :=
  u = mkUndoable (u_past (st i)) (u_get (st i)) (nexts (m - i) i).

Lemma st_next : forall i, (i <= n)%nat -> u_next (st i) = [].
Proof.
  induction i; intros H; auto. rewrite st_step by lia. unfold vstep, u_set.
  rewrite IHi by lia. destruct (part i); auto. apply IHi. lia.
Qed.

Lemma vat_start : vat 0 0 (st 0).
Proof. unfold vat. simpl. rewrite <- st_live. destruct (st 0); reflexivity. Qed.

Lemma vat_live : forall i u, (i < n)%nat -> vat i i u -> vat (S i) (S i) (vstep (part i) u).
Proof.
  intros i u H ->. unfold vat. rewrite !Nat.sub_diag. simpl nexts. rewrite st_step by lia.
  unfold vstep. destruct (part i); auto. unfold u_set. rewrite st_next by lia. reflexivity.
Qed.

Lemma vat_redo : forall i m u, (i < m)%nat -> (m <= n)%nat -> vat i m u ->
  vat (S i) m (vstep (part i) u).
Proof.
  intros i m u H Hm ->. unfold vat. replace (m - i)%nat with (S (m - S i)) by lia. simpl nexts.
  destruct (part i) eqn:E; unfold vstep; simpl.
  - rewrite (st_step i) by lia. unfold vstep. rewrite E. unfold u_set. simpl.
    rewrite st_next by lia. reflexivity.
  - rewrite (st_step i) by lia. rewrite E. reflexivity.
Qed.

Lemma vat_undo : forall i m u, (S i <= m)%nat -> (m <= n)%nat -> vat (S i) m u ->
  exists u', vundo (part i) u = Ok u' /\ vat i m u'.
Proof.
  intros i m u H Hm ->. unfold vat. replace (m - i)%nat with (S (m - S i)) by lia. simpl nexts.
  assert (E : st (S i) = vstep (part i) (st i)) by (apply st_step; lia).
  assert (X : u_next (st i) = []) by (apply st_next; lia).
  rewrite E. clear E. unfold vstep, vundo, u_set. rewrite X. destruct (part i); simpl; eexists; split; reflexivity.
Qed.

Lemma vat_get : forall i m u, vat i m u -> u_get u = u_get (st i).
Proof. intros i m u ->. reflexivity. Qed.
End Value.

(** ** Replays of the board *)
Section Replay.
Variable es : list event.
Variable b0 : uboard C.
Hypothesis reach : board_reachable c0 b0.
Hypothesis live0 : board_live b0.
Variable bn : uboard C.
Hypothesis rec : parse_all c0 es b0 = Ok bn.

Let n := length es.
Let st (i : nat) : uboard C := match parse_all c0 (firstn i es) b0 with Ok b => b | _ => b0 end.
Let ev (i : nat) : event := nth i es EvNotSet.

Lemma firstn_S_nth : forall i, (i < n)%nat -> firstn (S i) es = firstn i es ++ [ev i].
Proof.
  unfold n, ev. clear. induction es as [|e l IH]; intros i H; [simpl in H; lia|].
  destruct i; [reflexivity|]. simpl in *. rewrite <- IH by lia. reflexivity.
Qed.

Lemma rec_prefix : forall i, (i <= n)%nat -> parse_all c0 (firstn i es) b0 = Ok (st i).
Proof.
  intros i H. unfold st. pose proof rec as R. rewrite <- (firstn_skipn i es) in R.
  unfold parse_all in *. rewrite ofold_app in R. apply obind_Ok in R as [b [E _]]. rewrite E. auto.
Qed.

Lemma rec_step_b : forall i, (i < n)%nat -> uparse c0 (ev i) (st i) = Ok (st (S i)).
Proof.
  intros i H. pose proof (rec_prefix (S i) H) as E. rewrite firstn_S_nth in E by auto.
  unfold parse_all in E. rewrite ofold_app in E. fold (parse_all c0 (firstn i es) b0) in E.
  rewrite rec_prefix in E by lia. cbn [obind ofold] in E.
  apply obind_Ok in E as [b [E X]]. injection X as ->. auto.
Qed.

Lemma und_at : all_undoable c0 es b0 -> forall i, (i < n)%nat -> event_undoable c0 (ev i) (st i).
Proof.
  intros und i H.
  assert (G : all_undoable c0 (skipn i es) (st i)).
  { induction i.
    - unfold st. simpl. auto.
    - assert (Hi : (i < n)%nat) by lia. specialize (IHi Hi).
      assert (X : skipn i es = ev i :: skipn (S i) es).
      { clear - Hi. unfold n, ev in *. revert i Hi. induction es; intros i Hi; simpl in *; [lia|].
        destruct i; auto. apply IHl. lia. }
      rewrite X in IHi. apply IHi. apply rec_step_b. auto. }
  assert (X : skipn i es = ev i :: skipn (S i) es).
  { clear - H. unfold n, ev in *. revert i H. induction es; intros i Hi; simpl in *; [lia|].
    destruct i; auto. apply IHl. lia. }
  rewrite X in G. apply G.
Qed.

Lemma accepted_at : forall i, (i < n)%nat -> accepted (ev i).
Proof. intros i H. apply rec_step_b in H. apply uparse_iff in H. tauto. Qed.

Lemma parsed_at : forall i, (i < n)%nat ->
  lrun c0 (event_acts (ev i)) (b_frame (st i)) = Ok (b_frame (st (S i))) /\
  st (S i) = parsed (ev i) (st i) (b_frame (st (S i))).
Proof.
  intros i H. apply rec_step_b in H. apply uparse_iff in H. destruct H as [_ [w' [E ->]]]. auto.
Qed.

Lemma frame_live_at : forall i, (i <= n)%nat -> exists nx h L P,
  b_frame (st i) = tape C nx h L P [] /\ tape_ok C nx h L P [].
Proof.
  induction i; intros H.
  - unfold st. simpl. destruct (lreachable_linv _ _ _ reach) as [nx [h [L [P [F [E O]]]]]].
    destruct live0 as [En _]. rewrite E in En. apply at_end_tape in En. subst F. eauto 10.
  - destruct IHi as [nx [h [L [P [E O]]]]]; [lia|].
    destruct (parsed_at i H) as [R _]. rewrite E in R.
    destruct (live_run C c0 _ _ _ _ _ _ (event_acts_ok _) O R) as [nx' [new [L' [ps [E' [O' _]]]]]].
    eauto 10.
Qed.

(** The board is at position [i] and [m] events have been seen. *)
Definition bat (i m : nat) b : Prop :=
  at_pos C c0 (fun i => event_acts (ev i)) (fun i => b_frame (st i)) i m (b_frame b) /\
  vat _ (fun i => chain_part (ev i)) (fun i => b_chain (st i)) i m (b_chain b) /\
  vat _ (fun i => turn_part (ev i)) (fun i => b_turn (st i)) i m (b_turn b) /\
  vat _ (fun i => tc_part (ev i)) (fun i => b_turn_controller (st i)) i m (b_turn_controller b) /\
  vat _ (fun i => lp_part false (ev i)) (fun i => fst (b_lp (st i))) i m (fst (b_lp b)) /\
  vat _ (fun i => lp_part true (ev i)) (fun i => snd (b_lp (st i))) i m (snd (b_lp b)) /\
  vat _ (fun i => phase_part (ev i)) (fun i => b_phase (st i)) i m (b_phase b) /\
  vat _ (fun i => blocked_part (ev i)) (fun i => b_blocked (st i)) i m (b_blocked b).

Ltac frame_hyps := first
  [ apply frame_live_at | intros; apply parsed_at; assumption | intros; apply event_acts_ok
  | assumption | lia ].

Lemma part_steps : forall i, (i < n)%nat ->
  b_chain (st (S i)) = vstep (chain_part (ev i)) (b_chain (st i)) /\
  b_turn (st (S i)) = vstep (turn_part (ev i)) (b_turn (st i)) /\
  b_turn_controller (st (S i)) = vstep (tc_part (ev i)) (b_turn_controller (st i)) /\
  fst (b_lp (st (S i))) = vstep (lp_part false (ev i)) (fst (b_lp (st i))) /\
  snd (b_lp (st (S i))) = vstep (lp_part true (ev i)) (snd (b_lp (st i))) /\
  b_phase (st (S i)) = vstep (phase_part (ev i)) (b_phase (st i)) /\
  b_blocked (st (S i)) = vstep (blocked_part (ev i)) (b_blocked (st i)).
Proof. intros i H. destruct (parsed_at i H) as [_ E]. rewrite E. repeat split. Qed.

Lemma live_parts : u_next (b_chain (st 0)) = [] /\ u_next (b_turn (st 0)) = [] /\
  u_next (b_turn_controller (st 0)) = [] /\ u_next (fst (b_lp (st 0))) = [] /\
  u_next (snd (b_lp (st 0))) = [] /\ u_next (b_phase (st 0)) = [] /\ u_next (b_blocked (st 0)) = [].
Proof. destruct live0 as [_ X]. exact X. Qed.

Ltac val_hyps := first
  [ apply live_parts | intros; apply part_steps; assumption | assumption | lia ].

Ltac vats l :=
  match goal with |- vat _ ?p ?s _ _ ?u => eapply (l _ n p s) || eapply (l _ p s) end; val_hyps.

Lemma bat_start : bat 0 0 b0.
Proof.
  change b0 with (st 0). refine (conj _ (conj _ (conj _ (conj _ (conj _ (conj _ (conj _ _))))))).
  - eapply at_pos_start with (n := n); frame_hyps.
  - vats vat_start.
  - vats vat_start.
  - vats vat_start.
  - vats vat_start.
  - vats vat_start.
  - vats vat_start.
  - vats vat_start.
Qed.

Lemma bat_step : forall i m m' b,
  (i = m /\ m' = S m \/ i < m /\ m' = m)%nat -> (i < n)%nat -> (m <= n)%nat -> bat i m b ->
  exists b', uparse c0 (ev i) b = Ok b' /\ bat (S i) m' b'.
Proof.
  intros i m m' b Hm Hi Hmn (Bf & B1 & B2 & B3 & B4 & B5 & B6 & B7).
  assert (F : exists w', lrun c0 (event_acts (ev i)) (b_frame b) = Ok w' /\
    at_pos C c0 (fun i => event_acts (ev i)) (fun i => b_frame (st i)) (S i) m' w').
  { destruct Hm as [[-> ->]|[H ->]].
    - eapply at_pos_live with (n := n) in Bf; try frame_hyps; exact Bf.
    - eapply at_pos_redo with (n := n) in Bf; try frame_hyps; exact Bf. }
  destruct F as [w' [R At]]. exists (parsed (ev i) b w'). split.
  - apply uparse_iff. split; [apply accepted_at; auto|eauto].
  - destruct Hm as [[-> ->]|[H ->]];
      refine (conj At (conj _ (conj _ (conj _ (conj _ (conj _ (conj _ _)))))));
      unfold parsed; cbn.
    + eapply vat_live with (n := n) in B1; try val_hyps; exact B1.
    + eapply vat_live with (n := n) in B2; try val_hyps; exact B2.
    + eapply vat_live with (n := n) in B3; try val_hyps; exact B3.
    + eapply vat_live with (n := n) in B4; try val_hyps; exact B4.
    + eapply vat_live with (n := n) in B5; try val_hyps; exact B5.
    + eapply vat_live with (n := n) in B6; try val_hyps; exact B6.
    + eapply vat_live with (n := n) in B7; try val_hyps; exact B7.
    + eapply vat_redo with (n := n) in B1; try val_hyps; exact B1.
    + eapply vat_redo with (n := n) in B2; try val_hyps; exact B2.
    + eapply vat_redo with (n := n) in B3; try val_hyps; exact B3.
    + eapply vat_redo with (n := n) in B4; try val_hyps; exact B4.
    + eapply vat_redo with (n := n) in B5; try val_hyps; exact B5.
    + eapply vat_redo with (n := n) in B6; try val_hyps; exact B6.
    + eapply vat_redo with (n := n) in B7; try val_hyps; exact B7.
Qed.

Lemma bat_back_frame : forall i m b w', (S i <= m)%nat -> (m <= n)%nat -> bat (S i) m b ->
  lrun c0 (rev (map inv (event_acts (ev i)))) (b_frame b) = Ok w' ->
  at_pos C c0 (fun i => event_acts (ev i)) (fun i => b_frame (st i)) i m w' ->
  exists b', uundo c0 (ev i) b = Ok b' /\ bat i m b'.
Proof.
  intros i m b w' Hi Hmn (_ & B1 & B2 & B3 & B4 & B5 & B6 & B7) Rf Af.
  eapply vat_undo with (n := n) in B1; try val_hyps.
  eapply vat_undo with (n := n) in B2; try val_hyps.
  eapply vat_undo with (n := n) in B3; try val_hyps.
  eapply vat_undo with (n := n) in B4; try val_hyps.
  eapply vat_undo with (n := n) in B5; try val_hyps.
  eapply vat_undo with (n := n) in B6; try val_hyps.
  eapply vat_undo with (n := n) in B7; try val_hyps.
  destruct B1 as [v1 [R1 A1]]. destruct B2 as [v2 [R2 A2]].
  destruct B3 as [v3 [R3 A3]]. destruct B4 as [v4 [R4 A4]]. destruct B5 as [v5 [R5 A5]].
  destruct B6 as [v6 [R6 A6]]. destruct B7 as [v7 [R7 A7]].
  eexists. split.
  - eapply uundo_Ok; eauto. apply accepted_at. lia.
  - repeat split; auto.
Qed.

Lemma bat_back : forall i m b, (S i <= m)%nat -> (m <= n)%nat -> event_undoable c0 (ev i) (st i) ->
  bat (S i) m b -> exists b', uundo c0 (ev i) b = Ok b' /\ bat i m b'.
Proof.
  intros i m b Hi Hmn U B. pose proof (proj1 B) as Bf.
  eapply at_pos_undo with (n := n) in Bf; try frame_hyps. destruct Bf as [w' [Rf Af]].
  eapply bat_back_frame; eauto.
Qed.

(** Whatever can be taken back leads back. *)
Lemma bat_undone : forall i m b b', (S i <= m)%nat -> (m <= n)%nat -> bat (S i) m b ->
  uundo c0 (ev i) b = Ok b' -> bat i m b'.
Proof.
  intros i m b b' Hi Hmn B H. pose proof (proj1 B) as Bf.
  destruct (uundo_frame _ _ _ H) as [w' Rf].
  eapply at_pos_undone with (n := n) in Bf; try frame_hyps; [|exact Rf].
  destruct (bat_back_frame i m b w' Hi Hmn B Rf Bf) as [b2 [E A]]. rewrite H in E. injection E as <-.
  exact A.
Qed.
Lemma nth_ev : forall i, (i < n)%nat -> nth_error es i = Some (ev i).
Proof. intros i H. apply nth_error_nth'. exact H. Qed.

Lemma walk_bat : all_undoable c0 es b0 -> forall ms, exists i m b, walk c0 es ms (0%nat, b0) = Ok (i, b) /\
  (i <= m)%nat /\ (m <= n)%nat /\ bat i m b.
Proof.
  intros und.
  assert (G : forall ms i m b, (i <= m)%nat -> (m <= n)%nat -> bat i m b ->
    exists i' m' b', walk c0 es ms (i, b) = Ok (i', b') /\ (i' <= m')%nat /\ (m' <= n)%nat /\ bat i' m' b').
  { induction ms as [|mv ms IH]; intros i m b Hi Hm B.
    - exists i, m, b. repeat split; auto; apply B.
    - unfold walk. cbn [ofold]. destruct mv; cbn [wstep].
      + destruct (Nat.eq_dec i n) as [->|Hn].
        * replace (nth_error es n) with (@None event) by (symmetry; apply nth_error_None; unfold n; lia).
          cbn [obind]. apply (IH n m b); auto.
        * rewrite nth_ev by lia.
          set (m' := if Nat.eqb i m then S m else m).
          assert (Hm' : (i = m /\ m' = S m \/ i < m /\ m' = m)%nat).
          { unfold m'. destruct (Nat.eqb_spec i m); lia. }
          destruct (bat_step i m m' b Hm' ltac:(lia) Hm B) as [b' [E B']].
          rewrite E. cbn [obind]. apply (IH (S i) m' b'); auto; lia.
      + destruct i as [|i].
        * cbn [obind]. apply (IH 0%nat m b); auto.
        * rewrite nth_ev by lia. destruct (bat_back i m b Hi Hm (und_at und i ltac:(lia)) B) as [b' [E B']].
          rewrite E. cbn [obind]. apply (IH i m b'); auto; lia. }
  intros ms. apply (G ms 0%nat 0%nat b0); try lia. apply bat_start.
Qed.

(** A walk that gets through. *)
Lemma walked_bat : forall ms i b, walk c0 es ms (0%nat, b0) = Ok (i, b) ->
  exists m, (i <= m)%nat /\ (m <= n)%nat /\ bat i m b.
Proof.
  assert (G : forall ms i m b i' b', (i <= m)%nat -> (m <= n)%nat -> bat i m b ->
    walk c0 es ms (i, b) = Ok (i', b') -> exists m', (i' <= m')%nat /\ (m' <= n)%nat /\ bat i' m' b').
  { induction ms as [|mv ms IH]; intros i m b i' b' Hi Hm B W.
    - injection W as <- <-. exists m. auto.
    - unfold walk in W. cbn [ofold] in W. apply obind_Ok in W as [[j c] [W1 W2]].
      destruct mv; cbn [wstep] in W1.
      + destruct (Nat.eq_dec i n) as [->|Hn].
        * replace (nth_error es n) with (@None event) in W1
            by (symmetry; apply nth_error_None; unfold n; lia).
          injection W1 as <- <-. apply (IH n m b i' b'); auto.
        * rewrite nth_ev in W1 by lia.
          set (m' := if Nat.eqb i m then S m else m).
          assert (Hm' : (i = m /\ m' = S m \/ i < m /\ m' = m)%nat).
          { unfold m'. destruct (Nat.eqb_spec i m); lia. }
          destruct (bat_step i m m' b Hm' ltac:(lia) Hm B) as [b1 [E B']].
          rewrite E in W1. injection W1 as <- <-. apply (IH (S i) m' b1 i' b'); auto; lia.
      + destruct i as [|i].
        * injection W1 as <- <-. apply (IH 0%nat m b i' b'); auto.
        * rewrite nth_ev in W1 by lia. apply obind_Ok in W1 as [b1 [E X]]. injection X as <- <-.
          pose proof (bat_undone i m b b1 Hi Hm B E) as B'. apply (IH i m b1 i' b'); auto; lia. }
  intros ms i b W. apply (G ms 0%nat 0%nat b0 i b); try lia; auto. apply bat_start.
Qed.

Lemma heap_get_new : forall (h new : list (N * C)) id, NoDup (map fst (new ++ h)) ->
  heap_get id h <> None -> heap_get id (new ++ h) = heap_get id h.
Proof.
  induction new as [|x new IH]; intros id Nd H; auto. cbn [app heap_get].
  inversion Nd as [|? ? Hx Nd']; subst. destruct (N.eqb_spec (fst x) id) as [E|E]; auto.
  exfalso. apply Hx. rewrite E. apply heap_get_In. rewrite IH; auto.
Qed.

Lemma bat_scene : forall i m b, (i <= m)%nat -> (m <= n)%nat -> bat i m b ->
  scene_of b = scene_of (st i) /\
  forall id, content (st i) id <> None -> content b id = content (st i) id.
Proof.
  intros i m b Hi Hm (Bf & B1 & B2 & B3 & B4 & B5 & B6 & B7).
  pose proof Bf as Bf0.
  eapply at_pos_view with (n := n) in Bf; try frame_hyps. destruct Bf as [Lay [new Hh]].
  split.
  - unfold scene_of. rewrite Lay, (vat_get _ _ _ _ _ _ B1), (vat_get _ _ _ _ _ _ B2),
      (vat_get _ _ _ _ _ _ B3), (vat_get _ _ _ _ _ _ B4), (vat_get _ _ _ _ _ _ B5),
      (vat_get _ _ _ _ _ _ B6), (vat_get _ _ _ _ _ _ B7). reflexivity.
  - intros id. unfold content. intros H. rewrite Hh. apply heap_get_new; auto. rewrite <- Hh.
    destruct Bf0 as [P [F [-> _]]]. cbn.
    destruct (frame_live_at m Hm) as [nx [h [L [P' [E O]]]]]. rewrite E. cbn.
    apply (to_nodup _ _ _ _ _ _ O).
Qed.

Theorem walk_scene : all_undoable c0 es b0 -> forall ms, exists i b bi, walk c0 es ms (0%nat, b0) = Ok (i, b) /\
  (i <= length es)%nat /\ parse_all c0 (firstn i es) b0 = Ok bi /\
  scene_of b = scene_of bi /\ forall id, content bi id <> None -> content b id = content bi id.
Proof.
  intros und ms. destruct (walk_bat und ms) as [i [m [b [W [Hi [Hm B]]]]]].
  exists i, b, (st i). split; [exact W|]. split; [unfold n in Hm; lia|].
  split; [apply rec_prefix; lia|]. apply (bat_scene i m b); auto.
Qed.

Theorem walked_scene : forall ms i b, walk c0 es ms (0%nat, b0) = Ok (i, b) ->
  (i <= length es)%nat /\ exists bi, parse_all c0 (firstn i es) b0 = Ok bi /\
  scene_of b = scene_of bi /\ forall id, content bi id <> None -> content b id = content bi id.
Proof.
  intros ms i b W. destruct (walked_bat ms i b W) as [m [Hi [Hm B]]].
  split; [unfold n in Hm; lia|]. exists (st i).
  split; [apply rec_prefix; lia|]. apply (bat_scene i m b); auto.
Qed.
End Replay.

(** ** One event, at any point of any history *)
Lemma vundo_vstep : forall T (o : option (T -> T)) (u : undoable T),
  exists u', vundo o (vstep o u) = Ok u' /\ u_get u' = u_get u.
Proof. intros T [f|] u; simpl; [unfold u_set; destruct (u_next u)|]; eexists; split; reflexivity. Qed.

Theorem undo_parse : forall e b b', board_reachable c0 b -> event_undoable c0 e b ->
  uparse c0 e b = Ok b' ->
  exists b'', uundo c0 e b' = Ok b'' /\ scene_of b'' = scene_of b /\
    forall id, content b id <> None -> content b'' id = content b id.
Proof.
  intros e b b' Re U H. apply uparse_iff in H as [A [w' [R ->]]].
  destruct (lreachable_linv _ _ _ Re) as [nx [h [L [P [F [E O]]]]]].
  unfold event_undoable in U. rewrite E in U, R.
  destruct (trs_run C c0 _ _ _ _ _ _ _ O U R) as [nx' [new [L' [ps [fs [F' [E' [O' [T _]]]]]]]]].
  subst w'.
  destruct (trs_undo C c0 _ _ _ _ _ _ T nx' (new ++ h) P F' (incl_refl _)) as [fs' [_ R']].
  destruct (vundo_vstep _ (chain_part e) (b_chain b)) as [v1 [R1 G1]].
  destruct (vundo_vstep _ (turn_part e) (b_turn b)) as [v2 [R2 G2]].
  destruct (vundo_vstep _ (tc_part e) (b_turn_controller b)) as [v3 [R3 G3]].
  destruct (vundo_vstep _ (lp_part false e) (fst (b_lp b))) as [v4 [R4 G4]].
  destruct (vundo_vstep _ (lp_part true e) (snd (b_lp b))) as [v5 [R5 G5]].
  destruct (vundo_vstep _ (phase_part e) (b_phase b)) as [v6 [R6 G6]].
  destruct (vundo_vstep _ (blocked_part e) (b_blocked b)) as [v7 [R7 G7]].
  eexists. split; [eapply uundo_Ok; cbn; eauto|]. unfold scene_of, content. cbn.
  rewrite G1, G2, G3, G4, G5, G6, G7, E. cbn. split; [reflexivity|].
  intros id Hid. apply heap_get_new; auto. apply (to_nodup _ _ _ _ _ _ O').
Qed.

(** At the live end only such events can be undone. *)
Theorem undone_event : forall e b b' b'', board_reachable c0 b -> at_end (b_frame b) ->
  uparse c0 e b = Ok b' -> uundo c0 e b' = Ok b'' -> event_undoable c0 e b.
Proof.
  intros e b b' b'' Re En H U. apply uparse_iff in H as [A [w' [R ->]]].
  destruct (lreachable_linv _ _ _ Re) as [nx [h [L [P [F [E O]]]]]].
  rewrite E in En. apply at_end_tape in En. subst F. unfold event_undoable. rewrite E in R |- *.
  destruct (live_run C c0 _ _ _ _ _ _ (event_acts_ok _) O R) as [nx' [new [L' [ps [-> [O' _]]]]]].
  destruct (uundo_frame _ _ _ U) as [w2 U']. cbn [parsed b_frame] in U'.
  eapply undone_undoable; eauto using event_acts_ok, incl_refl.
Qed.
End Undo.
