(** Undoing and redoing sequences of frame operations on a limbo frame. *)
From Verif Require Import Base BaseProofs Place PlaceProofs Frame FrameSpec FrameLens
  FrameProofs FrameMove FrameOps FramePiles FrameInv FrameShuffle FrameFacts
  Limbo LimboSpec LimboProofs LimboFacts Msg Event EventSpec.

Section Undo.
Variable C : Type.
Variable c0 : C.
Implicit Types w : limbo C.

Notation tape := (tape C).
Notation tape_ok := (tape_ok C).

Lemma drop_fst : forall (m : outcome (N * limbo C)) c w, m = Ok (c, w) ->
  (let! (_, w') := m in Ok w') = Ok w.
Proof. intros m c w ->. reflexivity. Qed.

(** The operation undo_parse_event runs to take back [a]. *)
Definition inv (a : lact) : lact :=
  match a with
  | LAdd p => LUndoAdd p
  | LRemove p => LUndoRemove p
  | LResize p n => LUndoResize p n
  | LClear => LUndoClear
  | LMove a b => LMove b a
  | LSplice a n b r => LSplice b n a r
  | LShuffle p c => LUndoShuffle p c
  | x => x
  end.

(** [tr hs a L L' p f]: [a] leads from [L] to [L'] and back, leaving [p] in the
    past resp. [f] in the future; [hs] are the cards alive. *)
Inductive tr (hs : list N) : lact -> layout -> layout -> list lop -> list lop -> Prop :=
| tr_add : forall p c L L', lay_ok L -> In c hs -> card_insert p c L = Ok L' ->
    tr hs (LAdd p) L L' [CardOp (Some c)] [CardOp (Some c)]
| tr_remove : forall p c L L', lay_ok L -> In c hs -> card_erase p L = Ok (c, L') ->
    tr hs (LRemove p) L L' [CardOp (Some c)] [CardOp (Some c)]
| tr_grow : forall p n r t L s pv s', lay_ok L -> pile_of p = Ok r -> all_some t ->
    length (get_pile r L ++ t) = N.to_nat n -> (t <> [] -> s' = t) ->
    tr hs (LResize p n) L (set_pile r (get_pile r L ++ t) L)
       [ResizeOp (length (get_pile r L)) s] [ResizeOp pv s']
| tr_half : forall p n r L pv s, lay_ok L -> pile_of p = Ok r ->
    length (get_pile r L) = (2 * N.to_nat n)%nat -> (0 < N.to_nat n)%nat ->
    tr hs (LResize p n) L (set_pile r (firstn (N.to_nat n) (get_pile r L)) L)
       [ResizeOp (length (get_pile r L)) (skipn (N.to_nat n) (get_pile r L))] [ResizeOp pv s]
| tr_clear : forall L L', lay_ok L -> lay_ok L' -> tr hs LClear L L' [ClearOp L] [ClearOp L']
| tr_lay : forall a L L', lay_ok L -> lay_ok L' ->
    (forall nx h P F, incl hs (map fst h) ->
       lstep c0 a (tape nx h L P F) = Ok (tape nx h L' P F) /\
       lstep c0 (inv a) (tape nx h L' P F) = Ok (tape nx h L P F)) ->
    tr hs a L L' [] [].

Lemma tr_mono : forall hs hs' a L L' p f, incl hs hs' -> tr hs a L L' p f -> tr hs' a L L' p f.
Proof.
  intros hs hs' a L L' p f I H. inversion H; subst; econstructor; eauto.
  intros. apply H2. eapply incl_tran; eauto.
Qed.

Lemma all_some_app : forall (a b : list (option N)), all_some (a ++ b) <-> all_some a /\ all_some b.
Proof. intros. unfold all_some. rewrite in_app_iff. tauto. Qed.

Lemma all_some_firstn : forall n (l : list (option N)), all_some l -> all_some (firstn n l).
Proof. intros n l H I. apply H. rewrite <- (firstn_skipn n l). apply in_or_app. auto. Qed.
Lemma all_some_skipn : forall n (l : list (option N)), all_some l -> all_some (skipn n l).
Proof. intros n l H I. apply H. rewrite <- (firstn_skipn n l). apply in_or_app. auto. Qed.

Lemma lay_ok_set_pile : forall r l L, lay_ok L -> all_some l -> lay_ok (set_pile r l L).
Proof.
  intros r l L [S N] A. split; [apply shape_set_pile; auto|apply nonull_set_pile; auto].
Qed.

Lemma tr_ok : forall hs a L L' p f, tr hs a L L' p f -> lay_ok L /\ lay_ok L'.
Proof.
  intros hs a L L' p f H. inversion H; subst; split; auto.
  - eapply lay_ok_insert; eauto.
  - eapply lay_ok_erase; eauto.
  - apply lay_ok_set_pile; auto. apply all_some_app. split; auto.
    apply nonull_pile. apply H0.
  - apply lay_ok_set_pile; auto. apply all_some_firstn. apply nonull_pile. apply H0.
Qed.

(** Taking back: the operation that remains in the future leads back again. *)
Lemma tr_undo : forall hs a L L' p f nx h P F, tr hs a L L' p f -> incl hs (map fst h) ->
  exists f', tr hs a L L' p f' /\
    lstep c0 (inv a) (tape nx h L' (p ++ P) F) = Ok (tape nx h L P (f' ++ F)).
Proof.
  intros hs a L L' p f nx h P F T I. pose proof (tr_ok _ _ _ _ _ _ T) as [K K'].
  inversion T; subst; cbn [inv lstep app].
  - exists [CardOp (Some c)]. split; auto. apply drop_fst with c. apply undo_add; [apply K'|]. exists L, P. split; auto. split; auto. split; auto.
    eapply erase_insert; eauto. apply K.
  - exists [CardOp (Some c)]. split; auto. apply drop_fst with c. apply undo_remove; [apply K'|]. exists L, P. split; auto. split; auto. split; auto.
    eapply insert_erase; eauto. apply K.
  - set (l := get_pile r L) in *.
    assert (U : exists s2, unresized (l ++ t) s (length l) = (l, s2) /\ (t <> [] -> s2 = t)).
    { destruct t as [|x t].
      - exists s. rewrite app_nil_r, unresized_same. split; auto. congruence.
      - exists (x :: t). split; auto. apply unresized_grown. simpl. lia. }
    destruct U as [s2 [U Us]]. exists [ResizeOp (length l) s2]. split.
    + apply tr_grow; auto.
    + apply undo_resize; [apply K'|]. exists r, (length l), s, P. rewrite get_set_pile_same, U.
      cbn [fst snd]. rewrite set_set_pile. replace (set_pile r l L) with L by (symmetry; apply set_pile_id).
      split; auto. split; auto. split; auto. split; auto. apply nonull_pile. apply K.
  - set (l := get_pile r L) in *. set (m := N.to_nat n) in *.
    exists [ResizeOp (length l) (skipn m l)]. split.
    + apply tr_half; auto.
    + assert (U : unresized (firstn m l) (skipn m l) (length l) = (l, skipn m l)).
      { unfold unresized. rewrite firstn_length.
        destruct (Nat.ltb_spec (Nat.min m (length l)) (length l)); [|lia].
        rewrite firstn_skipn. reflexivity. }
      apply undo_resize; [apply K'|]. exists r, (length l), (skipn m l), P.
      rewrite get_set_pile_same, U.
      cbn [fst snd]. rewrite set_set_pile. replace (set_pile r l L) with L by (symmetry; apply set_pile_id).
      split; auto. split; auto. split; auto. split; auto. apply nonull_pile. apply K.
  - exists [ClearOp L']. split; auto. apply undo_clear. exists L, P. auto.
  - exists []. split; auto. apply H1. auto.
Qed.

(** Doing again: the operation left in the past leads back again. *)
Lemma tr_redo : forall hs a L L' p f nx h P F, tr hs a L L' p f -> incl hs (map fst h) ->
  exists p', tr hs a L L' p' f /\
    lstep c0 a (tape nx h L P (f ++ F)) = Ok (tape nx h L' (p' ++ P) F).
Proof.
  intros hs a L L' p f nx h P F T I. pose proof (tr_ok _ _ _ _ _ _ T) as [K K'].
  inversion T; subst; cbn [lstep app].
  - exists [CardOp (Some c)]. split; auto. apply drop_fst with c. apply add_redo; [apply K|]. exists L'. auto.
  - exists [CardOp (Some c)]. split; auto. apply remove_redo; [apply K|]. exists c, L'. auto.
  - set (l := get_pile r L) in *. exists [ResizeOp (length l) s']. split.
    + apply tr_grow; auto.
    + apply resize_redo; [apply K|]. exists r, (l ++ t), pv, s', s'.
      split; auto. split; auto. split; [|split; [auto|split; [|reflexivity]]].
      * fold l. unfold resized. rewrite app_length in H2. destruct t as [|x t].
        -- simpl in H2. rewrite app_nil_r. destruct (Nat.ltb_spec (length l) (N.to_nat n)); [lia|].
           destruct (Nat.ltb_spec (N.to_nat n) (length l)); [lia|]. reflexivity.
        -- simpl in H2. destruct (Nat.ltb_spec (length l) (N.to_nat n)); [|lia].
           rewrite (H3 ltac:(discriminate)). reflexivity.
      * apply all_some_app. split; auto. apply nonull_pile. apply K.
  - set (l := get_pile r L) in *. set (m := N.to_nat n) in *.
    exists [ResizeOp (length l) (skipn m l)]. split.
    + apply tr_half; auto.
    + apply resize_redo; [apply K|]. exists r, (firstn m l), pv, s, (skipn m l).
      fold l m. split; auto. split; auto. split; [|split; [|split; [|reflexivity]]].
      * unfold resized. destruct (Nat.ltb_spec (length l) m); [lia|].
        destruct (Nat.ltb_spec m (length l)); [|lia]. replace (length l - m)%nat with m by lia.
        rewrite copy_exact; [reflexivity|]. rewrite resize_ptrs_len, skipn_length. lia.
      * rewrite firstn_length. lia.
      * apply all_some_firstn. apply nonull_pile. apply K.
  - exists [ClearOp L]. split; auto. apply clear_redo. eauto.
  - exists []. split; auto. apply H1. auto.
Qed.

(** Every step that can be undone is a transition, at any point of the history;
    at the live end it does not depend on the past. *)
Lemma tr_step : forall a nx h L P F w', tape_ok nx h L P F ->
  act_undoable a (tape nx h L P F) -> lstep c0 a (tape nx h L P F) = Ok w' ->
  exists nx' new L' p f F', w' = tape nx' (new ++ h) L' (p ++ P) F' /\
    tr (map fst (new ++ h)) a L L' p f /\
    (F = [] /\ F' = [] /\ (forall P2, lstep c0 a (tape nx h L P2 []) =
                                      Ok (tape nx' (new ++ h) L' (p ++ P2) [])) \/
     new = [] /\ nx' = nx /\ F = f ++ F').
Proof.
  intros a nx h L P F w' O U H. pose proof (to_lay _ _ _ _ _ _ O) as K. pose proof K as [S Nn].
  assert (Lay : forall op c' L', w' = tape nx h L' P F ->
    (forall P F, lstep c0 op (tape nx h L P F) = Ok (tape nx h L' P F)) -> a = op -> c' = a ->
    tr (map fst h) a L L' [] [] ->
    exists nx' new L' p f F', w' = tape nx' (new ++ h) L' (p ++ P) F' /\
    tr (map fst (new ++ h)) a L L' p f /\
    (F = [] /\ F' = [] /\ (forall P2, lstep c0 a (tape nx h L P2 []) =
                                      Ok (tape nx' (new ++ h) L' (p ++ P2) [])) \/
     new = [] /\ nx' = nx /\ F = f ++ F')).
  { intros op c' L' -> E -> -> T. exists nx, [], L', [], [], F. simpl. split; auto. }
  destruct a; try destruct U; cbn [lstep] in H.
  - (* add *)
    apply obind_Ok in H as [[c w1] [H X]]. injection X as ->. destruct F as [|o F].
    + apply add_live in H. destruct H as [L' [E [-> ->]]].
      exists (nx + 1)%N, [(nx, c0)], L', [CardOp (Some nx)], [CardOp (Some nx)], [].
      split; [reflexivity|]. split.
      * apply tr_add; simpl; auto.
      * left. split; auto. split; auto. intros P2. cbn [lstep]. apply drop_fst with nx. apply add_live. exists L'. auto.
    + apply add_redo in H; auto. destruct H as [L' [-> [A [E ->]]]].
      exists nx, [], L', [CardOp (Some c)], [CardOp (Some c)], F. split; [reflexivity|].
      split; [apply tr_add; auto|]. right. auto.
  - (* remove *)
    destruct F as [|o F].
    + apply remove_live in H; auto. destruct H as [c [L' [E [A ->]]]].
      exists nx, [], L', [CardOp (Some c)], [CardOp (Some c)], []. split; [reflexivity|].
      split; [apply tr_remove; auto|]. left. split; auto. split; auto. intros P2. cbn [lstep].
      apply remove_live; auto. exists c, L'. auto.
    + apply remove_redo in H; auto. destruct H as [c [L' [-> [E [A ->]]]]].
      exists nx, [], L', [CardOp (Some c)], [CardOp (Some c)], F. split; [reflexivity|].
      split; [apply tr_remove; auto|]. right. auto.
  - (* resize *)
    cbn [act_undoable] in U. destruct F as [|o F].
    + apply resize_live in H; auto. destruct H as [r [l' [s' [R [E [Ln [A ->]]]]]]].
      cbv zeta. set (g := (N.to_nat count - length (get_pile r L))%nat) in *.
      pose proof R as R1. apply pile_of_iff in R1. destruct R1 as [i Sl].
      specialize (U r i Sl). rewrite lb_lay_tape in U. cbn [contents] in U.
      set (l := get_pile r L) in *.
      exists (nx + N.of_nat g)%N, (fresh_cells C c0 nx g), (set_pile r l' L), [ResizeOp (length l) s'].
      assert (Fresh : forall P2, lstep c0 (LResize p count) (tape nx h L P2 []) =
         Ok (tape (nx + N.of_nat g) (fresh_cells C c0 nx g ++ h) (set_pile r l' L)
                  ([ResizeOp (length l) s'] ++ P2) [])).
      { intros P2. cbn [lstep]. apply resize_live; auto. exists r, l', s'. auto 10. }
      destruct (Nat.ltb_spec (N.to_nat count) (length l)) as [Lt|Ge].
      * unfold resized in E. destruct (Nat.ltb_spec (length l) (N.to_nat count)); [lia|].
        destruct (Nat.ltb_spec (N.to_nat count) (length l)); [|lia].
        set (m := N.to_nat count) in *. replace (length l - m)%nat with m in E by lia.
        rewrite copy_exact in E by (rewrite resize_ptrs_len, skipn_length; lia).
        cbn [obind] in E. injection E as <- <-.
        exists [ResizeOp (length l) []], []. split; [reflexivity|]. split.
        -- apply tr_half; auto. fold l. lia. fold m. lia.
        -- left. auto.
      * unfold resized in E.
        assert (X : l' = l ++ map Some (news nx g)).
        { destruct (Nat.ltb_spec (length l) (N.to_nat count)).
          - injection E as <- <-. reflexivity.
          - destruct (Nat.ltb_spec (N.to_nat count) (length l)); [lia|]. injection E as <- <-.
            replace g with 0%nat by lia. simpl. rewrite app_nil_r. auto. }
        rewrite X in *. exists [ResizeOp (length l) (map Some (news nx g))], [].
        split; [reflexivity|]. split.
        -- apply tr_grow; auto. apply all_some_app in A. tauto.
        -- left. auto.
    + apply resize_redo in H; auto. destruct H as [r [l' [pv [s [s' [R [-> [E [Ln [A ->]]]]]]]]]].
      pose proof R as R1. apply pile_of_iff in R1. destruct R1 as [i Sl].
      specialize (U r i Sl). rewrite lb_lay_tape in U. cbn [contents] in U.
      set (l := get_pile r L) in *.
      exists nx, [], (set_pile r l' L), [ResizeOp (length l) s'], [ResizeOp pv s], F.
      split; [reflexivity|]. split; [|right; auto]. simpl app. unfold resized in E.
      destruct (Nat.ltb_spec (length l) (N.to_nat count)).
      * injection E as <- <-. apply tr_grow; auto. apply all_some_app in A. tauto.
      * destruct (Nat.ltb_spec (N.to_nat count) (length l)).
        -- set (m := N.to_nat count) in *. replace (length l - m)%nat with m in E by lia.
           rewrite copy_exact in E by (rewrite resize_ptrs_len, skipn_length; lia).
           cbn [obind] in E. injection E as <- <-. apply tr_half; auto; fold l; fold m; lia.
        -- injection E as <- <-.
           assert (A2 : all_some []) by (intros []).
           pose proof (tr_grow (map fst h) p count r [] L s pv s K R) as T.
           fold l in T. rewrite app_nil_r in T. apply T; auto. congruence.
  - (* clear *)
    destruct F as [|o F].
    + rewrite clear_live in H. injection H as <-.
      exists nx, [], layout0, [ClearOp L], [ClearOp layout0], []. split; [reflexivity|].
      split; [apply tr_clear; auto; apply lay_ok0|]. left. split; auto. split; auto.
      intros P2. apply clear_live.
    + apply clear_redo in H. destruct H as [L' [-> ->]].
      pose proof (to_next _ _ _ _ _ _ O) as G. inversion G as [|? ? G1 G2]; subst. destruct G1.
      exists nx, [], L', [ClearOp L], [ClearOp L'], F. split; [reflexivity|].
      split; [apply tr_clear; auto|]. right. auto.
  - (* move *)
    apply obind_Ok in H as [[c w1] [H X]]. injection X as ->.
    apply l_move_tape in H. destruct H as [L' [E [A ->]]].
    assert (M : forall nx2 h2 P2 F2, incl (map fst h) (map fst h2) ->
      lstep c0 (LMove from to) (tape nx2 h2 L P2 F2) = Ok (tape nx2 h2 L' P2 F2)).
    { intros. cbn [lstep]. apply drop_fst with c. apply l_move_tape. eauto. }
    eapply (Lay (LMove from to)); eauto using incl_refl.
    apply tr_lay; auto. { eapply lay_ok_move; eauto. }
    intros nx2 h2 P2 F2 I2. split; auto. cbn [inv lstep]. apply drop_fst with c. apply l_move_tape. exists L. split; auto.
    eapply card_move_back; eauto.
  - (* swap *)
    apply l_lift_tape in H. destruct H as [L' [E ->]].
    eapply (Lay (LSwap a b)); eauto.
    + intros. cbn [lstep]. apply l_lift_tape. eauto.
    + apply tr_lay; auto. { eapply lay_ok_swap; eauto. }
      intros. cbn [inv lstep]. split; apply l_lift_tape; [eauto|]. exists L. split; auto.
      eapply card_swap_twice; eauto.
  - (* splice *)
    apply l_lift_tape in H. destruct H as [L' [E ->]].
    eapply (Lay (LSplice from count to rev_)); eauto.
    + intros. cbn [lstep]. apply l_lift_tape. eauto.
    + apply tr_lay; auto. { eapply lay_ok_splice; eauto. }
      intros. cbn [inv lstep]. split; apply l_lift_tape; [eauto|]. exists L. split; auto.
      eapply pile_splice_back; eauto.
  - (* pile swap *)
    apply l_lift_tape in H. destruct H as [L' [E ->]].
    eapply (Lay (LPileSwap a b)); eauto.
    + intros. cbn [lstep]. apply l_lift_tape. eauto.
    + apply tr_lay; auto. { eapply lay_ok_pile_swap; eauto. }
      intros. cbn [inv lstep]. split; apply l_lift_tape; [eauto|]. exists L. split; auto.
      eapply pile_swap_twice; eauto.
Qed.

(** ** Sequences of operations *)

Inductive trs (hs : list N) : list lact -> layout -> layout -> list lop -> list lop -> Prop :=
| trs_nil : forall L, trs hs [] L L [] []
| trs_cons : forall a acts L L1 L2 p f ps fs, tr hs a L L1 p f -> trs hs acts L1 L2 ps fs ->
    trs hs (a :: acts) L L2 (ps ++ p) (f ++ fs).

Lemma trs_mono : forall hs hs' acts L L' p f, incl hs hs' -> trs hs acts L L' p f ->
  trs hs' acts L L' p f.
Proof.
  intros hs hs' acts L L' p f I H. induction H; econstructor; eauto using tr_mono.
Qed.

Lemma trs_undo : forall hs acts L L' ps fs, trs hs acts L L' ps fs ->
  forall nx h P F, incl hs (map fst h) ->
  exists fs', trs hs acts L L' ps fs' /\
    lrun c0 (rev (map inv acts)) (tape nx h L' (ps ++ P) F) = Ok (tape nx h L P (fs' ++ F)).
Proof.
  intros hs acts L L' ps fs T. induction T as [L|a acts L L1 L2 p f ps fs T1 T2 IH]; intros nx h P F I.
  - exists []. split; [constructor|reflexivity].
  - destruct (IH nx h (p ++ P) F I) as [fs' [T2' E2]].
    destruct (tr_undo _ _ _ _ _ _ nx h P (fs' ++ F) T1 I) as [f' [T1' E1]].
    exists (f' ++ fs'). split; [econstructor; eauto|]. simpl map. simpl rev. unfold lrun in *.
    rewrite ofold_app, <- app_assoc, E2. cbn [obind ofold]. rewrite E1. cbn [obind].
    rewrite app_assoc. reflexivity.
Qed.

Lemma trs_redo : forall hs acts L L' ps fs, trs hs acts L L' ps fs ->
  forall nx h P F, incl hs (map fst h) ->
  exists ps', trs hs acts L L' ps' fs /\
    lrun c0 acts (tape nx h L P (fs ++ F)) = Ok (tape nx h L' (ps' ++ P) F).
Proof.
  intros hs acts L L' ps fs T. induction T as [L|a acts L L1 L2 p f ps fs T1 T2 IH]; intros nx h P F I.
  - exists []. split; [constructor|reflexivity].
  - destruct (tr_redo _ _ _ _ _ _ nx h P (fs ++ F) T1 I) as [p' [T1' E1]].
    destruct (IH nx h (p' ++ P) F I) as [ps' [T2' E2]].
    exists (ps' ++ p'). split; [econstructor; eauto|]. unfold lrun in *. cbn [ofold].
    rewrite <- app_assoc, E1. cbn [obind]. rewrite E2, app_assoc. reflexivity.
Qed.

Lemma tape_inj : forall nx h L P F nx' h' L' P' F',
  tape nx h L P F = tape nx' h' L' P' F' -> nx = nx' /\ h = h' /\ L = L' /\ P = P' /\ F = F'.
Proof.
  intros nx h L P F nx' h' L' P' F' E. unfold LimboProofs.tape in E. injection E as -> -> -> Ln _ E.
  assert (X : rev P = rev P' /\ F = F').
  { assert (Lr : length (rev P) = length (rev P')) by (rewrite !rev_length; auto).
    clear Ln. revert Lr E. generalize (rev P) (rev P'). induction l as [|x l IH]; intros [|y l'] Lr E;
      simpl in *; try discriminate; auto.
    injection E as -> E. destruct (IH l' (f_equal pred Lr) E) as [-> ->]. auto. }
  destruct X as [X ->]. apply (f_equal (@rev lop)) in X. rewrite !rev_involutive in X. auto.
Qed.

Lemma tape_ok_step : forall a nx h L P F nx' h' L' P' F', tape_ok nx h L P F ->
  lstep c0 a (tape nx h L P F) = Ok (tape nx' h' L' P' F') -> tape_ok nx' h' L' P' F'.
Proof.
  intros a nx h L P F nx' h' L' P' F' O H.
  destruct (linv_step C c0 a (tape nx h L P F) _ ltac:(unfold linv; eauto 10) H) as [I _].
  destruct I as [nx2 [h2 [L2 [P2 [F2 [E O2]]]]]]. apply tape_inj in E.
  destruct E as [-> [-> [-> [-> ->]]]]. auto.
Qed.

Lemma trs_run : forall acts nx h L P F w', tape_ok nx h L P F ->
  acts_undoable c0 acts (tape nx h L P F) -> lrun c0 acts (tape nx h L P F) = Ok w' ->
  exists nx' new L' ps fs F', w' = tape nx' (new ++ h) L' (ps ++ P) F' /\
    tape_ok nx' (new ++ h) L' (ps ++ P) F' /\
    trs (map fst (new ++ h)) acts L L' ps fs /\
    (F = [] -> F' = [] /\
       forall P2, lrun c0 acts (tape nx h L P2 []) = Ok (tape nx' (new ++ h) L' (ps ++ P2) [])).
Proof.
  induction acts as [|a acts IH]; intros nx h L P F w' O U H.
  - injection H as <-. exists nx, [], L, [], [], F. split; [reflexivity|]. split; [exact O|].
    split; [constructor|]. intros ->. auto.
  - destruct U as [U1 U2]. unfold lrun in H. cbn [ofold] in H.
    apply obind_Ok in H as [w1 [E1 H]]. specialize (U2 w1 E1).
    destruct (tr_step _ _ _ _ _ _ _ O U1 E1) as [nx1 [new1 [L1 [p [f [F1 [-> [T1 Ca]]]]]]]].
    pose proof (tape_ok_step _ _ _ _ _ _ _ _ _ _ _ O E1) as O1.
    destruct (IH _ _ _ _ _ _ O1 U2 H) as [nx2 [new2 [L2 [ps [fs [F2 [-> [O2 [T2 Lv]]]]]]]]].
    exists nx2, (new2 ++ new1), L2, (ps ++ p), (f ++ fs), F2. rewrite <- !app_assoc.
    split; [reflexivity|]. split; [exact O2|]. split.
    + econstructor; [|exact T2]. eapply tr_mono; [|exact T1]. rewrite (map_app _ new2). apply incl_appr, incl_refl.
    + intros ->. destruct Ca as [[_ [-> G]]|[-> [-> E]]].
      * destruct (Lv eq_refl) as [-> G2]. split; auto. intros P2. unfold lrun. cbn [ofold].
        rewrite G. cbn [obind]. unfold lrun in G2. rewrite G2, <- !app_assoc. reflexivity.
      * symmetry in E. apply app_eq_nil in E as [-> ->]. destruct (Lv eq_refl) as [-> G2].
        split; auto. intros P2. unfold lrun. cbn [ofold]. simpl app in *.
        destruct (tr_redo _ _ _ _ _ _ nx h P2 [] T1 (incl_refl _)) as [p' [T1' R]].
        simpl app in R. 
        assert (p' = p). { inversion T1; subst; inversion T1'; subst; auto. } subst p'.
        rewrite R. cbn [obind]. unfold lrun in G2. rewrite G2, <- !app_assoc. reflexivity.
Qed.

(** ** Operations at the live end *)

(** The operations events are made of. *)
Definition event_act (a : lact) : Prop :=
  match a with
  | LAdd _ | LRemove _ | LResize _ _ | LClear | LMove _ _ | LSwap _ _ | LShuffle _ _ | LSplice _ _ _ _
  | LPileSwap _ _ => True
  | _ => False
  end.
Lemma event_acts_ok : forall e, Forall event_act (event_acts e).
Proof.
  assert (M : forall X (g : X -> lact) l, (forall x, event_act (g x)) -> Forall event_act (map g l)).
  { intros X g l H. induction l; cbn [map]; constructor; auto. }
  intros e. destruct e as [|[|x|s]|re [|l|l|l|l|pv cu]|[|c|pp]|con|wr mr ft|con t|me|ph'|re [|l|l|l]|rs|zs];
    cbn [event_acts]; unfold resize_acts;
    repeat first [apply Forall_app; split | apply Forall_cons | apply Forall_nil | apply M; intros];
    exact Logic.I.
Qed.

(** They do not look at the past there, and they stay at the live end. *)
Lemma live_step : forall a nx h L P w', event_act a -> tape_ok nx h L P [] ->
  lstep c0 a (tape nx h L P []) = Ok w' ->
  exists nx' new L' p, w' = tape nx' (new ++ h) L' (p ++ P) [] /\
    forall P2, lstep c0 a (tape nx h L P2 []) = Ok (tape nx' (new ++ h) L' (p ++ P2) []).
Proof.
  intros a nx h L P w' Ea O H. pose proof (to_lay _ _ _ _ _ _ O) as K. pose proof K as [S Nn].
  destruct a; try destruct Ea; cbn [lstep] in *.
  - apply obind_Ok in H as [[c w1] [H X]]. injection X as ->. apply add_live in H.
    destruct H as [L' [E [-> ->]]]. exists (nx + 1)%N, [(nx, c0)], L', [CardOp (Some nx)].
    split; [reflexivity|]. intros P2. apply drop_fst with nx. apply add_live. eauto.
  - apply remove_live in H; auto. destruct H as [c [L' [E [A ->]]]].
    exists nx, [], L', [CardOp (Some c)]. split; [reflexivity|]. intros P2. apply remove_live; eauto.
  - apply resize_live in H; auto. destruct H as [r [l' [s' [R [E [Ln [A ->]]]]]]]. cbv zeta.
    eexists _, _, _, [ResizeOp (length (get_pile r L)) s']. split; [reflexivity|].
    intros P2. apply resize_live; auto. exists r, l', s'. auto 10.
  - rewrite clear_live in H. injection H as <-. exists nx, [], layout0, [ClearOp L].
    split; [reflexivity|]. intros P2. apply clear_live.
  - apply obind_Ok in H as [[c w1] [H X]]. injection X as ->. apply l_move_tape in H.
    destruct H as [L' [E [A ->]]]. exists nx, [], L', []. split; [reflexivity|].
    intros P2. apply drop_fst with c. apply l_move_tape. eauto.
  - apply l_lift_tape in H. destruct H as [L' [E ->]]. exists nx, [], L', []. split; [reflexivity|].
    intros P2. apply l_lift_tape. eauto.
  - apply l_lift_tape in H. destruct H as [L' [E ->]]. exists nx, [], L', []. split; [reflexivity|].
    intros P2. apply l_lift_tape. eauto.
  - apply l_lift_tape in H. destruct H as [L' [E ->]]. exists nx, [], L', []. split; [reflexivity|].
    intros P2. apply l_lift_tape. eauto.
  - apply l_lift_tape in H. destruct H as [L' [E ->]]. exists nx, [], L', []. split; [reflexivity|].
    intros P2. apply l_lift_tape. eauto.
Qed.

Lemma live_run : forall acts nx h L P w', Forall event_act acts -> tape_ok nx h L P [] ->
  lrun c0 acts (tape nx h L P []) = Ok w' ->
  exists nx' new L' ps, w' = tape nx' (new ++ h) L' (ps ++ P) [] /\
    tape_ok nx' (new ++ h) L' (ps ++ P) [] /\
    forall P2, lrun c0 acts (tape nx h L P2 []) = Ok (tape nx' (new ++ h) L' (ps ++ P2) []).
Proof.
  induction acts as [|a acts IH]; intros nx h L P w' Ea O H.
  - injection H as <-. exists nx, [], L, []. auto.
  - inversion Ea as [|? ? E1 E2]; subst. unfold lrun in H. cbn [ofold] in H.
    apply obind_Ok in H as [w1 [H1 H]].
    destruct (live_step _ _ _ _ _ _ E1 O H1) as [nx1 [new1 [L1 [p [-> G1]]]]].
    pose proof (tape_ok_step _ _ _ _ _ _ _ _ _ _ _ O H1) as O1.
    destruct (IH _ _ _ _ _ E2 O1 H) as [nx2 [new2 [L2 [ps [-> [O2 G2]]]]]].
    exists nx2, (new2 ++ new1), L2, (ps ++ p). rewrite <- !app_assoc. split; [reflexivity|].
    split; [exact O2|]. intros P2. unfold lrun. cbn [ofold]. rewrite G1. cbn [obind].
    unfold lrun in G2. rewrite G2, <- app_assoc. reflexivity.
Qed.

(** Whatever was done there and can be taken back had a working inverse. *)
Lemma undone_undoable_step : forall a nx h L P nx1 new L1 p nx2 h2 P2 F2 w'', event_act a ->
  tape_ok nx h L P [] ->
  lstep c0 a (tape nx h L P []) = Ok (tape nx1 (new ++ h) L1 (p ++ P) []) ->
  lstep c0 (inv a) (tape nx2 h2 L1 (p ++ P2) F2) = Ok w'' ->
  act_undoable a (tape nx h L P []).
Proof.
  intros a nx h L P nx1 new L1 p nx2 h2 P2 F2 w'' Ea O H U.
  pose proof (to_lay _ _ _ _ _ _ (tape_ok_step _ _ _ _ _ _ _ _ _ _ _ O H)) as [_ N1].
  pose proof (to_lay _ _ _ _ _ _ O) as [_ N0].
  destruct a; try destruct Ea; cbn [inv lstep act_undoable] in *; try exact Logic.I; try discriminate U.
  intros r i Sl. rewrite lb_lay_tape. cbn [contents]. cbv zeta.
  apply resize_live in H; auto. destruct H as [r' [l' [s' [R [E [Ln [A X]]]]]]]. cbv zeta in X.
  pose proof R as R1. apply pile_of_slot in R1. rewrite Sl in R1. injection R1 as <- _.
  apply tape_inj in X. destruct X as [_ [_ [-> [X _]]]].
  change (p ++ P = [ResizeOp (length (get_pile r L)) s'] ++ P) in X. apply app_inv_tail in X. subst p.
  apply undo_resize in U; auto. destruct U as [r2 [prev [s2 [P' [R2 [E2 [Ln2 [A2 _]]]]]]]].
  rewrite R in R2. injection R2 as <-. injection E2 as <- <- <-.
  rewrite get_set_pile_same in Ln2, A2. set (l := get_pile r L) in *.
  destruct (Nat.le_gt_cases (length l) (N.to_nat count)) as [Le|Gt]; [left; exact Le|right].
  unfold resized in E. destruct (Nat.ltb_spec (length l) (N.to_nat count)); [lia|].
  destruct (Nat.ltb_spec (N.to_nat count) (length l)); [|lia].
  apply obind_Ok in E as [s3 [C3 E]]. injection E as <- <-.
  unfold copy_to in C3. rewrite skipn_length in C3. unfold resize_ptrs in C3. rewrite firstn_nil in C3.
  cbn [app length] in C3. rewrite repeat_length in C3.
  set (m := N.to_nat count) in *.
  destruct (Nat.leb_spec (length l - (length l - m)) (length l - m - 0)) as [Q|Q]; [|discriminate].
  injection C3 as <-. unfold unresized in A2. rewrite firstn_length in A2.
  destruct (Nat.ltb_spec (Nat.min m (length l)) (length l)); [|lia]. cbn [fst] in A2.
  destruct (Nat.eq_dec (length l) (2 * m)) as [|Ne]; [assumption|exfalso].
  apply A2. apply in_or_app. right. apply in_or_app. right.
  replace (length l - m - 0)%nat with ((length l - (length l - m)) + S (length l - m - m - 1))%nat by lia.
  rewrite repeat_app, skipn_app, repeat_length.
  apply in_or_app. right. rewrite Nat.sub_diag. left. reflexivity.
Qed.

Lemma undone_undoable : forall acts nx h L P nx1 new L1 ps nx2 h2 P2 F2 w'', Forall event_act acts ->
  tape_ok nx h L P [] ->
  lrun c0 acts (tape nx h L P []) = Ok (tape nx1 (new ++ h) L1 (ps ++ P) []) ->
  incl (map fst (new ++ h)) (map fst h2) ->
  lrun c0 (rev (map inv acts)) (tape nx2 h2 L1 (ps ++ P2) F2) = Ok w'' ->
  acts_undoable c0 acts (tape nx h L P []).
Proof.
  induction acts as [|a acts IH]; intros nx h L P nx1 new L1 ps nx2 h2 P2 F2 w'' Ea O H Ic U.
  - exact Logic.I.
  - inversion Ea as [|? ? E1 E2]; subst. unfold lrun in H. cbn [ofold] in H.
    apply obind_Ok in H as [w1 [H1 H]].
    destruct (live_step _ _ _ _ _ _ E1 O H1) as [nxa [newa [La [p [-> G1]]]]].
    pose proof (tape_ok_step _ _ _ _ _ _ _ _ _ _ _ O H1) as O1.
    destruct (live_run _ _ _ _ _ _ E2 O1 H) as [nxb [newb [Lb [qs [X [_ _]]]]]].
    pose proof X as X0. apply tape_inj in X. destruct X as [<- [Xh [<- [Xp _]]]].
    rewrite app_assoc in Xp. apply app_inv_tail in Xp. subst ps.
    rewrite app_assoc in Xh. apply app_inv_tail in Xh. subst new.
    cbn [map rev] in U. unfold lrun in U. rewrite ofold_app in U. apply obind_Ok in U as [w2 [U1 U2]].
    rewrite <- !app_assoc in *. 
    assert (Un : acts_undoable c0 acts (tape nxa (newa ++ h) La (p ++ P) [])).
    { eapply IH; eauto. }
    destruct (trs_run _ _ _ _ _ _ _ O1 Un H) as [nxc [newc [Lc [ps' [fs [F' [X [_ [T _]]]]]]]]].
    apply tape_inj in X. destruct X as [<- [Xh [<- [Xp _]]]].
    apply app_inv_tail in Xp. subst ps'. apply app_inv_tail in Xh. subst newc.
    destruct (trs_undo _ _ _ _ _ _ T nx2 h2 (p ++ P2) F2 Ic) as [fs' [_ R]].
    unfold lrun in R. rewrite R in U1. injection U1 as <-.
    cbn [ofold] in U2. apply obind_Ok in U2 as [w3 [U2 _]].
    split.
    + eapply undone_undoable_step; eauto.
    + intros w' E. rewrite H1 in E. injection E as <-. exact Un.
Qed.

Lemma act_undoable_dec : forall a w, act_undoable a w \/ ~ act_undoable a w.
Proof.
  intros a w. destruct a; cbn [act_undoable]; try (left; exact Logic.I); try (right; exact (fun X : False => X)).
  cbv zeta. destruct (slot p) as [[[r|r|r] i]|] eqn:Sl; try (left; intros; discriminate).
  set (size := length (contents (CPile r) (lb_lay w))).
  destruct (Nat.le_gt_cases size (N.to_nat count)) as [G|G];
    [left; intros r' i' E; injection E as <- <-; left; exact G|].
  destruct (Nat.eq_dec size (2 * N.to_nat count)) as [D|D];
    [left; intros r' i' E; injection E as <- <-; right; exact D|].
  right. intros X. destruct (X r i eq_refl); unfold size in *; lia.
Qed.
Lemma acts_undoable_dec : forall acts w, acts_undoable c0 acts w \/ ~ acts_undoable c0 acts w.
Proof.
  induction acts as [|a acts IH]; intros w; [left; exact Logic.I|]. cbn [acts_undoable].
  destruct (act_undoable_dec a w) as [U|U]; [|right; tauto].
  destruct (lstep c0 a w) as [w'| | |] eqn:E; try (left; split; [exact U|intros; discriminate]).
  destruct (IH w') as [V|V].
  - left. split; [exact U|]. intros w2 X. injection X as <-. exact V.
  - right. intros [_ X]. apply V, X. reflexivity.
Qed.

(** ** Replays of a frame *)

(** [acts i] is run in step [i], and led from [st i] to [st (S i)], always at
    the live end. *)
Section Replay.
Variable n : nat.
Variable acts : nat -> list lact.
Variable st : nat -> limbo C.
Hypothesis st_live : forall i, (i <= n)%nat -> exists nx h L P,
  st i = tape nx h L P [] /\ tape_ok nx h L P [].
Hypothesis st_step : forall i, (i < n)%nat -> lrun c0 (acts i) (st i) = Ok (st (S i)).
Hypothesis acts_ok : forall i, Forall event_act (acts i).

Let heap i := f_heap (lb_frame (st i)).
Let nxt i := f_next (lb_frame (st i)).
Let lay i := lb_lay (st i).
Let ids i := map fst (heap i).

(** The operations of step [j] cannot be taken back. *)
Definition stuck (j : nat) (P : list lop) : Prop := forall nx h F w', incl (ids (S j)) (map fst h) ->
  lrun c0 (rev (map inv (acts j))) (tape nx h (lay (S j)) P F) <> Ok w'.
Fixpoint past (i : nat) (P : list lop) : Prop :=
  match i with
  | O => True
  | S j =>
      (exists ps fs P', P = ps ++ P' /\ trs (ids (S j)) (acts j) (lay j) (lay (S j)) ps fs /\ past j P') \/
      (~ acts_undoable c0 (acts j) (st j) /\ stuck j P)
  end.
Fixpoint future (k i : nat) (F : list lop) : Prop :=
  match k with
  | O => F = []
  | S k' => exists ps fs F', F = fs ++ F' /\
      trs (ids (S i)) (acts i) (lay i) (lay (S i)) ps fs /\ future k' (S i) F'
  end.

(** The frame is at position [i] and [m] steps have been seen. *)
Definition at_pos (i m : nat) (w : limbo C) : Prop :=
  exists P F, w = tape (nxt m) (heap m) (lay i) P F /\ past i P /\ future (m - i) i F.

Lemma rec_step : forall i, (i < n)%nat -> exists ps new,
  heap (S i) = new ++ heap i /\
  (forall P, lrun c0 (acts i) (tape (nxt i) (heap i) (lay i) P []) =
    Ok (tape (nxt (S i)) (heap (S i)) (lay (S i)) (ps ++ P) [])) /\
  ((exists fs, trs (ids (S i)) (acts i) (lay i) (lay (S i)) ps fs) \/
   ~ acts_undoable c0 (acts i) (st i) /\ forall P, stuck i (ps ++ P)).
Proof.
  intros i Hi. destruct (st_live i ltac:(lia)) as [nx [h [L [P [E O]]]]].
  pose proof (st_step i Hi) as R. unfold stuck.
  unfold heap, nxt, lay, ids, heap in *. rewrite E in *.
  destruct (live_run _ _ _ _ _ _ (acts_ok i) O R) as [nx' [new [L' [ps [E' [O' Lv]]]]]].
  exists ps, new. rewrite E'. cbn. split; [reflexivity|]. split; [exact Lv|].
  destruct (acts_undoable_dec (acts i) (tape nx h L P [])) as [U|U].
  - left. destruct (trs_run _ _ _ _ _ _ _ O U R) as [nx2 [new2 [L2 [ps2 [fs [F2 [E2 [_ [T _]]]]]]]]].
    rewrite E' in E2. apply tape_inj in E2. destruct E2 as [<- [Xh [<- [Xp _]]]].
    apply app_inv_tail in Xp. subst ps2. apply app_inv_tail in Xh. subst new2. eauto.
  - right. split; [exact U|]. intros P2 nx3 h3 F3 w3 Ic X. apply U.
    rewrite E' in R. eapply undone_undoable; eauto.
Qed.

Lemma heap_mono : forall i m, (i <= m)%nat -> (m <= n)%nat -> exists new, heap m = new ++ heap i.
Proof.
  intros i m H. induction H; intros Hn.
  - exists []. auto.
  - destruct IHle as [new E]; [lia|]. destruct (rec_step m ltac:(lia)) as [_ [nw [E2 _]]].
    exists (nw ++ new). rewrite E2, E, app_assoc. auto.
Qed.

Lemma ids_mono : forall i m, (i <= m)%nat -> (m <= n)%nat -> incl (ids i) (map fst (heap m)).
Proof.
  intros i m H H2. destruct (heap_mono i m H H2) as [new E]. unfold ids. rewrite E, map_app.
  apply incl_appr, incl_refl.
Qed.

Lemma at_pos_start : at_pos 0 0 (st 0).
Proof.
  destruct (st_live 0 ltac:(lia)) as [nx [h [L [P [E O]]]]]. exists P, [].
  unfold nxt, heap, lay. rewrite E. simpl. auto.
Qed.

Lemma at_pos_live : forall i w, (i < n)%nat -> at_pos i i w ->
  exists w', lrun c0 (acts i) w = Ok w' /\ at_pos (S i) (S i) w'.
Proof.
  intros i w Hi [P [F [-> [Pa Fu]]]]. rewrite Nat.sub_diag in Fu. simpl in Fu. subst F.
  destruct (rec_step i Hi) as [ps [new [_ [R T]]]].
  eexists. split; [apply R|]. exists (ps ++ P), []. split; [reflexivity|].
  rewrite Nat.sub_diag. split; [|reflexivity]. destruct T as [[fs T]|[U T]].
  - left. exists ps, fs, P. auto.
  - right. auto.
Qed.

Lemma at_pos_redo : forall i m w, (i < m)%nat -> (m <= n)%nat -> at_pos i m w ->
  exists w', lrun c0 (acts i) w = Ok w' /\ at_pos (S i) m w'.
Proof.
  intros i m w Hi Hm [P [F [-> [Pa Fu]]]]. replace (m - i)%nat with (S (m - S i)) in Fu by lia.
  destruct Fu as [ps [fs [F' [-> [T Fu]]]]].
  destruct (trs_redo _ _ _ _ _ _ T (nxt m) (heap m) P F' (ids_mono (S i) m Hi Hm)) as [ps' [T' R]].
  eexists. split; [apply R|]. exists (ps' ++ P), F'. split; [reflexivity|].
  split; [|exact Fu]. left. exists ps', fs, P. auto.
Qed.

Lemma at_pos_back : forall i m P P' F ps fs, (S i <= m)%nat -> (m <= n)%nat ->
  P = ps ++ P' -> trs (ids (S i)) (acts i) (lay i) (lay (S i)) ps fs -> past i P' ->
  future (m - S i) (S i) F ->
  exists w', lrun c0 (rev (map inv (acts i))) (tape (nxt m) (heap m) (lay (S i)) P F) = Ok w' /\
    at_pos i m w'.
Proof.
  intros i m P P' F ps fs Hi Hm -> T Pa Fu.
  destruct (trs_undo _ _ _ _ _ _ T (nxt m) (heap m) P' F (ids_mono (S i) m Hi Hm)) as [fs' [T' R]].
  eexists. split; [apply R|]. exists P', (fs' ++ F). split; [reflexivity|]. split; [exact Pa|].
  replace (m - i)%nat with (S (m - S i)) by lia. exists ps, fs', F. auto.
Qed.

(** Operations with working inverses are taken back, ... *)
Lemma at_pos_undo : forall i m w, (S i <= m)%nat -> (m <= n)%nat -> acts_undoable c0 (acts i) (st i) ->
  at_pos (S i) m w -> exists w', lrun c0 (rev (map inv (acts i))) w = Ok w' /\ at_pos i m w'.
Proof.
  intros i m w Hi Hm U [P [F [-> [Pa Fu]]]].
  destruct Pa as [[ps [fs [P' [E [T Pa]]]]]|[N _]]; [|tauto]. eapply at_pos_back; eauto.
Qed.

(** ... and whatever can be taken back leads back. *)
Lemma at_pos_undone : forall i m w w', (S i <= m)%nat -> (m <= n)%nat -> at_pos (S i) m w ->
  lrun c0 (rev (map inv (acts i))) w = Ok w' -> at_pos i m w'.
Proof.
  intros i m w w' Hi Hm [P [F [-> [Pa Fu]]]] H.
  destruct Pa as [[ps [fs [P' [E [T Pa]]]]]|[_ N]].
  - destruct (at_pos_back i m P P' F ps fs Hi Hm E T Pa Fu) as [w2 [R A]]. rewrite H in R.
    injection R as ->. exact A.
  - exfalso. eapply N; [|exact H]. apply ids_mono; auto.
Qed.

Lemma at_pos_view : forall i m w, (i <= m)%nat -> (m <= n)%nat -> at_pos i m w ->
  lb_lay w = lay i /\ exists new, f_heap (lb_frame w) = new ++ heap i.
Proof.
  intros i m w Hi Hm [P [F [-> _]]]. split; [reflexivity|]. apply heap_mono; auto.
Qed.

End Replay.
End Undo.
