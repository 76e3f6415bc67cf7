(** No card is lost while a replay is scrubbed. *)
From Verif Require Import LimboUndo.
From Verif Require Import Base BaseProofs Place PlaceProofs Frame FrameSpec FrameLens FrameProofs FrameMove FrameOps
  FramePiles FrameInv FrameShuffle FrameFacts Limbo LimboSpec LimboProofs LimboFacts LimboNat Msg Event EventSpec EventUndo
  BoardNat Query UQuery UQuerySpec UReplaySpec UReplay LostSpec.

Section Lost.
Variable C : Type.
Variable c0 : C.
Notation inv := LimboUndo.inv.
Notation tape := (tape C).
Notation tape_ok := (tape_ok C).

(** ** What a layout and an operation refer to *)
Definition inL (L : layout) (id : N) : Prop := (0 < cntL L id)%nat.
Definition inO (o : lop) (id : N) : Prop :=
  match o with
  | CardOp c => c = Some id
  | ResizeOp _ s => In (Some id) s
  | ClearOp L => inL L id
  end.
Definition inP (P : list lop) (id : N) : Prop := exists o, In o P /\ inO o id.

Lemma inP_nil : forall id, ~ inP [] id.
Proof. intros id [o [[] _]]. Qed.
Lemma inP_app : forall P Q id, inP (P ++ Q) id <-> inP P id \/ inP Q id.
Proof.
  intros P Q id. unfold inP. split.
  - intros [o [X Y]]. apply in_app_or in X. destruct X; eauto.
  - intros [[o [X Y]]|[o [X Y]]]; exists o; split; auto; apply in_or_app; auto.
Qed.
Lemma inP_one : forall o id, inP [o] id <-> inO o id.
Proof.
  intros o id. split.
  - intros [o' [[<-|[]] Y]]. exact Y.
  - intros Y. exists o. split; [now left|exact Y].
Qed.

(** ** Steps with the exact operations they leave behind *)
Definition moves_only (a : lact) : Prop :=
  match a with LMove _ _ | LSwap _ _ | LShuffle _ _ | LSplice _ _ _ _ | LPileSwap _ _ => True | _ => False end.

Inductive gt : lact -> layout -> layout -> list lop -> list lop -> Prop :=
| gt_add : forall p c L L', lay_ok L -> card_insert p c L = Ok L' ->
    gt (LAdd p) L L' [CardOp (Some c)] [CardOp (Some c)]
| gt_remove : forall p c L L', lay_ok L -> card_erase p L = Ok (c, L') ->
    gt (LRemove p) L L' [CardOp (Some c)] [CardOp (Some c)]
| gt_grow : forall p n r t L s pv, lay_ok L -> pile_of p = Ok r -> all_some t ->
    length (get_pile r L ++ t) = N.to_nat n -> s = [] \/ s = t ->
    gt (LResize p n) L (set_pile r (get_pile r L ++ t) L)
       [ResizeOp (length (get_pile r L)) s] [ResizeOp pv t]
| gt_half : forall p n r L pv, lay_ok L -> pile_of p = Ok r ->
    length (get_pile r L) = (2 * N.to_nat n)%nat -> (0 < N.to_nat n)%nat ->
    gt (LResize p n) L (set_pile r (firstn (N.to_nat n) (get_pile r L)) L)
       [ResizeOp (length (get_pile r L)) (skipn (N.to_nat n) (get_pile r L))]
       [ResizeOp pv (skipn (N.to_nat n) (get_pile r L))]
| gt_clear : forall L L', gt LClear L L' [ClearOp L] [ClearOp L']
| gt_lay : forall a L L', moves_only a -> (forall id, cntL L' id = cntL L id) ->
    (forall nx h P F w', lstep c0 a (tape nx h L P F) = Ok w' -> w' = tape nx h L' P F) ->
    (forall nx h P F w', lstep c0 (inv a) (tape nx h L' P F) = Ok w' -> w' = tape nx h L P F) ->
    gt a L L' [] [].

Lemma inL_set_pile : forall r l L id, shape L ->
  (inL (set_pile r l L) id \/ In (Some id) (get_pile r L)) <-> (inL L id \/ In (Some id) l).
Proof.
  intros r l L id S. unfold inL. pose proof (cntL_set_pile r l L id S) as E.
  rewrite <- !cnt_In. pose proof (cnt_le_cntL (CPile r) L id S I) as B. cbn [contents] in B.
  assert (S' : shape (set_pile r l L)) by (apply shape_set_pile; auto).
  pose proof (cnt_le_cntL (CPile r) (set_pile r l L) id S' I) as B'. cbn [contents] in B'.
  rewrite get_set_pile_same in B'. lia.
Qed.

(** Nothing slips between the board and the operation. *)
Lemma gt_refs : forall a L L' p f, gt a L L' p f -> forall id,
  (inL L id \/ inP f id) <-> (inL L' id \/ inP p id).
Proof.
  intros a L L' p f G id. destruct G as [p c L L' K E|p c L L' K E|p n r t L s pv K R A Ln Hs|p n r L pv K R Ln Hp|L L'|a L L' M Ct H1 H2];
    rewrite ?inP_one; cbn [inO].
  - destruct (lay_ok_insert _ _ _ _ K E) as [_ X]. unfold inL. rewrite X, cnt_single_eq.
    destruct (N.eq_dec c id) as [->|Ne]; split; intros [Y|Y]; auto; left; lia.
  - destruct (lay_ok_erase _ _ _ _ K E) as [_ X]. specialize (X id). rewrite cnt_single_eq in X. unfold inL.
    destruct (N.eq_dec c id) as [->|Ne]; split; intros [Y|Y]; auto; left; lia.
  - pose proof (inL_set_pile r (get_pile r L ++ t) L id (proj1 K)) as X. rewrite in_app_iff in X.
    assert (Y : In (Some id) (get_pile r L) -> inL L id) by (apply cntL_pile_In; apply K).
    assert (Z : In (Some id) (get_pile r L) -> inL (set_pile r (get_pile r L ++ t) L) id).
    { intros Q. apply cntL_pile_In with r; [apply shape_set_pile, K|]. rewrite get_set_pile_same.
      apply in_or_app. now left. }
    assert (V : In (Some id) s -> In (Some id) t) by (destruct Hs; subst; [intros []|auto]).
    tauto.
  - set (l := get_pile r L) in *. set (m := N.to_nat n) in *.
    pose proof (inL_set_pile r (firstn m l) L id (proj1 K)) as X. fold l in X.
    assert (Y : In (Some id) l -> inL L id) by (apply cntL_pile_In; apply K).
    assert (E : In (Some id) l <-> In (Some id) (firstn m l) \/ In (Some id) (skipn m l)).
    { rewrite <- in_app_iff, firstn_skipn. tauto. }
    assert (Z : In (Some id) (firstn m l) -> inL (set_pile r (firstn m l) L) id).
    { intros Q. apply cntL_pile_In with r; [apply shape_set_pile, K|]. now rewrite get_set_pile_same. }
    tauto.
  - tauto.
  - unfold inL. rewrite Ct. split; intros [X|X]; auto; destruct (inP_nil _ X).
Qed.

(** Doing something for the first time. *)
Lemma gt_live : forall a nx h L P w', event_act a -> tape_ok nx h L P [] -> act_keeps a (tape nx h L P []) ->
  lstep c0 a (tape nx h L P []) = Ok w' ->
  exists nx' new L' p f, w' = tape nx' (new ++ h) L' (p ++ P) [] /\ gt a L L' p f /\
    forall id, In id (map fst new) -> inL L' id.
Proof.
  intros a nx h L P w' Ea O Kp H. pose proof (to_lay _ _ _ _ _ _ O) as K. pose proof K as [S Nn].
  assert (Lay : forall L', w' = tape nx h L' P [] -> moves_only a -> (forall id, cntL L' id = cntL L id) ->
    (forall nx h P F w', lstep c0 a (tape nx h L P F) = Ok w' -> w' = tape nx h L' P F) ->
    (forall nx h P F w', lstep c0 (inv a) (tape nx h L' P F) = Ok w' -> w' = tape nx h L P F) ->
    exists nx' new L' p f, w' = tape nx' (new ++ h) L' (p ++ P) [] /\ gt a L L' p f /\
    forall id, In id (map fst new) -> inL L' id).
  { intros L' -> M Ct X Y. exists nx, [], L', [], []. split; [reflexivity|]. split; [now apply gt_lay|intros ? []]. }
  destruct a; try destruct Ea; cbn [lstep] in H.
  - apply obind_Ok in H as [[c w1] [H X]]. injection X as ->. apply add_live in H.
    destruct H as [L' [E [-> ->]]].
    exists (nx + 1)%N, [(nx, c0)], L', [CardOp (Some nx)], [CardOp (Some nx)]. split; [reflexivity|].
    split; [now apply gt_add|]. intros id [<-|[]]. destruct (lay_ok_insert _ _ _ _ K E) as [_ X].
    change (inL L' nx). unfold inL. rewrite X, cnt_single_eq. destruct (N.eq_dec nx nx); [lia|congruence].
  - apply remove_live in H; auto. destruct H as [c [L' [E [A ->]]]].
    exists nx, [], L', [CardOp (Some c)], [CardOp (Some c)]. split; [reflexivity|].
    split; [now apply gt_remove|intros ? []].
  - apply resize_live in H; auto. destruct H as [r [l' [s' [R [E [Ln [A ->]]]]]]]. cbv zeta.
    set (g := (N.to_nat count - length (get_pile r L))%nat) in *.
    pose proof R as R1. apply pile_of_iff in R1. destruct R1 as [i Sl].
    specialize (Kp r i Sl). cbv zeta in Kp. rewrite lb_lay_tape in Kp. cbn [contents] in Kp.
    set (l := get_pile r L) in *.
    destruct (Nat.ltb_spec (N.to_nat count) (length l)) as [Lt|Ge].
    + unfold resized in E. destruct (Nat.ltb_spec (length l) (N.to_nat count)); [lia|].
      destruct (Nat.ltb_spec (N.to_nat count) (length l)); [|lia].
      set (m := N.to_nat count) in *. replace (length l - m)%nat with m in E by lia.
      rewrite copy_exact in E by (rewrite resize_ptrs_len, skipn_length; lia).
      cbn [obind] in E. injection E as <- <-.
      eexists _, (fresh_cells C c0 nx g), _, [ResizeOp (length l) (skipn m l)], [ResizeOp 0 (skipn m l)].
      split; [reflexivity|]. split.
      * apply gt_half; auto; fold l; fold m; lia.
      * replace g with 0%nat by lia. intros ? [].
    + unfold resized in E.
      assert (X : l' = l ++ map Some (news nx g) /\ s' = []).
      { destruct (Nat.ltb_spec (length l) (N.to_nat count)).
        - injection E as <- <-. auto.
        - destruct (Nat.ltb_spec (N.to_nat count) (length l)); [lia|]. injection E as <- <-.
          replace g with 0%nat by lia. simpl. rewrite app_nil_r. auto. }
      destruct X as [-> ->].
      eexists _, (fresh_cells C c0 nx g), _, [ResizeOp (length l) []], [ResizeOp 0 (map Some (news nx g))].
      split; [reflexivity|]. split.
      * apply gt_grow; auto. apply all_some_app in A. tauto.
      * intros id X. unfold fresh_cells in X. rewrite map_rev, map_map, <- in_rev in X. simpl in X.
        rewrite map_id in X. apply cntL_pile_In with r; [now apply shape_set_pile|].
        rewrite get_set_pile_same. apply in_or_app. right. now apply in_map.
  - rewrite clear_live in H. injection H as <-.
    exists nx, [], layout0, [ClearOp L], [ClearOp layout0]. split; [reflexivity|].
    split; [apply gt_clear|intros ? []].
  - apply obind_Ok in H as [[c w1] [H X]]. injection X as ->. apply l_move_tape in H.
    destruct H as [L' [E [A ->]]]. apply (Lay L'); auto; try exact Logic.I.
    + apply (proj2 (lay_ok_move _ _ _ _ _ K E)).
    + intros nx2 h2 P2 F2 w2 X. cbn [lstep] in X. apply obind_Ok in X as [[c2 w3] [X Y]]. injection Y as <-.
      apply l_move_tape in X. destruct X as [L2 [E2 [_ ->]]]. congruence.
    + intros nx2 h2 P2 F2 w2 X. cbn [inv lstep] in X. apply obind_Ok in X as [[c2 w3] [X Y]]. injection Y as <-.
      apply l_move_tape in X. destruct X as [L2 [E2 [_ ->]]].
      pose proof (card_move_back _ _ _ _ _ S E) as E3. congruence.
  - apply l_lift_tape in H. destruct H as [L' [E ->]]. apply (Lay L'); auto; try exact Logic.I.
    + apply (proj2 (lay_ok_swap _ _ _ _ K E)).
    + intros nx2 h2 P2 F2 w2 X. cbn [lstep] in X. apply l_lift_tape in X. destruct X as [L2 [E2 ->]]. congruence.
    + intros nx2 h2 P2 F2 w2 X. cbn [inv lstep] in X. apply l_lift_tape in X. destruct X as [L2 [E2 ->]].
      pose proof (card_swap_twice _ _ _ _ K E) as E3. congruence.
  - apply l_lift_tape in H. destruct H as [L' [E ->]]. apply (Lay L'); auto; try exact Logic.I.
    + apply (proj2 (lay_ok_shuffle _ _ _ _ K E)).
    + intros nx2 h2 P2 F2 w2 X. cbn [lstep] in X. apply l_lift_tape in X. destruct X as [L2 [E2 ->]]. congruence.
    + intros nx2 h2 P2 F2 w2 X. discriminate X.
  - apply l_lift_tape in H. destruct H as [L' [E ->]]. apply (Lay L'); auto; try exact Logic.I.
    + apply (proj2 (lay_ok_splice _ _ _ _ _ _ K E)).
    + intros nx2 h2 P2 F2 w2 X. cbn [lstep] in X. apply l_lift_tape in X. destruct X as [L2 [E2 ->]]. congruence.
    + intros nx2 h2 P2 F2 w2 X. cbn [inv lstep] in X. apply l_lift_tape in X. destruct X as [L2 [E2 ->]].
      pose proof (pile_splice_back _ _ _ _ _ _ E) as E3. congruence.
  - apply l_lift_tape in H. destruct H as [L' [E ->]]. apply (Lay L'); auto; try exact Logic.I.
    + apply (proj2 (lay_ok_pile_swap _ _ _ _ K E)).
    + intros nx2 h2 P2 F2 w2 X. cbn [lstep] in X. apply l_lift_tape in X. destruct X as [L2 [E2 ->]]. congruence.
    + intros nx2 h2 P2 F2 w2 X. cbn [inv lstep] in X. apply l_lift_tape in X. destruct X as [L2 [E2 ->]].
      pose proof (pile_swap_twice _ _ _ _ E) as E3. congruence.
Qed.

(** Doing it again ... *)
Lemma gt_redo : forall a L L' p f, gt a L L' p f -> forall nx h P F w', lay_ok L ->
  lstep c0 a (tape nx h L P (f ++ F)) = Ok w' ->
  exists p', w' = tape nx h L' (p' ++ P) F /\ gt a L L' p' f.
Proof.
  intros a L L' p f G nx h P F w' K H. pose proof K as [S Nn].
  destruct G as [p c L L' _ E|p c L L' _ E|p n r t L s pv _ R A Ln Hs|p n r L pv _ R Ln Hp|L L'|a L L' M Ct H1 H2];
    cbn [lstep app] in H.
  - apply obind_Ok in H as [[c' w1] [H X]]. injection X as ->. apply add_redo in H; auto.
    destruct H as [L2 [X [_ [E2 ->]]]]. injection X as <-. rewrite E in E2. injection E2 as <-.
    exists [CardOp (Some c)]. split; [reflexivity|now apply gt_add].
  - apply remove_redo in H; auto. destruct H as [c' [L2 [X [E2 [_ ->]]]]]. injection X as <-.
    rewrite E in E2. injection E2 as <-. exists [CardOp (Some c)]. split; [reflexivity|now apply gt_remove].
  - apply resize_redo in H; auto. destruct H as [r' [l' [pv' [s1 [s' [R' [X [E [_ [A' ->]]]]]]]]]].
    injection X as <- <-. rewrite R in R'. injection R' as <-.
    exists [ResizeOp (length (get_pile r L)) t].
    assert (X : l' = get_pile r L ++ t /\ s' = t).
    { rewrite app_length in Ln. unfold resized in E.
      destruct (Nat.ltb_spec (length (get_pile r L)) (N.to_nat n)); [injection E as <- <-; auto|].
      destruct (Nat.ltb_spec (N.to_nat n) (length (get_pile r L))); [lia|]. injection E as <- <-.
      destruct t; [|simpl in Ln; lia]. rewrite app_nil_r. auto. }
    destruct X as [-> ->]. split; [reflexivity|]. apply gt_grow; auto.
  - apply resize_redo in H; auto. destruct H as [r' [l' [pv' [s1 [s' [R' [X [E [_ [A' ->]]]]]]]]]].
    injection X as <- <-. rewrite R in R'. injection R' as <-.
    set (l := get_pile r L) in *. set (m := N.to_nat n) in *.
    exists [ResizeOp (length l) (skipn m l)].
    assert (X : l' = firstn m l /\ s' = skipn m l).
    { unfold resized in E. destruct (Nat.ltb_spec (length l) m); [lia|].
      destruct (Nat.ltb_spec m (length l)); [|lia]. replace (length l - m)%nat with m in E by lia.
      rewrite copy_exact in E by (rewrite resize_ptrs_len, skipn_length; lia).
      cbn [obind] in E. injection E as <- <-. auto. }
    destruct X as [-> ->]. split; [reflexivity|]. apply gt_half; auto.
  - apply clear_redo in H. destruct H as [L2 [X ->]]. injection X as <-.
    exists [ClearOp L]. split; [reflexivity|apply gt_clear].
  - exists []. split; [now apply H1|now apply gt_lay].
Qed.

(** ... and taking it back. *)
Lemma gt_undo : forall a L L' p f, gt a L L' p f -> forall nx h P F w', lay_ok L' ->
  lstep c0 (inv a) (tape nx h L' (p ++ P) F) = Ok w' ->
  exists f', w' = tape nx h L P (f' ++ F) /\ gt a L L' p f'.
Proof.
  intros a L L' p f G nx h P F w' K' H. pose proof K' as [S' Nn'].
  destruct G as [p c L L' K E|p c L L' K E|p n r t L s pv K R A Ln Hs|p n r L pv K R Ln Hp|L L'|a L L' M Ct H1 H2];
    cbn [inv lstep app] in H.
  - apply obind_Ok in H as [[c' w1] [H X]]. injection X as ->. apply undo_add in H; auto.
    destruct H as [L2 [P2 [X [_ [E2 ->]]]]]. injection X as <- <-.
    rewrite (erase_insert _ _ _ _ (proj1 K) E) in E2. injection E2 as <-.
    exists [CardOp (Some c)]. split; [reflexivity|now apply gt_add].
  - apply obind_Ok in H as [[c' w1] [H X]]. injection X as ->. apply undo_remove in H; auto.
    destruct H as [L2 [P2 [X [_ [E2 ->]]]]]. injection X as <- <-.
    rewrite (insert_erase _ _ _ _ (proj1 K) E) in E2. injection E2 as <-.
    exists [CardOp (Some c)]. split; [reflexivity|now apply gt_remove].
  - apply undo_resize in H; auto. destruct H as [r' [prev [s1 [P2 [R' [X [_ [_ ->]]]]]]]].
    injection X as <- <- <-. rewrite R in R'. injection R' as <-. rewrite get_set_pile_same.
    set (l := get_pile r L) in *.
    assert (U : unresized (l ++ t) s (length l) = (l, t)).
    { unfold unresized. rewrite app_length. destruct t as [|x t].
      - replace s with (@nil (option N)) by (destruct Hs; auto). rewrite !app_nil_r. simpl.
        rewrite Nat.add_0_r, Nat.ltb_irrefl. reflexivity.
      - simpl. destruct (Nat.ltb_spec (length l + S (length t)) (length l)); [lia|].
        destruct (Nat.ltb_spec (length l) (length l + S (length t))); [|lia].
        rewrite firstn_app_exact, skipn_app, skipn_all, Nat.sub_diag by reflexivity. reflexivity. }
    rewrite U. cbn [fst snd]. rewrite set_set_pile.
    replace (set_pile r l L) with L by (symmetry; apply set_pile_id).
    exists [ResizeOp (length l) t]. split; [reflexivity|]. apply gt_grow; auto.
  - apply undo_resize in H; auto. destruct H as [r' [prev [s1 [P2 [R' [X [_ [_ ->]]]]]]]].
    injection X as <- <- <-. rewrite R in R'. injection R' as <-. rewrite get_set_pile_same.
    set (l := get_pile r L) in *. set (m := N.to_nat n) in *.
    assert (U : unresized (firstn m l) (skipn m l) (length l) = (l, skipn m l)).
    { unfold unresized. rewrite firstn_length.
      destruct (Nat.ltb_spec (Nat.min m (length l)) (length l)); [|lia].
      rewrite firstn_skipn. reflexivity. }
    rewrite U. cbn [fst snd]. rewrite set_set_pile.
    replace (set_pile r l L) with L by (symmetry; apply set_pile_id).
    exists [ResizeOp (length l) (skipn m l)]. split; [reflexivity|]. apply gt_half; auto.
  - apply undo_clear in H. destruct H as [L2 [P2 [X ->]]]. injection X as <- <-.
    exists [ClearOp L']. split; [reflexivity|apply gt_clear].
  - exists []. split; [eapply H2; eauto|now apply gt_lay].
Qed.

(** ** Histories *)
Inductive gpast : list lact -> layout -> list lop -> Prop :=
| gp_nil : forall L, gpast [] L []
| gp_cons : forall a acts L L' p f P, gt a L L' p f -> gpast acts L P -> gpast (a :: acts) L' (p ++ P).
Inductive gfuture : list lact -> layout -> list lop -> layout -> Prop :=
| gf_nil : forall L, gfuture [] L [] L
| gf_cons : forall a acts L L' p f F Le, gt a L L' p f -> gfuture acts L' F Le ->
    gfuture (a :: acts) L (f ++ F) Le.

(** [done], newest first, has been done and [todo] taken back, after which the
    layout will be [Le]; [nx] cards were ever made, the cards are [ids], and
    every one of them is referred to. *)
Definition kept (done todo : list lact) (nx : N) (ids : list N) (Le : layout) (w : limbo C) : Prop :=
  exists h L P F, w = tape nx h L P F /\ tape_ok nx h L P F /\ map fst h = ids /\ gpast done L P /\
    gfuture todo L F Le /\ forall id, In id ids -> inL L id \/ inP P id \/ inP F id.

(** A step at the live end looks neither at the past nor at the cards. *)
Lemma live_any : forall a nx h L P w', event_act a -> lay_ok L ->
  lstep c0 a (tape nx h L P []) = Ok w' ->
  exists nx' new L' p, w' = tape nx' (new ++ h) L' (p ++ P) [] /\
    forall h2 P2, (forall id, In id (map fst h2) <-> In id (map fst h)) ->
      lstep c0 a (tape nx h2 L P2 []) = Ok (tape nx' (new ++ h2) L' (p ++ P2) []).
Proof.
  intros a nx h L P w' Ea K H. pose proof K as [S Nn].
  destruct a; try destruct Ea; cbn [lstep] in *.
  - apply obind_Ok in H as [[c w1] [H X]]. injection X as ->. apply add_live in H.
    destruct H as [L' [E [-> ->]]]. exists (nx + 1)%N, [(nx, c0)], L', [CardOp (Some nx)].
    split; [reflexivity|]. intros h2 P2 I2. apply drop_fst with nx. apply add_live. eauto.
  - apply remove_live in H; auto. destruct H as [c [L' [E [A ->]]]].
    exists nx, [], L', [CardOp (Some c)]. split; [reflexivity|]. intros h2 P2 I2. apply remove_live; auto.
    exists c, L'. split; [exact E|]. split; [|reflexivity]. apply I2. exact A.
  - apply resize_live in H; auto. destruct H as [r [l' [s' [R [E [Ln [A ->]]]]]]]. cbv zeta.
    eexists _, _, _, [ResizeOp (length (get_pile r L)) s']. split; [reflexivity|].
    intros h2 P2 I2. apply resize_live; auto. exists r, l', s'. auto 10.
  - rewrite clear_live in H. injection H as <-. exists nx, [], layout0, [ClearOp L].
    split; [reflexivity|]. intros h2 P2 I2. apply clear_live.
  - apply obind_Ok in H as [[c w1] [H X]]. injection X as ->. apply l_move_tape in H.
    destruct H as [L' [E [A ->]]]. exists nx, [], L', []. split; [reflexivity|].
    intros h2 P2 I2. apply drop_fst with c. apply l_move_tape. exists L'. split; [exact E|].
    split; [|reflexivity]. apply I2. exact A.
  - apply l_lift_tape in H. destruct H as [L' [E ->]]. exists nx, [], L', []. split; [reflexivity|].
    intros h2 P2 I2. apply l_lift_tape. eauto.
  - apply l_lift_tape in H. destruct H as [L' [E ->]]. exists nx, [], L', []. split; [reflexivity|].
    intros h2 P2 I2. apply l_lift_tape. eauto.
  - apply l_lift_tape in H. destruct H as [L' [E ->]]. exists nx, [], L', []. split; [reflexivity|].
    intros h2 P2 I2. apply l_lift_tape. eauto.
  - apply l_lift_tape in H. destruct H as [L' [E ->]]. exists nx, [], L', []. split; [reflexivity|].
    intros h2 P2 I2. apply l_lift_tape. eauto.
Qed.

(** The first playing is [v]; the walked frame [w] does the same. *)
Lemma kept_live : forall a done nx hs L Ps w w', event_act a -> act_keeps a (tape nx hs L Ps []) ->
  kept done [] nx (map fst hs) L w -> lstep c0 a w = Ok w' ->
  exists nx' hs' L' Ps', lstep c0 a (tape nx hs L Ps []) = Ok (tape nx' hs' L' Ps' []) /\
    kept (a :: done) [] nx' (map fst hs') L' w'.
Proof.
  intros a done nx hs L0 Ps w w' Ea Kp [h [L [P [F [-> [O [Ei [Gp [Gf Rf]]]]]]]]] H. inversion Gf; subst L0 F L1.
  assert (Kp' : act_keeps a (tape nx h L P [])).
  { unfold act_keeps in *. destruct a; auto. }
  destruct (gt_live _ _ _ _ _ _ Ea O Kp' H) as [nx' [new [L' [p [f [E1 [G Nw]]]]]]].
  destruct (live_any _ _ _ _ _ _ Ea (to_lay _ _ _ _ _ _ O) H) as [nx2 [new2 [L2 [p2 [E2 Any]]]]].
  assert (X : nx2 = nx' /\ new2 ++ h = new ++ h /\ L2 = L').
  { rewrite E1 in E2. apply tape_inj in E2. destruct E2 as [-> [-> [-> _]]]. auto. }
  destruct X as [-> [X ->]]. apply app_inv_tail in X. subst new2.
  exists nx', (new ++ hs), L', (p2 ++ Ps). split; [apply Any; intros id; now rewrite Ei|].
  subst w'. exists (new ++ h), L', (p ++ P), []. split; [reflexivity|].
  split; [eapply tape_ok_step; eauto|]. split; [rewrite !map_app; now f_equal|].
  split; [econstructor; eauto|]. split; [constructor|].
  intros id X. rewrite map_app in X. apply in_app_or in X. rewrite inP_app. destruct X as [X|X]; [auto|].
  pose proof (gt_refs _ _ _ _ _ G id) as E. specialize (Rf id X). tauto.
Qed.

Lemma kept_redo : forall a done todo nx ids Le w w', kept done (a :: todo) nx ids Le w -> lstep c0 a w = Ok w' ->
  kept (a :: done) todo nx ids Le w'.
Proof.
  intros a done todo nx ids Le w w' [h [L [P [F [-> [O [Ei [Gp [Gf Rf]]]]]]]]] H.
  inversion Gf as [|? ? ? L' p f F' ? G Gf']; subst.
  destruct (gt_redo _ _ _ _ _ G _ _ _ _ _ (to_lay _ _ _ _ _ _ O) H) as [p' [-> G']].
  exists h, L', (p' ++ P), F'. split; [reflexivity|].
  split; [eapply tape_ok_step; eauto|]. split; [reflexivity|]. split; [econstructor; eauto|]. split; [auto|].
  intros id X. rewrite inP_app. pose proof (gt_refs _ _ _ _ _ G' id) as E. specialize (Rf id X).
  rewrite inP_app in Rf. tauto.
Qed.

Lemma kept_undo : forall a done todo nx ids Le w w', kept (a :: done) todo nx ids Le w ->
  lstep c0 (inv a) w = Ok w' -> kept done (a :: todo) nx ids Le w'.
Proof.
  intros a done todo nx ids Le w w' [h [L' [P [F [-> [O [Ei [Gp [Gf Rf]]]]]]]]] H.
  inversion Gp as [|? ? L ? p f P' G Gp']; subst.
  destruct (gt_undo _ _ _ _ _ G _ _ _ _ _ (to_lay _ _ _ _ _ _ O) H) as [f' [-> G']].
  exists h, L, P', (f' ++ F). split; [reflexivity|].
  split; [eapply tape_ok_step; eauto|]. split; [reflexivity|]. split; [auto|]. split; [econstructor; eauto|].
  intros id X. rewrite inP_app. pose proof (gt_refs _ _ _ _ _ G' id) as E. specialize (Rf id X).
  rewrite inP_app in Rf. tauto.
Qed.

Lemma tape_ok0 : tape_ok 0 [] layout0 [] [].
Proof.
  split; try (constructor; fail); try exact lay_ok0; try (intros ? []; fail).
  intros id H. exfalso. revert H. vm_compute. lia.
Qed.

Lemma kept0 : kept [] [] 0 [] layout0 (@limbo0 C).
Proof.
  exists [], layout0, [], []. split; [reflexivity|]. split; [exact tape_ok0|].
  split; [reflexivity|]. split; [constructor|]. split; [constructor|]. intros ? [].
Qed.

Lemma kept_live_run : forall acts done nx hs L Ps w w', Forall event_act acts ->
  acts_keep c0 acts (tape nx hs L Ps []) ->
  kept done [] nx (map fst hs) L w -> lrun c0 acts w = Ok w' ->
  exists nx' hs' L' Ps', lrun c0 acts (tape nx hs L Ps []) = Ok (tape nx' hs' L' Ps' []) /\
    kept (rev acts ++ done) [] nx' (map fst hs') L' w'.
Proof.
  induction acts as [|a acts IH]; intros done nx hs L Ps w w' Ea Kp K H.
  - injection H as <-. exists nx, hs, L, Ps. split; [reflexivity|exact K].
  - inversion Ea as [|? ? E1 E2]; subst. destruct Kp as [K1 K2]. unfold lrun in H. cbn [ofold] in H.
    apply obind_Ok in H as [w1 [H1 H]]. cbn [rev]. rewrite <- app_assoc. cbn [app].
    destruct (kept_live _ _ _ _ _ _ _ _ E1 K1 K H1) as [nx1 [hs1 [L1 [Ps1 [R1 K3]]]]].
    unfold lrun. cbn [ofold]. rewrite R1. cbn [obind]. eapply IH; eauto.
Qed.

Lemma kept_redo_run : forall acts done todo nx ids Le w w', kept done (acts ++ todo) nx ids Le w ->
  lrun c0 acts w = Ok w' -> kept (rev acts ++ done) todo nx ids Le w'.
Proof.
  induction acts as [|a acts IH]; intros done todo nx ids Le w w' K H.
  - injection H as <-. exact K.
  - unfold lrun in H. cbn [ofold] in H. apply obind_Ok in H as [w1 [H1 H]]. cbn [rev].
    rewrite <- app_assoc. cbn [app]. eapply IH; eauto. eapply kept_redo; eauto.
Qed.

Lemma kept_undo_run : forall acts done todo nx ids Le w w', kept (rev acts ++ done) todo nx ids Le w ->
  lrun c0 (rev (map inv acts)) w = Ok w' -> kept done (acts ++ todo) nx ids Le w'.
Proof.
  intros acts. induction acts as [|a acts IH] using rev_ind; intros done todo nx ids Le w w' K H.
  - injection H as <-. exact K.
  - rewrite map_app, rev_app_distr in H. unfold lrun in H. cbn [map rev app ofold] in H.
    apply obind_Ok in H as [w1 [H1 H]]. rewrite rev_app_distr in K. cbn [rev app] in K.
    rewrite <- app_assoc. cbn [app]. eapply IH; [|exact H]. eapply kept_undo; eauto.
Qed.

(** Writing to a card changes nothing here. *)
Lemma heap_set_ids : forall id (c : C) h, map fst (heap_set id c h) = map fst h.
Proof.
  induction h as [|[k v] h IH]; auto. cbn. destruct (N.eqb_spec k id) as [->|]; cbn; congruence.
Qed.
Lemma tape_ok_set : forall id c nx h L P F, tape_ok nx h L P F -> tape_ok nx (heap_set id c h) L P F.
Proof.
  intros id c nx h L P F [A B D E G I]. pose proof (heap_set_ids id c h) as M.
  assert (X : forall Q, Forall (op_ok C h) Q -> Forall (op_ok C (heap_set id c h)) Q).
  { intros Q. apply Forall_impl. intros o V. unfold op_ok in *. rewrite M. exact V. }
  split; auto; rewrite M; auto.
Qed.
Lemma kept_set : forall done todo nx ids Le w id c, kept done todo nx ids Le w ->
  kept done todo nx ids Le (l_set_card id c w).
Proof.
  intros done todo nx ids Le w id c [h [L [P [F [-> [O [Ei [Gp [Gf Rf]]]]]]]]].
  exists (heap_set id c h), L, P, F. split; [reflexivity|]. split; [now apply tape_ok_set|].
  rewrite heap_set_ids. auto.
Qed.

(** What it means. *)
Lemma inL_occupant : forall L id, inL L id -> exists pos, occupant L pos = Some (Some id).
Proof.
  intros L id H. unfold inL, cntL in H.
  destruct (sum_over_pos _ (fun k => cnt (contents k L) id) all_conts H) as [k [_ Pk]].
  apply cnt_In, In_nth_error in Pk. destruct Pk as [i E]. now exists (k, i).
Qed.

Lemma kept_reach : forall done todo nx ids Le w, kept done todo nx ids Le w ->
  forall id, card_alive w id -> within_reach w id.
Proof.
  intros done todo nx ids Le w [h [L [P [F [-> [O [Ei [_ [_ Rf]]]]]]]]] id A.
  assert (Rop : forall Q, inP Q id -> exists o, In o Q /\ op_mentions o id).
  { intros Q [o [I1 I2]]. exists o. split; [exact I1|].
    destruct o as [c|n s|L1]; auto. now apply inL_occupant. }
  unfold card_alive, live in A. cbn [lb_frame LimboProofs.tape f_heap] in A. rewrite Ei in A.
  destruct (Rf id A) as [X|[X|X]].
  - left. now apply inL_occupant.
  - right. destruct (Rop _ X) as [o [I1 I2]]. exists o. split; [|exact I2].
    cbn [lb_ops LimboProofs.tape]. apply in_or_app. left. now apply in_rev in I1.
  - right. destruct (Rop _ X) as [o [I1 I2]]. exists o. split; [|exact I2].
    cbn [lb_ops LimboProofs.tape]. apply in_or_app. now right.
Qed.

(** ** Walks over a recording *)
Section Walk.
Variable AA : list (list lact).
Hypothesis Ev : Forall (Forall event_act) AA.
Hypothesis Keep : acts_keep c0 (concat AA) limbo0.

Definition scrub (i m : nat) (w : limbo C) : Prop :=
  (i <= m <= length AA)%nat /\ exists nx hs Le Ps,
    lrun c0 (concat (firstn m AA)) limbo0 = Ok (tape nx hs Le Ps []) /\
    kept (rev (concat (firstn i AA))) (concat (firstn (m - i) (skipn i AA))) nx (map fst hs) Le w.

Lemma scrub0 : scrub 0 0 limbo0.
Proof. split; [lia|]. exists 0%N, [], layout0, []. split; [reflexivity|exact kept0]. Qed.

Lemma firstn_Snoc : forall i acts, nth_error AA i = Some acts -> firstn (S i) AA = firstn i AA ++ [acts].
Proof.
  clear. induction AA as [|x l IH]; intros [|i] acts H; try discriminate.
  - injection H as ->. reflexivity.
  - cbn [firstn app]. f_equal. now apply IH.
Qed.
Lemma skipn_Cons : forall i acts, nth_error AA i = Some acts -> skipn i AA = acts :: skipn (S i) AA.
Proof.
  clear. induction AA as [|x l IH]; intros [|i] acts H; try discriminate.
  - injection H as ->. reflexivity.
  - cbn [skipn]. now apply IH.
Qed.

Lemma acts_keep_app : forall l1 l2 w w', acts_keep c0 (l1 ++ l2) w -> lrun c0 l1 w = Ok w' -> acts_keep c0 l2 w'.
Proof.
  induction l1 as [|a l1 IH]; intros l2 w w' H R.
  - injection R as <-. exact H.
  - destruct H as [_ H]. unfold lrun in R. cbn [ofold] in R. apply obind_Ok in R as [w1 [R1 R]]. eapply IH; eauto.
Qed.
Lemma acts_keep_fst : forall l1 l2 (w : limbo C), acts_keep c0 (l1 ++ l2) w -> acts_keep c0 l1 w.
Proof.
  induction l1 as [|a l1 IH]; intros l2 w H; [exact Logic.I|]. destruct H as [H1 H2]. split; eauto.
Qed.

Lemma scrub_forward : forall i m w acts w', scrub i m w -> nth_error AA i = Some acts -> lrun c0 acts w = Ok w' ->
  scrub (S i) (Nat.max m (S i)) w'.
Proof.
  intros i m w acts w' [B [nx [hs [Le [Ps [R K]]]]]] N H.
  assert (Li : (i < length AA)%nat) by (apply nth_error_Some; congruence).
  destruct (Nat.eq_dec i m) as [->|Ne].
  - rewrite Nat.max_r by lia. rewrite Nat.sub_diag in K. cbn [firstn concat] in K.
    assert (Ea : Forall event_act acts).
    { rewrite Forall_forall in Ev. apply Ev. eapply nth_error_In; eauto. }
    assert (Kp : acts_keep c0 acts (tape nx hs Le Ps [])).
    { apply acts_keep_fst with (concat (skipn (S m) AA)).
      eapply acts_keep_app; [|exact R]. rewrite <- (firstn_skipn m AA) in Keep.
      rewrite concat_app, (skipn_Cons _ _ N) in Keep. exact Keep. }
    destruct (kept_live_run _ _ _ _ _ _ _ _ Ea Kp K H) as [nx' [hs' [L' [Ps' [R' K']]]]].
    split; [lia|]. exists nx', hs', L', Ps'. rewrite Nat.sub_diag, (firstn_Snoc _ _ N), concat_app.
    cbn [concat firstn]. rewrite app_nil_r, lrun_app, R. cbn [obind]. split; [exact R'|].
    rewrite rev_app_distr. exact K'.
  - rewrite Nat.max_l by lia. split; [lia|]. exists nx, hs, Le, Ps. split; [exact R|].
    rewrite (firstn_Snoc _ _ N), concat_app. cbn [concat]. rewrite app_nil_r, rev_app_distr.
    eapply kept_redo_run; [|exact H]. rewrite (skipn_Cons _ _ N) in K.
    replace (m - i)%nat with (S (m - S i)) in K by lia. exact K.
Qed.

Lemma scrub_backward : forall i m w acts w', scrub (S i) m w -> nth_error AA i = Some acts ->
  lrun c0 (rev (map inv acts)) w = Ok w' -> scrub i m w'.
Proof.
  intros i m w acts w' [B [nx [hs [Le [Ps [R K]]]]]] N H. split; [lia|].
  exists nx, hs, Le, Ps. split; [exact R|].
  rewrite (firstn_Snoc _ _ N), concat_app in K. cbn [concat] in K. rewrite app_nil_r, rev_app_distr in K.
  pose proof (kept_undo_run _ _ _ _ _ _ _ _ K H) as K'.
  rewrite (skipn_Cons _ _ N). replace (m - i)%nat with (S (m - S i)) by lia. exact K'.
Qed.

Lemma scrub_set : forall i m w id c, scrub i m w -> scrub i m (l_set_card id c w).
Proof.
  intros i m w id c [B [nx [hs [Le [Ps [R K]]]]]]. split; [exact B|].
  exists nx, hs, Le, Ps. split; [exact R|now apply kept_set].
Qed.

Lemma scrub_reach : forall i m w, scrub i m w -> forall id, card_alive w id -> within_reach w id.
Proof. intros i m w [_ [nx [hs [Le [Ps [_ K]]]]]]. eapply kept_reach; eauto. Qed.

(** The cards are those of the first playing. *)
Lemma scrub_cards : forall i m w, scrub i m w -> exists v, lrun c0 (concat (firstn m AA)) limbo0 = Ok v /\
  forall id, card_alive w id <-> card_alive v id.
Proof.
  intros i m w [_ [nx [hs [Le [Ps [R K]]]]]]. exists (tape nx hs Le Ps []). split; [exact R|].
  destruct K as [h [L [P [F [-> [_ [E _]]]]]]]. intros id. unfold card_alive, live.
  cbn [lb_frame LimboProofs.tape f_heap]. now rewrite E.
Qed.
End Walk.
End Lost.
