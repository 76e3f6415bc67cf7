(** Undoing without assertions, on undoable boards. *)
From Verif Require Import Base BaseProofs Place Msg Frame FrameSpec FrameLens FrameProofs FrameMove FrameInv FrameFacts Limbo LimboSpec LimboUndo
  Event EventSpec EventUndo Release ReleaseSpec ReleaseProofs ReleaseFrameSpec ReleaseFrameProofs ReleaseAgreeProofs ReleaseBackSpec ReleaseBackProofs.
From Coq Require Import Permutation.

Set Implicit Arguments.
Local Open Scope N_scope.

Local Tactic Notation "bind" hyp(H) "as" simple_intropattern(x) ident(E) := apply obind_Ok in H; destruct H as (x & E & H).

(** ** The number of cards *)
Definition somes (l : list ptr) : list cid := flat_map (fun c => match c with Some id => [id] | None => [] end) l.
Definition tot (L : layout) : nat := length (somes (flat_map (fun k => contents k L) all_conts)).
Lemma cnt_somes : forall l id, cnt l id = count_occ N.eq_dec (somes l) id.
Proof.
  induction l as [|[c|] l IH]; intros id; [reflexivity| |].
  - cbn [somes flat_map app]. unfold cnt in *. cbn [count_occ]. fold (somes l). rewrite IH.
    destruct (ptr_eq_dec (Some c) (Some id)), (N.eq_dec c id); congruence.
  - cbn [somes flat_map app]. unfold cnt in *. cbn [count_occ]. fold (somes l). rewrite IH.
    destruct (ptr_eq_dec None (Some id)); congruence.
Qed.
Lemma cntL_flat : forall L id, cntL L id = cnt (flat_map (fun k => contents k L) all_conts) id.
Proof.
  intros L id. unfold cntL. induction all_conts as [|k l IH]; [reflexivity|]. cbn [sum_over flat_map]. rewrite cnt_app, IH. reflexivity.
Qed.
Lemma moved_tot : forall L L' inn out, moved L L' inn out -> (tot L' + length (somes out) = tot L + length (somes inn))%nat.
Proof.
  intros L L' inn out [_ M]. unfold tot. rewrite <- !app_length. apply Permutation_length.
  apply (proj2 (Permutation_count_occ N.eq_dec _ _)). intros id. rewrite !count_occ_app, <- !cnt_somes, <- !cntL_flat. apply M.
Qed.

Section Cards.
Variable C : Type.
Variable c0 : C.

(** ** The steps of an event, on limbo frames *)
Definition fwd (o : fop) : limbo C -> outcome (limbo C) :=
  match o with
  | OpAdd p => fo_add (rel_limbo_fo c0) p
  | OpRemove p => fo_remove (rel_limbo_fo c0) p
  | OpMove a b => fo_move (rel_limbo_fo c0) a b
  | OpSwap a b => fo_swap (rel_limbo_fo c0) a b
  | OpSplice a n b r => fo_splice (rel_limbo_fo c0) a n b r
  | OpPileSwap a b => fo_pile_swap (rel_limbo_fo c0) a b
  | _ => fun w => Ok w
  end.
Definition bwd (o : fop) : limbo C -> outcome (limbo C) :=
  match o with
  | OpAdd p => uo_add (rel_limbo_uo C) p
  | OpRemove p => uo_remove (rel_limbo_uo C) p
  | OpMove a b => fo_move (rel_limbo_fo c0) b a
  | OpSwap a b => fo_swap (rel_limbo_fo c0) a b
  | OpSplice a n b r => fo_splice (rel_limbo_fo c0) b n a r
  | OpPileSwap a b => fo_pile_swap (rel_limbo_fo c0) a b
  | _ => fun w => Ok w
  end.
Definition plainly (o : fop) : Prop :=
  match o with OpShuffle _ _ | OpResize _ _ | OpClear => False | _ => True end.

Lemma fold_map : forall A B S (f : A -> S -> outcome S) (g : B -> A) h l s,
  (forall x s, h x s = f (g x) s) -> ofold h l s = ofold f (map g l) s.
Proof.
  intros A B S f g h l s E. revert s. induction l as [|x l IH]; intros s; [reflexivity|]. cbn [ofold map]. rewrite E.
  destruct (f (g x) s); cbn [obind]; auto.
Qed.

Lemma moves_plain : forall e ops, moves_of e = Some ops -> Forall plainly ops.
Proof.
  intros e ops H. destruct e as [|[|x|s]|re [|l|l|l|l|pv cu]|[|c|pp]|con|wr mr ft|con t|me|ph'|re [|l|l|l]|rs|zs]; try discriminate H;
    cbn [moves_of] in H; injection H as <-; apply Forall_forall; intros o I; apply in_map_iff in I; destruct I as (y & <- & _); exact Logic.I.
Qed.
Lemma moves_do : forall e ops (b : uboard C), moves_of e = Some ops ->
  rel_uparse c0 e b = let! x := ofold fwd ops (b_frame b) in Ok (set_frame x b).
Proof.
  intros e ops b H. destruct e as [|[|x|s]|re [|l|l|l|l|pv cu]|[|c|pp]|con|wr mr ft|con t|me|ph'|re [|l|l|l]|rs|zs]; try discriminate H;
    cbn [moves_of] in H; injection H as <-; unfold rel_uparse; cbn [rel_parse_event parse_event]; unfold on_frame, do_adds, do_swaps, do_moves, do_removes, do_splices, do_pile_swaps;
    (erewrite fold_map; [reflexivity|intros; reflexivity]).
Qed.
Lemma moves_undo : forall e ops (b : uboard C), moves_of e = Some ops ->
  rel_uundo c0 e b = let! x := ofold bwd (rev ops) (b_frame b) in Ok (set_frame x b).
Proof.
  intros e ops b H. destruct e as [|[|x|s]|re [|l|l|l|l|pv cu]|[|c|pp]|con|wr mr ft|con t|me|ph'|re [|l|l|l]|rs|zs]; try discriminate H;
    cbn [moves_of] in H; injection H as <-; rewrite <- map_rev; unfold rel_uundo; cbn [rel_undo_parse_event undo_parse_event];
    unfold on_frame, undo_adds, undo_removes, undo_splices, do_swaps, do_moves, do_pile_swaps;
    (erewrite fold_map; [reflexivity|intros; reflexivity]).
Qed.

(** ** Boards that show what happened last *)
Definition good (w : limbo C) : Prop :=
  shape (lb_lay w) /\ lb_op w = lb_processed w /\ lb_processed w = length (lb_ops w).

Lemma good0 : good (@limbo0 C).
Proof. split; [exact shape0|]. split; reflexivity. Qed.

Lemma lift_good : forall op w w', (forall L L', shape L -> op L = Ok L' -> shape L') -> good w -> l_lift op w = Ok w' -> good w'.
Proof.
  intros op w w' Op (S & E1 & E2) H. unfold l_lift, lift in H. bind H as f E. bind E as L X. assert (f = with_lay (lb_frame w) L) by congruence. subst f.
  assert (w' = lb_with_frame w (with_lay (lb_frame w) L)) by congruence. subst w'. split; [exact (Op _ _ S X)|]. split; assumption.
Qed.

Lemma grow_shape : forall n r (f : frame C), shape (f_lay f) -> shape (f_lay (grow_pile c0 n r f)).
Proof.
  induction n as [|n IH]; intros r f S; [exact S|]. cbn [grow_pile]. unfold construct_card. apply IH. cbn [with_lay f_lay]. apply shape_set_pile. exact S.
Qed.

Lemma step_good : forall a w w', event_act a -> good w -> fo_step (rel_limbo_fo c0) a w = Ok w' -> good w'.
Proof.
  intros a w w' Ea G H.
  destruct a as [p|p|p n| |p|p|p n| |a b| |a b|a b|a b|a n b r|a b]; try destruct Ea;
    cbn [fo_step rel_limbo_fo fo_add fo_remove fo_move fo_swap fo_shuffle fo_resize fo_splice fo_pile_swap fo_clear] in H.
  - bind H as q E. destruct q as [c w1]. assert (w' = w1) by congruence. subst w'. destruct G as (S & E1 & E2).
    unfold rel_l_card_add, advance_op in E. rewrite <- E1, Nat.eqb_refl in E. cbn [lb_frame] in E. unfold rel_card_add, construct_card in E. cbn [f_lay] in E.
    bind E as q X. destruct q as [c1 f1]. bind X as L I. assert (f1 = mkFrame (f_next (lb_frame w) + 1) ((f_next (lb_frame w), c0) :: f_heap (lb_frame w)) L) by (unfold with_lay in X; cbn in X; congruence). subst f1.
    match type of E with Ok (_, ?q) = _ => assert (w1 = q) by congruence; subst w1 end.
    destruct (rel_insert_moved _ _ S I) as [[S' _] _]. split; [exact S'|]. cbn. rewrite app_length. cbn. split; lia.
  - destruct G as (S & E1 & E2). unfold rel_l_card_remove in H. bind H as q E. destruct q as [c L]. bind H as t A.
    unfold advance_op in H. cbn [lb_with_lay lb_with_frame lb_op lb_processed] in H. rewrite <- E1, Nat.eqb_refl in H.
    match type of H with Ok ?q = _ => assert (w' = q) by congruence; subst w' end.
    destruct (rel_erase_moved _ S E) as [[S' _] _]. split; [exact S'|]. cbn. rewrite app_length. cbn. split; lia.
  - destruct G as (S & E1 & E2). unfold rel_l_pile_resize, advance_op in H. rewrite <- E1, Nat.eqb_refl in H. bind H as r R. cbn [obind] in H.
    bind H as w3 X. assert (w' = w3) by congruence. subst w'. cbv zeta in X.
    match type of X with (if ?c then _ else _) = _ => destruct c end.
    + match type of X with Ok ?q = _ => assert (w3 = q) by congruence; subst w3 end. split; [apply grow_shape; exact S|].
      cbn. rewrite upd_length, app_length. cbn. split; lia.
    + match type of X with (if ?c then _ else _) = _ => destruct c end.
      * bind X as s Cp. match type of X with Ok ?q = _ => assert (w3 = q) by congruence; subst w3 end. split; [apply shape_set_pile; exact S|].
        cbn. rewrite upd_length, app_length. cbn. split; lia.
      * match type of X with Ok ?q = _ => assert (w3 = q) by congruence; subst w3 end. split; [exact S|].
        cbn. rewrite upd_length, app_length. cbn. split; lia.
  - destruct G as (S & E1 & E2). unfold rel_l_clear, advance_op in H. rewrite <- E1, Nat.eqb_refl in H. cbn [obind] in H.
    match type of H with Ok ?q = _ => assert (w' = q) by congruence; subst w' end. split; [exact shape0|]. cbn. rewrite upd_length, app_length. cbn. split; lia.
  - bind H as q E. destruct q as [c w1]. assert (w' = w1) by congruence. subst w'. destruct G as (S & E1 & E2).
    unfold rel_l_card_move, rel_f_card_move in E. bind E as q X. destruct q as [c1 f1]. bind X as q M. destruct q as [c2 L]. bind X as v A.
    assert (f1 = with_lay (lb_frame w) L) by congruence. subst f1. assert (w1 = lb_with_frame w (with_lay (lb_frame w) L)) by congruence. subst w1.
    destruct (rel_move_moved _ _ S M) as (out & [S' _] & _). split; [exact S'|]. split; assumption.
  - eapply lift_good; [|exact G|exact H]. intros L L' S X. apply (rel_swap_moved _ _ S X).
  - eapply lift_good; [|exact G|exact H]. intros L L' S X. apply (rel_card_shuffle_moved _ _ S X).
  - eapply lift_good; [|exact G|exact H]. intros L L' S X. apply (rel_splice_moved _ _ _ _ S X).
  - eapply lift_good; [|exact G|exact H]. intros L L' S X. apply (rel_pile_swap_moved _ _ S X).
Qed.

Lemma acts_good : forall acts w w', Forall event_act acts -> good w -> ofold (fo_step (rel_limbo_fo c0)) acts w = Ok w' -> good w'.
Proof.
  induction acts as [|a acts IH]; intros w w' F G H; cbn [ofold] in H.
  - assert (w' = w) by congruence. subst. exact G.
  - inversion F; subst. bind H as w1 E. eapply IH; [eassumption| |exact H]. eapply step_good; eauto.
Qed.
Lemma run_good : forall es b b', good (b_frame b) -> ofold (rel_uparse c0) es b = Ok b' -> good (b_frame b').
Proof.
  induction es as [|e es IH]; intros b b' G H; cbn [ofold] in H.
  - assert (b' = b) by congruence. subst. exact G.
  - bind H as b1 E. eapply IH; [|exact H]. apply parse_split in E. destruct E as [E _]. eapply acts_good; [apply event_acts_ok|exact G|exact E].
Qed.

(** ** Going back *)
Definition like (w v : limbo C) : Prop :=
  lb_lay v = lb_lay w /\ lb_op v = lb_op w /\ (exists more, lb_ops v = lb_ops w ++ more) /\
  (forall id, heap_get id (f_heap (lb_frame w)) <> None -> heap_get id (f_heap (lb_frame v)) <> None).

Lemma like_refl : forall w, like w w.
Proof. intros w. split; [reflexivity|]. split; [reflexivity|]. split; [exists []; symmetry; apply app_nil_r|auto]. Qed.

Lemma like_lift : forall op op' w w1 v, (forall L L', op L = Ok L' -> op' L' = Ok L) -> l_lift op w = Ok w1 -> like w1 v ->
  exists v', l_lift op' v = Ok v' /\ like w v'.
Proof.
  intros op op' w w1 v Op H (K1 & K2 & K3 & K4). unfold l_lift, lift in H. bind H as f E. bind E as L X. assert (f = with_lay (lb_frame w) L) by congruence. subst f.
  assert (w1 = lb_with_frame w (with_lay (lb_frame w) L)) by congruence. subst w1. unfold lb_lay in *. cbn [lb_with_frame lb_frame with_lay f_lay f_heap lb_op lb_ops] in *.
  unfold l_lift, lift. rewrite K1, (Op _ _ X). cbn [obind]. eexists. split; [reflexivity|]. split; [reflexivity|]. split; [exact K2|]. split; [exact K3|exact K4].
Qed.

Lemma under_cases : forall p L, under p L = [] \/ exists id, under p L = [Some id].
Proof.
  intros p L. unfold under. destruct (slot p) as [[[r|r|r] i]|]; auto. cbn [contents]. destruct (get_zone r L) as [[[c|] m]|]; cbn; [right; exists c; reflexivity|auto|auto].
Qed.
Definition slot_dec : forall a b : option (cont * nat), {a = b} + {a <> b}.
Proof. decide equality. destruct a0 as [k i], p as [k' i']. destruct (cont_eq_dec k k'), (Nat.eq_dec i i'); [left|right|right|right]; congruence. Defined.

Lemma step_back : forall o w w1 v, good w -> plainly o -> fwd o w = Ok w1 -> (forall id, ~ buried o (lb_lay w) id) -> like w1 v ->
  exists v', bwd o v = Ok v' /\ like w v'.
Proof.
  intros o w w1 v G Pl H Nb K. destruct o as [p|p|a b|a b|pv cu|p n|a n b r|a b|]; try destruct Pl;
    cbn [fwd bwd rel_limbo_fo rel_limbo_uo fo_add fo_remove fo_move fo_swap fo_splice fo_pile_swap uo_add uo_remove] in *.
  - bind H as q E. destruct q as [c w2]. assert (w2 = w1) by congruence. subst w2. destruct G as (S & E1 & E2). cbn [buried] in Nb.
    unfold rel_l_card_add, advance_op in E. rewrite <- E1, Nat.eqb_refl in E. cbn [lb_frame] in E. unfold rel_card_add, construct_card in E. cbn [f_lay] in E.
    bind E as q X. destruct q as [c1 f1]. bind X as L I. assert (f1 = mkFrame (f_next (lb_frame w) + 1) ((f_next (lb_frame w), c0) :: f_heap (lb_frame w)) L) by (unfold with_lay in X; cbn in X; congruence). subst f1.
    match type of E with Ok (_, ?q) = _ => assert (w1 = q) by congruence; subst w1 end.
    assert (U : under p (lb_lay w) = []). { destruct (under_cases p (lb_lay w)) as [U|[id U]]; [exact U|]. destruct (Nb _ U). }
    pose proof (add_there _ _ S I U) as Er. destruct K as (K1 & K2 & (more & K3) & K4). unfold lb_lay in K1. cbn in K1, K2, K3, K4.
    unfold rel_l_undo_card_add, lb_lay. rewrite K1, Er. cbn [obind]. unfold alive. 
    destruct (heap_get (f_next (lb_frame w)) (f_heap (lb_frame v))) eqn:Hg; [|exfalso; revert Hg; apply K4; rewrite N.eqb_refl; discriminate].
    cbn [obind]. unfold rel_regress_op. cbn [lb_with_lay lb_with_frame lb_op]. rewrite K2. cbn [obind]. eexists. split; [reflexivity|].
    split; [reflexivity|]. split; [reflexivity|]. split; [exists (CardOp (Some c1) :: more); cbn; rewrite K3, <- app_assoc; reflexivity|].
    cbn. intros id Hi. apply K4. destruct (f_next (lb_frame w) =? id); [discriminate|exact Hi].
  - destruct G as (S & E1 & E2). unfold rel_l_card_remove in H. bind H as q E. destruct q as [c L]. bind H as t A.
    unfold advance_op in H. cbn [lb_with_lay lb_with_frame lb_op lb_processed] in H. rewrite <- E1, Nat.eqb_refl in H.
    match type of H with Ok ?q = _ => assert (w1 = q) by congruence; subst w1 end.
    destruct K as (K1 & K2 & (more & K3) & K4). unfold lb_lay in K1. cbn in K1, K2, K3, K4.
    unfold rel_l_undo_card_remove, rel_current_card, rel_current_op. rewrite K2, K3, E1, E2.
    rewrite <- app_assoc, nth_error_app2, Nat.sub_diag by lia. cbn [app nth_error or_ub obind deref]. unfold alive in *.
    destruct (heap_get c (f_heap (lb_frame v))) eqn:Hg; [|exfalso; revert Hg; apply K4; destruct (heap_get c (f_heap (lb_frame w))); [discriminate|discriminate A]].
    cbn [obind]. unfold lb_lay. rewrite K1, (remove_there _ S E). cbn [obind]. unfold rel_regress_op. cbn [lb_with_lay lb_with_frame lb_op]. rewrite K2. cbn [obind].
    eexists. split; [reflexivity|]. split; [reflexivity|]. split; [reflexivity|]. split; [|exact K4]. exists (CardOp (Some c) :: more). cbn. rewrite K3, <- app_assoc. reflexivity.
  - bind H as q E. destruct q as [c w2]. assert (w2 = w1) by congruence. subst w2. destruct G as (S & E1 & E2). cbn [buried] in Nb.
    unfold rel_l_card_move, rel_f_card_move in E. bind E as q X. destruct q as [c1 f1]. bind X as q M. destruct q as [c2 L]. bind X as x A.
    assert (f1 = with_lay (lb_frame w) L) by congruence. subst f1. assert (w1 = lb_with_frame w (with_lay (lb_frame w) L)) by congruence. subst w1.
    assert (Ho : slot a = slot b \/ under b (lb_lay w) = []).
    { destruct (slot_dec (slot a) (slot b)) as [e|Ne]; [left; exact e|right]. destruct (under_cases b (lb_lay w)) as [U|[id U]]; [exact U|]. destruct (Nb id). auto. }
    pose proof (move_there _ _ S M Ho) as Mb. destruct K as (K1 & K2 & K3 & K4). unfold lb_lay in K1. cbn in K1, K2, K3, K4. apply or_ub_Ok in A.
    unfold rel_l_card_move, rel_f_card_move. rewrite K1, Mb. cbn [obind].
    destruct (heap_get c2 (f_heap (lb_frame v))) eqn:Hg; [|exfalso; revert Hg; apply K4; congruence]. cbn [or_ub obind].
    eexists. split; [reflexivity|]. split; [reflexivity|]. split; [exact K2|]. split; [exact K3|exact K4].
  - eapply like_lift; [|exact H|exact K]. apply swap_there.
  - eapply like_lift; [|exact H|exact K]. apply splice_there.
  - eapply like_lift; [|exact H|exact K]. apply pswap_there.
Qed.

Lemma fwd_good : forall o w w1, plainly o -> good w -> fwd o w = Ok w1 -> good w1.
Proof.
  intros o w w1 Pl G H. destruct o as [p|p|a b|a b|pv cu|p n|a n b r|a b|]; try destruct Pl.
  - apply (@step_good (LAdd p) w w1 Logic.I G H).
  - apply (@step_good (LRemove p) w w1 Logic.I G H).
  - apply (@step_good (LMove a b) w w1 Logic.I G H).
  - apply (@step_good (LSwap a b) w w1 Logic.I G H).
  - apply (@step_good (LSplice a n b r) w w1 Logic.I G H).
  - apply (@step_good (LPileSwap a b) w w1 Logic.I G H).
Qed.

(** A limbo frame does what a frame does, except that it keeps removed cards. *)
Definition keeps (o : fop) : Prop := match o with OpRemove _ => False | _ => plainly o end.
Lemma fwd_frame : forall o w w1, keeps o -> good w -> fwd o w = Ok w1 -> rel_fstep c0 o (lb_frame w) = Ok (lb_frame w1).
Proof.
  intros o w w1 Pl (S & E1 & E2) H. destruct o as [p|p|a b|a b|pv cu|p n|a n b r|a b|]; try destruct Pl;
    cbn [fwd rel_fstep rel_limbo_fo fo_add fo_remove fo_move fo_swap fo_splice fo_pile_swap] in *.
  - bind H as q E. destruct q as [c w2]. unfold rel_l_card_add, advance_op in E. rewrite <- E1, Nat.eqb_refl in E. cbn [lb_frame] in E.
    bind E as q X. destruct q as [c1 f1]. rewrite X. cbn [obind]. assert (w2 = w1) by congruence. subst w2.
    match type of E with Ok (_, ?q) = _ => assert (w1 = q) by congruence; subst w1 end. reflexivity.
  - bind H as q E. destruct q as [c w2]. unfold rel_l_card_move in E. bind E as q X. destruct q as [c1 f1]. rewrite X. cbn [obind].
    assert (w1 = lb_with_frame w f1) by congruence. subst w1. reflexivity.
  - unfold l_lift in H. bind H as f E. rewrite E. assert (w1 = lb_with_frame w f) by congruence. subst w1. reflexivity.
  - unfold l_lift in H. bind H as f E. rewrite E. assert (w1 = lb_with_frame w f) by congruence. subst w1. reflexivity.
  - unfold l_lift in H. bind H as f E. rewrite E. assert (w1 = lb_with_frame w f) by congruence. subst w1. reflexivity.
Qed.

Lemma never_buried : forall o L id, match o with OpAdd _ | OpMove _ _ => False | _ => True end -> ~ buried o L id.
Proof. intros o L id X B. destruct o; try destruct X; destruct B. Qed.

Lemma none_bury : forall ops (f : frame C), Forall (fun o => match o with OpAdd _ | OpMove _ _ => False | _ => True end) ops -> covers_none c0 ops f.
Proof.
  induction ops as [|o ops IH]; intros f F; [exact Logic.I|]. inversion F; subst. split; [intros id; apply never_buried; assumption|]. intros f' _. apply IH. assumption.
Qed.
Lemma run_back : forall ops w w', good w -> Forall plainly ops ->
  (Forall keeps ops \/ Forall (fun o => match o with OpAdd _ | OpMove _ _ => False | _ => True end) ops) ->
  covers_none c0 ops (lb_frame w) -> ofold fwd ops w = Ok w' ->
  exists v, ofold bwd (rev ops) w' = Ok v /\ like w v.
Proof.
  induction ops as [|o ops IH]; intros w w' G Pl Kd U H; cbn [ofold] in H.
  - exists w'. split; [reflexivity|]. assert (w' = w) by congruence. subst. apply like_refl.
  - bind H as w1 E. pose proof (Forall_inv Pl) as Po. pose proof (Forall_inv_tail Pl) as Pt. cbn [covers_none] in U. destruct U as [U1 U2].
    assert (X : exists v, ofold bwd (rev ops) w' = Ok v /\ like w1 v).
    { apply (IH w1); [exact (fwd_good _ Po G E)|exact Pt| | |exact H].
      - destruct Kd as [Kd|Kd]; [left|right]; exact (Forall_inv_tail Kd).
      - destruct Kd as [Kd|Kd]; [|exact (none_bury _ (Forall_inv_tail Kd))].
        apply U2. exact (fwd_frame _ (Forall_inv Kd) G E). }
    destruct X as (v & V1 & V2). destruct (@step_back o w w1 v G Po E U1 V2) as (v' & B1 & B2).
    exists v'. split; [|exact B2]. cbn [rev]. rewrite ofold_app, V1. cbn [obind ofold]. rewrite B1. reflexivity.
Qed.

(** ** Counting the cards *)
Definition gain (o : fop) : nat := match o with OpAdd _ => 1%nat | _ => 0%nat end.
Definition puts (o : fop) : Prop := match o with OpAdd _ | OpMove _ _ => True | _ => False end.

Lemma fwd_tot : forall o w w1, puts o -> good w -> fwd o w = Ok w1 ->
  (tot (lb_lay w1) <= tot (lb_lay w) + gain o)%nat /\
  (tot (lb_lay w1) = tot (lb_lay w) + gain o -> forall id, ~ buried o (lb_lay w) id)%nat.
Proof.
  intros o w w1 Pt G H. assert (Kp : keeps o) by (destruct o; try destruct Pt; exact Logic.I).
  pose proof (fwd_frame _ Kp G H) as Fr. destruct G as (S & _ & _). unfold lb_lay in *. set (f := lb_frame w) in *. set (f1 := lb_frame w1) in *.
  destruct o as [p|p|a b|a b|pv cu|p n|a n b r|a b|]; try destruct Pt; cbn [rel_fstep gain buried] in *.
  - bind Fr as q E. destruct q as [c f2]. assert (f2 = f1) by congruence. subst f2. unfold rel_card_add, construct_card in E. cbn [f_lay] in E. bind E as L I.
    assert (f_lay f1 = L) by (match type of E with Ok (_, ?q) = _ => assert (f1 = q) as -> by congruence; reflexivity end).
    rewrite H0. destruct (rel_insert_moved _ _ S I) as [M _]. apply moved_tot in M. cbn [somes flat_map app length] in M.
    split; [lia|]. intros T id U. rewrite U in M. cbn [somes flat_map app length] in M. lia.
  - bind Fr as q E. destruct q as [c f2]. assert (f2 = f1) by congruence. subst f2. unfold rel_f_card_move in E. bind E as q M. destruct q as [c1 L]. bind E as x A.
    assert (f1 = with_lay f L) as -> by congruence. cbn [with_lay f_lay].
    destruct (rel_move_moved _ _ S M) as (out & Mv & _ & _ & Ou). apply moved_tot in Mv. cbn [somes flat_map app length] in Mv. split; [lia|].
    intros T id [Ne U]. rewrite (Ou Ne), U in Mv. cbn [somes flat_map app length] in Mv. lia.
Qed.
Lemma bwd_tot : forall o v v1, puts o -> shape (lb_lay v) -> bwd o v = Ok v1 ->
  shape (lb_lay v1) /\ (tot (lb_lay v1) + gain o <= tot (lb_lay v))%nat.
Proof.
  intros o v v1 Pt S H. destruct o as [p|p|a b|a b|pv cu|p n|a n b r|a b|]; try destruct Pt;
    cbn [bwd rel_limbo_fo rel_limbo_uo fo_move uo_add gain] in *.
  - bind H as q E. destruct q as [c v2]. assert (v2 = v1) by congruence. subst v2. unfold rel_l_undo_card_add in E. bind E as q Er. destruct q as [c1 L]. bind E as t A.
    bind E as v2 Rg. assert (v2 = v1) by congruence. subst v2. unfold rel_regress_op in Rg. cbn [lb_with_lay lb_with_frame lb_op] in Rg.
    destruct (lb_op v) as [|n]; [discriminate Rg|]. match type of Rg with Ok ?q = _ => assert (v1 = q) as -> by congruence end.
    destruct (rel_erase_moved _ S Er) as [M _]. split; [exact (proj1 M)|]. apply moved_tot in M. cbn [somes flat_map app length] in M.
    unfold lb_lay in *. cbn [lb_with_lay lb_with_frame lb_frame with_lay f_lay]. lia.
  - bind H as q E. destruct q as [c v2]. assert (v2 = v1) by congruence. subst v2. unfold rel_l_card_move, rel_f_card_move in E. bind E as q X. destruct q as [c1 f1].
    bind X as q M. destruct q as [c2 L]. bind X as x A. assert (f1 = with_lay (lb_frame v) L) by congruence. subst f1.
    assert (v1 = lb_with_frame v (with_lay (lb_frame v) L)) as -> by congruence.
    destruct (rel_move_moved _ _ S M) as (out & Mv & _). split; [exact (proj1 Mv)|]. apply moved_tot in Mv. cbn [somes flat_map app length] in Mv.
    unfold lb_lay in *. cbn [lb_with_frame lb_frame with_lay f_lay]. lia.
Qed.

Fixpoint gains (ops : list fop) : nat := match ops with [] => 0%nat | o :: ops' => (gain o + gains ops')%nat end.
Lemma gains_app : forall l1 l2, gains (l1 ++ l2) = (gains l1 + gains l2)%nat.
Proof. induction l1 as [|o l1 IH]; intros l2; [reflexivity|]. cbn [app gains]. rewrite IH. lia. Qed.
Lemma gains_rev : forall l, gains (rev l) = gains l.
Proof. induction l as [|o l IH]; [reflexivity|]. cbn [rev]. rewrite gains_app, IH. cbn [gains]. lia. Qed.

Lemma bwd_run : forall ops v v1, Forall puts ops -> shape (lb_lay v) -> ofold bwd ops v = Ok v1 ->
  (tot (lb_lay v1) + gains ops <= tot (lb_lay v))%nat.
Proof.
  induction ops as [|o ops IH]; intros v v1 F S H; cbn [ofold] in H.
  - assert (v1 = v) by congruence. subst. cbn. lia.
  - bind H as v2 E. destruct (@bwd_tot o v v2 (Forall_inv F) S E) as [S2 T2]. apply IH in H; [|exact (Forall_inv_tail F)|exact S2].
    cbn [gains]. lia.
Qed.
Lemma fwd_run : forall ops w w', Forall puts ops -> good w -> ofold fwd ops w = Ok w' ->
  (tot (lb_lay w') <= tot (lb_lay w) + gains ops)%nat /\
  (tot (lb_lay w') = tot (lb_lay w) + gains ops -> covers_none c0 ops (lb_frame w))%nat.
Proof.
  induction ops as [|o ops IH]; intros w w' F G H; cbn [ofold] in H.
  - assert (w' = w) by congruence. subst. cbn. split; [lia|auto].
  - bind H as w1 E. pose proof (Forall_inv F) as Po.
    assert (Kp : keeps o) by (destruct o; try destruct Po; exact Logic.I). assert (Pl : plainly o) by (destruct o; try destruct Po; exact Logic.I).
    destruct (fwd_tot _ Po G E) as [T1 T2]. pose proof (fwd_good _ Pl G E) as G1. apply IH in H; [|exact (Forall_inv_tail F)|exact G1]. destruct H as [H1 H2].
    cbn [gains]. split; [lia|]. intros T. cbn [covers_none]. split; [apply T2; lia|].
    intros f' X. rewrite (fwd_frame _ Kp G E) in X. assert (f' = lb_frame w1) by congruence. subst f'. apply H2. lia.
Qed.

(** ** Boards *)
Lemma moves_kinds : forall e ops, moves_of e = Some ops ->
  Forall puts ops \/ Forall (fun o => match o with OpAdd _ | OpMove _ _ => False | _ => True end) ops.
Proof.
  intros e ops H. destruct e as [|[|x|s]|re [|l|l|l|l|pv cu]|[|c|pp]|con|wr mr ft|con t|me|ph'|re [|l|l|l]|rs|zs]; try discriminate H;
    cbn [moves_of] in H; injection H as <-; (left + right); apply Forall_forall; intros o I; apply in_map_iff in I; destruct I as (y & <- & _); exact Logic.I.
Qed.
Lemma puts_keeps : forall ops, Forall puts ops -> Forall keeps ops.
Proof. intros ops. apply Forall_impl. intros o H. destruct o; try destruct H; exact Logic.I. Qed.

Theorem undo_exact : forall es e ops (b b' : uboard C), ofold (rel_uparse c0) es (uboard0 C) = Ok b -> moves_of e = Some ops -> rel_uparse c0 e b = Ok b' ->
  ((exists b'', rel_uundo c0 e b' = Ok b'' /\ scene_of b'' = scene_of b) <-> covers_none c0 ops (lb_frame (b_frame b))).
Proof.
  intros es e ops b b' Es M H. pose proof (@run_good es (uboard0 C) b good0 Es) as G. rewrite (moves_do _ _ M) in H. bind H as w' F. assert (b' = set_frame w' b) by congruence. subst b'.
  rewrite (moves_undo _ _ M). cbn [set_frame b_frame]. pose proof (moves_plain _ M) as Pl. split.
  - intros (b'' & U & Sc). destruct (moves_kinds _ M) as [P|P]; [|exact (none_bury _ P)].
    bind U as v V. assert (b'' = set_frame v (set_frame w' b)) by congruence. subst b''.
    assert (El : lb_lay v = lb_lay (b_frame b)) by (unfold scene_of in Sc; cbn [set_frame b_frame] in Sc; congruence).
    destruct (fwd_run P G F) as [T1 T2]. apply T2.
    assert (S' : shape (lb_lay w')).
    { clear - F Pl G. revert F. generalize (b_frame b) G. clear b G. induction ops as [|o ops IH]; intros w G F; cbn [ofold] in F.
      - assert (w' = w) by congruence. subst. apply G.
      - bind F as w1 E. apply (IH (Forall_inv_tail Pl) w1); [exact (fwd_good _ (Forall_inv Pl) G E)|exact F]. }
    pose proof (@bwd_run (rev ops) w' v) as B. rewrite gains_rev, El in B. 
    assert (tot (lb_lay (b_frame b)) + gains ops <= tot (lb_lay w'))%nat by (apply B; [apply Forall_rev; exact P|exact S'|exact V]). lia.
  - intros U. destruct (@run_back ops (b_frame b) w' G Pl) as (v & V & (K1 & _)); [|exact U|exact F|].
    + destruct (moves_kinds _ M) as [P|P]; [left; apply puts_keeps; exact P|right; exact P].
    + rewrite V. cbn [obind]. eexists. split; [reflexivity|]. unfold scene_of. cbn [set_frame b_frame b_chain b_turn b_turn_controller b_lp b_phase b_blocked]. rewrite K1. reflexivity.
Qed.
End Cards.

Lemma values_back : forall C (c0 : C) e b b', no_cards e -> rel_uparse c0 e b = Ok b' ->
  exists b'', rel_uundo c0 e b' = Ok b'' /\ scene_of b'' = scene_of b.
Proof.
  intros C c0 e b b' V H. destruct b as [f ch [tp tu [|tv tn]] [cp tc [|cv cn]] [[lp1 l1 [|lv1 ln1]] [lp2 l2 [|lv2 ln2]]] [pp ph [|pv pn]] [bp bl [|bv bn]]];
  destruct e as [|[|x|s]|re [|l|l|l|l|pv' cu]|[|c|pp']|con|wr mr ft|con t|me|ph'|re [|l|l|l]|rs|zs]; try destruct V;
    unfold rel_uparse, rel_uundo in *; cbn [rel_parse_event rel_undo_parse_event parse_event undo_parse_event] in *;
    try (injection H as <-; eexists; split; [reflexivity|reflexivity]);
    (destruct (lp_index_const con) as [i| | |] eqn:E; try discriminate H); cbn [obind] in *; injection H as <-; destruct i; eexists; (split; [reflexivity|reflexivity]).
Qed.
