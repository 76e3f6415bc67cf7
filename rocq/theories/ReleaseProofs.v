(** The code without assertions returns whatever the code with them returns. *)
From Verif Require Import Base Place Msg Frame Limbo Event Query Decode DecodeSpec DecodeProofs Release ReleaseSpec.

Set Implicit Arguments.
Local Open Scope N_scope.

Lemma keeps_refl : forall A (m : outcome A), keeps m m.
Proof. intros A m a H. exact H. Qed.

Lemma keeps_bind : forall A B (m m' : outcome A) (k k' : A -> outcome B),
  keeps m m' -> (forall a, m = Ok a -> keeps (k a) (k' a)) -> keeps (obind m k) (obind m' k').
Proof.
  intros A B m m' k k' M K b H. destruct m as [a| | |] eqn:E; try discriminate. cbn [obind] in H.
  rewrite (M a eq_refl). cbn [obind]. exact (K a eq_refl b H).
Qed.

Lemma keeps_drop : forall A B (m : outcome A) (k : A -> outcome B) m',
  (forall a, m = Ok a -> keeps (k a) m') -> keeps (obind m k) m'.
Proof.
  intros A B m k m' K b H. destruct m as [a| | |] eqn:E; try discriminate. exact (K a eq_refl b H).
Qed.

Lemma keeps_assert : forall A b (k k' : outcome A),
  (b = true -> keeps k k') -> keeps (assert_ b ;;! k) k'.
Proof. intros A b k k' K. destruct b; [exact (K eq_refl)|intros a H; discriminate]. Qed.

Lemma keeps_if : forall A (b : bool) (x y x' y' : outcome A),
  (b = true -> keeps x x') -> (b = false -> keeps y y') -> keeps (if b then x else y) (if b then x' else y').
Proof. intros A b x y x' y' X Y. destruct b; auto. Qed.

Lemma keeps_ofold : forall A B (f g : A -> B -> outcome B) l b,
  (forall x b, keeps (f x b) (g x b)) -> keeps (ofold f l b) (ofold g l b).
Proof.
  intros A B f g l b H. revert b. induction l as [|x l IH]; intros b; cbn [ofold]; [apply keeps_refl|].
  apply keeps_bind; auto.
Qed.

Create HintDb keeps.
#[local] Hint Resolve keeps_refl : keeps.

(** One step towards [keeps m m']. *)
Ltac kstep :=
  match goal with
  | |- keeps (assert_ _ ;;! _) _ => apply keeps_assert; intro
  | |- keeps (if ?b then _ else _) (if ?b then _ else _) => apply keeps_if; intro
  | |- keeps (obind _ _) (obind _ _) =>
      first [apply keeps_bind; [solve [auto with keeps]|intro; intro] |apply keeps_bind; [|intro; intro]]
  | |- keeps (match ?x with _ => _ end) _ => destruct x
  end.

Lemma keeps_pile_ref : forall con loc, keeps (pile_ref con loc) (rel_pile_ref con loc).
Proof. intros con loc. unfold pile_ref, rel_pile_ref. repeat (apply keeps_assert; intros _). apply keeps_refl. Qed.

Lemma keeps_side_at : forall loc, keeps (side_at loc) (rel_side_at loc).
Proof. intros loc. unfold side_at, rel_side_at. apply keeps_assert; intros. apply keeps_refl. Qed.

Lemma keeps_zone_ref : forall con loc seq, keeps (zone_ref con loc seq) (rel_zone_ref con loc seq).
Proof.
  intros con loc seq. unfold zone_ref, rel_zone_ref. apply keeps_assert; intros _.
  apply keeps_drop; intros lim _. apply keeps_assert; intros _.
  apply keeps_bind; [apply keeps_refl|intros c _]. apply keeps_bind; [apply keeps_side_at|intros z _]. apply keeps_refl.
Qed.

Lemma keeps_pile_of : forall p, keeps (pile_of p) (rel_pile_of p).
Proof. intros p. apply keeps_pile_ref. Qed.
Lemma keeps_zone_of : forall p, keeps (zone_of p) (rel_zone_of p).
Proof. intros p. apply keeps_zone_ref. Qed.
#[local] Hint Resolve keeps_pile_ref keeps_zone_ref keeps_pile_of keeps_zone_of : keeps.

Lemma keeps_has_card : forall p L, keeps (has_card p L) (rel_has_card p L).
Proof.
  intros p L. unfold has_card, rel_has_card. apply keeps_assert; intros _. apply keeps_if; intros _.
  - apply keeps_bind; auto with keeps.
  - apply keeps_assert; intros _. apply keeps_drop; intros lim _. apply keeps_assert; intros _.
    apply keeps_bind; auto with keeps.
Qed.

Lemma keeps_take_at : forall p i, keeps (take_at p i) (rel_take_at p i).
Proof.
  intros p i. unfold take_at, rel_take_at. apply keeps_assert; intros _.
  apply keeps_bind; [apply keeps_refl|intros c _]. apply keeps_assert; intros _. apply keeps_refl.
Qed.

Lemma keeps_insert_at : forall p i c, keeps (insert_at p i c) (rel_insert_at p i c).
Proof.
  intros p i c. unfold insert_at, rel_insert_at. apply keeps_assert; intros ->. apply keeps_assert; intros _. apply keeps_refl.
Qed.
#[local] Hint Resolve keeps_has_card keeps_take_at keeps_insert_at : keeps.

Ltac kgo := repeat (kstep; auto with keeps); auto with keeps.

Lemma keeps_card_insert : forall p c L, keeps (card_insert p c L) (rel_card_insert p c L).
Proof. intros p c L. unfold card_insert, rel_card_insert. kgo. Qed.

Lemma keeps_card_erase : forall p L, keeps (card_erase p L) (rel_card_erase p L).
Proof. intros p L. unfold card_erase, rel_card_erase. kgo. Qed.

Lemma keeps_card_move : forall a b L, keeps (card_move a b L) (rel_card_move a b L).
Proof.
  intros a b L. unfold card_move, rel_card_move. apply keeps_drop; intros h _.
  repeat first [match goal with |- keeps (obind (read_zone _ _) (fun z => assert_ _ ;;! _)) _ =>
                  apply keeps_drop; intros ? _; apply keeps_assert; intros _ end
               |kstep; auto with keeps]; auto with keeps.
Qed.

Lemma keeps_shuffle_loop : forall todo i cur seqs L,
  keeps (shuffle_loop todo i cur seqs L) (rel_shuffle_loop todo i cur seqs L).
Proof.
  induction todo as [|todo IH]; intros i cur seqs L; cbn [shuffle_loop rel_shuffle_loop]; [apply keeps_refl|].
  destruct cur as [|p cur]; [apply keeps_refl|]. kgo.
Qed.

Lemma shuffle_seqs_map : forall prev L l, shuffle_seqs prev L = Ok l -> l = map p_seq prev.
Proof.
  induction prev as [|p prev IH]; intros L l H; cbn [shuffle_seqs map] in *; [congruence|].
  destruct (has_card p L) as [[|]| | |]; try discriminate. cbn [obind assert_] in H.
  destruct (shuffle_seqs prev L) as [l0| | |] eqn:E; try discriminate. cbn [obind] in H.
  rewrite <- (IH _ _ E). congruence.
Qed.

Lemma keeps_card_shuffle : forall p c L, keeps (card_shuffle p c L) (rel_card_shuffle p c L).
Proof.
  intros p c L. unfold card_shuffle, rel_card_shuffle. destruct p as [|p0 p]; [intros a H; discriminate|].
  apply keeps_assert; intros _. apply keeps_assert; intros ->. apply keeps_drop; intros l E.
  rewrite (shuffle_seqs_map _ _ E). apply keeps_shuffle_loop.
Qed.

Lemma keeps_card_swap : forall a b L, keeps (card_swap a b L) (rel_card_swap a b L).
Proof.
  intros a b L. unfold card_swap, rel_card_swap. do 2 (apply keeps_drop; intros ? _; apply keeps_assert; intros _).
  do 2 (apply keeps_assert; intros _). do 2 (apply keeps_drop; intros ? _). kgo.
Qed.

Lemma keeps_pile_splice : forall a n b r L, keeps (pile_splice a n b r L) (rel_pile_splice a n b r L).
Proof.
  intros a n b r L. unfold pile_splice, rel_pile_splice. do 2 (apply keeps_assert; intros _).
  apply keeps_bind; auto with keeps. intros r1 _. apply keeps_assert; intros ->. cbn [negb].
  apply keeps_drop; intros ? _. apply keeps_bind; auto with keeps. intros r2 _.
  apply keeps_if; intros _; [|apply keeps_refl]. apply keeps_drop; intros ? _. apply keeps_refl.
Qed.

Lemma keeps_pile_swap : forall a b L, keeps (pile_swap a b L) (rel_pile_swap a b L).
Proof. intros a b L. unfold pile_swap, rel_pile_swap. kgo. Qed.
#[local] Hint Resolve keeps_card_insert keeps_card_erase keeps_card_move keeps_card_shuffle keeps_card_swap
  keeps_pile_splice keeps_pile_swap : keeps.

Section Cards.
Variable C : Type.
Variable c0 : C.

Lemma keeps_destruct_card : forall c (f : frame C), keeps (destruct_card c f) (rel_destruct_card c f).
Proof. intros c f. unfold destruct_card, rel_destruct_card. destruct (heap_remove c (f_heap f)); [apply keeps_refl|intros a H; discriminate]. Qed.
#[local] Hint Resolve keeps_destruct_card : keeps.

Lemma keeps_card_at_place : forall p (f : frame C), keeps (card_at_place p f) (rel_card_at_place p f).
Proof.
  intros p f. unfold card_at_place, rel_card_at_place. apply keeps_assert; intros _.
  apply keeps_drop; intros h _. apply keeps_assert; intros _. apply keeps_bind; [|auto with keeps]. kgo.
Qed.

Lemma keeps_card_add : forall p (f : frame C), keeps (card_add c0 p f) (rel_card_add c0 p f).
Proof. intros p f. unfold card_add, rel_card_add. cbn [construct_card]. kgo. Qed.

Lemma keeps_card_remove : forall p (f : frame C), keeps (card_remove p f) (rel_card_remove p f).
Proof.
  intros p f. unfold card_remove, rel_card_remove. apply keeps_drop; intros h _. kgo.
Qed.

Lemma keeps_shrink_pile : forall n r (f : frame C), keeps (shrink_pile n r f) (rel_shrink_pile n r f).
Proof. induction n as [|n IH]; intros r f; cbn [shrink_pile rel_shrink_pile]; kgo. Qed.
#[local] Hint Resolve keeps_shrink_pile : keeps.

Lemma obind_ret : forall A (m : outcome A), obind m (fun a => Ok a) = m.
Proof. intros A m. now destruct m. Qed.

Lemma keeps_pile_resize : forall p n (f : frame C), keeps (pile_resize c0 p n f) (rel_pile_resize c0 p n f).
Proof.
  intros p n f. unfold pile_resize, rel_pile_resize. apply keeps_assert; intros _.
  apply keeps_bind; auto with keeps. intros r _. apply keeps_bind; [kgo|]. intros f1 _.
  apply keeps_drop; intros ? _. apply keeps_refl.
Qed.

Lemma keeps_destruct_all : forall l (f : frame C), keeps (destruct_all l f) (rel_destruct_all l f).
Proof. induction l as [|c l IH]; intros f; cbn [destruct_all rel_destruct_all]; kgo. Qed.
#[local] Hint Resolve keeps_destruct_all : keeps.

Lemma keeps_clear : forall f : frame C, keeps (clear f) (rel_clear f).
Proof.
  intros f. unfold clear, rel_clear. apply keeps_bind; [|intros f1 _]; apply keeps_ofold; intros r g.
  - unfold clear_pile, rel_clear_pile. kgo.
  - unfold clear_zone, rel_clear_zone. apply keeps_bind; auto with keeps. intros z _.
    apply keeps_bind; [destruct (z_card z); auto with keeps|intros f2 _; kgo].
Qed.

Lemma keeps_f_card_move : forall a b (f : frame C), keeps (f_card_move a b f) (rel_f_card_move a b f).
Proof. intros a b f. unfold f_card_move, rel_f_card_move. kgo. Qed.
#[local] Hint Resolve keeps_card_add keeps_card_remove keeps_pile_resize keeps_clear keeps_f_card_move : keeps.

Lemma keeps_lift : forall (op op' : layout -> outcome layout) (f : frame C),
  (forall L, keeps (op L) (op' L)) -> keeps (lift op f) (lift op' f).
Proof. intros op op' f H. unfold lift. apply keeps_bind; auto with keeps. Qed.

Lemma keeps_l_lift : forall (op op' : layout -> outcome layout) (w : limbo C),
  (forall L, keeps (op L) (op' L)) -> keeps (l_lift op w) (l_lift op' w).
Proof. intros op op' w H. unfold l_lift. apply keeps_bind; [apply keeps_lift; exact H|auto with keeps]. Qed.

(** ** Frames with a history *)

Lemma keeps_regress_op : forall w : limbo C, keeps (regress_op w) (rel_regress_op w).
Proof. intros w. unfold regress_op, rel_regress_op. destruct (lb_op w); [intros a H; discriminate|apply keeps_refl]. Qed.

Lemma keeps_current_op : forall w : limbo C, keeps (current_op w) (rel_current_op w).
Proof. intros w. unfold current_op, rel_current_op. apply keeps_assert; intros _. apply keeps_refl. Qed.
#[local] Hint Resolve keeps_regress_op keeps_current_op : keeps.

Lemma keeps_current_card : forall w : limbo C, keeps (current_card w) (rel_current_card w).
Proof. intros w. unfold current_card, rel_current_card. kgo. Qed.
Lemma keeps_current_resize : forall w : limbo C, keeps (current_resize w) (rel_current_resize w).
Proof. intros w. unfold current_resize, rel_current_resize. kgo. Qed.
Lemma keeps_current_clear : forall w : limbo C, keeps (current_clear w) (rel_current_clear w).
Proof. intros w. unfold current_clear, rel_current_clear. kgo. Qed.
#[local] Hint Resolve keeps_current_card keeps_current_resize keeps_current_clear : keeps.

Lemma keeps_l_card_add : forall p (w : limbo C), keeps (l_card_add c0 p w) (rel_l_card_add c0 p w).
Proof.
  intros p w. unfold l_card_add, rel_l_card_add. destruct (advance_op w) as [pr w1]. apply keeps_if; intros _; [kgo|].
  do 4 (apply keeps_bind; auto with keeps; intros ? _). apply keeps_drop; intros h _. kgo.
Qed.

Lemma keeps_l_card_remove : forall p (w : limbo C), keeps (l_card_remove p w) (rel_l_card_remove p w).
Proof.
  intros p w. unfold l_card_remove, rel_l_card_remove. apply keeps_drop; intros h _. apply keeps_assert; intros _.
  apply keeps_bind; auto with keeps. intros [c L] _. apply keeps_bind; auto with keeps. intros ? _.
  destruct (advance_op (lb_with_lay w L)) as [pr w1]. apply keeps_if; intros _; [apply keeps_refl|].
  apply keeps_drop; intros q _. apply keeps_assert; intros _. apply keeps_refl.
Qed.

Lemma keeps_l_pile_resize : forall p n (w : limbo C), keeps (l_pile_resize c0 p n w) (rel_l_pile_resize c0 p n w).
Proof.
  intros p n w. unfold l_pile_resize, rel_l_pile_resize. apply keeps_assert; intros _.
  destruct (advance_op w) as [pr w1]. apply keeps_bind; auto with keeps. intros r _.
  apply keeps_bind; [kgo|]. intros [w2 s] _. apply keeps_bind; auto with keeps. intros w3 _.
  apply keeps_assert; intros _. apply keeps_drop; intros ? _. apply keeps_refl.
Qed.

Lemma keeps_l_clear : forall w : limbo C, keeps (l_clear w) (rel_l_clear w).
Proof.
  intros w. unfold l_clear, rel_l_clear. destruct (advance_op w) as [pr w1]. apply keeps_bind; [kgo|]. auto with keeps.
Qed.

Lemma keeps_l_card_move : forall a b (w : limbo C), keeps (l_card_move a b w) (rel_l_card_move a b w).
Proof. intros a b w. unfold l_card_move, rel_l_card_move. kgo. Qed.

Lemma keeps_l_undo_card_add : forall p (w : limbo C), keeps (l_undo_card_add p w) (rel_l_undo_card_add p w).
Proof.
  intros p w. unfold l_undo_card_add, rel_l_undo_card_add. apply keeps_drop; intros h _. apply keeps_assert; intros _.
  apply keeps_bind; auto with keeps. intros [c L] _. apply keeps_bind; auto with keeps. intros ? _.
  apply keeps_drop; intros q _. kgo.
Qed.

Lemma keeps_l_undo_card_remove : forall p (w : limbo C), keeps (l_undo_card_remove p w) (rel_l_undo_card_remove p w).
Proof.
  intros p w. unfold l_undo_card_remove, rel_l_undo_card_remove.
  do 5 (apply keeps_bind; auto with keeps; intros ? _). apply keeps_drop; intros h _. kgo.
Qed.

Lemma keeps_l_undo_pile_resize : forall p n (w : limbo C),
  keeps (l_undo_pile_resize p n w) (rel_l_undo_pile_resize p n w).
Proof.
  intros p n w. unfold l_undo_pile_resize, rel_l_undo_pile_resize. apply keeps_assert; intros _.
  apply keeps_bind; auto with keeps. intros r _. apply keeps_bind; auto with keeps. intros [prev s] _.
  apply keeps_bind; auto with keeps. intros w1 _. apply keeps_bind; auto with keeps. intros w2 _.
  apply keeps_assert; intros _. apply keeps_drop; intros ? _. apply keeps_refl.
Qed.

Lemma keeps_l_undo_clear : forall w : limbo C, keeps (l_undo_clear w) (rel_l_undo_clear w).
Proof. intros w. unfold l_undo_clear, rel_l_undo_clear. kgo. Qed.
#[local] Hint Resolve keeps_l_card_add keeps_l_card_remove keeps_l_pile_resize keeps_l_clear keeps_l_card_move
  keeps_l_undo_card_add keeps_l_undo_card_remove keeps_l_undo_pile_resize keeps_l_undo_clear keeps_lift keeps_l_lift : keeps.

Lemma keeps_u_undo : forall T (u : undoable T), keeps (u_undo u) (rel_u_undo u).
Proof. intros T u. unfold u_undo, rel_u_undo. destruct (u_past u); [intros a H; discriminate|apply keeps_refl]. Qed.

Lemma keeps_unsupported : forall T (u : undoable T), keeps (u_unsupported u) (rel_u_unsupported u).
Proof. intros T u a H. discriminate. Qed.

(** ** Boards *)

Lemma keeps_lp_index : forall con, keeps (lp_index con) (lp_index_const con).
Proof. intros con. unfold lp_index, lp_index_const. apply keeps_assert; intros _. apply keeps_refl. Qed.
#[local] Hint Resolve keeps_u_undo keeps_unsupported keeps_lp_index : keeps.

End Cards.

Section Boards.
Variable F : Type.
Variable V : Type -> Type.
Variables fo fo' : frame_ops F.
Variables vo vo' : value_ops V.
Hypothesis Hadd : forall p f, keeps (fo_add fo p f) (fo_add fo' p f).
Hypothesis Hremove : forall p f, keeps (fo_remove fo p f) (fo_remove fo' p f).
Hypothesis Hmove : forall a b f, keeps (fo_move fo a b f) (fo_move fo' a b f).
Hypothesis Hswap : forall a b f, keeps (fo_swap fo a b f) (fo_swap fo' a b f).
Hypothesis Hshuffle : forall p c f, keeps (fo_shuffle fo p c f) (fo_shuffle fo' p c f).
Hypothesis Hresize : forall p n f, keeps (fo_resize fo p n f) (fo_resize fo' p n f).
Hypothesis Hsplice : forall a n b r f, keeps (fo_splice fo a n b r f) (fo_splice fo' a n b r f).
Hypothesis Hpswap : forall a b f, keeps (fo_pile_swap fo a b f) (fo_pile_swap fo' a b f).
Hypothesis Hclear : forall f, keeps (fo_clear fo f) (fo_clear fo' f).
Hypothesis Hget : forall T, @vo_get V vo T = @vo_get V vo' T.
Hypothesis Hset : forall T, @vo_set V vo T = @vo_set V vo' T.
Hypothesis Hpush : forall T x (u : V (list T)), keeps (vo_push vo x u) (vo_push vo' x u).
Hypothesis Hpop : forall T (u : V (list T)), keeps (vo_pop vo u) (vo_pop vo' u).

Lemma keeps_on_frame : forall (op op' : F -> outcome F) (b : board F V),
  (forall f, keeps (op f) (op' f)) -> keeps (on_frame op b) (on_frame op' b).
Proof. intros op op' b H. unfold on_frame. apply keeps_bind; auto with keeps. Qed.
#[local] Hint Resolve keeps_on_frame keeps_ofold keeps_lp_index : keeps.

Lemma keeps_parse_event : forall e (b : board F V), keeps (parse_event fo vo e b) (rel_parse_event fo' vo' e b).
Proof.
  intros e b. destruct e as [|k|r k|k|con|w1 w2 w3|con t|m|ph|r k|m|l]; cbn [parse_event rel_parse_event];
    try destruct k; cbn [parse_event]; unfold parse_exchange, parse_state, assign_lp, do_adds, do_removes, do_resizes, do_swaps,
      do_moves, do_splices, do_pile_swaps; rewrite ?Hget, ?Hset; auto with keeps.
  - apply keeps_on_frame; intros f. kgo.
  - do 4 (apply keeps_bind; [apply keeps_refl|intros ? _]). apply keeps_on_frame; intros f. kgo.
  - kgo.
  - kgo.
  - kgo.
Qed.

Variables uo uo' : undo_ops F V.
Hypothesis Uadd : forall p f, keeps (uo_add uo p f) (uo_add uo' p f).
Hypothesis Uremove : forall p f, keeps (uo_remove uo p f) (uo_remove uo' p f).
Hypothesis Uresize : forall p n f, keeps (uo_resize uo p n f) (uo_resize uo' p n f).
Hypothesis Uclear : forall f, keeps (uo_clear uo f) (uo_clear uo' f).
Hypothesis Ushuffle : forall p c f, keeps (uo_shuffle uo p c f) (uo_shuffle uo' p c f).
Hypothesis Uundo : forall T (u : V T), keeps (uo_undo uo u) (uo_undo uo' u).
Hypothesis Upush : forall T x (u : V (list T)), keeps (uo_push uo x u) (uo_push uo' x u).
Hypothesis Upop : forall T (u : V (list T)), keeps (uo_pop uo u) (uo_pop uo' u).

Lemma keeps_undo_parse_event : forall e (b : board F V),
  keeps (undo_parse_event fo uo e b) (rel_undo_parse_event fo' uo' e b).
Proof.
  intros e b. destruct e as [|k|r k|k|con|w1 w2 w3|con t|m|ph|r k|m|l]; cbn [undo_parse_event rel_undo_parse_event];
    try destruct k; cbn [undo_parse_event]; unfold undo_state, undo_lp, undo_adds, undo_removes, undo_resizes, undo_splices,
      do_swaps, do_pile_swaps; auto with keeps.
  - apply keeps_on_frame; intros f. kgo.
  - apply keeps_bind; [apply keeps_on_frame; intros f; kgo|intros ? _]. kgo.
  - kgo.
  - kgo.
  - kgo.
  - kgo.
  - kgo.
  - kgo.
Qed.
End Boards.

Section Instances.
Variable C : Type.
Variable c0 : C.

Lemma keeps_pparse : forall e (b : pboard C), keeps (pparse c0 e b) (rel_pparse c0 e b).
Proof.
  intros e b. unfold pparse, rel_pparse. apply keeps_parse_event; intros; cbn [fo_add fo_remove fo_move fo_swap fo_shuffle fo_resize
    fo_splice fo_pile_swap fo_clear plain_fo rel_plain_fo]; auto using keeps_lift, keeps_card_remove, keeps_pile_resize, keeps_clear,
    keeps_card_swap, keeps_card_shuffle, keeps_pile_splice, keeps_pile_swap with keeps.
  - apply keeps_bind; [apply keeps_card_add|auto with keeps].
  - apply keeps_bind; [apply keeps_f_card_move|auto with keeps].
Qed.

Lemma keeps_uparse : forall e (b : uboard C), keeps (uparse c0 e b) (rel_uparse c0 e b).
Proof.
  intros e b. unfold uparse, rel_uparse. apply keeps_parse_event; intros; cbn [fo_add fo_remove fo_move fo_swap fo_shuffle fo_resize
    fo_splice fo_pile_swap fo_clear limbo_fo rel_limbo_fo]; auto using keeps_l_lift, keeps_l_card_remove, keeps_l_pile_resize,
    keeps_l_clear, keeps_card_swap, keeps_card_shuffle, keeps_pile_splice, keeps_pile_swap, keeps_unsupported with keeps.
  - apply keeps_bind; [apply keeps_l_card_add|auto with keeps].
  - apply keeps_bind; [apply keeps_l_card_move|auto with keeps].
  - apply keeps_unsupported.
  - apply keeps_unsupported.
Qed.

Lemma keeps_uundo : forall e (b : uboard C), keeps (uundo c0 e b) (rel_uundo c0 e b).
Proof.
  intros e b. unfold uundo, rel_uundo. apply keeps_undo_parse_event; intros; cbn [fo_add fo_remove fo_move fo_swap fo_shuffle fo_resize
    fo_splice fo_pile_swap fo_clear limbo_fo rel_limbo_fo uo_add uo_remove uo_resize uo_clear uo_shuffle uo_undo uo_push uo_pop
    limbo_uo rel_limbo_uo]; auto using keeps_l_lift, keeps_l_undo_pile_resize, keeps_l_undo_clear, keeps_u_undo,
    keeps_card_swap, keeps_card_shuffle, keeps_pile_splice, keeps_pile_swap with keeps.
  all: try apply keeps_unsupported; try (intros x H; discriminate).
  all: apply keeps_bind; auto using keeps_l_card_move, keeps_l_undo_card_add, keeps_l_undo_card_remove with keeps.
Qed.
End Instances.

Lemma keeps_parse_query : forall u q f, keeps (parse_query u q f) (rel_parse_query u q f).
Proof.
  intros u q f. unfold parse_query, rel_parse_query. apply keeps_drop; intros h _. apply keeps_assert; intros _.
  apply keeps_bind; [apply keeps_card_at_place|auto with keeps].
Qed.

Lemma keeps_decode : forall rq a out, keeps (decode_one_answer rq a out) (rel_decode_one_answer rq a out).
Proof.
  intros rq a out. destruct a; cbn [decode_one_answer rel_decode_one_answer]; auto with keeps.
  - destruct a; cbn [decode_card rel_decode_card]; auto with keeps. apply keeps_assert; intros _.
    destruct rq as [| |s| | | | | | | | | | | |]; try (intros x H; discriminate). cbn [obind]. destruct s; auto with keeps.
  - destruct rq; cbn [decode_idle rel_decode_idle]; try (intros x H; discriminate). unfold rel_decode_idle.
    destruct a; auto with keeps. do 2 (apply keeps_assert; intros _). auto with keeps.
Qed.

Lemma rel_cards_run : forall rq l out, (forall f c mn mx s d, rq <> RqCard (ScRecursive f c mn mx s d)) ->
  rel_decode_one_answer rq (AnCard (AcIndexes l)) out =
    Ok (wrote 4 1 ++ wrote 4 (Z.of_nat (length l)) ++ flat_map (fun i => wrote 2 (Z.of_N i)) l).
Proof.
  intros rq l out R. cbn [rel_decode_one_answer rel_decode_card].
  assert (U : match rq with RqCard (ScRecursive _ _ _ _ _ _) => true | _ => false end = false).
  { destruct rq as [| |[]| | | | | | | | | | | |]; try reflexivity. exfalso. eapply R. reflexivity. }
  rewrite U.
  destruct (write_next 4 1 [] (resize (8 + 2 * length l) out) 0 eq_refl) as [r1 [E1 L1]];
    [rewrite resize_length; lia|]. rewrite resize_length in L1. cbn [app] in E1. rewrite E1. cbn [obind].
  destruct (write_next 4 (Z.of_nat (length l)) (wrote 4 1) r1 _ eq_refl) as [r2 [E2 L2]]; [lia|].
  rewrite E2. cbn [obind]. rewrite (writes_run N 2 Z.of_N) by lia. cbn [obind]. now rewrite <- app_assoc.
Qed.

Lemma rel_no_card_run : forall f c mn mx s d out,
  rel_decode_one_answer (RqCard (ScRecursive f c mn mx s d)) (AnCard (AcIndexes [])) out = UB.
Proof.
  intros f c mn mx s d out. cbn [rel_decode_one_answer rel_decode_card].
  destruct (write_next 4 1 [] (resize 8 out) 0 eq_refl) as [r1 [E1 L1]];
    [rewrite resize_length; lia|]. cbn [app] in E1. rewrite E1. reflexivity.
Qed.

Lemma rel_idle_run : forall rq i out, exists bs, rel_decode_one_answer rq (AnIdle i) out = Ok bs.
Proof.
  intros rq i out. cbn [rel_decode_one_answer]. unfold rel_decode_idle.
  set (b := match rq with RqIdle ri => si_is_battle_cmd ri | _ => false end). clearbody b.
  destruct i; rewrite ?response_run; eauto.
  destruct b, (has_flag phase DPHASE_MAIN_2), (has_flag phase DPHASE_END),
    (has_flag phase DPHASE_BATTLE); cbn [obind]; rewrite ?response_run; cbn [obind]; rewrite ?response_run; eauto.
Qed.
