(** Every operation treats both players alike. *)
From Verif Require Import Base BaseProofs Place Frame FrameSpec FrameLens FrameOps FramePiles FrameInv Limbo Msg Event EventProofs Query UQuery FlipSpec.

Set Implicit Arguments.

(** ** Outcomes *)
Lemma om_bind A B D (g : B -> D) (m : outcome A) k : o_map g (obind m k) = obind m (fun a => o_map g (k a)).
Proof. destruct m; reflexivity. Qed.
Lemma bind_om A B D (g : A -> B) (m : outcome A) (k : B -> outcome D) :
  obind (o_map g m) k = obind m (fun a => k (g a)).
Proof. destruct m; reflexivity. Qed.
Lemma bind_ext A B (m m' : outcome A) (k k' : A -> outcome B) : m = m' -> (forall a, k a = k' a) -> obind m k = obind m' k'.
Proof. intros -> H. destruct m'; cbn; auto. Qed.
Lemma bind_om_ext A B D (g : A -> B) (m : outcome A) (m' : outcome B) (k : B -> outcome D) k' :
  m' = o_map g m -> (forall a, k (g a) = k' a) -> obind m' k = obind m k'.
Proof. intros -> H. destruct m; cbn; auto. Qed.
Lemma om_om A B D (g : A -> B) (h : B -> D) m : o_map h (o_map g m) = o_map (fun x => h (g x)) m.
Proof. destruct m; reflexivity. Qed.

(** ** References *)
Definition fl_ref (r : pref) : pref := (negb (fst r), snd r).
Definition fl_zref (r : zref) : zref := let '(c, z, i) := r in (negb c, z, i).

Lemma get_pile_fl r L : get_pile (fl_ref r) (fl_lay L) = get_pile r L.
Proof. destruct r as [[] []]; reflexivity. Qed.
Lemma set_pile_fl r p L : set_pile (fl_ref r) p (fl_lay L) = fl_lay (set_pile r p L).
Proof. destruct L, r as [[] []]; reflexivity. Qed.
Lemma get_zone_fl r L : get_zone (fl_zref r) (fl_lay L) = get_zone r L.
Proof. destruct r as [[[] []] i]; reflexivity. Qed.
Lemma set_zone_fl r v L : set_zone (fl_zref r) v (fl_lay L) = fl_lay (set_zone r v L).
Proof. destruct L, r as [[[] []] i]; reflexivity. Qed.
Lemma read_zone_fl r L : read_zone (fl_zref r) (fl_lay L) = read_zone r L.
Proof. unfold read_zone. now rewrite get_zone_fl. Qed.

Lemma other_le c : ((other c <=? 1) = (c <=? 1))%Z.
Proof. unfold other. destruct (c =? 0)%Z eqn:A, (c =? 1)%Z eqn:B; lia. Qed.
Lemma con_index_fl c : con_index (other c) = o_map negb (con_index c).
Proof.
  unfold con_index, other. destruct (c =? 0)%Z eqn:A; [reflexivity|]. destruct (c =? 1)%Z eqn:B; [reflexivity|].
  now rewrite A, B.
Qed.
Lemma other_other c : other (other c) = c.
Proof. unfold other. destruct (c =? 0)%Z eqn:A; [cbn; lia|]. destruct (c =? 1)%Z eqn:B; [cbn; lia|]. now rewrite A, B. Qed.

Ltac om := repeat (rewrite ?om_bind, ?bind_om; first [reflexivity | apply bind_ext; [reflexivity|intros ?]]).

Lemma pile_ref_fl con loc : pile_ref (other con) loc = o_map fl_ref (pile_ref con loc).
Proof.
  unfold pile_ref. rewrite other_le, con_index_fl. om.
  repeat match goal with |- context [if ?b then _ else _] => destruct b end; om.
Qed.
Lemma zone_ref_fl con loc seq : zone_ref (other con) loc seq = o_map fl_zref (zone_ref con loc seq).
Proof. unfold zone_ref. rewrite other_le, con_index_fl. om. Qed.
Lemma pile_of_fl p : pile_of (fl_place p) = o_map fl_ref (pile_of p).
Proof. apply pile_ref_fl. Qed.
Lemma zone_of_fl p : zone_of (fl_place p) = o_map fl_zref (zone_of p).
Proof. apply zone_ref_fl. Qed.

(** ** Operations on layouts *)
Ltac step1 :=
  first
  [ reflexivity
  | progress rewrite ?pile_of_fl, ?zone_of_fl, ?zone_ref_fl, ?read_zone_fl, ?get_pile_fl, ?set_pile_fl, ?set_zone_fl
  | rewrite om_bind
  | rewrite bind_om
  | apply bind_ext; [|intros ?]
  | match goal with |- context [if ?b then _ else _] => destruct b end
  | match goal with |- context [let (_, _) := ?x in _] => is_var x; destruct x end ].

Ltac flat := repeat match goal with
  | |- context [is_pile (fl_place ?p)] => change (is_pile (fl_place p)) with (is_pile p)
  | |- context [is_zone (fl_place ?p)] => change (is_zone (fl_place p)) with (is_zone p)
  | |- context [is_empty (fl_place ?p)] => change (is_empty (fl_place p)) with (is_empty p)
  | |- context [not_mat (fl_place ?p)] => change (not_mat (fl_place p)) with (not_mat p)
  | |- context [oseqN (fl_place ?p)] => change (oseqN (fl_place p)) with (oseqN p)
  | |- context [p_seq (fl_place ?p)] => change (p_seq (fl_place p)) with (p_seq p)
  | |- context [p_loc (fl_place ?p)] => change (p_loc (fl_place p)) with (p_loc p)
  | |- context [p_con (fl_place ?p)] => change (p_con (fl_place p)) with (other (p_con p))
  end.

Lemma has_card_fl p L : has_card (fl_place p) (fl_lay L) = has_card p L.
Proof. unfold has_card. flat. repeat step1. Qed.

Lemma card_insert_fl p c L : card_insert (fl_place p) c (fl_lay L) = o_map fl_lay (card_insert p c L).
Proof. unfold card_insert. flat. repeat step1. Qed.

Definition fl_snd {A} (x : A * layout) : A * layout := (fst x, fl_lay (snd x)).
Lemma card_erase_fl p L : card_erase (fl_place p) (fl_lay L) = o_map fl_snd (card_erase p L).
Proof. unfold card_erase. flat. repeat step1. Qed.

Lemma card_move_fl a b L : card_move (fl_place a) (fl_place b) (fl_lay L) = o_map fl_snd (card_move a b L).
Proof. unfold card_move. rewrite !has_card_fl. flat. repeat step1. Qed.

Lemma swap_zones_fl a b L : swap_zones (fl_zref a) (fl_zref b) (fl_lay L) = o_map fl_lay (swap_zones a b L).
Proof. unfold swap_zones. repeat step1. Qed.

Lemma shuffle_seqs_fl l L : shuffle_seqs (map fl_place l) (fl_lay L) = shuffle_seqs l L.
Proof. induction l as [|p l IH]; [reflexivity|]. cbn [map shuffle_seqs]. rewrite has_card_fl, IH. reflexivity. Qed.
Lemma shuffle_loop_fl todo : forall i cur seqs L,
  shuffle_loop todo i (map fl_place cur) seqs (fl_lay L) = o_map fl_lay (shuffle_loop todo i cur seqs L).
Proof.
  induction todo as [|n IH]; intros i cur seqs L; [reflexivity|]. destruct cur as [|p cur]; [reflexivity|].
  cbn [map shuffle_loop]. flat. destruct (is_empty p); [apply IH|]. rewrite !om_bind. apply bind_ext; [reflexivity|intros si].
  rewrite zone_ref_fl, bind_om, om_bind. apply bind_ext; [reflexivity|intros r1].
  rewrite zone_of_fl, bind_om, om_bind. apply bind_ext; [reflexivity|intros r2].
  rewrite swap_zones_fl, bind_om, om_bind. apply bind_ext; [reflexivity|intros L1]. apply IH.
Qed.
Lemma card_shuffle_fl prev cur L :
  card_shuffle (map fl_place prev) (map fl_place cur) (fl_lay L) = o_map fl_lay (card_shuffle prev cur L).
Proof.
  destruct prev as [|p prev]; [reflexivity|]. unfold card_shuffle. cbn [map]. flat.
  change (fl_place p :: map fl_place prev) with (map fl_place (p :: prev)). unfold lenN. rewrite map_length, shuffle_seqs_fl.
  rewrite ?om_bind. apply bind_ext; [reflexivity|intros _]. rewrite ?om_bind. apply bind_ext; [reflexivity|intros _].
  rewrite ?om_bind. apply bind_ext; [reflexivity|intros seqs]. apply shuffle_loop_fl.
Qed.

Definition fl_lval (v : lval) : lval :=
  match v with LvPile r i => LvPile (fl_ref r) i | LvCard r => LvCard (fl_zref r) | LvMat r i => LvMat (fl_zref r) i end.
Lemma read_lval_fl v L : read_lval (fl_lval v) (fl_lay L) = read_lval v L.
Proof. destruct v; cbn [fl_lval read_lval]; now rewrite ?get_pile_fl, ?read_zone_fl. Qed.
Lemma write_lval_fl v c L : write_lval (fl_lval v) c (fl_lay L) = o_map fl_lay (write_lval v c L).
Proof. destruct v; cbn [fl_lval write_lval]; repeat step1. Qed.
Lemma swap_lval_fl a b L : swap_lval (fl_lval a) (fl_lval b) (fl_lay L) = o_map fl_lay (swap_lval a b L).
Proof.
  unfold swap_lval. rewrite !read_lval_fl, om_bind. apply bind_ext; [reflexivity|intros x]. rewrite om_bind.
  apply bind_ext; [reflexivity|intros y]. rewrite write_lval_fl, bind_om, om_bind. apply bind_ext; [reflexivity|intros L1].
  apply write_lval_fl.
Qed.
Lemma mats_empty_fl p L : mats_empty (fl_place p) (fl_lay L) = mats_empty p L.
Proof. unfold mats_empty. repeat step1. Qed.

Ltac lv := match goal with
  | |- context [swap_lval ?a ?b (fl_lay ?L)] =>
    let a' := match a with LvPile (fl_ref ?r) ?i => constr:(LvPile r i) | LvCard (fl_zref ?r) => constr:(LvCard r)
              | LvMat (fl_zref ?r) ?i => constr:(LvMat r i) end in
    let b' := match b with LvPile (fl_ref ?r) ?i => constr:(LvPile r i) | LvCard (fl_zref ?r) => constr:(LvCard r)
              | LvMat (fl_zref ?r) ?i => constr:(LvMat r i) end in
    change (swap_lval a b (fl_lay L)) with (swap_lval (fl_lval a') (fl_lval b') (fl_lay L)); rewrite swap_lval_fl
  end.
Lemma card_swap_fl a b L : card_swap (fl_place a) (fl_place b) (fl_lay L) = o_map fl_lay (card_swap a b L).
Proof. unfold card_swap. rewrite !has_card_fl, !mats_empty_fl. flat. repeat (lv || step1). Qed.

Lemma pile_splice_fl a n b r L :
  pile_splice (fl_place a) n (fl_place b) r (fl_lay L) = o_map fl_lay (pile_splice a n b r L).
Proof. unfold pile_splice. flat. repeat step1. Qed.
Lemma pile_swap_fl a b L : pile_swap (fl_place a) (fl_place b) (fl_lay L) = o_map fl_lay (pile_swap a b L).
Proof. unfold pile_swap. flat. repeat step1. Qed.

(** ** Frames *)
Section Cards.
Variable C : Type.
Variable c0 : C.
Implicit Types f : frame C.
Implicit Types w : limbo C.

Definition fl_cf {A} (x : A * frame C) : A * frame C := (fst x, fl_frame (snd x)).

Lemma destruct_card_fl c f : destruct_card c (fl_frame f) = o_map (@fl_frame C) (destruct_card c f).
Proof. unfold destruct_card. cbn [fl_frame f_heap f_next f_lay]. destruct (heap_remove c (f_heap f)); reflexivity. Qed.

Lemma card_add_fl p f : card_add c0 (fl_place p) (fl_frame f) = o_map fl_cf (card_add c0 p f).
Proof.
  unfold card_add. cbn [construct_card fl_frame f_next f_heap f_lay with_lay]. rewrite card_insert_fl, bind_om, om_bind. reflexivity.
Qed.
Lemma card_remove_fl p f : card_remove (fl_place p) (fl_frame f) = o_map (@fl_frame C) (card_remove p f).
Proof.
  unfold card_remove. cbn [fl_frame f_lay]. rewrite has_card_fl, om_bind. apply bind_ext; [reflexivity|intros h].
  rewrite om_bind. apply bind_ext; [reflexivity|intros _]. rewrite card_erase_fl, bind_om, om_bind.
  apply bind_ext; [reflexivity|intros [c L]]. cbn [fl_snd fst snd].
  change (with_lay (fl_frame f) (fl_lay L)) with (fl_frame (with_lay f L)). apply destruct_card_fl.
Qed.
Lemma f_card_move_fl a b f : f_card_move (fl_place a) (fl_place b) (fl_frame f) = o_map fl_cf (f_card_move a b f).
Proof.
  unfold f_card_move. cbn [fl_frame f_lay f_heap]. rewrite card_move_fl, bind_om, om_bind.
  apply bind_ext; [reflexivity|intros [c L]]. cbn [fl_snd fst snd]. rewrite om_bind. reflexivity.
Qed.
Lemma lift_fl (op op' : layout -> outcome layout) f : (forall L, op' (fl_lay L) = o_map fl_lay (op L)) ->
  lift op' (fl_frame f) = o_map (@fl_frame C) (lift op f).
Proof. intros H. unfold lift. cbn [fl_frame f_lay]. rewrite H, bind_om, om_bind. reflexivity. Qed.

Lemma grow_fl n r : forall f, grow_pile c0 n (fl_ref r) (fl_frame f) = fl_frame (grow_pile c0 n r f).
Proof.
  induction n as [|n IH]; intros f; [reflexivity|]. cbn [grow_pile construct_card fl_frame f_next f_heap f_lay with_lay].
  rewrite get_pile_fl, set_pile_fl, <- IH. reflexivity.
Qed.
Lemma shrink_fl n r : forall f, shrink_pile n (fl_ref r) (fl_frame f) = o_map (@fl_frame C) (shrink_pile n r f).
Proof.
  induction n as [|n IH]; intros f; [reflexivity|]. cbn [shrink_pile]. cbn [fl_frame f_lay]. rewrite get_pile_fl, om_bind.
  apply bind_ext; [reflexivity|intros c]. rewrite om_bind. apply bind_ext; [reflexivity|intros id].
  change {| f_next := f_next f; f_heap := f_heap f; f_lay := fl_lay (f_lay f) |} with (fl_frame f).
  rewrite destruct_card_fl, bind_om, om_bind. apply bind_ext; [reflexivity|intros f1]. cbn [fl_frame f_lay].
  rewrite set_pile_fl. rewrite <- IH. reflexivity.
Qed.
Lemma pile_resize_fl p n f : pile_resize c0 (fl_place p) n (fl_frame f) = o_map (@fl_frame C) (pile_resize c0 p n f).
Proof.
  unfold pile_resize. flat. rewrite om_bind. apply bind_ext; [reflexivity|intros _].
  rewrite pile_of_fl, bind_om, om_bind. apply bind_ext; [reflexivity|intros r].
  cbn [fl_frame f_lay]. rewrite get_pile_fl, grow_fl, shrink_fl, om_bind.
  apply bind_om_ext with (g := @fl_frame C).
  - destruct (_ <? n)%N; [reflexivity|]. destruct (n <? _)%N; reflexivity.
  - intros f1. cbn [fl_frame f_lay]. rewrite get_pile_fl, om_bind. reflexivity.
Qed.
Lemma fl_lay0 : fl_lay layout0 = layout0.
Proof. reflexivity. Qed.

(** ** Undoable frames *)
Definition fl_cw {A} (x : A * limbo C) : A * limbo C := (fst x, fl_limbo (snd x)).

Lemma advance_fl w : advance_op (fl_limbo w) = (fst (advance_op w), fl_limbo (snd (advance_op w))).
Proof. unfold advance_op. cbn [fl_limbo lb_op lb_processed]. destruct (Nat.eqb _ _); reflexivity. Qed.
Lemma regress_fl w : regress_op (fl_limbo w) = o_map (@fl_limbo C) (regress_op w).
Proof. unfold regress_op. cbn [fl_limbo lb_op]. destruct (lb_op w); reflexivity. Qed.
Lemma emplace_fl o w : emplace_op (fl_lop o) (fl_limbo w) = fl_limbo (emplace_op o w).
Proof. unfold emplace_op, fl_limbo. cbn [lb_frame lb_op lb_processed lb_ops]. now rewrite map_app. Qed.
Lemma upd_map A B (g : A -> B) n x l : upd n (g x) (map g l) = map g (upd n x l).
Proof. revert n; induction l as [|y l IH]; intros [|n]; cbn; congruence. Qed.
Lemma set_current_fl o w : set_current_op (fl_lop o) (fl_limbo w) = fl_limbo (set_current_op o w).
Proof. unfold set_current_op, fl_limbo. cbn [lb_frame lb_op lb_processed lb_ops]. now rewrite upd_map. Qed.
Lemma emplace_card c w : emplace_op (CardOp c) (fl_limbo w) = fl_limbo (emplace_op (CardOp c) w).
Proof. apply (emplace_fl (CardOp c)). Qed.
Lemma set_resize_fl n l w : set_current_op (ResizeOp n l) (fl_limbo w) = fl_limbo (set_current_op (ResizeOp n l) w).
Proof. apply (set_current_fl (ResizeOp n l)). Qed.
Lemma set_clear_fl L w : set_current_op (ClearOp (fl_lay L)) (fl_limbo w) = fl_limbo (set_current_op (ClearOp L) w).
Proof. apply (set_current_fl (ClearOp L)). Qed.
Lemma current_op_fl w : current_op (fl_limbo w) = o_map fl_lop (current_op w).
Proof.
  unfold current_op. cbn [fl_limbo lb_op lb_ops]. rewrite map_length, om_bind. apply bind_ext; [reflexivity|intros _].
  destruct (lb_op w) as [|n]; [reflexivity|]. rewrite nth_error_map. destruct (nth_error (lb_ops w) n); reflexivity.
Qed.
Lemma current_card_fl w : current_card (fl_limbo w) = current_card w.
Proof. unfold current_card. rewrite current_op_fl, bind_om. apply bind_ext; [reflexivity|intros []; reflexivity]. Qed.
Lemma current_resize_fl w : current_resize (fl_limbo w) = current_resize w.
Proof. unfold current_resize. rewrite current_op_fl, bind_om. apply bind_ext; [reflexivity|intros []; reflexivity]. Qed.
Lemma current_clear_fl w : current_clear (fl_limbo w) = o_map fl_lay (current_clear w).
Proof. unfold current_clear. rewrite current_op_fl, bind_om, om_bind. apply bind_ext; [reflexivity|intros []; reflexivity]. Qed.
Lemma alive_fl id w : alive id (fl_limbo w) = alive id w.
Proof. reflexivity. Qed.
Lemma lay_fl w : lb_lay (fl_limbo w) = fl_lay (lb_lay w).
Proof. reflexivity. Qed.
Lemma with_lay_fl w L : lb_with_lay (fl_limbo w) (fl_lay L) = fl_limbo (lb_with_lay w L).
Proof. reflexivity. Qed.
Lemma with_frame_fl w f : lb_with_frame (fl_limbo w) (fl_frame f) = fl_limbo (lb_with_frame w f).
Proof. reflexivity. Qed.
Lemma l_grow_fl n r w : l_grow c0 n (fl_ref r) (fl_limbo w) = fl_limbo (l_grow c0 n r w).
Proof. unfold l_grow. cbn [fl_limbo lb_frame]. rewrite grow_fl. reflexivity. Qed.

Lemma l_card_add_fl p w : l_card_add c0 (fl_place p) (fl_limbo w) = o_map fl_cw (l_card_add c0 p w).
Proof.
  unfold l_card_add. rewrite advance_fl. destruct (advance_op w) as [[] w1]; cbn [fst snd].
  - change (lb_frame (fl_limbo w1)) with (fl_frame (lb_frame w1)).
    rewrite card_add_fl, bind_om, om_bind. apply bind_ext; [reflexivity|intros [c f]].
    unfold fl_cf, fl_cw. cbn [fst snd o_map]. rewrite with_frame_fl, emplace_card. reflexivity.
  - rewrite current_card_fl, om_bind. apply bind_ext; [reflexivity|intros q]. rewrite om_bind.
    apply bind_ext; [reflexivity|intros c]. rewrite alive_fl, om_bind. apply bind_ext; [reflexivity|intros _].
    rewrite lay_fl, card_insert_fl, bind_om, om_bind. apply bind_ext; [reflexivity|intros L].
    rewrite has_card_fl, om_bind. apply bind_ext; [reflexivity|intros h]. rewrite om_bind. reflexivity.
Qed.
Lemma l_card_remove_fl p w : l_card_remove (fl_place p) (fl_limbo w) = o_map (@fl_limbo C) (l_card_remove p w).
Proof.
  unfold l_card_remove. rewrite lay_fl, has_card_fl, om_bind. apply bind_ext; [reflexivity|intros h].
  rewrite om_bind. apply bind_ext; [reflexivity|intros _].
  rewrite card_erase_fl, bind_om, om_bind. apply bind_ext; [reflexivity|intros [c L]]. cbn [fl_snd fst snd].
  rewrite alive_fl, om_bind. apply bind_ext; [reflexivity|intros _]. rewrite with_lay_fl, advance_fl.
  destruct (advance_op (lb_with_lay w L)) as [[] w1]; cbn [fst snd].
  - cbn [o_map]. rewrite emplace_card. reflexivity.
  - rewrite current_card_fl, om_bind. apply bind_ext; [reflexivity|intros q]. rewrite om_bind. reflexivity.
Qed.
Lemma l_pile_resize_fl p n w :
  l_pile_resize c0 (fl_place p) n (fl_limbo w) = o_map (@fl_limbo C) (l_pile_resize c0 p n w).
Proof.
  unfold l_pile_resize. flat. rewrite om_bind. apply bind_ext; [reflexivity|intros _]. rewrite advance_fl.
  destruct (advance_op w) as [pr w1]; cbn [fst snd]. rewrite pile_of_fl, bind_om, om_bind.
  apply bind_ext; [reflexivity|intros r]. rewrite om_bind.
  apply bind_om_ext with (g := fun x : limbo C * list ptr => (fl_limbo (fst x), snd x)).
  { destruct pr.
    - cbn [o_map fst snd]. f_equal. f_equal. apply (emplace_fl (ResizeOp 0 [])).
    - rewrite current_resize_fl, om_bind. apply bind_ext; [reflexivity|intros [a s]]. reflexivity. }
  intros [w2 sl]. cbn [fst snd]. rewrite lay_fl, get_pile_fl, om_bind.
  apply bind_om_ext with (g := @fl_limbo C).
  { rewrite !set_resize_fl. destruct (_ <? n)%N.
    - destruct pr; cbn [o_map].
      + rewrite l_grow_fl. reflexivity.
      + rewrite lay_fl, set_pile_fl, with_lay_fl. reflexivity.
    - destruct (n <? _)%N; [|reflexivity]. rewrite om_bind. apply bind_ext; [reflexivity|intros s].
      rewrite set_resize_fl, lay_fl, set_pile_fl, with_lay_fl. reflexivity. }
  intros w3. rewrite lay_fl, get_pile_fl, om_bind. apply bind_ext; [reflexivity|intros _]. rewrite om_bind. reflexivity.
Qed.
Lemma l_clear_fl w : l_clear (fl_limbo w) = o_map (@fl_limbo C) (l_clear w).
Proof.
  unfold l_clear. rewrite advance_fl. destruct (advance_op w) as [pr w1]; cbn [fst snd]. rewrite om_bind.
  apply bind_om_ext with (g := fun x : limbo C * layout => (fl_limbo (fst x), fl_lay (snd x))).
  { destruct pr.
    - cbn [o_map fst snd]. rewrite fl_lay0. f_equal. f_equal. apply (emplace_fl (ClearOp layout0)).
    - rewrite current_clear_fl, bind_om, om_bind. reflexivity. }
  intros [w2 L]. cbn [fst snd o_map]. rewrite lay_fl, set_clear_fl, with_lay_fl. reflexivity.
Qed.
Lemma l_undo_card_add_fl p w : l_undo_card_add (fl_place p) (fl_limbo w) = o_map fl_cw (l_undo_card_add p w).
Proof.
  unfold l_undo_card_add. rewrite lay_fl, has_card_fl, om_bind. apply bind_ext; [reflexivity|intros h].
  rewrite om_bind. apply bind_ext; [reflexivity|intros _].
  rewrite card_erase_fl, bind_om, om_bind. apply bind_ext; [reflexivity|intros [c L]]. cbn [fl_snd fst snd].
  rewrite alive_fl, om_bind. apply bind_ext; [reflexivity|intros _]. rewrite current_card_fl, om_bind.
  apply bind_ext; [reflexivity|intros q]. rewrite om_bind. apply bind_ext; [reflexivity|intros _].
  rewrite with_lay_fl, regress_fl, bind_om, om_bind. reflexivity.
Qed.
Lemma l_undo_card_remove_fl p w : l_undo_card_remove (fl_place p) (fl_limbo w) = o_map fl_cw (l_undo_card_remove p w).
Proof.
  unfold l_undo_card_remove. rewrite current_card_fl, om_bind. apply bind_ext; [reflexivity|intros q]. rewrite om_bind.
  apply bind_ext; [reflexivity|intros c]. rewrite alive_fl, om_bind. apply bind_ext; [reflexivity|intros _].
  rewrite lay_fl, card_insert_fl, bind_om, om_bind. apply bind_ext; [reflexivity|intros L].
  rewrite with_lay_fl, regress_fl, bind_om, om_bind. apply bind_ext; [reflexivity|intros w1].
  rewrite lay_fl, has_card_fl, om_bind. apply bind_ext; [reflexivity|intros h]. rewrite om_bind. reflexivity.
Qed.
Lemma l_undo_pile_resize_fl p n w :
  l_undo_pile_resize (fl_place p) n (fl_limbo w) = o_map (@fl_limbo C) (l_undo_pile_resize p n w).
Proof.
  unfold l_undo_pile_resize. flat. rewrite om_bind. apply bind_ext; [reflexivity|intros _].
  rewrite pile_of_fl, bind_om, om_bind. apply bind_ext; [reflexivity|intros r].
  rewrite current_resize_fl, om_bind. apply bind_ext; [reflexivity|intros [prev sl]].
  rewrite lay_fl, get_pile_fl, om_bind. apply bind_om_ext with (g := @fl_limbo C).
  { destruct (Nat.ltb _ prev).
    - rewrite set_pile_fl, with_lay_fl. reflexivity.
    - destruct (Nat.ltb prev _); [|reflexivity]. rewrite om_bind. apply bind_ext; [reflexivity|intros s].
      rewrite set_resize_fl, lay_fl, set_pile_fl, with_lay_fl. reflexivity. }
  intros w1. rewrite regress_fl, bind_om, om_bind. apply bind_ext; [reflexivity|intros w2].
  rewrite lay_fl, get_pile_fl, om_bind. apply bind_ext; [reflexivity|intros _]. rewrite om_bind. reflexivity.
Qed.
Lemma l_undo_clear_fl w : l_undo_clear (fl_limbo w) = o_map (@fl_limbo C) (l_undo_clear w).
Proof.
  unfold l_undo_clear. rewrite current_clear_fl, bind_om, om_bind. apply bind_ext; [reflexivity|intros L].
  rewrite lay_fl, set_clear_fl, with_lay_fl. apply regress_fl.
Qed.
Lemma l_erase_fl w : l_erase_history (fl_limbo w) = o_map (@fl_limbo C) (l_erase_history w).
Proof.
  unfold l_erase_history. cbn [fl_limbo lb_op lb_processed lb_ops]. destruct (Nat.eqb _ _); [reflexivity|].
  rewrite map_length, ?om_bind. apply bind_ext; [reflexivity|intros _]. rewrite ?om_bind. apply bind_ext; [reflexivity|intros _].
  cbn [o_map]. unfold fl_limbo. cbn [lb_frame lb_op lb_processed lb_ops]. now rewrite firstn_map.
Qed.
Lemma l_lift_fl (op op' : layout -> outcome layout) w : (forall L, op' (fl_lay L) = o_map fl_lay (op L)) ->
  l_lift op' (fl_limbo w) = o_map (@fl_limbo C) (l_lift op w).
Proof. intros H. unfold l_lift. cbn [fl_limbo lb_frame]. rewrite (lift_fl op _ _ H), bind_om, om_bind. reflexivity. Qed.
Lemma l_card_move_fl a b w : l_card_move (fl_place a) (fl_place b) (fl_limbo w) = o_map fl_cw (l_card_move a b w).
Proof.
  unfold l_card_move. cbn [fl_limbo lb_frame]. rewrite f_card_move_fl, bind_om, om_bind.
  apply bind_ext; [reflexivity|intros [c f]]. reflexivity.
Qed.
End Cards.

(** ** Boards *)
Record alike F (fo : frame_ops F) (g : F -> F) (I : F -> Prop) : Prop := {
  al_add : forall p x, fo_add fo (fl_place p) (g x) = o_map g (fo_add fo p x);
  al_remove : forall p x, fo_remove fo (fl_place p) (g x) = o_map g (fo_remove fo p x);
  al_move : forall a b x, fo_move fo (fl_place a) (fl_place b) (g x) = o_map g (fo_move fo a b x);
  al_swap : forall a b x, fo_swap fo (fl_place a) (fl_place b) (g x) = o_map g (fo_swap fo a b x);
  al_shuffle : forall a b x, fo_shuffle fo (map fl_place a) (map fl_place b) (g x) = o_map g (fo_shuffle fo a b x);
  al_resize : forall p n x, fo_resize fo (fl_place p) n (g x) = o_map g (fo_resize fo p n x);
  al_splice : forall a n b r x, fo_splice fo (fl_place a) n (fl_place b) r (g x) = o_map g (fo_splice fo a n b r x);
  al_pile_swap : forall a b x, fo_pile_swap fo (fl_place a) (fl_place b) (g x) = o_map g (fo_pile_swap fo a b x);
  al_clear : forall x, I x -> fo_clear fo (g x) = o_map g (fo_clear fo x)
}.

Lemma drop_om A B (g : B -> B) (m : outcome (A * B)) :
  (let! (_, y) := o_map (fun x => (fst x, g (snd x))) m in Ok y) = o_map g (let! (_, y) := m in Ok y).
Proof. destruct m as [[]| | |]; reflexivity. Qed.

Definition fl_cont (k : cont) : cont :=
  match k with CPile r => CPile (fl_ref r) | CCard r => CCard (fl_zref r) | CMats r => CMats (fl_zref r) end.
Lemma contents_fl k L : contents (fl_cont k) (fl_lay L) = contents k L.
Proof. destruct k as [[[] []]|[[[] []] i]|[[[] []] i]]; reflexivity. Qed.
Lemma fl_fl_cont k : fl_cont (fl_cont k) = k.
Proof. destruct k as [[[] []]|[[[] []] i]|[[[] []] i]]; reflexivity. Qed.
Lemma contents_fl' k L : contents k (fl_lay L) = contents (fl_cont k) L.
Proof. rewrite <- (fl_fl_cont k) at 1. apply contents_fl. Qed.
Lemma sum_fl g : sum_over (fun k => g (fl_cont k)) all_conts = sum_over g all_conts.
Proof. cbv -[Nat.add]. lia. Qed.
Lemma cntL_fl L id : cntL (fl_lay L) id = cntL L id.
Proof.
  unfold cntL. rewrite <- (sum_fl (fun k => cnt (contents k L) id)). generalize all_conts as l.
  induction l as [|k l IH]; cbn [sum_over]; [reflexivity|]. now rewrite IH, contents_fl'.
Qed.
Lemma inv_fl C f : inv C f -> inv C (fl_frame f).
Proof.
  intros [[S N] K D X]. split; [split|..]; cbn [fl_frame f_lay f_heap f_next]; auto.
  - intros c z. rewrite <- (S (negb c) z). destruct c; reflexivity.
  - apply nonull_contents. intros k. rewrite contents_fl'. now apply nonull_contents.
  - intros id. now rewrite cntL_fl.
Qed.

Lemma plain_alike C (c0 : C) : alike (plain_fo c0) (@fl_frame C) (inv C).
Proof.
  constructor; intros; cbn [plain_fo fo_add fo_remove fo_move fo_swap fo_shuffle fo_resize fo_splice fo_pile_swap fo_clear].
  - rewrite card_add_fl. apply drop_om.
  - apply card_remove_fl.
  - rewrite f_card_move_fl. apply drop_om.
  - apply lift_fl, card_swap_fl.
  - apply lift_fl, card_shuffle_fl.
  - apply pile_resize_fl.
  - apply lift_fl, pile_splice_fl.
  - apply lift_fl, pile_swap_fl.
  - rewrite (clear_run _ _ H). cbn [o_map]. 
    assert (H' : inv C (fl_frame x)). 2: { rewrite (clear_run _ _ H'). reflexivity. }
    now apply inv_fl.
Qed.
Lemma limbo_alike C (c0 : C) : alike (limbo_fo c0) (@fl_limbo C) (fun _ => True).
Proof.
  constructor; intros; cbn [limbo_fo fo_add fo_remove fo_move fo_swap fo_shuffle fo_resize fo_splice fo_pile_swap fo_clear].
  - rewrite l_card_add_fl. apply drop_om.
  - apply l_card_remove_fl.
  - rewrite l_card_move_fl. apply drop_om.
  - apply l_lift_fl, card_swap_fl.
  - apply l_lift_fl, card_shuffle_fl.
  - apply l_pile_resize_fl.
  - apply l_lift_fl, pile_splice_fl.
  - apply l_lift_fl, pile_swap_fl.
  - apply l_clear_fl.
Qed.

(** The values of a board. *)
Record even_values (V : Type -> Type) (vo : value_ops V) (gv : forall T, (T -> T) -> V T -> V T) : Prop := {
  ev_get : forall T (g : T -> T) v, vo_get vo (gv T g v) = g (vo_get vo v);
  ev_set : forall T (g : T -> T) x v, vo_set vo (g x) (gv T g v) = gv T g (vo_set vo x v);
  ev_push : forall T (g : T -> T) x v, vo_push vo (g x) (gv (list T) (map g) v) = o_map (gv (list T) (map g)) (vo_push vo x v);
  ev_pop : forall T (g : T -> T) v, vo_pop vo (gv (list T) (map g) v) = o_map (gv (list T) (map g)) (vo_pop vo v)
}.

Section Board.
Variable F : Type.
Variable V : Type -> Type.
Variable fo : frame_ops F.
Variable vo : value_ops V.
Variable g : F -> F.
Variable gv : forall T, (T -> T) -> V T -> V T.
Variable I : F -> Prop.
Hypothesis AL : alike fo g I.
Hypothesis EV : even_values vo gv.

Definition fl_board (b : board F V) : board F V :=
  mkBoard V (g (b_frame b)) (gv (map fl_chain) (b_chain b)) (b_turn b) (gv other (b_turn_controller b))
    (fl_pair2 (b_lp b)) (b_phase b) (gv (map fl_place) (b_blocked b)).

Lemma ofold_fl A S (ga : A -> A) (gs : S -> S) (h : A -> S -> outcome S) l :
  (forall a s, h (ga a) (gs s) = o_map gs (h a s)) ->
  forall s, ofold h (map ga l) (gs s) = o_map gs (ofold h l s).
Proof.
  intros H. induction l as [|a l IH]; intros s; [reflexivity|]. cbn [map ofold]. rewrite H, bind_om, om_bind.
  apply bind_ext; [reflexivity|intros s1]. apply IH.
Qed.
Lemma on_frame_fl (m m' : F -> outcome F) b : m' (g (b_frame b)) = o_map g (m (b_frame b)) ->
  on_frame m' (fl_board b) = o_map fl_board (on_frame m b).
Proof. intros H. unfold on_frame. cbn [fl_board b_frame]. rewrite H, bind_om, om_bind. reflexivity. Qed.

Lemma adds_fl l x : do_adds fo (map fl_place l) (g x) = o_map g (do_adds fo l x).
Proof. apply ofold_fl. apply (al_add AL). Qed.
Lemma removes_fl l x : do_removes fo (map fl_place l) (g x) = o_map g (do_removes fo l x).
Proof. apply ofold_fl. apply (al_remove AL). Qed.
Lemma resizes_fl l x : do_resizes fo (map fl_resize l) (g x) = o_map g (do_resizes fo l x).
Proof. apply ofold_fl. intros o s. apply (al_resize AL). Qed.
Lemma swaps_fl l x : do_swaps fo (map fl_pair l) (g x) = o_map g (do_swaps fo l x).
Proof. apply ofold_fl. intros o s. apply (al_swap AL). Qed.
Lemma moves_fl l x : do_moves fo (map fl_pair l) (g x) = o_map g (do_moves fo l x).
Proof. apply ofold_fl. intros o s. apply (al_move AL). Qed.
Lemma splices_fl l x : do_splices fo (map fl_splice l) (g x) = o_map g (do_splices fo l x).
Proof. apply ofold_fl. intros o s. apply (al_splice AL). Qed.
Lemma pile_swaps_fl l x : do_pile_swaps fo (map fl_pair l) (g x) = o_map g (do_pile_swaps fo l x).
Proof. apply ofold_fl. intros o s. apply (al_pile_swap AL). Qed.

Lemma lp_index_fl con : (- 2 ^ 31 <= con < 2 ^ 31)%Z -> lp_index (other con) = o_map negb (lp_index con).
Proof.
  intros R. unfold other. destruct (con =? 0)%Z eqn:A; [replace con with 0%Z by lia; reflexivity|].
  destruct (con =? 1)%Z eqn:B; [replace con with 1%Z by lia; reflexivity|].
  unfold lp_index. assert (X : (of_signed 64 con =? 0)%N = false /\ (of_signed 64 con =? 1)%N = false).
  { destruct (of_signed_int con R) as [[-> ?]|[? ?]]; split; lia. }
  destruct X as [-> ->]. destruct (_ <=? 2)%N; reflexivity.
Qed.
Lemma sel_fl A i (x : A * A) : sel (negb i) (fl_pair2 x) = sel i x.
Proof. destruct i; reflexivity. Qed.
Lemma put2_fl A i a (x : A * A) : put2 (negb i) a (fl_pair2 x) = fl_pair2 (put2 i a x).
Proof. destruct i, x; reflexivity. Qed.

Lemma assign0 v (b : board F V) : assign_lp vo 0 v b = Ok (set_lp (vo_set vo v (fst (b_lp b)), snd (b_lp b)) b).
Proof. reflexivity. Qed.
Lemma assign1 v (b : board F V) : assign_lp vo 1 v b = Ok (set_lp (fst (b_lp b), vo_set vo v (snd (b_lp b))) b).
Proof. reflexivity. Qed.
Lemma parse_event_fl e b : int_con e -> I (b_frame b) ->
  parse_event fo vo (fl_event e) (fl_board b) = o_map fl_board (parse_event fo vo e b).
Proof.
  intros Z J. destruct e as [|[|x|s]|r []|[]|con|w m []|con t|m|ph|r []|r|l]; cbn [fl_event parse_event]; try reflexivity.
  - unfold parse_exchange. apply on_frame_fl. cbn [bx_resize bx_remove bx_add]. rewrite resizes_fl, bind_om, om_bind.
    apply bind_ext; [reflexivity|intros f1]. rewrite removes_fl, bind_om, om_bind. apply bind_ext; [reflexivity|intros f2].
    apply adds_fl.
  - unfold parse_state. cbn [bs_turn_counter bs_lps bs_chains bs_add bs_resize].
    destruct (bs_lps s) as [|l0 [|l1 lr]]; cbn [fl_two nth_error or_ub obind o_map]; try reflexivity.
    rewrite !assign0. cbn [obind]. rewrite !assign1. cbn [obind].
    match goal with |- on_frame _ ?x = o_map _ (on_frame _ ?y) => assert (X : x = fl_board y) end.
    { destruct (0 <=? bs_turn_counter s)%Z; unfold fl_board, set_chain, set_lp, set_turn; cbn; now rewrite (ev_set EV). }
    rewrite X. clear X. apply on_frame_fl. cbn [bs_add bs_resize].
    match goal with |- context [b_frame ?y] => assert (X : b_frame y = b_frame b) by (destruct (0 <=? bs_turn_counter s)%Z; reflexivity) end.
    rewrite X. rewrite (al_clear AL _ J), bind_om, om_bind. apply bind_ext; [reflexivity|intros f1].
    rewrite adds_fl, bind_om, om_bind. apply bind_ext; [reflexivity|intros f2]. apply resizes_fl.
  - apply on_frame_fl, adds_fl.
  - apply on_frame_fl, swaps_fl.
  - apply on_frame_fl, moves_fl.
  - apply on_frame_fl, removes_fl.
  - apply on_frame_fl, (al_shuffle AL).
  - cbn [fl_board b_chain]. rewrite (ev_push EV), bind_om, om_bind. reflexivity.
  - cbn [fl_board b_chain]. rewrite (ev_pop EV), bind_om, om_bind. reflexivity.
  - cbn [o_map]. f_equal. unfold fl_board, set_turn_controller, set_turn. cbn. now rewrite (ev_set EV).
  - cbn [int_con] in Z. rewrite (lp_index_fl Z), bind_om, om_bind. apply bind_ext; [reflexivity|intros i].
    rewrite bind_om, om_bind. apply bind_ext; [reflexivity|intros j]. cbn [fl_board b_lp o_map]. rewrite !sel_fl, put2_fl.
    reflexivity.
  - destruct m; reflexivity.
  - apply on_frame_fl, pile_swaps_fl.
  - apply on_frame_fl, splices_fl.
  - destruct r; reflexivity.
  - cbn [o_map]. f_equal. unfold fl_board, set_blocked. cbn. now rewrite (ev_set EV).
Qed.
End Board.

(** ** The two kinds of boards *)
Lemma plain_even : even_values plain_vo (fun T g v => g v).
Proof.
  constructor; intros; cbn; auto.
  - now rewrite map_app.
  - destruct v as [|x v]; [reflexivity|]. unfold pop_back. cbn [map o_map]. f_equal. revert x.
    induction v as [|y v IH]; intros x; [reflexivity|]. cbn [removelast map] in *. f_equal. apply IH.
Qed.
Lemma undo_even T (g : T -> T) u : u_undo (u_map g u) = o_map (u_map g) (u_undo u).
Proof. destruct u as [[|x p] c n]; reflexivity. Qed.
Lemma undoable_even : even_values undoable_vo (@u_map).
Proof.
  constructor; intros; cbn; auto. unfold u_set, u_map. destruct v as [p c [|y n]]; reflexivity.
Qed.

Section Both.
Variable C : Type.
Variable c0 : C.

Lemma pparse_fl e (b : pboard C) : int_con e -> inv C (b_frame b) ->
  pparse c0 (fl_event e) (fl_pboard b) = o_map (@fl_pboard C) (pparse c0 e b).
Proof. apply (parse_event_fl (plain_alike c0) plain_even). Qed.
Lemma uparse_fl e (b : uboard C) : int_con e ->
  uparse c0 (fl_event e) (fl_uboard b) = o_map (@fl_uboard C) (uparse c0 e b).
Proof. intros Z. now apply (parse_event_fl (limbo_alike c0) undoable_even). Qed.

Lemma u_on_frame_fl (m m' : limbo C -> outcome (limbo C)) (b : uboard C) :
  m' (fl_limbo (b_frame b)) = o_map (@fl_limbo C) (m (b_frame b)) ->
  on_frame m' (fl_uboard b) = o_map (@fl_uboard C) (on_frame m b).
Proof. apply (on_frame_fl (@fl_limbo C) (@u_map)). Qed.

Lemma undo_adds_fl l w : undo_adds (limbo_uo C) (map fl_place l) (fl_limbo w) = o_map (@fl_limbo C) (undo_adds (limbo_uo C) l w).
Proof. unfold undo_adds. rewrite <- map_rev. apply ofold_fl. intros p s. cbn. rewrite l_undo_card_add_fl. apply drop_om. Qed.
Lemma undo_removes_fl l w :
  undo_removes (limbo_uo C) (map fl_place l) (fl_limbo w) = o_map (@fl_limbo C) (undo_removes (limbo_uo C) l w).
Proof. unfold undo_removes. rewrite <- map_rev. apply ofold_fl. intros p s. cbn. rewrite l_undo_card_remove_fl. apply drop_om. Qed.
Lemma undo_resizes_fl l w :
  undo_resizes (limbo_uo C) (map fl_resize l) (fl_limbo w) = o_map (@fl_limbo C) (undo_resizes (limbo_uo C) l w).
Proof. unfold undo_resizes. rewrite <- map_rev. apply ofold_fl. intros p s. apply l_undo_pile_resize_fl. Qed.

Lemma undo_lp_fl con (b : uboard C) : (- 2 ^ 31 <= con < 2 ^ 31)%Z ->
  undo_lp (limbo_uo C) (other con) (fl_uboard b) = o_map (@fl_uboard C) (undo_lp (limbo_uo C) con b).
Proof.
  intros Z. unfold undo_lp. rewrite (lp_index_fl Z), bind_om, om_bind. apply bind_ext; [reflexivity|intros i].
  cbn [fl_uboard b_lp]. rewrite sel_fl, om_bind. apply bind_ext; [reflexivity|intros x]. cbn [o_map]. rewrite put2_fl. reflexivity.
Qed.
Lemma undo_lps_fl (b : uboard C) :
  (let! b1 := undo_lp (limbo_uo C) 1 (fl_uboard b) in undo_lp (limbo_uo C) 0 b1) =
  o_map (@fl_uboard C) (let! b1 := undo_lp (limbo_uo C) 1 b in undo_lp (limbo_uo C) 0 b1).
Proof.
  unfold undo_lp. change (lp_index 1) with (Ok true). change (lp_index 0) with (Ok false). cbn [obind].
  destruct b as [f ch t tc [x y] ph bl]. cbn. unfold fl_pair2. cbn.
  destruct x as [[|? ?] ? ?], y as [[|? ?] ? ?]; cbn; reflexivity.
Qed.
Lemma undo_event_fl e (b : uboard C) : int_con e ->
  uundo c0 (fl_event e) (fl_uboard b) = o_map (@fl_uboard C) (uundo c0 e b).
Proof.
  intros Z. unfold uundo.
  destruct e as [|[|x|s]|r []|[]|con|w m []|con t|m|ph|r []|r|l]; cbn [fl_event undo_parse_event]; try reflexivity.
  - apply u_on_frame_fl. cbn [bx_resize bx_remove bx_add]. rewrite undo_adds_fl, bind_om, om_bind.
    apply bind_ext; [reflexivity|intros f1]. rewrite undo_removes_fl, bind_om, om_bind. apply bind_ext; [reflexivity|intros f2].
    apply undo_resizes_fl.
  - unfold undo_state. cbn [bs_turn_counter bs_lps bs_chains bs_add bs_resize]. rewrite om_bind.
    apply bind_om_ext with (g := @fl_uboard C).
    { apply u_on_frame_fl. rewrite undo_resizes_fl, bind_om, om_bind. apply bind_ext; [reflexivity|intros f1].
      rewrite undo_adds_fl, bind_om, om_bind. apply bind_ext; [reflexivity|intros f2]. apply l_undo_clear_fl. }
    intros b1. cbn [fl_uboard b_chain limbo_uo uo_undo]. rewrite undo_even, bind_om, om_bind.
    apply bind_ext; [reflexivity|intros c]. 
    change (set_chain (u_map (map fl_chain) c) (fl_uboard b1)) with (fl_uboard (set_chain c b1)).
    pose proof (undo_lps_fl (set_chain c b1)) as X.
    transitivity (let! b4 := (let! b3 := undo_lp (limbo_uo C) 1 (fl_uboard (set_chain c b1)) in undo_lp (limbo_uo C) 0 b3) in
      if (0 <=? bs_turn_counter s)%Z then let! t := u_undo (b_turn b4) in Ok (set_turn t b4) else Ok b4).
    { destruct (undo_lp (limbo_uo C) 1 (fl_uboard (set_chain c b1))); reflexivity. }
    rewrite X, bind_om. clear X.
    transitivity (let! b4 := (let! b3 := undo_lp (limbo_uo C) 1 (set_chain c b1) in undo_lp (limbo_uo C) 0 b3) in
      o_map (@fl_uboard C) (if (0 <=? bs_turn_counter s)%Z then let! t := u_undo (b_turn b4) in Ok (set_turn t b4) else Ok b4)).
    { apply bind_ext; [reflexivity|intros b4]. destruct (_ <=? _)%Z; [|reflexivity]. rewrite om_bind. reflexivity. }
    destruct (undo_lp (limbo_uo C) 1 (set_chain c b1)); [|reflexivity..]. cbn [obind]. rewrite om_bind. reflexivity.
  - apply u_on_frame_fl, undo_adds_fl.
  - apply u_on_frame_fl. rewrite <- map_rev. apply (swaps_fl (limbo_alike c0)).
  - apply u_on_frame_fl. rewrite <- map_rev. apply ofold_fl. intros o w. apply (al_move (limbo_alike c0)).
  - apply u_on_frame_fl, undo_removes_fl.
  - rewrite om_bind. cbn [fl_uboard b_turn]. apply bind_ext; [reflexivity|intros t]. cbn. rewrite undo_even, bind_om, om_bind.
    reflexivity.
  - now apply undo_lp_fl.
  - destruct m; reflexivity.
  - cbn. rewrite om_bind. reflexivity.
  - apply u_on_frame_fl. rewrite <- map_rev. apply (pile_swaps_fl (limbo_alike c0)).
  - apply u_on_frame_fl. unfold undo_splices. rewrite <- map_rev. apply ofold_fl. intros o w. apply (al_splice (limbo_alike c0)).
  - destruct r; reflexivity.
  - cbn. rewrite undo_even, bind_om, om_bind. reflexivity.
Qed.

(** ** Looking at cards *)
Lemma card_at_fl p (f : frame C) : card_at_place (fl_place p) (fl_frame f) = card_at_place p f.
Proof.
  unfold card_at_place. flat. cbn [fl_frame f_lay f_heap]. rewrite has_card_fl. apply bind_ext; [reflexivity|intros _].
  apply bind_ext; [reflexivity|intros h]. apply bind_ext; [reflexivity|intros _]. apply bind_ext; [|reflexivity].
  destruct (is_pile p).
  - rewrite pile_of_fl, bind_om. apply bind_ext; [reflexivity|intros r]. now rewrite get_pile_fl.
  - rewrite zone_of_fl, bind_om. apply bind_ext; [reflexivity|intros r]. now rewrite read_zone_fl.
Qed.
End Both.

Lemma query_fl u q (f : frame card) : parse_query u (fl_query q) (fl_frame f) = o_map (@fl_cf card N) (parse_query u q f).
Proof.
  unfold parse_query. cbn [fl_query qr_place qr_data]. cbn [fl_frame f_lay]. rewrite has_card_fl, om_bind.
  apply bind_ext; [reflexivity|intros h]. rewrite om_bind. apply bind_ext; [reflexivity|intros _].
  change {| f_next := f_next f; f_heap := f_heap f; f_lay := fl_lay (f_lay f) |} with (fl_frame f). rewrite card_at_fl, om_bind.
  apply bind_ext; [reflexivity|intros id]. cbn [fl_frame f_heap f_next f_lay]. rewrite om_bind.
  apply bind_ext; [reflexivity|intros c]. destruct (parse_data u (qr_data q) c) as [c' hits]. reflexivity.
Qed.
Lemma uquery_fl u q (w : limbo ucard) : uparse_query u (fl_query q) (fl_limbo w) = o_map (@fl_cw ucard N) (uparse_query u q w).
Proof.
  unfold uparse_query. cbn [fl_query qr_place qr_data]. rewrite lay_fl, has_card_fl, om_bind.
  apply bind_ext; [reflexivity|intros h]. rewrite om_bind. apply bind_ext; [reflexivity|intros _].
  change (lb_frame (fl_limbo w)) with (fl_frame (lb_frame w)). rewrite card_at_fl, om_bind.
  apply bind_ext; [reflexivity|intros id]. cbn [fl_frame f_heap]. rewrite om_bind.
  apply bind_ext; [reflexivity|intros c]. destruct (uparse_data u (qr_data q) c) as [c' hits]. reflexivity.
Qed.
