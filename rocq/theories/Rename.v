(** Nothing a frame does depends on the identities of its cards: on a frame
    whose cards all have other identities, every operation does the same. *)
From Verif Require Import Base Place Frame FrameSpec Msg Event Query UReplaySpec LateSpec.

Set Implicit Arguments.
Local Open Scope N_scope.

(** ** Outcomes *)
Definition orel {A B} (R : A -> B -> Prop) (x : outcome A) (y : outcome B) : Prop := ends_alike R x y.

Lemma orel_bind : forall {A A' B B'} (R : A -> A' -> Prop) (S : B -> B' -> Prop) x x' k k',
  orel R x x' -> (forall a a', R a a' -> orel S (k a) (k' a')) -> orel S (obind x k) (obind x' k').
Proof. intros A A' B B' R S [] [] k k' H K; cbn in *; auto; try contradiction. Qed.

Lemma orel_same : forall {A} (x : outcome A), orel eq x x.
Proof. intros A []; cbn; auto. Qed.

Lemma orel_bind_same : forall {A B B'} (S : B -> B' -> Prop) (x : outcome A) k k',
  (forall a, orel S (k a) (k' a)) -> orel S (obind x k) (obind x k').
Proof. intros. apply orel_bind with (R := eq); [apply orel_same|]. intros a ? <-. auto. Qed.

Lemma orel_fold : forall {A B B'} (R : B -> B' -> Prop) (g : A -> B -> outcome B) g' l x y,
  (forall a x y, R x y -> orel R (g a x) (g' a y)) -> R x y -> orel R (ofold g l x) (ofold g' l y).
Proof.
  intros A B B' R g g' l. induction l as [|a l IH]; intros x y G H; cbn; [exact H|].
  apply orel_bind with (R := R); [now apply G|]. intros. now apply IH.
Qed.

Section Rho.
Variable rho : N -> N.

Definition rp (p : ptr) : ptr := option_map rho p.
Definition rl (l : list ptr) : list ptr := map rp l.
Definition rz (z : zone) : zone := mkZone (rp (z_card z)) (rl (z_mats z)).
Definition rs (s : side) : side :=
  mkSide (map rz (s_monster s)) (map rz (s_spell s)) (map rz (s_field s)) (map rz (s_pend s)) (map rz (s_skill s)).
Definition r2 {A} (g : A -> A) (x : A * A) : A * A := (g (fst x), g (snd x)).
Definition rL (L : layout) : layout :=
  mkLayout (r2 rl (l_main L)) (r2 rl (l_hand L)) (r2 rl (l_grave L)) (r2 rl (l_ban L)) (r2 rl (l_extra L))
    (r2 rs (l_field L)).

(** The graphs. *)
Definition gL (L L' : layout) : Prop := L' = rL L.
Definition gl (l l' : list ptr) : Prop := l' = rl l.
Definition gp (p p' : ptr) : Prop := p' = rp p.
Definition gz (z z' : zone) : Prop := z' = rz z.
Definition gi (i i' : cid) : Prop := i' = rho i.
Definition gcl (x x' : ptr * list ptr) : Prop := x' = (rp (fst x), rl (snd x)).
Definition giL (x x' : cid * layout) : Prop := x' = (rho (fst x), rL (snd x)).

Lemma get_mpile_r : forall l L, get_mpile l (rL L) = r2 rl (get_mpile l L).
Proof. intros []; reflexivity. Qed.
Lemma set_mpile_r : forall l m L, set_mpile l (r2 rl m) (rL L) = rL (set_mpile l m L).
Proof. intros [] m []; reflexivity. Qed.
Lemma get_pile_r : forall r L, get_pile r (rL L) = rl (get_pile r L).
Proof. intros [[] l] L; unfold get_pile; cbn; rewrite get_mpile_r; reflexivity. Qed.
Lemma set_pile_r : forall r l L, set_pile r (rl l) (rL L) = rL (set_pile r l L).
Proof.
  intros [[] p] l L; unfold set_pile; cbn; rewrite get_mpile_r, <- set_mpile_r; reflexivity.
Qed.
Lemma get_zones_r : forall z s, get_zones z (rs s) = map rz (get_zones z s).
Proof. intros [] []; reflexivity. Qed.
Lemma set_zones_r : forall z l s, set_zones z (map rz l) (rs s) = rs (set_zones z l s).
Proof. intros [] l []; reflexivity. Qed.
Lemma nth_map : forall {A B} (g : A -> B) l i, nth_error (map g l) i = option_map g (nth_error l i).
Proof. intros A B g l. induction l; intros []; cbn; auto. Qed.
Lemma upd_map : forall {A B} (g : A -> B) l i v, upd i (g v) (map g l) = map g (upd i v l).
Proof. intros A B g l. induction l; intros [] v; cbn; auto. now rewrite IHl. Qed.
Lemma field_r : forall c L, sel c (l_field (rL L)) = rs (sel c (l_field L)).
Proof. intros [] []; reflexivity. Qed.
Lemma get_zone_r : forall r L, get_zone r (rL L) = option_map rz (get_zone r L).
Proof. intros [[c z] i] L. unfold get_zone. now rewrite field_r, get_zones_r, nth_map. Qed.
Lemma set_field_r : forall c s L, set_field (put2 c (rs s) (l_field (rL L))) (rL L) = rL (set_field (put2 c s (l_field L)) L).
Proof. intros [] s []; reflexivity. Qed.
Lemma set_zone_r : forall r v L, set_zone r (rz v) (rL L) = rL (set_zone r v L).
Proof.
  intros [[c z] i] v L. unfold set_zone. rewrite field_r, get_zones_r, upd_map, set_zones_r. apply set_field_r.
Qed.
Lemma set_zone_mk : forall r c m L, set_zone r (mkZone (rp c) (rl m)) (rL L) = rL (set_zone r (mkZone c m) L).
Proof. intros. apply (set_zone_r r (mkZone c m)). Qed.
Lemma set_zone_no : forall r m L, set_zone r (mkZone None (rl m)) (rL L) = rL (set_zone r (mkZone None m) L).
Proof. intros. apply (set_zone_r r (mkZone None m)). Qed.
Lemma set_zone_so : forall r i m L, set_zone r (mkZone (Some (rho i)) (rl m)) (rL L) = rL (set_zone r (mkZone (Some i) m) L).
Proof. intros. apply (set_zone_r r (mkZone (Some i) m)). Qed.
Lemma len_r : forall l, lenN (rl l) = lenN l.
Proof. intros. unfold lenN, rl. now rewrite map_length. Qed.
Lemma length_r : forall l, length (rl l) = length l.
Proof. intros. apply map_length. Qed.
Lemma null_r : forall p, is_null (rp p) = is_null p.
Proof. intros []; reflexivity. Qed.
Lemma nil_r : forall l, is_nil (rl l) = is_nil l.
Proof. intros []; reflexivity. Qed.
Lemma remove_nth_r : forall l i, remove_nth i (rl l) = rl (remove_nth i l).
Proof. induction l; intros []; cbn; auto. f_equal. apply IHl. Qed.
Lemma insert_nth_r : forall l i c, insert_nth i (rp c) (rl l) = rl (insert_nth i c l).
Proof. induction l; intros [] c; cbn; auto. f_equal. apply IHl. Qed.
Lemma nth_r : forall l i, nth_error (rl l) i = option_map rp (nth_error l i).
Proof. intros. apply nth_map. Qed.
Lemma upd_r : forall l i v, upd i (rp v) (rl l) = rl (upd i v l).
Proof. intros. apply upd_map. Qed.
Lemma firstn_r : forall l n, firstn n (rl l) = rl (firstn n l).
Proof. intros. unfold rl. apply firstn_map. Qed.
Lemma skipn_r : forall l n, skipn n (rl l) = rl (skipn n l).
Proof. intros. unfold rl. now rewrite skipn_map. Qed.
Lemma app_r : forall a b, rl a ++ rl b = rl (a ++ b).
Proof. intros. unfold rl. now rewrite map_app. Qed.
Lemma rev_r : forall l, rev (rl l) = rl (rev l).
Proof. intros. unfold rl. now rewrite map_rev. Qed.

Lemma verify_r : forall l, verify_pile (rl l) = verify_pile l.
Proof.
  intros l. unfold verify_pile. f_equal. induction l as [|c l IH]; [reflexivity|].
  change (rl (c :: l)) with (rp c :: rl l). cbn [forallb]. now rewrite null_r, IH.
Qed.
Lemma read_zone_r : forall r L, orel gz (read_zone r L) (read_zone r (rL L)).
Proof. intros. unfold read_zone. rewrite get_zone_r. destruct (get_zone r L); reflexivity. Qed.
Lemma deref_r : forall p, orel gi (deref p) (deref (rp p)).
Proof. intros []; reflexivity. Qed.

Lemma has_card_r : forall p L, has_card p (rL L) = has_card p L.
Proof.
  intros p L. unfold has_card. destruct (assert_ _) as [[]| | |]; cbn [obind]; auto.
  destruct (is_pile p).
  - destruct (pile_of p); cbn [obind]; auto. now rewrite get_pile_r, len_r.
  - destruct (assert_ _) as [[]| | |]; cbn [obind]; auto.
    destruct (zone_seq_lim _); cbn [obind]; auto. destruct (assert_ _) as [[]| | |]; cbn [obind]; auto.
    destruct (zone_of p); cbn [obind]; auto. unfold read_zone. rewrite get_zone_r.
    destruct (get_zone a0 L); cbn [option_map or_ub obind]; auto. cbn [rz z_card z_mats].
    now rewrite null_r, len_r.
Qed.

Lemma take_r : forall l i, orel gcl (take_at l i) (take_at (rl l) i).
Proof.
  intros. unfold take_at. rewrite len_r. apply orel_bind_same. intros _.
  apply orel_bind with (R := gp).
  { rewrite nth_r. destruct (nth_error l (N.to_nat i)); reflexivity. }
  intros c ? ->. rewrite null_r. apply orel_bind_same. intros _. cbn. unfold gcl. cbn. now rewrite remove_nth_r.
Qed.
Lemma insert_r : forall l i c, orel gl (insert_at l i c) (insert_at (rl l) i (rp c)).
Proof.
  intros. unfold insert_at. rewrite len_r, null_r. do 2 (apply orel_bind_same; intros _). cbn. unfold gl.
  apply insert_nth_r.
Qed.
Lemma nth_ptr_r : forall l i, orel gp (nth_ptr l i) (nth_ptr (rl l) i).
Proof.
  intros. unfold nth_ptr. rewrite len_r, nth_r. destruct (i <? lenN l); [|reflexivity].
  destruct (nth_error l (N.to_nat i)); reflexivity.
Qed.

Ltac rn := repeat (rewrite ?get_pile_r, ?set_pile_r, ?set_zone_mk, ?set_zone_no, ?set_zone_so, ?len_r, ?null_r, ?nil_r, ?verify_r, ?upd_r,
  ?has_card_r; cbn [z_card z_mats rz fst snd]).
(** One step on both sides. *)
Ltac go := rn;
  match goal with
  | |- orel _ (Ok _) (Ok _) => cbn; unfold gL, gl, gp, gz, gi, gcl, giL; cbn; rn; reflexivity
  | |- orel _ UB UB => exact I
  | |- orel _ Abort Abort => exact I
  | |- orel _ (obind (read_zone ?r ?L) _) (obind (read_zone ?r (rL ?L)) _) =>
      apply orel_bind with (R := gz); [apply read_zone_r|intros ? ? ->]
  | |- orel _ (obind (take_at ?l ?i) _) (obind (take_at (rl ?l) ?i) _) =>
      apply orel_bind with (R := gcl); [apply take_r|intros [? ?] ? ->; cbn [fst snd]]
  | |- orel _ (obind (insert_at ?l ?i ?c) _) (obind (insert_at (rl ?l) ?i (rp ?c)) _) =>
      apply orel_bind with (R := gl); [apply insert_r|intros ? ? ->]
  | |- orel _ (obind (nth_ptr ?l ?i) _) (obind (nth_ptr (rl ?l) ?i) _) =>
      apply orel_bind with (R := gp); [apply nth_ptr_r|intros ? ? ->]
  | |- orel _ (nth_ptr ?l ?i) (nth_ptr (rl ?l) ?i) => apply nth_ptr_r
  | |- orel _ (obind (deref ?c) _) (obind (deref (rp ?c)) _) =>
      apply orel_bind with (R := gi); [apply deref_r|intros ? ? ->]
  | |- orel _ (obind ?x _) (obind ?x _) => apply orel_bind_same; intros ?
  | |- orel _ (if ?b then _ else _) (if ?b then _ else _) => destruct b
  | |- orel _ (let _ := _ in _) _ => cbv zeta
  | |- orel _ _ (let _ := _ in _) => cbv zeta
  end.

Lemma card_insert_r : forall p c L, orel gL (card_insert p c L) (card_insert p (rho c) (rL L)).
Proof.
  intros p c L. unfold card_insert. change (Some (rho c)) with (rp (Some c)). repeat go.
Qed.

Lemma card_erase_r : forall p L, orel giL (card_erase p L) (card_erase p (rL L)).
Proof.
  intros p L. unfold card_erase. destruct (is_pile p).
  - go. cbv zeta. rn. apply orel_bind with (R := gp).
    { rewrite nth_r. destruct (p_seq p <? _); [|reflexivity]. destruct (nth_error _ _); reflexivity. }
    intros x ? ->. go. rewrite remove_nth_r. go.
  - repeat go.
Qed.

Lemma card_move_r : forall a b L, orel giL (card_move a b L) (card_move a b (rL L)).
Proof.
  intros a b L. unfold card_move. repeat go.
  apply orel_bind with (R := fun x y : ptr * zone => y = (rp (fst x), rz (snd x))).
  - go; [cbn; reflexivity|]. go. cbn. reflexivity.
  - intros [x z] ? ->. cbn [fst snd]. rewrite set_zone_r. repeat go.
Qed.

Lemma swap_zones_r : forall a b L, orel gL (swap_zones a b L) (swap_zones a b (rL L)).
Proof.
  intros a b L. unfold swap_zones. do 2 go. cbn. unfold gL. now rewrite !set_zone_r.
Qed.

Lemma shuffle_seqs_r : forall prev L, shuffle_seqs prev (rL L) = shuffle_seqs prev L.
Proof. induction prev as [|p prev IH]; intros L; cbn; [reflexivity|]. now rewrite has_card_r, IH. Qed.

Lemma shuffle_loop_r : forall todo i cur seqs L,
  orel gL (shuffle_loop todo i cur seqs L) (shuffle_loop todo i cur seqs (rL L)).
Proof.
  induction todo as [|todo IH]; intros i cur seqs L; cbn [shuffle_loop]; [reflexivity|].
  destruct cur as [|p cur]; [exact Logic.I|]. destruct (is_empty p); [apply IH|]. do 3 go.
  apply orel_bind with (R := gL); [apply swap_zones_r|]. intros L1 ? ->. apply IH.
Qed.

Lemma card_shuffle_r : forall prev cur L, orel gL (card_shuffle prev cur L) (card_shuffle prev cur (rL L)).
Proof.
  intros [|p prev] cur L; [exact Logic.I|]. unfold card_shuffle. do 2 go. rewrite shuffle_seqs_r. go.
  apply shuffle_loop_r.
Qed.

Lemma read_lval_r : forall v L, orel gp (read_lval v L) (read_lval v (rL L)).
Proof. intros [] L; cbn [read_lval]; repeat go. Qed.
Lemma write_lval_r : forall v c L, orel gL (write_lval v c L) (write_lval v (rp c) (rL L)).
Proof. intros [] c L; cbn [write_lval]; repeat go. Qed.
Lemma swap_lval_r : forall a b L, orel gL (swap_lval a b L) (swap_lval a b (rL L)).
Proof.
  intros a b L. unfold swap_lval.
  apply orel_bind with (R := gp); [apply read_lval_r|intros ? ? ->].
  apply orel_bind with (R := gp); [apply read_lval_r|intros ? ? ->].
  apply orel_bind with (R := gL); [apply write_lval_r|intros ? ? ->]. apply write_lval_r.
Qed.
Lemma mats_empty_r : forall p L, mats_empty p (rL L) = mats_empty p L.
Proof.
  intros. unfold mats_empty. destruct (zone_of p); cbn [obind]; auto. unfold read_zone. rewrite get_zone_r.
  destruct (get_zone a L); cbn; auto. now rewrite nil_r.
Qed.

Lemma card_swap_r : forall a b L, orel gL (card_swap a b L) (card_swap a b (rL L)).
Proof.
  intros a b L. unfold card_swap. rewrite !mats_empty_r. repeat (go || apply swap_lval_r).
  apply orel_bind with (R := gL); [apply swap_lval_r|intros L1 ? ->]. repeat go.
Qed.

Lemma pile_splice_r : forall a n b rv L, orel gL (pile_splice a n b rv L) (pile_splice a n b rv (rL L)).
Proof.
  intros a n b rv L. unfold pile_splice.
  do 4 go. cbv zeta.
  assert (X : (if rv then rev (firstn (N.to_nat n) (skipn (N.to_nat (p_seq a)) (rl (get_pile a2 L))))
               else firstn (N.to_nat n) (skipn (N.to_nat (p_seq a)) (rl (get_pile a2 L)))) =
              rl (if rv then rev (firstn (N.to_nat n) (skipn (N.to_nat (p_seq a)) (get_pile a2 L)))
               else firstn (N.to_nat n) (skipn (N.to_nat (p_seq a)) (get_pile a2 L)))).
  { destruct rv; rewrite ?skipn_r, ?firstn_r, ?rev_r; reflexivity. }
  rn. rewrite X. rewrite !firstn_r, !skipn_r, !app_r. rn.
  set (cc := if rv then _ else _). clearbody cc. do 3 go.
  - rewrite !firstn_r, !skipn_r, !app_r. rn. repeat go.
  - go.
Qed.

Lemma pile_swap_r : forall a b L, orel gL (pile_swap a b L) (pile_swap a b (rL L)).
Proof. intros a b L. unfold pile_swap. repeat go. Qed.

(** ** With cards *)
Hypothesis inj : forall i j, rho i = rho j -> i = j.
Variable C : Type.
Variable c0 : C.

Definition rh (h : list (cid * C)) : list (cid * C) := map (fun x => (rho (fst x), snd x)) h.

Lemma eqb_r : forall i j, (rho i =? rho j) = (i =? j).
Proof.
  intros. destruct (N.eqb_spec i j) as [->|N]; [apply N.eqb_refl|]. apply N.eqb_neq. intros H. apply N. now apply inj.
Qed.
Lemma heap_get_r : forall i h, heap_get (rho i) (rh h) = heap_get i h.
Proof. intros i h. induction h as [|[j c] h IH]; cbn; [reflexivity|]. rewrite eqb_r. now destruct (j =? i). Qed.
Lemma heap_set_r : forall i v h, heap_set (rho i) v (rh h) = rh (heap_set i v h).
Proof. intros i v h. induction h as [|[j c] h IH]; cbn; [reflexivity|]. rewrite eqb_r. destruct (j =? i); cbn; [reflexivity|]. f_equal. exact IH. Qed.
Lemma heap_remove_r : forall i h, heap_remove (rho i) (rh h) = option_map rh (heap_remove i h).
Proof.
  intros i h. induction h as [|[j c] h IH]; cbn; [reflexivity|]. rewrite eqb_r. destruct (j =? i); cbn; [reflexivity|].
  fold (rh h). rewrite IH. now destruct (heap_remove i h).
Qed.

End Rho.

Arguments rh rho {C} h.

(** ** Frames whose identities are all [d] higher *)
Section Shift.
Variable d : N.
Notation rho := (fun i : N => i + d).
Variable C : Type.
Variable c0 : C.

Definition rf (f : frame C) : frame C := mkFrame (f_next f + d) (rh rho (f_heap f)) (rL rho (f_lay f)).
Definition gf (f g : frame C) : Prop := g = rf f.

Lemma shift_inj : forall i j : N, i + d = j + d -> i = j.
Proof. intros. lia. Qed.

Lemma lift_r : forall op, (forall L, orel (gL rho) (op L) (op (rL rho L))) ->
  forall f : frame C, orel gf (lift op f) (lift op (rf f)).
Proof.
  intros op H f. unfold lift. apply orel_bind with (R := gL rho); [apply H|]. intros L ? ->. reflexivity.
Qed.

Lemma construct_r : forall f, construct_card c0 (rf f) = (fst (construct_card c0 f) + d, rf (snd (construct_card c0 f))).
Proof. intros f. unfold construct_card, rf. cbn. do 2 f_equal. lia. Qed.

Lemma destruct_r : forall i f, orel gf (destruct_card i f) (destruct_card (i + d) (rf f)).
Proof.
  intros i f. unfold destruct_card. cbn [rf f_heap f_next f_lay].
  rewrite (@heap_remove_r rho shift_inj C i (f_heap f)). destruct (heap_remove i (f_heap f)); reflexivity.
Qed.

Lemma card_add_r : forall p f, orel (fun x y => gf (snd x) (snd y)) (card_add c0 p f) (card_add c0 p (rf f)).
Proof.
  intros p f. unfold card_add. rewrite construct_r. destruct (construct_card c0 f) as [c f1] eqn:E. cbn [fst snd].
  apply orel_bind with (R := gL rho); [apply (@card_insert_r rho p c (f_lay f1))|]. intros L ? ->. reflexivity.
Qed.

Lemma card_remove_r : forall p f, orel gf (card_remove p f) (card_remove p (rf f)).
Proof.
  intros p f. unfold card_remove. cbn [rf f_lay]. rewrite has_card_r. do 2 (apply orel_bind_same; intros ?).
  apply orel_bind with (R := giL rho); [apply card_erase_r|]. intros [c L] ? ->. cbn [fst snd].
  apply (destruct_r c (with_lay f L)).
Qed.

Lemma f_move_r : forall a b f,
  orel (fun x y => gf (snd x) (snd y)) (f_card_move a b f) (f_card_move a b (rf f)).
Proof.
  intros a b f. unfold f_card_move. cbn [rf f_lay f_heap].
  apply orel_bind with (R := giL rho); [apply card_move_r|]. intros [c L] ? ->. cbn [fst snd].
  rewrite (@heap_get_r rho shift_inj C c (f_heap f)). apply orel_bind_same. intros _. reflexivity.
Qed.

Lemma grow_r : forall n r f, grow_pile c0 n r (rf f) = rf (grow_pile c0 n r f).
Proof.
  induction n as [|n IH]; intros r f; cbn [grow_pile]; [reflexivity|]. rewrite construct_r.
  destruct (construct_card c0 f) as [c f1]. cbn [fst snd]. rewrite <- IH. f_equal.
  unfold with_lay, rf. cbn. f_equal. rewrite get_pile_r, <- set_pile_r. f_equal.
  change [Some (c + d)] with (rl rho [Some c]). now rewrite app_r.
Qed.

Lemma shrink_r : forall n r f, orel gf (shrink_pile n r f) (shrink_pile n r (rf f)).
Proof.
  induction n as [|n IH]; intros r f; cbn [shrink_pile]; [reflexivity|].
  cbn [rf f_lay]. rewrite get_pile_r, length_r. apply orel_bind with (R := gp rho).
  { rewrite nth_r. destruct (nth_error _ _); reflexivity. }
  intros c ? ->. apply orel_bind with (R := gi rho); [apply deref_r|]. intros i ? ->.
  apply orel_bind with (R := gf); [apply destruct_r|]. intros f1 ? ->.
  rewrite firstn_r. cbn [rf f_lay]. rewrite set_pile_r. apply (IH r (with_lay f1 _)).
Qed.

Lemma resize_r : forall p n f, orel gf (pile_resize c0 p n f) (pile_resize c0 p n (rf f)).
Proof.
  intros p n f. unfold pile_resize. do 2 (apply orel_bind_same; intros ?). cbv zeta. cbn [rf f_lay].
  rewrite get_pile_r, len_r. apply orel_bind with (R := gf).
  - destruct (_ <? n); [cbn; unfold gf; apply grow_r|]. destruct (n <? _); [apply shrink_r|reflexivity].
  - intros f1 ? ->. cbn [rf f_lay]. rewrite get_pile_r, verify_r. apply orel_bind_same. reflexivity.
Qed.

Lemma destruct_all_r : forall l f, orel gf (destruct_all l f) (destruct_all (rl rho l) (rf f)).
Proof.
  induction l as [|c l IH]; intros f; cbn [destruct_all]; [reflexivity|].
  change (rl rho (c :: l)) with (rp rho c :: rl rho l). cbn [destruct_all].
  apply orel_bind with (R := gi rho); [apply deref_r|]. intros i ? ->.
  apply orel_bind with (R := gf); [apply destruct_r|]. intros f1 ? ->. apply IH.
Qed.

Lemma clear_pile_r : forall r f, orel gf (clear_pile r f) (clear_pile r (rf f)).
Proof.
  intros r f. unfold clear_pile. cbn [rf f_lay]. rewrite get_pile_r.
  apply orel_bind with (R := gf); [apply destruct_all_r|]. intros f1 ? ->. cbn. unfold gf, rf, with_lay. cbn.
  f_equal. apply (set_pile_r rho r []).
Qed.

Lemma clear_zone_r : forall r f, orel gf (clear_zone r f) (clear_zone r (rf f)).
Proof.
  intros r f. unfold clear_zone. cbn [rf f_lay].
  apply orel_bind with (R := gz rho); [apply read_zone_r|]. intros z ? ->. cbn [rz z_card z_mats].
  apply orel_bind with (R := gf). { destruct (z_card z); [apply destruct_r|reflexivity]. }
  intros f1 ? ->. apply orel_bind with (R := gf); [apply destruct_all_r|]. intros f2 ? ->.
  cbn. unfold gf, rf, with_lay. cbn. f_equal. apply (set_zone_r rho r zone0).
Qed.

Lemma clear_r : forall f, orel gf (clear f) (clear (rf f)).
Proof.
  intros f. unfold clear. apply orel_bind with (R := gf).
  - apply orel_fold; [|reflexivity]. intros r x ? ->. apply clear_pile_r.
  - intros x ? ->. apply orel_fold; [|reflexivity]. intros r y ? ->. apply clear_zone_r.
Qed.

(** ** Events *)
Definition rb (b : pboard C) : pboard C := set_frame (rf (b_frame b)) b.
Definition gb (a b : pboard C) : Prop := b = rb a.

Lemma on_frame_r : forall g : frame C -> outcome (frame C), (forall f, orel gf (g f) (g (rf f))) ->
  forall b : pboard C, orel gb (on_frame g b) (on_frame g (rb b)).
Proof.
  intros g H b. unfold on_frame. apply orel_bind with (R := gf); [apply H|]. intros f ? ->. reflexivity.
Qed.

Lemma fold_r : forall {A} (g : A -> frame C -> outcome (frame C)), (forall a f, orel gf (g a f) (g a (rf f))) ->
  forall l f, orel gf (ofold g l f) (ofold g l (rf f)).
Proof. intros A g H l f. apply orel_fold; [|reflexivity]. intros a x ? ->. apply H. Qed.

Lemma adds_r : forall l f, orel gf (do_adds (plain_fo c0) l f) (do_adds (plain_fo c0) l (rf f)).
Proof.
  intros. apply fold_r. intros p x. cbn [fo_add plain_fo].
  apply orel_bind with (R := fun x y => gf (snd x) (snd y)); [apply card_add_r|]. intros [] []. cbn. auto.
Qed.
Lemma removes_r : forall l f, orel gf (do_removes (plain_fo c0) l f) (do_removes (plain_fo c0) l (rf f)).
Proof. intros. apply fold_r. intros p x. apply card_remove_r. Qed.
Lemma resizes_r : forall l f, orel gf (do_resizes (plain_fo c0) l f) (do_resizes (plain_fo c0) l (rf f)).
Proof. intros. apply fold_r. intros p x. apply resize_r. Qed.

Lemma parse_r : forall e b, orel gb (pparse c0 e b) (pparse c0 e (rb b)).
Proof.
  intros e b. unfold pparse. destruct e as [|[|x|s]|rs [|l|l|l|l|p c]|[|c|x]|con|w mr ft|con t|m|ph|rs [|l|x|l]|r|l]; cbn [parse_event];
    try (reflexivity).
  - apply (@on_frame_r (fun f => _)). intros f.
    apply orel_bind with (R := gf); [apply resizes_r|intros f1 ? ->].
    apply orel_bind with (R := gf); [apply removes_r|intros f2 ? ->]. apply adds_r.
  - unfold parse_state. cbv zeta. destruct (0 <=? bs_turn_counter s)%Z;
    (apply orel_bind_same; intros l0; unfold assign_lp; change (lp_index 0) with (Ok false); change (lp_index 1) with (Ok true); cbn [obind];
      destruct (nth_error (bs_lps s) 1) as [l1|]; cbn [or_ub obind]; [|exact Logic.I]).
    + match goal with |- orel _ (on_frame ?g ?x) _ => change (orel gb (on_frame g x) (on_frame g (rb x))) end.
      apply on_frame_r. intros f.
      apply orel_bind with (R := gf); [apply clear_r|intros f1 ? ->].
      apply orel_bind with (R := gf); [apply adds_r|intros f2 ? ->]. apply resizes_r.
    + match goal with |- orel _ (on_frame ?g ?x) _ => change (orel gb (on_frame g x) (on_frame g (rb x))) end.
      apply on_frame_r. intros f.
      apply orel_bind with (R := gf); [apply clear_r|intros f1 ? ->].
      apply orel_bind with (R := gf); [apply adds_r|intros f2 ? ->]. apply resizes_r.
  - apply on_frame_r. apply adds_r.
  - apply on_frame_r. unfold do_swaps. apply fold_r. intros o f. apply lift_r. intros. apply card_swap_r.
  - apply on_frame_r. unfold do_moves. apply fold_r. intros o f. cbn [fo_move plain_fo].
    apply orel_bind with (R := fun x y => gf (snd x) (snd y)); [apply f_move_r|]. intros [] []. cbn. auto.
  - apply on_frame_r. apply removes_r.
  - apply on_frame_r. intros f. apply lift_r. intros. apply card_shuffle_r.
  - cbn [rb set_frame b_chain]. apply orel_bind_same. reflexivity.
  - do 2 (apply orel_bind_same; intros ?). reflexivity.
  - apply on_frame_r. unfold do_pile_swaps. apply fold_r. intros o f. apply lift_r. intros. apply pile_swap_r.
  - apply on_frame_r. unfold do_splices. apply fold_r. intros o f. apply lift_r. intros. apply pile_splice_r.
Qed.
End Shift.

Arguments gb d {C} a b.
Arguments rb d {C} b.

(** ** Queries and recordings *)
Section Play.
Variable d : N.
Notation rho := (fun i : N => i + d).

Lemma card_at_r : forall C p (f : frame C), orel (gi rho) (card_at_place p f) (card_at_place p (rf d f)).
Proof.
  intros C p f. unfold card_at_place. cbn [rf f_lay f_heap]. rewrite has_card_r.
  do 3 (apply orel_bind_same; intros ?).
  apply orel_bind with (R := gp rho).
  - destruct (is_pile p); apply orel_bind_same; intros r.
    + rewrite get_pile_r. apply nth_ptr_r.
    + apply orel_bind with (R := gz rho); [apply read_zone_r|]. intros z ? ->.
      destruct (not_mat p); [reflexivity|]. apply nth_ptr_r.
  - intros c ? ->. apply orel_bind with (R := gi rho); [apply deref_r|]. intros i ? ->.
    unfold gi. rewrite (@heap_get_r rho (@shift_inj d) C i (f_heap f)). apply orel_bind_same. reflexivity.
Qed.

Lemma query_r : forall use q f, orel (fun x y => fst x = fst y /\ gf d (snd x) (snd y))
  (parse_query use q f) (parse_query use q (rf d f)).
Proof.
  intros use q f. unfold parse_query. cbn [rf f_lay f_heap f_next]. rewrite has_card_r.
  do 2 (apply orel_bind_same; intros ?).
  apply orel_bind with (R := gi rho); [apply (card_at_r (qr_place q) f)|]. intros i ? ->. unfold gi.
  rewrite (@heap_get_r rho (@shift_inj d) card i (f_heap f)). apply orel_bind_same. intros c.
  destruct (parse_data use (qr_data q) c) as [c' hits]. cbn. split; [reflexivity|]. unfold gf, rf. cbn.
  now rewrite (@heap_set_r rho (@shift_inj d) card i c' (f_heap f)).
Qed.

Lemma pplay_r : forall use s b, orel (fun x y => fst x = fst y /\ gb d (snd x) (snd y)) (pplay use s b) (pplay use s (rb d b)).
Proof.
  intros use [e|q] b; cbn [pplay].
  - apply orel_bind with (R := gb d); [apply parse_r|]. intros b1 ? ->. cbn. split; reflexivity.
  - cbn [rb set_frame b_frame]. eapply orel_bind; [apply query_r|]. intros [h f] [h' f'] [E G]. cbn [fst snd] in *.
    subst h'. rewrite G. split; reflexivity.
Qed.

Lemma pplay_all_r : forall use ss b, orel (gb d) (pplay_all use ss b) (pplay_all use ss (rb d b)).
Proof.
  intros use ss b. unfold pplay_all. apply orel_fold; [|reflexivity]. intros s x ? ->.
  eapply orel_bind; [apply pplay_r|]. intros [h y] [h' y'] [_ G]. exact G.
Qed.
End Play.

(** ** What is shown *)
Lemma contents_r : forall rho k L, contents k (rL rho L) = rl rho (contents k L).
Proof.
  intros rho [r|r|r] L; cbn [contents]; [apply get_pile_r| |]; rewrite get_zone_r; destruct (get_zone r L) as [z|];
    cbn; try reflexivity. destruct (z_card z); reflexivity.
Qed.
Lemma rf_alike : forall C d (f : frame C), alike f (rf d f).
Proof.
  intros C d f k. cbn [rf f_lay]. rewrite contents_r. unfold rl. rewrite map_map. apply map_ext. intros [i|]; cbn; [|reflexivity].
  symmetry. apply (@heap_get_r (fun i => i + d) (@shift_inj d) C i (f_heap f)).
Qed.
