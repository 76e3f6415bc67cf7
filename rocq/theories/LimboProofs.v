(** Proofs about limbo frames and undoable values. *)
From Verif Require Import Base BaseProofs Place PlaceProofs Frame FrameSpec FrameLens
  FrameProofs FrameMove FrameOps FramePiles FrameInv FrameShuffle FrameFacts Limbo LimboSpec.

(** ** Undoable values *)
Section Und.
Variable T : Type.
Implicit Types u : undoable T.

Definition uhist u : list T * nat := (rev (u_past u) ++ u_cur u :: u_next u, length (u_past u)).

Lemma uhist_step : forall a u,
  match ustep a u with
  | Ok u' => cursor_step a (uhist u) = Some (uhist u')
  | Abort => cursor_step a (uhist u) = None
  | _ => False
  end.
Proof.
  intros [v|] [p c n].
  - unfold ustep, u_set, uhist, cursor_step. cbn [u_past u_cur u_next].
    rewrite app_length, rev_length. cbn [length].
    destruct n as [|x n]; cbn [length u_past u_cur u_next rev].
    + destruct (Nat.eqb_spec (S (length p)) (length p + 1)); [reflexivity|lia].
    + destruct (Nat.eqb_spec (S (length p)) (length p + S (S (length n)))); [lia|].
      rewrite <- app_assoc. reflexivity.
  - unfold ustep, u_undo, uhist, cursor_step. cbn [u_past u_cur u_next].
    destruct p as [|x p]; cbn [length u_past u_cur u_next rev]; [reflexivity|].
    rewrite <- app_assoc. reflexivity.
Qed.

Lemma uhist_run : forall acts u,
  match urun acts u with
  | Ok u' => cursor_run acts (uhist u) = Some (uhist u')
  | Abort => cursor_run acts (uhist u) = None
  | _ => False
  end.
Proof.
  induction acts as [|a acts IH]; intros u; [reflexivity|].
  unfold urun in *. cbn [ofold cursor_run].
  pose proof (uhist_step a u) as St. destruct (ustep a u) as [u'| | |]; cbn [obind];
    try rewrite St; auto. apply IH.
Qed.

Lemma uhist_get : forall u, nth_error (fst (uhist u)) (snd (uhist u)) = Some (u_get u).
Proof.
  intros [p c n]. simpl. rewrite nth_error_app2; rewrite rev_length; [|lia].
  rewrite Nat.sub_diag. reflexivity.
Qed.

Lemma cursor_pos : forall acts (h : list T) i h' i',
  cursor_run acts (h, i) = Some (h', i') -> (i' + undos acts = i + sets acts)%nat.
Proof.
  induction acts as [|a acts IH]; intros h i h' i' H.
  - injection H as <- <-. simpl. lia.
  - cbn [cursor_run] in H. destruct a; unfold cursor_step in H.
    + destruct (Nat.eqb (S i) (length h)); apply IH in H; simpl; lia.
    + destruct i; [discriminate|]. apply IH in H. simpl. lia.
Qed.

Lemma cursor_prefix : forall acts (h : list T) i h' i',
  cursor_run acts (h, i) = Some (h', i') -> exists t, h' = h ++ t.
Proof.
  induction acts as [|a acts IH]; intros h i h' i' H.
  - injection H as <- <-. exists []. rewrite app_nil_r. auto.
  - cbn [cursor_run] in H. destruct a; unfold cursor_step in H.
    + destruct (Nat.eqb (S i) (length h)); apply IH in H; destruct H as [t ->]; eauto.
      rewrite <- app_assoc. eauto.
    + destruct i; [discriminate|]. apply IH in H. auto.
Qed.
End Und.

(** ** Limbo frames as tapes *)
Section Limbo.
Variable C : Type.
Variable c0 : C.
Implicit Types (w : limbo C) (h : list (N * C)) (L : layout) (P F : list lop).

(** Operations before the cursor, newest first, and after it. *)
Definition tape (nx : N) h L P F : limbo C :=
  mkLimbo (mkFrame nx h L) (length P) (length P + length F) (rev P ++ F).

Definition op_ok h (o : lop) : Prop :=
  match o with
  | CardOp None => False
  | CardOp (Some id) => In id (map fst h)
  | ResizeOp _ s => forall id, In (Some id) s -> In id (map fst h)
  | ClearOp L => lay_ok L /\ forall id, (0 < cntL L id)%nat -> In id (map fst h)
  end.

Record tape_ok (nx : N) h L P F : Prop := {
  to_lay : lay_ok L;
  to_cnt : forall id, (0 < cntL L id)%nat -> In id (map fst h);
  to_nodup : NoDup (map fst h);
  to_lt : forall id, In id (map fst h) -> (id < nx)%N;
  to_past : Forall (op_ok h) P;
  to_next : Forall (op_ok h) F
}.

Definition linv w : Prop := exists nx h L P F, w = tape nx h L P F /\ tape_ok nx h L P F.

Lemma current_op_tape : forall nx h L P F,
  current_op (tape nx h L P F) = match P with [] => UB | o :: _ => Ok o end.
Proof.
  intros. unfold current_op, tape. cbn [lb_op lb_ops]. rewrite app_length, rev_length.
  replace (Nat.leb (length P) (length P + length F)) with true
    by (symmetry; apply Nat.leb_le; lia). cbn [assert_ obind].
  destruct P as [|o P]; [reflexivity|]. cbn [length]. simpl rev. rewrite <- app_assoc.
  rewrite nth_error_app2; rewrite rev_length; [|lia]. rewrite Nat.sub_diag. reflexivity.
Qed.

Lemma set_current_op_tape : forall nx h L o' o P F,
  set_current_op o' (tape nx h L (o :: P) F) = tape nx h L (o' :: P) F.
Proof.
  intros. unfold set_current_op, tape. cbn [lb_op lb_ops lb_frame lb_processed length].
  f_equal. simpl rev. rewrite <- !app_assoc. simpl app.
  replace (S (length P) - 1)%nat with (length (rev P)) by (rewrite rev_length; lia).
  generalize (rev P). intros l. induction l; simpl; congruence.
Qed.

Lemma regress_op_tape : forall nx h L o P F,
  regress_op (tape nx h L (o :: P) F) = Ok (tape nx h L P (o :: F)).
Proof.
  intros. unfold regress_op, tape. cbn [lb_op lb_ops lb_frame lb_processed length]. f_equal.
  f_equal; try lia. simpl rev. rewrite <- app_assoc. reflexivity.
Qed.

Lemma regress_op_tape0 : forall nx h L F, regress_op (tape nx h L [] F) = Abort.
Proof. reflexivity. Qed.

Lemma lb_lay_tape : forall nx h L P F, lb_lay (tape nx h L P F) = L.
Proof. reflexivity. Qed.

Lemma lb_with_lay_tape : forall nx h L L' P F,
  lb_with_lay (tape nx h L P F) L' = tape nx h L' P F.
Proof. reflexivity. Qed.

Lemma lb_with_frame_tape : forall nx h L P F nx' h' L',
  lb_with_frame (tape nx h L P F) (mkFrame nx' h' L') = tape nx' h' L' P F.
Proof. reflexivity. Qed.

(** advance_op_ and, when processing, emplace_op_. *)
Definition halfway (nx : N) h L P F : limbo C :=
  mkLimbo (mkFrame nx h L) (S (length P)) (S (length P)) (rev P).

Lemma advance_op_end : forall nx h L P,
  advance_op (tape nx h L P []) = (true, halfway nx h L P []).
Proof.
  intros. unfold advance_op, tape, halfway. cbn [lb_op lb_ops lb_frame lb_processed length].
  rewrite Nat.add_0_r, Nat.eqb_refl, app_nil_r. reflexivity.
Qed.

Lemma emplace_halfway : forall nx h L P o,
  emplace_op o (halfway nx h L P []) = tape nx h L (o :: P) [].
Proof.
  intros. unfold emplace_op, halfway, tape. cbn [lb_op lb_ops lb_frame lb_processed length].
  rewrite app_nil_r, Nat.add_0_r. reflexivity.
Qed.

Lemma advance_op_redo : forall nx h L P o F,
  advance_op (tape nx h L P (o :: F)) = (false, tape nx h L (o :: P) F).
Proof.
  intros. unfold advance_op, tape. cbn [lb_op lb_ops lb_frame lb_processed length].
  replace (Nat.eqb (length P) (length P + S (length F))) with false
    by (symmetry; apply Nat.eqb_neq; lia).
  f_equal. f_equal; try lia. simpl rev. rewrite <- app_assoc. reflexivity.
Qed.

Lemma alive_tape : forall nx h L P F id,
  In id (map fst h) -> alive id (tape nx h L P F) = Ok tt.
Proof.
  intros. unfold alive, tape. cbn [lb_frame f_heap].
  apply heap_get_In in H. destruct (heap_get id h); [auto|congruence].
Qed.

Lemma alive_inv : forall nx h L P F id u,
  alive id (tape nx h L P F) = Ok u -> In id (map fst h).
Proof.
  intros. unfold alive, tape in H. cbn [lb_frame f_heap] in H.
  apply heap_get_In. destruct (heap_get id h); [congruence|discriminate].
Qed.

Lemma insert_has : forall p c L L', shape L -> card_insert p c L = Ok L' ->
  has_card p L' = Ok true.
Proof.
  intros p c L L' S H. pose proof (shape_insert _ _ _ _ S H) as S'.
  apply card_insert_slot in H; auto. destruct H as [k [i [Sl [Le [F ->]]]]].
  rewrite (has_card_slot _ _ _ _ S' Sl). f_equal. apply Nat.ltb_lt.
  rewrite contents_put_same; eauto using slot_valid.
  rewrite insert_nth_length. lia.
Qed.

Lemma erase_has : forall p c L L', shape L -> card_erase p L = Ok (c, L') ->
  has_card p L = Ok true.
Proof. intros p c L L' S H. apply insert_erase in H as H'; auto.
  apply (insert_has p c L' L); auto. eapply shape_erase; eauto. Qed.

Ltac tnorm :=
  repeat (match goal with
  | H : alive _ (tape _ _ _ _ _) = Ok _ |- _ => apply alive_inv in H
  | H : current_card _ = Ok _ |- _ => unfold current_card in H; rewrite current_op_tape in H
  | H : obind (Ok _) _ = Ok _ |- _ => cbn [obind] in H
  | H : obind UB _ = Ok _ |- _ => discriminate H
  | H : context [lb_lay (tape _ _ _ _ _)] |- _ => rewrite lb_lay_tape in H
  | H : context [lb_with_lay (tape _ _ _ _ _) _] |- _ => rewrite lb_with_lay_tape in H
  | H : context [set_current_op _ (tape _ _ _ (_ :: _) _)] |- _ => rewrite set_current_op_tape in H
  | H : regress_op (tape _ _ _ (_ :: _) _) = Ok _ |- _ => rewrite regress_op_tape in H
  | H : regress_op (tape _ _ _ [] _) = Ok _ |- _ => discriminate H
  | H : context [advance_op (tape _ _ _ _ (_ :: _))] |- _ => rewrite advance_op_redo in H
  | H : context [advance_op (tape _ _ _ _ [])] |- _ => rewrite advance_op_end in H
  | H : context [emplace_op _ (halfway _ _ _ _ _)] |- _ => rewrite emplace_halfway in H
  | H : match ?P with [] => UB | _ :: _ => _ end = Ok _ |- _ =>
      destruct P as [|?o ?P]; [discriminate H|]
  | H : obind (match ?P with [] => UB | _ :: _ => _ end) _ = Ok _ |- _ =>
      destruct P as [|?o ?P]; [discriminate H|]
  | H : match ?o with CardOp _ => _ | ResizeOp _ _ => _ | ClearOp _ => _ end = Ok _ |- _ =>
      destruct o; try discriminate H; []
  | H : obind (match ?o with CardOp _ => _ | ResizeOp _ _ => _ | ClearOp _ => _ end) _ = Ok _ |- _ =>
      destruct o; try discriminate H; []
  | H : context [@deref ?q] |- _ => destruct q; [unfold deref in H; cbn [or_ub obind] in H|discriminate H]
  | H : match ?q with Some _ => _ | None => false end = true |- _ => destruct q; [|discriminate H]
  | H : (_ =? _)%N = true |- _ => apply N.eqb_eq in H; try subst
  end; inv_ok).

(** *** Each operation on a tape *)
Lemma add_live : forall p nx h L P c w',
  l_card_add c0 p (tape nx h L P []) = Ok (c, w') <->
  exists L', card_insert p nx L = Ok L' /\ c = nx /\
    w' = tape (nx + 1) ((nx, c0) :: h) L' (CardOp (Some nx) :: P) [].
Proof.
  intros p nx h L P c w'. unfold l_card_add. rewrite advance_op_end. cbn [lb_frame halfway].
  unfold card_add, construct_card. cbn [f_next f_heap f_lay]. split.
  - intros H. inv_ok. exists r0. split; auto. split; auto. rewrite <- emplace_halfway. reflexivity.
  - intros [L' [E [-> ->]]]. rewrite E. cbn [obind]. rewrite <- emplace_halfway. reflexivity.
Qed.

Lemma add_redo : forall p nx h L P o F c w', shape L ->
  l_card_add c0 p (tape nx h L P (o :: F)) = Ok (c, w') <->
  exists L', o = CardOp (Some c) /\ In c (map fst h) /\ card_insert p c L = Ok L' /\
    w' = tape nx h L' (o :: P) F.
Proof.
  intros p nx h L P o F c w' S. unfold l_card_add. rewrite advance_op_redo.
  unfold current_card. rewrite current_op_tape. cbn [obind]. split.
  - intros H. tnorm. eauto 6.
  - intros [L' [-> [A [E ->]]]]. cbn [deref or_ub obind]. rewrite alive_tape by auto.
    cbn [obind]. rewrite lb_lay_tape, E. cbn [obind]. erewrite insert_has by eauto. reflexivity.
Qed.

Lemma undo_add : forall p nx h L P F c w', shape L ->
  l_undo_card_add p (tape nx h L P F) = Ok (c, w') <->
  exists L' P', P = CardOp (Some c) :: P' /\ In c (map fst h) /\ card_erase p L = Ok (c, L') /\
    w' = tape nx h L' P' (CardOp (Some c) :: F).
Proof.
  intros p nx h L P F c w' S. unfold l_undo_card_add. rewrite lb_lay_tape. split.
  - intros H. inv_ok. tnorm. eauto 8.
  - intros [L' [P' [-> [A [E ->]]]]]. erewrite erase_has by eauto. cbn [assert_ obind].
    rewrite E. cbn [obind]. rewrite alive_tape by auto. cbn [obind].
    unfold current_card. rewrite current_op_tape. cbn [obind]. rewrite N.eqb_refl.
    cbn [assert_ obind]. rewrite lb_with_lay_tape, regress_op_tape. reflexivity.
Qed.

Lemma remove_live : forall p nx h L P w', shape L ->
  l_card_remove p (tape nx h L P []) = Ok w' <->
  exists c L', card_erase p L = Ok (c, L') /\ In c (map fst h) /\
    w' = tape nx h L' (CardOp (Some c) :: P) [].
Proof.
  intros p nx h L P w' S. unfold l_card_remove. rewrite lb_lay_tape. split.
  - intros H. inv_ok. tnorm. rewrite emplace_halfway. eauto 6.
  - intros [c [L' [E [A ->]]]]. erewrite erase_has by eauto. cbn [assert_ obind].
    rewrite E. cbn [obind]. rewrite alive_tape by auto. cbn [obind].
    rewrite lb_with_lay_tape, advance_op_end, emplace_halfway. reflexivity.
Qed.

Lemma remove_redo : forall p nx h L P o F w', shape L ->
  l_card_remove p (tape nx h L P (o :: F)) = Ok w' <->
  exists c L', o = CardOp (Some c) /\ card_erase p L = Ok (c, L') /\ In c (map fst h) /\
    w' = tape nx h L' (o :: P) F.
Proof.
  intros p nx h L P o F w' S. unfold l_card_remove. rewrite lb_lay_tape. split.
  - intros H. inv_ok. tnorm. eauto 8.
  - intros [c [L' [-> [E [A ->]]]]]. erewrite erase_has by eauto. cbn [assert_ obind].
    rewrite E. cbn [obind]. rewrite alive_tape by auto. cbn [obind].
    rewrite lb_with_lay_tape, advance_op_redo. unfold current_card. rewrite current_op_tape.
    cbn [obind]. rewrite N.eqb_refl. reflexivity.
Qed.

Lemma undo_remove : forall p nx h L P F c w', shape L ->
  l_undo_card_remove p (tape nx h L P F) = Ok (c, w') <->
  exists L' P', P = CardOp (Some c) :: P' /\ In c (map fst h) /\ card_insert p c L = Ok L' /\
    w' = tape nx h L' P' (CardOp (Some c) :: F).
Proof.
  intros p nx h L P F c w' S. unfold l_undo_card_remove, current_card.
  rewrite current_op_tape. split.
  - intros H. tnorm. eauto 8.
  - intros [L' [P' [-> [A [E ->]]]]]. cbn [deref or_ub obind]. rewrite alive_tape by auto.
    cbn [obind]. rewrite lb_lay_tape, E. cbn [obind]. rewrite lb_with_lay_tape, regress_op_tape.
    cbn [obind]. rewrite lb_lay_tape. erewrite insert_has by eauto. reflexivity.
Qed.

Lemma clear_live : forall nx h L P,
  l_clear (tape nx h L P []) = Ok (tape nx h layout0 (ClearOp L :: P) []).
Proof.
  intros. unfold l_clear. rewrite advance_op_end, emplace_halfway. cbn [obind].
  rewrite lb_lay_tape, set_current_op_tape. reflexivity.
Qed.

Lemma clear_redo : forall nx h L P o F w',
  l_clear (tape nx h L P (o :: F)) = Ok w' <->
  exists L', o = ClearOp L' /\ w' = tape nx h L' (ClearOp L :: P) F.
Proof.
  intros. unfold l_clear. rewrite advance_op_redo. unfold current_clear.
  rewrite current_op_tape. cbn [obind]. split.
  - intros H. inv_ok. tnorm. rewrite set_current_op_tape. eauto.
  - intros [L' [-> ->]]. cbn [obind]. rewrite set_current_op_tape. reflexivity.
Qed.

Lemma undo_clear : forall nx h L P F w',
  l_undo_clear (tape nx h L P F) = Ok w' <->
  exists L' P', P = ClearOp L' :: P' /\ w' = tape nx h L' P' (ClearOp L :: F).
Proof.
  intros. unfold l_undo_clear, current_clear. rewrite current_op_tape. split.
  - intros H. tnorm. eauto.
  - intros [L' [P' [-> ->]]]. cbn [obind].
    rewrite set_current_op_tape, lb_with_lay_tape, regress_op_tape. reflexivity.
Qed.

Lemma erase_tape : forall nx h L P F, l_erase_history (tape nx h L P F) = Ok (tape nx h L P []).
Proof.
  intros. unfold l_erase_history, tape. cbn [lb_op lb_ops lb_frame lb_processed].
  destruct F as [|o F]; cbn [length].
  - rewrite Nat.add_0_r, Nat.eqb_refl. reflexivity.
  - destruct (Nat.eqb_spec (length P) (length P + S (length F))); [lia|].
    rewrite app_length, rev_length. cbn [length].
    destruct (Nat.leb_spec (length P) (length P + S (length F))); [|lia].
    destruct (Nat.ltb_spec (length P) (length P + S (length F))); [|lia].
    cbn [assert_ obind]. rewrite Nat.add_0_r, app_nil_r.
    rewrite firstn_app_exact by (rewrite rev_length; auto). reflexivity.
Qed.

(** *** Resizing *)
Fixpoint news (nx : N) (n : nat) : list N :=
  match n with O => [] | S n' => nx :: news (nx + 1) n' end.

Lemma news_length : forall n nx, length (news nx n) = n.
Proof. induction n; intros; simpl; auto. Qed.

Lemma news_In : forall n nx id, In id (news nx n) <-> (nx <= id < nx + N.of_nat n)%N.
Proof.
  induction n; intros; simpl; [lia|]. rewrite IHn. lia.
Qed.

Lemma news_nodup : forall n nx, NoDup (news nx n).
Proof.
  induction n; intros; simpl; constructor; auto. rewrite news_In. lia.
Qed.

Definition fresh_cells (nx : N) (n : nat) : list (N * C) :=
  rev (map (fun i => (i, c0)) (news nx n)).

Lemma grow_tape : forall n r nx h L,
  grow_pile c0 n r (mkFrame nx h L) =
  mkFrame (nx + N.of_nat n) (fresh_cells nx n ++ h)
    (set_pile r (get_pile r L ++ map Some (news nx n)) L).
Proof.
  induction n; intros.
  - simpl. rewrite app_nil_r, set_pile_id, N.add_0_r. reflexivity.
  - cbn [grow_pile]. unfold construct_card, with_lay. cbn [f_next f_heap f_lay].
    rewrite IHn. rewrite get_set_pile_same, set_set_pile. f_equal; [lia| |].
    + unfold fresh_cells. simpl. rewrite <- app_assoc. reflexivity.
    + f_equal. simpl. rewrite <- app_assoc. reflexivity.
Qed.

Lemma resize_ptrs_len : forall n l, length (resize_ptrs n l) = n.
Proof. intros. unfold resize_ptrs. rewrite app_length, firstn_length, repeat_length. lia. Qed.

Lemma copy_exact : forall src dst, length src = length dst -> copy_to src dst = Ok src.
Proof.
  intros. unfold copy_to. destruct (Nat.leb_spec (length src) (length dst)); [|lia].
  rewrite skipn_all2 by lia. rewrite app_nil_r. reflexivity.
Qed.

(** The effect of a resize on a pile [l], with [s] the slice of the operation:
    the new pile and the new slice. *)
Definition resized (live_ : bool) (nx : N) (l s : list (option N)) (n : nat)
  : outcome (list (option N) * list (option N)) :=
  if Nat.ltb (length l) n then
    Ok (l ++ (if live_ then map Some (news nx (n - length l)) else s), s)
  else if Nat.ltb n (length l) then
    let! s' := copy_to (skipn (length l - n) l) (resize_ptrs (length l - n) s) in
    Ok (firstn n l, s')
  else Ok (l, s).

Lemma resize_body : forall (live_ : bool) p count nx h L P F w' r pv s,
  (live_ = true -> F = []) -> pile_of p = Ok r -> all_some (get_pile r L) ->
  (let w2 := tape nx h L (ResizeOp pv s :: P) F in
   let l := get_pile r (lb_lay w2) in
   let size := lenN l in
   let n := N.to_nat count in
   let! w3 :=
    (if (size <? count)%N then
       let w3 := set_current_op (ResizeOp (length l) s) w2 in
       if live_ then Ok (l_grow c0 (N.to_nat (count - size)) r w3)
       else Ok (lb_with_lay w3 (set_pile r (l ++ s) (lb_lay w3)))
     else if (count <? size)%N then
       let diff := (length l - n)%nat in
       let! s' := copy_to (skipn diff l) (resize_ptrs diff s) in
       let w3 := set_current_op (ResizeOp (length l) s') w2 in
       Ok (lb_with_lay w3 (set_pile r (firstn n l) (lb_lay w3)))
     else Ok (set_current_op (ResizeOp (length l) s) w2)) in
   assert_ (lenN (get_pile r (lb_lay w3)) =? count)%N ;;!
   verify_pile (get_pile r (lb_lay w3)) ;;!
   Ok w3) = Ok w' <->
  exists l' s', resized live_ nx (get_pile r L) s (N.to_nat count) = Ok (l', s') /\
    length l' = N.to_nat count /\ all_some l' /\
    w' = (let g := if live_ then (N.to_nat count - length (get_pile r L))%nat else O in
          tape (nx + N.of_nat g) (fresh_cells nx g ++ h) (set_pile r l' L)
            (ResizeOp (length (get_pile r L)) s' :: P) F).
Proof.
  intros live_ p count nx h L P F w' r pv s HF R A. cbv zeta. rewrite lb_lay_tape.
  unfold resized, lenN. set (l := get_pile r L) in *.
  destruct (Nat.ltb_spec (length l) (N.to_nat count)) as [Lt|Ge];
    [replace (N.of_nat (length l) <? count)%N with true by lia
    |replace (N.of_nat (length l) <? count)%N with false by lia].
  - rewrite !set_current_op_tape. destruct live_; cbn [obind].
    + specialize (HF eq_refl). subst F. unfold l_grow. cbn [lb_frame tape].
      rewrite grow_tape. fold l.
      replace (N.to_nat (count - N.of_nat (length l))) with (N.to_nat count - length l)%nat by lia.
      set (g := (N.to_nat count - length l)%nat).
      unfold lb_lay, lb_with_frame. cbn [lb_frame f_lay lb_op lb_processed lb_ops tape].
      rewrite get_set_pile_same.
      assert (A' : all_some (l ++ map Some (news nx g))).
      { apply all_some_app. split; auto. intros X. apply in_map_iff in X. destruct X as [? [? ?]].
        discriminate. }
      assert (Ln : length (l ++ map Some (news nx g)) = N.to_nat count).
      { rewrite app_length, map_length, news_length. unfold g. lia. }
      replace (N.of_nat (length (l ++ map Some (news nx g))) =? count)%N with true by lia.
      rewrite (proj2 (verify_pile_Ok _) A'). cbn [assert_ obind]. split.
      * intros H. injection H as <-. exists (l ++ map Some (news nx g)), s. auto.
      * intros [l' [s' [E [_ [_ ->]]]]]. injection E as <- <-. reflexivity.
    + rewrite lb_with_lay_tape, !lb_lay_tape, get_set_pile_same. split.
      * intros H. inv_ok. apply verify_pile_inv in E0.
        exists (l ++ s), s. repeat split; auto. { lia. }
        simpl. rewrite N.add_0_r. auto.
      * intros [l' [s' [E [Ln [A' ->]]]]]. injection E as <- <-.
        replace (N.of_nat (length (l ++ s)) =? count)%N with true by lia.
        rewrite (proj2 (verify_pile_Ok _) A'). cbn [assert_ obind]. simpl.
        rewrite N.add_0_r. auto.
  - assert (G0 : (N.to_nat count - length l)%nat = O) by lia. rewrite G0.
    assert (G1 : (if live_ then O else O) = O) by (destruct live_; auto). rewrite G1.
    simpl N.of_nat. rewrite N.add_0_r. unfold fresh_cells; simpl rev; cbn [app].
    destruct (Nat.ltb_spec (N.to_nat count) (length l)) as [Lt|Eq];
      [replace (count <? N.of_nat (length l))%N with true by lia
      |replace (count <? N.of_nat (length l))%N with false by lia].
    + split.
      * intros H. inv_ok. rewrite set_current_op_tape in *.
        rewrite lb_with_lay_tape, ?lb_lay_tape in *. rewrite get_set_pile_same in *.
        apply verify_pile_inv in E1. run. eexists _, _. split; [reflexivity|]. split; [lia|].
        auto.
      * intros [l' [s' [E [Ln [A' ->]]]]]. inv_ok. run.
        rewrite set_current_op_tape, lb_with_lay_tape, ?lb_lay_tape, get_set_pile_same.
        replace (N.of_nat (length (firstn (N.to_nat count) l)) =? count)%N with true by lia.
        rewrite (proj2 (verify_pile_Ok _) A'). reflexivity.
    + cbn [obind]. rewrite set_current_op_tape, lb_lay_tape. fold l.
      replace (N.of_nat (length l) =? count)%N with true by lia.
      rewrite (proj2 (verify_pile_Ok _) A). cbn [assert_ obind]. split.
      * intros H. injection H as <-. exists l, s. repeat split; auto; [lia|].
        unfold l. rewrite set_pile_id. auto.
      * intros [l' [s' [E [Ln [A' ->]]]]]. injection E as <- <-. unfold l.
        rewrite set_pile_id. auto.
Qed.

Lemma resize_live : forall p count nx h L P w', nonull L ->
  l_pile_resize c0 p count (tape nx h L P []) = Ok w' <->
  exists r l' s', pile_of p = Ok r /\
    resized true nx (get_pile r L) [] (N.to_nat count) = Ok (l', s') /\
    length l' = N.to_nat count /\ all_some l' /\
    w' = (let g := (N.to_nat count - length (get_pile r L))%nat in
          tape (nx + N.of_nat g) (fresh_cells nx g ++ h) (set_pile r l' L)
            (ResizeOp (length (get_pile r L)) s' :: P) []).
Proof.
  intros p count nx h L P w' N. unfold l_pile_resize. rewrite advance_op_end. split.
  - intros H. apply obind_Ok in H as [u [_ H]]. apply obind_Ok in H as [r [R H]].
    cbn [obind] in H. rewrite emplace_halfway in H.
    apply (proj1 (resize_body true p count nx h L P [] w' r 0 [] (fun _ => eq_refl) R (nonull_pile _ _ N))) in H.
    destruct H as [l' [s' H]]. eauto.
  - intros [r [l' [s' [R H]]]]. assert (Pl : is_pile p = true).
    { apply pile_of_slot in R. apply slot_kind in R. tauto. }
    rewrite Pl, R. cbn [assert_ obind]. rewrite emplace_halfway.
    apply (resize_body true p count nx h L P [] w' r 0 [] (fun _ => eq_refl) R (nonull_pile _ _ N)).
    eauto.
Qed.

Lemma resize_redo : forall p count nx h L P o F w', nonull L ->
  l_pile_resize c0 p count (tape nx h L P (o :: F)) = Ok w' <->
  exists r l' pv s s', pile_of p = Ok r /\ o = ResizeOp pv s /\
    resized false nx (get_pile r L) s (N.to_nat count) = Ok (l', s') /\
    length l' = N.to_nat count /\ all_some l' /\
    w' = tape nx h (set_pile r l' L) (ResizeOp (length (get_pile r L)) s' :: P) F.
Proof.
  intros p count nx h L P o F w' N. unfold l_pile_resize. rewrite advance_op_redo.
  unfold current_resize. rewrite current_op_tape. cbn [obind]. split.
  - intros H. apply obind_Ok in H as [u [_ H]]. apply obind_Ok in H as [r [R H]].
    destruct o as [|pv s|]; try discriminate. cbn [obind] in H.
    apply (proj1 (resize_body false p count nx h L P F w' r pv s (fun X => ltac:(discriminate X)) R (nonull_pile _ _ N))) in H.
    destruct H as [l' [s' [A [B [D ->]]]]]. exists r, l', pv, s, s'. repeat split; auto.
    simpl. rewrite N.add_0_r. auto.
  - intros [r [l' [pv [s [s' [R [-> [A [B [D ->]]]]]]]]]]. assert (Pl : is_pile p = true).
    { apply pile_of_slot in R. apply slot_kind in R. tauto. }
    rewrite Pl, R. cbn [assert_ obind].
    apply (resize_body false p count nx h L P F _ r pv s (fun X => ltac:(discriminate X)) R (nonull_pile _ _ N)).
    exists l', s'. repeat split; auto. simpl. rewrite N.add_0_r. auto.
Qed.

(** Undoing: the pile and the slice afterwards. *)
Definition unresized (l s : list (option N)) (prev : nat) : list (option N) * list (option N) :=
  if Nat.ltb (length l) prev then (l ++ s, s)
  else if Nat.ltb prev (length l) then (firstn prev l, skipn prev l)
  else (l, s).

Lemma undo_resize_run : forall p count nx h L F r prev s P', pile_of p = Ok r ->
  l_undo_pile_resize p count (tape nx h L (ResizeOp prev s :: P') F) =
  (let l' := fst (unresized (get_pile r L) s prev) in
   assert_ (Nat.eqb (length l') prev) ;;! verify_pile l' ;;!
   Ok (tape nx h (set_pile r l' L) P'
         (ResizeOp prev (snd (unresized (get_pile r L) s prev)) :: F))).
Proof.
  intros p count nx h L F r prev s P' R.
  assert (Pl : is_pile p = true).
  { apply pile_of_slot in R. apply slot_kind in R. tauto. }
  unfold l_undo_pile_resize, current_resize. rewrite Pl, R, current_op_tape.
  cbn [assert_ obind]. cbv zeta. rewrite !lb_lay_tape.
  unfold unresized. set (l := get_pile r L).
  destruct (Nat.ltb_spec (length l) prev).
  - cbn [obind fst snd]. rewrite lb_with_lay_tape, regress_op_tape. cbn [obind].
    rewrite lb_lay_tape, get_set_pile_same. reflexivity.
  - destruct (Nat.ltb_spec prev (length l)).
    + replace (length l - (length l - prev))%nat with prev by lia.
      rewrite copy_exact by (rewrite resize_ptrs_len, skipn_length; auto).
      cbn [obind fst snd]. rewrite set_current_op_tape, lb_with_lay_tape, regress_op_tape.
      cbn [obind]. rewrite !lb_lay_tape, get_set_pile_same. reflexivity.
    + cbn [obind fst snd]. rewrite regress_op_tape. cbn [obind]. rewrite lb_lay_tape.
      unfold l. rewrite set_pile_id. reflexivity.
Qed.

Lemma undo_resize : forall p count nx h L P F w', nonull L ->
  l_undo_pile_resize p count (tape nx h L P F) = Ok w' <->
  exists r prev s P', pile_of p = Ok r /\ P = ResizeOp prev s :: P' /\
    length (fst (unresized (get_pile r L) s prev)) = prev /\
    all_some (fst (unresized (get_pile r L) s prev)) /\
    w' = tape nx h (set_pile r (fst (unresized (get_pile r L) s prev)) L) P'
           (ResizeOp prev (snd (unresized (get_pile r L) s prev)) :: F).
Proof.
  intros p count nx h L P F w' N. split.
  - intros H. assert (X : exists r prev s P', pile_of p = Ok r /\ P = ResizeOp prev s :: P').
    { unfold l_undo_pile_resize, current_resize in H. rewrite current_op_tape in H.
      apply obind_Ok in H as [u [_ H]]. apply obind_Ok in H as [r [R H]].
      destruct P as [|[|prev s|] P]; try discriminate. eauto 8. }
    destruct X as [r [prev [s [P' [R ->]]]]]. rewrite (undo_resize_run _ _ _ _ _ _ _ _ _ _ R) in H.
    cbv zeta in H. inv_ok. apply verify_pile_inv in E0. apply Nat.eqb_eq in E.
    exists r, prev, s, P'. auto.
  - intros [r [prev [s [P' [R [-> [Ln [A ->]]]]]]]].
    rewrite (undo_resize_run _ _ _ _ _ _ _ _ _ _ R). cbv zeta. rewrite Ln, Nat.eqb_refl.
    rewrite (proj2 (verify_pile_Ok _) A). reflexivity.
Qed.

(** *** The invariant *)
Definition grows w w' : Prop :=
  exists new, f_heap (lb_frame w') = new ++ f_heap (lb_frame w) /\ (at_end w \/ new = []).

Lemma grows_same : forall w w', f_heap (lb_frame w') = f_heap (lb_frame w) -> grows w w'.
Proof. intros. exists []. auto. Qed.

Lemma at_end_tape : forall nx h L P F, at_end (tape nx h L P F) <-> F = [].
Proof.
  intros. unfold at_end, tape. cbn [lb_op lb_ops]. rewrite app_length, rev_length.
  destruct F; simpl; split; intros; auto; try lia; discriminate.
Qed.

Lemma op_ok_mono : forall h new o, op_ok h o -> op_ok (new ++ h) o.
Proof.
  intros h new [[c|]|n s|L]; simpl; auto; rewrite map_app.
  - intros. apply in_or_app. auto.
  - intros H id X. apply in_or_app. auto.
  - intros [A B]. split; auto. intros id X. apply in_or_app. auto.
Qed.

Lemma tape_ok_lay : forall nx h L L' P F, tape_ok nx h L P F -> lay_ok L' ->
  (forall id, (0 < cntL L' id)%nat -> In id (map fst h)) -> tape_ok nx h L' P F.
Proof. intros nx h L L' P F [] A B. split; auto. Qed.

Lemma tape_ok_fwd : forall nx h L P o F, tape_ok nx h L P (o :: F) -> tape_ok nx h L (o :: P) F.
Proof. intros nx h L P o F [? ? ? ? ? G]. inversion G. split; auto. Qed.

Lemma tape_ok_bwd : forall nx h L P o F, tape_ok nx h L (o :: P) F -> tape_ok nx h L P (o :: F).
Proof. intros nx h L P o F [? ? ? ? G ?]. inversion G. split; auto. Qed.

Lemma tape_ok_op : forall nx h L P o o' F, tape_ok nx h L (o :: P) F -> op_ok h o' ->
  tape_ok nx h L (o' :: P) F.
Proof. intros nx h L P o o' F [? ? ? ? G ?] O. inversion G. split; auto. Qed.

Lemma tape_ok_push : forall nx h L P o, tape_ok nx h L P [] -> op_ok h o ->
  tape_ok nx h L (o :: P) [].
Proof. intros nx h L P o [] O. split; auto. Qed.

Lemma news_disjoint : forall nx h L P F n, tape_ok nx h L P F ->
  tape_ok (nx + N.of_nat n) (fresh_cells nx n ++ h) L P F.
Proof.
  intros nx h L P F n [A B D E G I].
  assert (M : map fst (fresh_cells nx n) = rev (news nx n)).
  { unfold fresh_cells. rewrite map_rev, map_map. simpl. rewrite map_id. auto. }
  split; auto.
  - intros id X. rewrite map_app. apply in_or_app. auto.
  - rewrite map_app, M. clear - D E. revert nx E. induction n; intros; simpl; auto.
    rewrite <- app_assoc. simpl. specialize (IHn (nx + 1)%N).
    apply NoDup_Add with (a := nx) (l := (rev (news (nx + 1) n) ++ map fst h)).
    + apply Add_app.
    + split; [apply IHn; intros id X; specialize (E id X); lia|].
      rewrite in_app_iff, <- in_rev, news_In. intros [X|X]; [lia|]. specialize (E _ X). lia.
  - intros id. rewrite map_app, M, in_app_iff, <- in_rev, news_In. intros [X|X]; [lia|].
    specialize (E _ X). lia.
  - eapply Forall_impl; [|exact G]. intros. apply op_ok_mono; auto.
  - eapply Forall_impl; [|exact I]. intros. apply op_ok_mono; auto.
Qed.

Lemma cntL_pile_In : forall r L id, shape L -> In (Some id) (get_pile r L) -> (0 < cntL L id)%nat.
Proof.
  intros. apply cnt_In in H0. pose proof (cnt_le_cntL (CPile r) L id H). simpl in H1.
  specialize (H1 I). lia.
Qed.

Lemma set_pile_refs : forall r l L (hs : list N), lay_ok L -> all_some l ->
  (forall id, (0 < cntL L id)%nat -> In id hs) ->
  (forall id, In (Some id) l -> In id hs) ->
  lay_ok (set_pile r l L) /\ forall id, (0 < cntL (set_pile r l L) id)%nat -> In id hs.
Proof.
  intros r l L hs [S N] A B D. split.
  - split; [apply shape_set_pile; auto|apply nonull_set_pile; auto].
  - intros id X. pose proof (cntL_set_pile r l L id S) as E.
    destruct (cnt l id) eqn:Cn.
    + apply B. lia.
    + apply D. apply cnt_In. lia.
Qed.

Lemma copy_to_In : forall src dst l id, copy_to src dst = Ok l -> In (Some id) l ->
  In (Some id) src \/ In (Some id) dst.
Proof.
  intros. unfold copy_to in H. destruct (Nat.leb _ _); [|discriminate]. injection H as <-.
  apply in_app_or in H0. destruct H0; auto. right.
  rewrite <- (firstn_skipn (length src) dst). apply in_or_app. auto.
Qed.

Lemma resize_ptrs_In : forall n l id, In (Some id) (resize_ptrs n l) -> In (Some id) l.
Proof.
  intros. unfold resize_ptrs in H. apply in_app_or in H. destruct H.
  - rewrite <- (firstn_skipn n l). apply in_or_app. auto.
  - apply repeat_spec in H. discriminate.
Qed.

Lemma resized_In : forall b nx l s n l' s' id, resized b nx l s n = Ok (l', s') ->
  In (Some id) l' \/ In (Some id) s' ->
  In (Some id) l \/ In (Some id) s \/ (b = true /\ In id (news nx (n - length l))).
Proof.
  intros b nx l s n l' s' id H X. unfold resized in H.
  destruct (Nat.ltb _ _).
  - injection H as <- <-. destruct X as [X|X]; auto. apply in_app_or in X.
    destruct X as [X|X]; auto. destruct b; auto. right; right. split; auto.
    apply in_map_iff in X. destruct X as [x [E X]]. injection E as ->. auto.
  - destruct (Nat.ltb _ _).
    + inv_ok. destruct X as [X|X].
      * left. rewrite <- (firstn_skipn n l). apply in_or_app. auto.
      * eapply copy_to_In in X; eauto. destruct X as [X|X].
        -- left. rewrite <- (firstn_skipn (length l - n) l). apply in_or_app. auto.
        -- apply resize_ptrs_In in X. auto.
    + injection H as <- <-. destruct X; auto.
Qed.

Lemma unresized_In : forall l s n id,
  In (Some id) (fst (unresized l s n)) \/ In (Some id) (snd (unresized l s n)) ->
  In (Some id) l \/ In (Some id) s.
Proof.
  intros l s n id X. unfold unresized in X. destruct (Nat.ltb _ _).
  - simpl in X. rewrite in_app_iff in X. tauto.
  - destruct (Nat.ltb _ _); simpl in X; [|tauto]. left.
    rewrite <- (firstn_skipn n l). apply in_or_app. auto.
Qed.

Lemma linv0 : linv (@limbo0 C).
Proof.
  exists 0%N, [], layout0, [], []. split; [reflexivity|]. split; simpl; auto using lay_ok0.
  - intros id. replace (cntL layout0 id) with 0%nat; [lia|]. vm_compute. reflexivity.
  - constructor.
  - tauto.
Qed.

Lemma lay_step : forall nx h L L' P F, tape_ok nx h L P F ->
  (lay_ok L' /\ forall id, cntL L' id = cntL L id) -> tape_ok nx h L' P F.
Proof.
  intros nx h L L' P F O [A B]. apply (tape_ok_lay _ _ _ _ _ _ O A). intros id X. rewrite B in X.
  eapply to_cnt; eauto.
Qed.

Lemma l_lift_tape : forall op nx h L P F w', l_lift op (tape nx h L P F) = Ok w' <->
  exists L', op L = Ok L' /\ w' = tape nx h L' P F.
Proof.
  intros. unfold l_lift, lift. cbn [lb_frame f_lay tape]. split.
  - intros H. inv_ok. eauto.
  - intros [L' [E ->]]. rewrite E. reflexivity.
Qed.

Lemma l_move_tape : forall a b nx h L P F c w', l_card_move a b (tape nx h L P F) = Ok (c, w') <->
  exists L', card_move a b L = Ok (c, L') /\ In c (map fst h) /\ w' = tape nx h L' P F.
Proof.
  intros. unfold l_card_move, f_card_move. cbn [lb_frame f_lay f_heap tape]. split.
  - intros H. inv_ok. eexists. split; eauto. split; [|reflexivity].
    apply heap_get_In. congruence.
  - intros [L' [E [A ->]]]. rewrite E. cbn [obind]. apply heap_get_In in A.
    destruct (heap_get c h); [reflexivity|congruence].
Qed.

Lemma linv_insert : forall p c nx h L L' P F, tape_ok nx h L P F -> In c (map fst h) ->
  card_insert p c L = Ok L' -> tape_ok nx h L' P F.
Proof.
  intros p c nx h L L' P F O A H. destruct (lay_ok_insert _ _ _ _ (to_lay _ _ _ _ _ O) H) as [K E].
  apply (tape_ok_lay _ _ _ _ _ _ O K). intros id X. rewrite E, cnt_single_eq in X.
  destruct (N.eq_dec c id); [congruence|]. eapply to_cnt; eauto. lia.
Qed.

Lemma linv_erase : forall p c nx h L L' P F, tape_ok nx h L P F ->
  card_erase p L = Ok (c, L') -> tape_ok nx h L' P F.
Proof.
  intros p c nx h L L' P F O H. destruct (lay_ok_erase _ _ _ _ (to_lay _ _ _ _ _ O) H) as [K E].
  apply (tape_ok_lay _ _ _ _ _ _ O K). intros id X. specialize (E id).
  eapply to_cnt; eauto. lia.
Qed.

Lemma linv_step : forall a w w', linv w -> lstep c0 a w = Ok w' -> linv w' /\ grows w w'.
Proof.
  intros a w w' [nx [h [L [P [F [-> O]]]]]] H.
  assert (S : shape L) by apply (to_lay _ _ _ _ _ O).
  assert (Nn : nonull L) by apply (to_lay _ _ _ _ _ O).
  assert (K : forall nx' h' L' P' F' new, w' = tape nx' h' L' P' F' -> tape_ok nx' h' L' P' F' ->
    h' = new ++ h -> (F = [] \/ new = []) -> linv w' /\ grows (tape nx h L P F) w').
  { intros nx' h' L' P' F' new -> O' -> X. split; [unfold linv; eauto 10|].
    exists new. split; auto. rewrite at_end_tape. auto. }
  assert (K0 : forall nx' L' P' F', w' = tape nx' h L' P' F' -> tape_ok nx' h L' P' F' ->
    linv w' /\ grows (tape nx h L P F) w').
  { intros. eapply K with (new := []); eauto. }
  destruct a; cbn [lstep] in H.
  - (* add *)
    apply obind_Ok in H as [[c w1] [H X]]. injection X as ->. destruct F as [|o F].
    + apply add_live in H. destruct H as [L' [E [-> ->]]].
      eapply K with (new := [(nx, c0)]); [reflexivity| |reflexivity|auto].
      pose proof (news_disjoint _ _ _ _ _ 1 O) as O1. simpl in O1.
      eapply linv_insert; [|left; reflexivity|exact E].
      apply tape_ok_push; auto. simpl. auto.
    + apply add_redo in H; auto. destruct H as [L' [-> [A [E ->]]]].
      eapply K0; [reflexivity|]. eapply linv_insert; [|exact A|exact E].
      apply tape_ok_fwd; auto.
  - (* remove *)
    destruct F as [|o F].
    + apply remove_live in H; auto. destruct H as [c [L' [E [A ->]]]].
      eapply K0; [reflexivity|]. apply tape_ok_push; [eapply linv_erase; eauto|simpl; auto].
    + apply remove_redo in H; auto. destruct H as [c [L' [-> [E [A ->]]]]].
      eapply K0; [reflexivity|]. apply tape_ok_fwd. eapply linv_erase; eauto.
  - (* resize *)
    destruct F as [|o F].
    + apply resize_live in H; auto. destruct H as [r [l' [s' [R [E [Ln [A ->]]]]]]].
      cbv zeta. set (g := (N.to_nat count - length (get_pile r L))%nat) in *.
      eapply K with (new := fresh_cells nx g); [reflexivity| |reflexivity|auto].
      pose proof (news_disjoint _ _ _ _ _ g O) as O1.
      assert (Q : forall id, In (Some id) l' \/ In (Some id) s' ->
                  In id (map fst (fresh_cells nx g ++ h))).
      { intros id X. eapply resized_In in X; eauto. fold g in X. rewrite map_app. apply in_or_app.
        destruct X as [X|[X|[_ X]]].
        - right. eapply to_cnt; eauto. eapply cntL_pile_In; eauto.
        - destruct X.
        - left. unfold fresh_cells. rewrite map_rev, map_map, <- in_rev. simpl. rewrite map_id. auto. }
      destruct (set_pile_refs r l' L (map fst (fresh_cells nx g ++ h)) (to_lay _ _ _ _ _ O) A
        (to_cnt _ _ _ _ _ O1) (fun id X => Q id (or_introl X))) as [K1 K2].
      apply tape_ok_push; [eapply tape_ok_lay; eauto|]. simpl. auto.
    + apply resize_redo in H; auto. destruct H as [r [l' [pv [s [s' [R [-> [E [Ln [A ->]]]]]]]]]].
      eapply K0; [reflexivity|].
      assert (Q : forall id, In (Some id) l' \/ In (Some id) s' -> In id (map fst h)).
      { intros id X. eapply resized_In in X; eauto. destruct X as [X|[X|[X _]]].
        - eapply to_cnt; eauto. eapply cntL_pile_In; eauto.
        - pose proof (to_next _ _ _ _ _ O) as G. inversion G; subst. simpl in *. auto.
        - discriminate. }
      destruct (set_pile_refs r l' L (map fst h) (to_lay _ _ _ _ _ O) A
        (to_cnt _ _ _ _ _ O) (fun id X => Q id (or_introl X))) as [K1 K2].
      eapply tape_ok_op; [apply tape_ok_fwd; eapply tape_ok_lay; eauto|]. simpl. auto.
  - (* clear *)
    destruct F as [|o F].
    + rewrite clear_live in H. injection H as <-. eapply K0; [reflexivity|].
      apply tape_ok_push; [|simpl; split; [apply (to_lay _ _ _ _ _ O)|apply (to_cnt _ _ _ _ _ O)]].
      apply (tape_ok_lay _ _ _ _ _ _ O lay_ok0). intros id.
      replace (cntL layout0 id) with 0%nat; [lia|]. vm_compute. reflexivity.
    + apply clear_redo in H. destruct H as [L' [-> ->]]. eapply K0; [reflexivity|].
      pose proof (to_next _ _ _ _ _ O) as G. inversion G as [|? ? G1 G2]; subst. destruct G1.
      eapply tape_ok_op; [apply tape_ok_fwd; eapply tape_ok_lay; eauto|].
      simpl; split; [apply (to_lay _ _ _ _ _ O)|apply (to_cnt _ _ _ _ _ O)].
  - (* undo add *)
    apply obind_Ok in H as [[c w1] [H X]]. injection X as ->.
    apply undo_add in H; auto. destruct H as [L' [P' [-> [A [E ->]]]]].
    eapply K0; [reflexivity|]. apply tape_ok_bwd. eapply linv_erase; eauto.
  - (* undo remove *)
    apply obind_Ok in H as [[c w1] [H X]]. injection X as ->.
    apply undo_remove in H; auto. destruct H as [L' [P' [-> [A [E ->]]]]].
    eapply K0; [reflexivity|]. apply tape_ok_bwd. eapply linv_insert; eauto.
  - (* undo resize *)
    apply undo_resize in H; auto. destruct H as [r [prev [s [P' [R [-> [Ln [A ->]]]]]]]].
    eapply K0; [reflexivity|].
    set (l' := fst (unresized (get_pile r L) s prev)) in *.
    set (s' := snd (unresized (get_pile r L) s prev)) in *.
    assert (Q : forall id, In (Some id) l' \/ In (Some id) s' -> In id (map fst h)).
    { intros id X. apply unresized_In in X. destruct X as [X|X].
      - eapply to_cnt; eauto. eapply cntL_pile_In; eauto.
      - pose proof (to_past _ _ _ _ _ O) as G. inversion G as [|? ? G1 G2]. simpl in G1. auto. }
    destruct (set_pile_refs r l' L (map fst h) (to_lay _ _ _ _ _ O) A
      (to_cnt _ _ _ _ _ O) (fun id X => Q id (or_introl X))) as [K1 K2].
    apply tape_ok_bwd. eapply tape_ok_op; [eapply tape_ok_lay; eauto|]. simpl. auto.
  - (* undo clear *)
    apply undo_clear in H. destruct H as [L' [P' [-> ->]]]. eapply K0; [reflexivity|].
    pose proof (to_past _ _ _ _ _ O) as G. inversion G as [|? ? G1 G2]; subst. destruct G1.
    apply tape_ok_bwd. eapply tape_ok_op; [eapply tape_ok_lay; eauto|].
    simpl; split; [apply (to_lay _ _ _ _ _ O)|apply (to_cnt _ _ _ _ _ O)].
  - discriminate.
  - (* erase *)
    rewrite erase_tape in H. injection H as <-. eapply K0; [reflexivity|].
    destruct O. split; auto.
  - (* move *)
    apply obind_Ok in H as [[c w1] [H X]]. injection X as ->.
    apply l_move_tape in H. destruct H as [L' [E [A ->]]]. eapply K0; [reflexivity|].
    eapply lay_step; eauto. eapply lay_ok_move; eauto. apply (to_lay _ _ _ _ _ O).
  - apply l_lift_tape in H. destruct H as [L' [E ->]]. eapply K0; [reflexivity|].
    eapply lay_step; eauto. eapply lay_ok_swap; eauto. apply (to_lay _ _ _ _ _ O).
  - apply l_lift_tape in H. destruct H as [L' [E ->]]. eapply K0; [reflexivity|].
    eapply lay_step; eauto. eapply lay_ok_shuffle; eauto. apply (to_lay _ _ _ _ _ O).
  - apply l_lift_tape in H. destruct H as [L' [E ->]]. eapply K0; [reflexivity|].
    eapply lay_step; eauto. eapply lay_ok_splice; eauto. apply (to_lay _ _ _ _ _ O).
  - apply l_lift_tape in H. destruct H as [L' [E ->]]. eapply K0; [reflexivity|].
    eapply lay_step; eauto. eapply lay_ok_pile_swap; eauto. apply (to_lay _ _ _ _ _ O).
Qed.

Lemma linv_run : forall acts w w', linv w -> lrun c0 acts w = Ok w' -> linv w'.
Proof.
  intros acts w w' I H. unfold lrun in H. eapply ofold_inv with (P := linv); eauto.
  intros. eapply linv_step; eauto.
Qed.

Lemma lreachable_linv : forall w, lreachable c0 w -> linv w.
Proof. intros w [acts H]. eapply linv_run; eauto. apply linv0. Qed.
End Limbo.
