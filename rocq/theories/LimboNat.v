(** What cards hold does not matter to the operations of a limbo frame: they
    commute with any change of the contents, and only new cards appear, with
    the content of a new card. *)
From Verif Require Import Base BaseProofs Place Frame FrameSpec Limbo LimboSpec.

Local Open Scope N_scope.

Definition omap {A B} (g : A -> B) (m : outcome A) : outcome B := let! a := m in Ok (g a).

Section Nat.
Variables A B : Type.
Variable g : A -> B.
Variables (a0 : A) (b0 : B).
Hypothesis g0 : g a0 = b0.

Definition hmap (h : list (cid * A)) : list (cid * B) := map (fun x => (fst x, g (snd x))) h.
Definition fmap (f : frame A) : frame B := mkFrame (f_next f) (hmap (f_heap f)) (f_lay f).
Definition lmap (w : limbo A) : limbo B :=
  mkLimbo (fmap (lb_frame w)) (lb_op w) (lb_processed w) (lb_ops w).

Lemma hmap_get : forall id h, heap_get id (hmap h) = option_map g (heap_get id h).
Proof.
  induction h as [|[k v] h IH]; auto. cbn. destruct (k =? id); auto.
Qed.

Lemma alive_map : forall id w, alive id (lmap w) = alive id w.
Proof. intros. unfold alive, lmap, fmap. cbn. rewrite hmap_get. destruct (heap_get id _); reflexivity. Qed.

Lemma advance_map : forall w, advance_op (lmap w) = (fst (advance_op w), lmap (snd (advance_op w))).
Proof.
  intros [f o p l]. unfold advance_op, lmap. cbn. destruct (Nat.eqb o p); reflexivity.
Qed.
Lemma emplace_map : forall o w, emplace_op o (lmap w) = lmap (emplace_op o w).
Proof. reflexivity. Qed.
Lemma set_op_map : forall o w, set_current_op o (lmap w) = lmap (set_current_op o w).
Proof. reflexivity. Qed.
Lemma with_lay_map : forall L w, lb_with_lay (lmap w) L = lmap (lb_with_lay w L).
Proof. reflexivity. Qed.
Lemma lay_map : forall w, lb_lay (lmap w) = lb_lay w.
Proof. reflexivity. Qed.
Lemma regress_map : forall w, regress_op (lmap w) = omap lmap (regress_op w).
Proof. intros [f o p l]. unfold regress_op. cbn. destruct o; reflexivity. Qed.
Lemma current_map : forall w, current_op (lmap w) = current_op w.
Proof. reflexivity. Qed.
Lemma current_card_map : forall w, current_card (lmap w) = current_card w.
Proof. reflexivity. Qed.
Lemma current_resize_map : forall w, current_resize (lmap w) = current_resize w.
Proof. reflexivity. Qed.
Lemma current_clear_map : forall w, current_clear (lmap w) = current_clear w.
Proof. reflexivity. Qed.

Lemma grow_map : forall n r f, grow_pile b0 n r (fmap f) = fmap (grow_pile a0 n r f).
Proof.
  induction n; intros r f; auto. cbn [grow_pile construct_card].
  cbn [fmap f_next f_heap f_lay with_lay]. rewrite <- IHn. f_equal.
  unfold fmap, with_lay. cbn. rewrite g0. reflexivity.
Qed.

Ltac step :=
  match goal with
  | |- obind ?m _ = omap _ (obind ?m _) => destruct m as [?| | |]; [cbn [obind]|reflexivity..]
  | |- (let (_, _) := ?x in _) = _ => is_var x; destruct x
  | |- (if ?b then _ else _) = omap _ (if ?b then _ else _) => destruct b
  end.

Lemma add_map : forall p w, l_card_add b0 p (lmap w) =
  omap (fun x => (fst x, lmap (snd x))) (l_card_add a0 p w).
Proof.
  intros p w. unfold l_card_add. rewrite advance_map. destruct (advance_op w) as [pr w1]. cbn [fst snd].
  destruct pr.
  - unfold card_add, construct_card. cbn [lb_frame lmap fmap f_next f_heap f_lay].
    destruct (card_insert p (f_next (lb_frame w1)) (f_lay (lb_frame w1))); cbn [obind]; try reflexivity.
    unfold omap, lmap, emplace_op, lb_with_frame, with_lay, fmap. cbn. rewrite g0. reflexivity.
  - rewrite current_card_map. step. step. rewrite alive_map. step. rewrite lay_map. step. step. step.
    reflexivity.
Qed.

Lemma remove_map : forall p w, l_card_remove p (lmap w) = omap lmap (l_card_remove p w).
Proof.
  intros p w. unfold l_card_remove. rewrite lay_map. step. step. step. step.
  rewrite alive_map. step. rewrite with_lay_map, advance_map.
  destruct (advance_op (lb_with_lay w l)) as [pr w1]. cbn [fst snd]. destruct pr; [reflexivity|].
  rewrite current_card_map. step. step. reflexivity.
Qed.

Lemma bind_map : forall X X' Y Y' (h : X -> X') (k0 : Y -> Y') m m' k k',
  m' = omap h m -> (forall a, k' (h a) = omap k0 (k a)) -> obind m' k' = omap k0 (obind m k).
Proof. intros X X' Y Y' h k0 [a| | |] m' k k' -> H; cbn; auto. Qed.

Lemma resize_map : forall p n w, l_pile_resize b0 p n (lmap w) = omap lmap (l_pile_resize a0 p n w).
Proof.
  intros p n w. unfold l_pile_resize. step. rewrite advance_map.
  destruct (advance_op w) as [pr w1]. cbn [fst snd]. step.
  apply bind_map with (h := fun x : limbo A * list ptr => (lmap (fst x), snd x)).
  { destruct pr; [reflexivity|]. rewrite current_resize_map.
    destruct (current_resize w1) as [[? ?]| | |]; reflexivity. }
  intros [w2 sl]. cbn [fst snd]. cbv zeta. rewrite !lay_map.
  apply bind_map with (h := lmap).
  { destruct (_ <? n).
    - destruct pr; [|reflexivity]. unfold omap. cbn [obind]. f_equal.
      rewrite set_op_map. unfold l_grow, lb_with_frame, lmap. cbn [lb_frame lb_op lb_processed lb_ops].
      rewrite grow_map. reflexivity.
    - destruct (n <? _); [|reflexivity].
      destruct (copy_to _ _); reflexivity. }
  intros w3. rewrite !lay_map. step. step. reflexivity.
Qed.

Lemma clear_map : forall w, l_clear (lmap w) = omap lmap (l_clear w).
Proof.
  intros w. unfold l_clear. rewrite advance_map. destruct (advance_op w) as [pr w1]. cbn [fst snd].
  apply bind_map with (h := fun x : limbo A * layout => (lmap (fst x), snd x)).
  { destruct pr; [reflexivity|]. rewrite current_clear_map.
    destruct (current_clear w1); reflexivity. }
  intros [w2 sv]. reflexivity.
Qed.

Lemma undo_add_map : forall p w, l_undo_card_add p (lmap w) =
  omap (fun x => (fst x, lmap (snd x))) (l_undo_card_add p w).
Proof.
  intros p w. unfold l_undo_card_add. rewrite lay_map. step. step. step. step.
  rewrite alive_map. step. rewrite current_card_map. step. step. rewrite with_lay_map, regress_map.
  apply bind_map with (h := lmap); reflexivity.
Qed.

Lemma undo_remove_map : forall p w, l_undo_card_remove p (lmap w) =
  omap (fun x => (fst x, lmap (snd x))) (l_undo_card_remove p w).
Proof.
  intros p w. unfold l_undo_card_remove. rewrite current_card_map. step. step. rewrite alive_map. step.
  rewrite lay_map. step. rewrite with_lay_map, regress_map.
  apply bind_map with (h := lmap); [reflexivity|]. intros w1. rewrite lay_map. step. step. reflexivity.
Qed.

Lemma undo_resize_map : forall p n w, l_undo_pile_resize p n (lmap w) =
  omap lmap (l_undo_pile_resize p n w).
Proof.
  intros p n w. unfold l_undo_pile_resize. step. step. rewrite current_resize_map. step. step.
  rewrite !lay_map.
  apply bind_map with (h := lmap).
  { destruct (Nat.ltb _ _); [reflexivity|]. destruct (Nat.ltb _ _); [|reflexivity].
    destruct (copy_to _ _); reflexivity. }
  intros w1. rewrite regress_map. apply bind_map with (h := lmap); [reflexivity|].
  intros w2. rewrite !lay_map. step. step. reflexivity.
Qed.

Lemma undo_clear_map : forall w, l_undo_clear (lmap w) = omap lmap (l_undo_clear w).
Proof.
  intros w. unfold l_undo_clear. rewrite current_clear_map. step. rewrite lay_map, set_op_map, with_lay_map.
  apply regress_map.
Qed.

Lemma erase_map : forall w, l_erase_history (lmap w) = omap lmap (l_erase_history w).
Proof.
  intros w. unfold l_erase_history. cbn [lmap lb_op lb_processed lb_ops].
  destruct (Nat.eqb _ _); [reflexivity|]. step. step. reflexivity.
Qed.

Lemma move_map : forall a b w, l_card_move a b (lmap w) =
  omap (fun x => (fst x, lmap (snd x))) (l_card_move a b w).
Proof.
  intros a b w. unfold l_card_move, f_card_move. cbn [lmap lb_frame fmap f_lay f_heap].
  destruct (card_move a b (f_lay (lb_frame w))) as [[c L]| | |]; cbn [obind]; try reflexivity.
  rewrite hmap_get. destruct (heap_get c (f_heap (lb_frame w))); reflexivity.
Qed.

Lemma lift_map : forall op w, l_lift op (lmap w) = omap lmap (l_lift op w).
Proof.
  intros op w. unfold l_lift, lift. cbn [lmap lb_frame fmap f_lay]. destruct (op _); reflexivity.
Qed.

Theorem lstep_map : forall a w, lstep b0 a (lmap w) = omap lmap (lstep a0 a w).
Proof.
  assert (D : forall m : outcome (cid * limbo A),
    (let! (_, w') := omap (fun x => (fst x, lmap (snd x))) m in Ok w') =
    omap lmap (let! (_, w') := m in Ok w')).
  { intros [[c w']| | |]; reflexivity. }
  intros a w. destruct a; cbn [lstep].
  - rewrite add_map. apply D.
  - apply remove_map.
  - apply resize_map.
  - apply clear_map.
  - rewrite undo_add_map. apply D.
  - rewrite undo_remove_map. apply D.
  - apply undo_resize_map.
  - apply undo_clear_map.
  - reflexivity.
  - apply erase_map.
  - rewrite move_map. apply D.
  - apply lift_map.
  - apply lift_map.
  - apply lift_map.
  - apply lift_map.
Qed.

Theorem lrun_map : forall acts w, lrun b0 acts (lmap w) = omap lmap (lrun a0 acts w).
Proof.
  induction acts as [|a acts IH]; intros w; [reflexivity|]. unfold lrun. cbn [ofold].
  apply bind_map with (h := lmap); [apply lstep_map|]. exact IH.
Qed.

End Nat.

(** ** Contents of cards *)
Section Contents.
Variable C : Type.
Variable c0 : C.

(** New card objects have new addresses and the content of a new card. *)
Definition only_new (f f' : frame C) : Prop :=
  f_next f <= f_next f' /\
  exists new, f_heap f' = new ++ f_heap f /\
    Forall (fun x => f_next f <= fst x < f_next f' /\ snd x = c0) new.
Definition fresh (f : frame C) : Prop := Forall (fun x => fst x < f_next f) (f_heap f).

Lemma only_new_refl : forall f L, only_new f (with_lay f L).
Proof. intros. split; [apply N.le_refl|]. exists []. split; [reflexivity|constructor]. Qed.
Lemma only_new_same : forall f, only_new f f.
Proof. intros. split; [apply N.le_refl|]. exists []. split; [reflexivity|constructor]. Qed.
Lemma only_new_trans : forall f f' f'', only_new f f' -> only_new f' f'' -> only_new f f''.
Proof.
  intros f f' f'' [N1 [n1 [E1 F1]]] [N2 [n2 [E2 F2]]]. split; [lia|]. exists (n2 ++ n1).
  split; [rewrite E2, E1, app_assoc; reflexivity|]. apply Forall_app. split.
  - eapply Forall_impl; [|exact F2]. cbn. intros x [X Y]. split; auto. lia.
  - eapply Forall_impl; [|exact F1]. cbn. intros x [X Y]. split; auto. lia.
Qed.
Lemma only_new_fresh : forall f f', only_new f f' -> fresh f -> fresh f'.
Proof.
  intros f f' [Nx [new [E F]]] H. unfold fresh. rewrite E. apply Forall_app. split.
  - eapply Forall_impl; [|exact F]. cbn. intros x [X _]. lia.
  - eapply Forall_impl; [|exact H]. cbn. intros x X. lia.
Qed.

(** What a card holds, a card not yet created counting as new. *)
Definition holds (f : frame C) (id : cid) : C :=
  match heap_get id (f_heap f) with Some c => c | None => c0 end.

Lemma only_new_holds : forall f f' id, only_new f f' -> fresh f -> holds f' id = holds f id.
Proof.
  intros f f' id [Nx [new [E F]]] H. unfold holds. rewrite E.
  assert (G : id < f_next f \/ heap_get id (f_heap f) = None).
  { destruct (N.lt_ge_cases id (f_next f)) as [L|L]; auto. right. unfold fresh in H. clear - H L.
    induction H as [|[k v] h X H IH]; auto. cbn in *. destruct (N.eqb_spec k id); auto. lia. }
  clear E H Nx. induction F as [|[k v] new [X Y] F IH]; auto. cbn in *.
  destruct (N.eqb_spec k id) as [->|]; auto.
  destruct G as [G|G]; [lia|]. rewrite G. exact Y.
Qed.

Lemma grow_new : forall n r f, only_new f (grow_pile c0 n r f).
Proof.
  induction n; intros r f; [apply only_new_same|]. cbn [grow_pile construct_card].
  eapply only_new_trans; [|apply IHn]. split; cbn; [lia|].
  exists [(f_next f, c0)]. split; [reflexivity|]. constructor; [|constructor]. cbn. split; auto. lia.
Qed.

Lemma lstep_new : forall a w w', lstep c0 a w = Ok w' -> only_new (lb_frame w) (lb_frame w').
Proof.
  assert (Adv : forall w : limbo C, lb_frame (snd (advance_op w)) = lb_frame w).
  { intros [f o p l]. unfold advance_op. cbn. destruct (Nat.eqb o p); reflexivity. }
  assert (Reg : forall (w w' : limbo C), regress_op w = Ok w' -> lb_frame w' = lb_frame w).
  { intros [f [|o] p l] w' H; cbn in H; inversion H. reflexivity. }
  intros a w w' H. destruct a; cbn [lstep] in H.
  - apply obind_Ok in H as [[c w1] [H X]]. injection X as <-. unfold l_card_add in H.
    specialize (Adv w). destruct (advance_op w) as [pr w2]. cbn [snd] in Adv. destruct pr; inv_ok.
    + unfold card_add, construct_card in E. inv_ok. cbn. rewrite Adv. split; [cbn; lia|].
      exists [(f_next (lb_frame w), c0)]. split; [reflexivity|].
      constructor; [|constructor]. cbn. split; auto. lia.
    + cbn. rewrite Adv. apply only_new_refl.
  - unfold l_card_remove in H. inv_ok.
    specialize (Adv (lb_with_lay w l)). destruct (advance_op (lb_with_lay w l)) as [pr w2].
    cbn [snd] in Adv. destruct pr; inv_ok; cbn; rewrite Adv; apply only_new_refl.
  - unfold l_pile_resize in H. specialize (Adv w). destruct (advance_op w) as [pr w2]. cbn [snd] in Adv.
    inv_ok.
    assert (F : lb_frame l = lb_frame w).
    { destruct pr; inv_ok; cbn; auto. }
    match goal with K : (if _ <? count then _ else _) = Ok _ |- _ => rename K into K0 end.
    destruct (_ <? count).
    + destruct pr; injection K0 as <-.
      * unfold l_grow. cbn. rewrite <- F. apply grow_new.
      * cbn. rewrite F. apply only_new_refl.
    + destruct (count <? _); inv_ok; cbn; rewrite F; [apply only_new_refl|apply only_new_same].
  - unfold l_clear in H. specialize (Adv w). destruct (advance_op w) as [pr w2]. cbn [snd] in Adv.
    inv_ok. assert (F : lb_frame l = lb_frame w).
    { destruct pr; inv_ok; cbn; auto. }
    cbn. rewrite F. apply only_new_refl.
  - apply obind_Ok in H as [[c w1] [H X]]. injection X as <-. unfold l_undo_card_add in H. inv_ok.
    match goal with K : regress_op _ = Ok _ |- _ => apply Reg in K; rewrite K end. apply only_new_refl.
  - apply obind_Ok in H as [[c w1] [H X]]. injection X as <-. unfold l_undo_card_remove in H. inv_ok.
    match goal with K : regress_op _ = Ok _ |- _ => apply Reg in K; rewrite K end. apply only_new_refl.
  - unfold l_undo_pile_resize in H. inv_ok.
    match goal with K : regress_op _ = Ok _ |- _ => apply Reg in K; rewrite K end.
    match goal with K : (if Nat.ltb _ _ then _ else _) = Ok _ |- _ => rename K into K0 end.
    destruct (Nat.ltb _ _); [inv_ok; apply only_new_refl|].
    destruct (Nat.ltb _ _); inv_ok; [apply only_new_refl|apply only_new_same].
  - unfold l_undo_clear in H. inv_ok. apply Reg in H. rewrite H. apply only_new_refl.
  - discriminate.
  - unfold l_erase_history in H. destruct (Nat.eqb _ _); inv_ok; apply only_new_same.
  - apply obind_Ok in H as [[c w1] [H X]]. injection X as <-. unfold l_card_move, f_card_move in H.
    inv_ok. apply only_new_refl.
  - unfold l_lift, lift in H. inv_ok. apply only_new_refl.
  - unfold l_lift, lift in H. inv_ok. apply only_new_refl.
  - unfold l_lift, lift in H. inv_ok. apply only_new_refl.
  - unfold l_lift, lift in H. inv_ok. apply only_new_refl.
Qed.

Lemma lrun_new : forall acts w w', lrun c0 acts w = Ok w' -> only_new (lb_frame w) (lb_frame w').
Proof.
  induction acts as [|a acts IH]; intros w w' H.
  - injection H as <-. apply only_new_same.
  - unfold lrun in H. cbn [ofold] in H. apply obind_Ok in H as [w1 [H1 H2]].
    eapply only_new_trans; [eapply lstep_new; eauto|]. apply IH. exact H2.
Qed.

End Contents.
