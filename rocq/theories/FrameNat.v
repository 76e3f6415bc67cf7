(** What cards hold does not matter to the operations of a plain frame either. *)
From Verif Require Import Base BaseProofs Place Frame FrameSpec Limbo LimboSpec LimboNat.

Local Open Scope N_scope.

Section Nat.
Variables A B : Type.
Variable g : A -> B.
Variables (a0 : A) (b0 : B).
Hypothesis g0 : g a0 = b0.
Notation fm := (fmap A B g).
Notation hm := (hmap A B g).

Lemma heap_remove_map : forall c h, heap_remove c (hm h) = option_map hm (heap_remove c h).
Proof.
  induction h as [|[k v] h IH]; auto. cbn. destruct (k =? c); auto. fold (hm h). rewrite IH.
  destruct (heap_remove c h); reflexivity.
Qed.

Lemma destruct_card_map : forall c f, destruct_card c (fm f) = omap fm (destruct_card c f).
Proof.
  intros c f. unfold destruct_card. cbn [fmap f_heap f_next f_lay]. rewrite heap_remove_map.
  destruct (heap_remove c (f_heap f)); reflexivity.
Qed.

Lemma fm_lay : forall f, f_lay (fm f) = f_lay f.
Proof. reflexivity. Qed.
Lemma fm_with_lay : forall f L, with_lay (fm f) L = fm (with_lay f L).
Proof. reflexivity. Qed.

Ltac step :=
  match goal with
  | |- obind ?m _ = omap _ (obind ?m _) => destruct m as [?| | |]; [cbn [obind]|reflexivity..]
  | |- (let (_, _) := ?x in _) = _ => is_var x; destruct x
  | |- (if ?b then _ else _) = omap _ (if ?b then _ else _) => destruct b
  end.
Ltac bind := apply bind_map with (h := fm).

Lemma shrink_map : forall n r f, shrink_pile n r (fm f) = omap fm (shrink_pile n r f).
Proof.
  induction n; intros r f; auto. cbn [shrink_pile]. cbv zeta. rewrite fm_lay. step. step.
  bind; [apply destruct_card_map|]. intros f1. rewrite fm_lay, fm_with_lay. apply IHn.
Qed.

Lemma destruct_all_map : forall l f, destruct_all l (fm f) = omap fm (destruct_all l f).
Proof.
  induction l as [|c l IH]; intros f; auto. cbn [destruct_all]. step. bind; [apply destruct_card_map|exact IH].
Qed.

Lemma clear_pile_map : forall r f, clear_pile r (fm f) = omap fm (clear_pile r f).
Proof. intros r f. unfold clear_pile. rewrite fm_lay. bind; [apply destruct_all_map|]. reflexivity. Qed.

Lemma clear_zone_map : forall r f, clear_zone r (fm f) = omap fm (clear_zone r f).
Proof.
  intros r f. unfold clear_zone. rewrite fm_lay.
  destruct (read_zone r (f_lay f)) as [z| | |]; [cbn [obind]|reflexivity..].
  bind; [destruct (z_card z); [apply destruct_card_map|reflexivity]|]. intros f1.
  bind; [apply destruct_all_map|]. reflexivity.
Qed.

Lemma ofold_map : forall X (k : X -> frame A -> outcome (frame A)) k', (forall x f, k' x (fm f) = omap fm (k x f)) ->
  forall l f, ofold k' l (fm f) = omap fm (ofold k l f).
Proof. intros X k k' H. induction l as [|x l IH]; intros f; auto. cbn [ofold]. bind; [apply H|exact IH]. Qed.

Theorem fstep_map : forall o f, fstep b0 o (fm f) = omap fm (fstep a0 o f).
Proof.
  assert (L : forall op f, lift op (fm f) = omap fm (lift op f)).
  { intros op f. unfold lift. rewrite fm_lay. step. reflexivity. }
  intros o f. destruct o; cbn [fstep]; try apply L.
  - unfold card_add, construct_card. cbn [fmap f_lay f_next f_heap].
    destruct (card_insert p (f_next f) (f_lay f)); cbn [obind]; try reflexivity.
    unfold omap, with_lay, fmap. cbn. rewrite g0. reflexivity.
  - unfold card_remove. rewrite fm_lay. step. step. step. step. rewrite fm_with_lay. apply destruct_card_map.
  - unfold f_card_move. rewrite fm_lay. destruct (card_move from to (f_lay f)) as [[c L']| | |]; cbn [obind]; try reflexivity.
    cbn [fmap f_heap]. rewrite hmap_get. destruct (heap_get c (f_heap f)); reflexivity.
  - unfold pile_resize. step. step. cbv zeta. rewrite fm_lay.
    bind.
    { destruct (_ <? count); [unfold omap; cbn [obind]; now rewrite (grow_map _ _ _ _ _ g0)|].
      destruct (count <? _); [apply shrink_map|reflexivity]. }
    intros f1. rewrite fm_lay. step. reflexivity.
  - unfold clear. bind; [apply ofold_map, clear_pile_map|]. intros f1. apply ofold_map, clear_zone_map.
Qed.

End Nat.
