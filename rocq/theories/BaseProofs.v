(** Lemmas about the vocabulary of Base.v. *)
From Verif Require Import Base.

Set Implicit Arguments.

Lemma obind_Ok : forall A B (m : outcome A) (k : A -> outcome B) b,
  obind m k = Ok b -> exists a, m = Ok a /\ k a = Ok b.
Proof. intros A B [a| | |] k b H; simpl in H; try discriminate; eauto. Qed.

Lemma assert_Ok : forall b u, assert_ b = Ok u -> b = true.
Proof. intros [] u H; [reflexivity|discriminate]. Qed.

Lemma or_ub_Ok : forall A (o : option A) a, or_ub o = Ok a -> o = Some a.
Proof. intros A [x|] a H; inversion H; reflexivity. Qed.

(** Decompose a successful monadic computation found in the context. *)
Ltac inv_ok :=
  repeat match goal with
  | H : obind _ _ = Ok _ |- _ =>
      apply obind_Ok in H; let a := fresh "r" in let E := fresh "E" in
      destruct H as [a [E H]]
  | H : assert_ _ = Ok _ |- _ => apply assert_Ok in H
  | H : or_ub _ = Ok _ |- _ => apply or_ub_Ok in H
  | H : (let (_, _) := ?r in _) = Ok _ |- _ => is_var r; destruct r
  | H : Ok _ = Ok _ |- _ => injection H as H; try subst
  | H : Abort = Ok _ |- _ => discriminate H
  | H : UB = Ok _ |- _ => discriminate H
  | H : Diverge = Ok _ |- _ => discriminate H
  end.

Lemma ofold_app : forall A S (f : A -> S -> outcome S) l1 l2 s,
  ofold f (l1 ++ l2) s = (let! s' := ofold f l1 s in ofold f l2 s').
Proof.
  induction l1 as [|a l1 IH]; intros l2 s; simpl; [reflexivity|].
  destruct (f a s); simpl; auto.
Qed.

Lemma ofold_inv : forall A S (P : S -> Prop) (f : A -> S -> outcome S) l s s',
  (forall a t t', In a l -> P t -> f a t = Ok t' -> P t') ->
  P s -> ofold f l s = Ok s' -> P s'.
Proof.
  induction l as [|a l IH]; intros s s' Hf Hs H; simpl in H.
  - injection H as <-; exact Hs.
  - apply obind_Ok in H; destruct H as [t [E H]].
    apply (IH t s'); auto.
    + intros; eapply Hf; simpl; eauto.
    + eapply Hf; simpl; eauto.
Qed.

Lemma upd_length : forall A n (x : A) l, length (upd n x l) = length l.
Proof. induction n; destruct l; simpl; auto. Qed.

Lemma upd_same : forall A n (x : A) l,
  n < length l -> nth_error (upd n x l) n = Some x.
Proof.
  induction n; destruct l; simpl; intros; try lia; auto.
  apply IHn; lia.
Qed.

Lemma upd_other : forall A n m (x : A) l,
  n <> m -> nth_error (upd n x l) m = nth_error l m.
Proof.
  induction n; destruct l, m; simpl; intros; try lia; auto.
Qed.

Lemma upd_upd : forall A n (x y : A) l, upd n x (upd n y l) = upd n x l.
Proof. induction n; destruct l; simpl; intros; congruence. Qed.

Lemma upd_id : forall A n (x : A) l, nth_error l n = Some x -> upd n x l = l.
Proof.
  induction n; destruct l; simpl; intros; try discriminate; try congruence.
  f_equal; auto.
Qed.

Lemma upd_comm : forall A n m (x y : A) l,
  n <> m -> upd n x (upd m y l) = upd m y (upd n x l).
Proof. induction n; destruct m, l; simpl; intros; auto; try lia. f_equal; auto. Qed.

Lemma upd_out : forall A n (x : A) l, length l <= n -> upd n x l = l.
Proof. induction n; destruct l; simpl; intros; auto; try lia. f_equal; apply IHn; lia. Qed.

Lemma nth_error_upd : forall A n m (x : A) l,
  nth_error (upd n x l) m =
  if Nat.eq_dec n m then (if lt_dec n (length l) then Some x else None)
  else nth_error l m.
Proof.
  intros. destruct (Nat.eq_dec n m) as [->|E].
  - destruct (lt_dec m (length l)).
    + apply upd_same; auto.
    + rewrite upd_out by lia. apply nth_error_None; lia.
  - apply upd_other; auto.
Qed.

Lemma nth_error_ext : forall A (l1 l2 : list A),
  (forall i, nth_error l1 i = nth_error l2 i) -> l1 = l2.
Proof.
  induction l1; destruct l2; intros H; auto.
  - specialize (H 0); discriminate.
  - specialize (H 0); discriminate.
  - f_equal.
    + specialize (H 0); simpl in H; congruence.
    + apply IHl1. intros i. exact (H (S i)).
Qed.

Lemma insert_nth_length : forall A n (x : A) l, length (insert_nth n x l) = S (length l).
Proof.
  intros. unfold insert_nth. rewrite app_length; simpl.
  rewrite firstn_length, skipn_length. lia.
Qed.

Lemma remove_nth_length : forall A n (l : list A),
  n < length l -> length (remove_nth n l) = length l - 1.
Proof.
  intros. unfold remove_nth. rewrite app_length, firstn_length, skipn_length. lia.
Qed.

Lemma nth_error_insert_lt : forall A n (x : A) l i,
  n <= length l -> i < n -> nth_error (insert_nth n x l) i = nth_error l i.
Proof.
  intros. unfold insert_nth. rewrite nth_error_app1 by (rewrite firstn_length; lia).
  revert n l H H0. induction i; destruct n, l; simpl; intros; try lia; auto.
  apply IHi; lia.
Qed.

Lemma nth_error_insert_eq : forall A n (x : A) l,
  n <= length l -> nth_error (insert_nth n x l) n = Some x.
Proof.
  intros. unfold insert_nth. rewrite nth_error_app2; rewrite firstn_length; [|lia].
  replace (n - Nat.min n (length l)) with 0 by lia. reflexivity.
Qed.

Lemma nth_error_skipn : forall A n (l : list A) i,
  nth_error (skipn n l) i = nth_error l (n + i).
Proof.
  induction n; destruct l; simpl; intros; auto. destruct i; auto.
Qed.

Lemma nth_error_firstn : forall A n (l : list A) i,
  i < n -> nth_error (firstn n l) i = nth_error l i.
Proof.
  induction n; destruct l, i; simpl; intros; auto; try lia. apply IHn; lia.
Qed.

Lemma nth_error_insert_gt : forall A n (x : A) l i,
  n <= length l -> n <= i -> nth_error (insert_nth n x l) (S i) = nth_error l i.
Proof.
  intros. unfold insert_nth. rewrite nth_error_app2; rewrite firstn_length; [|lia].
  replace (S i - Nat.min n (length l)) with (S (i - n)) by lia. simpl.
  rewrite nth_error_skipn. f_equal. lia.
Qed.

Lemma nth_error_remove_lt : forall A n (l : list A) i,
  n < length l -> i < n -> nth_error (remove_nth n l) i = nth_error l i.
Proof.
  intros. unfold remove_nth. rewrite nth_error_app1 by (rewrite firstn_length; lia).
  apply nth_error_firstn; auto.
Qed.

Lemma nth_error_remove_ge : forall A n (l : list A) i,
  n < length l -> n <= i -> nth_error (remove_nth n l) i = nth_error l (S i).
Proof.
  intros. unfold remove_nth. rewrite nth_error_app2; rewrite firstn_length; [|lia].
  rewrite nth_error_skipn. f_equal. lia.
Qed.

Lemma remove_insert : forall A n (x : A) l,
  n <= length l -> remove_nth n (insert_nth n x l) = l.
Proof.
  induction n; intros x l H; unfold remove_nth, insert_nth in *; simpl.
  - reflexivity.
  - destruct l as [|y l]; simpl in *; [lia|]. f_equal. apply IHn. lia.
Qed.

Lemma insert_remove : forall A n (x : A) l,
  nth_error l n = Some x -> insert_nth n x (remove_nth n l) = l.
Proof.
  induction n; intros x l H; unfold remove_nth, insert_nth in *; destruct l as [|y l];
    simpl in *; try discriminate; try congruence.
  f_equal. apply (IHn x l H).
Qed.

Lemma lenN_nth_error : forall A (l : list A) (n : N),
  (n < lenN l)%N <-> nth_error l (N.to_nat n) <> None.
Proof. intros. rewrite nth_error_Some. unfold lenN. lia. Qed.
