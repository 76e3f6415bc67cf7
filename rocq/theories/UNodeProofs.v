(** Proofs about UNode.v. *)
From Coq Require Import Permutation.
From Verif Require Import Base Limbo UNode UNodeSpec.

Set Implicit Arguments.

(** ** Lists *)

Lemma existsb_In n l : existsb (Nat.eqb n) l = true <-> In n l.
Proof.
  rewrite existsb_exists. split.
  - intros (x & Hx & E). apply Nat.eqb_eq in E. now subst.
  - intro H. exists n. split; [assumption|apply Nat.eqb_refl].
Qed.

Lemma existsb_notIn n l : existsb (Nat.eqb n) l = false <-> ~ In n l.
Proof.
  rewrite <- existsb_In. destruct (existsb _ _); split; congruence.
Qed.

Lemma succ_of_mid n a b : ~ In n a -> succ_of n (a ++ n :: b) = hd_error b.
Proof.
  induction a as [|x a IH]; cbn.
  - intros _. rewrite Nat.eqb_refl. now destruct b.
  - intro H. destruct (Nat.eqb_spec x n) as [->|E]; [destruct H; now left|].
    apply IH. tauto.
Qed.

Lemma pred_of_mid n a b : ~ In n b -> pred_of n (a ++ n :: b) = hd_error (rev a).
Proof.
  intro H. unfold pred_of. rewrite rev_app_distr. cbn [rev]. rewrite <- app_assoc. cbn [app].
  apply succ_of_mid. now rewrite <- in_rev.
Qed.

Lemma is_last_mid n a b : ~ In n b ->
  is_last n (a ++ n :: b) = match b with [] => true | _ => false end.
Proof.
  intro H. unfold is_last. rewrite rev_app_distr. cbn [rev]. rewrite <- app_assoc.
  destruct b as [|y b]; cbn [rev app].
  - apply Nat.eqb_refl.
  - rewrite <- app_assoc. cbn [app].
    destruct (rev b) as [|z c] eqn:E; cbn [app].
    + destruct (Nat.eqb_spec y n) as [->|]; [destruct H; now left|reflexivity].
    + destruct (Nat.eqb_spec z n) as [->|]; [|reflexivity].
      destruct H. right. apply in_rev. rewrite E. now left.
Qed.

Lemma is_first_mid n a b : ~ In n a ->
  is_first n (a ++ n :: b) = match a with [] => true | _ => false end.
Proof.
  intro H. destruct a as [|y a]; cbn.
  - apply Nat.eqb_refl.
  - destruct (Nat.eqb_spec y n) as [->|]; [destruct H; now left|reflexivity].
Qed.

Lemma nodup_mid (n : nat) a b : NoDup (a ++ n :: b) -> ~ In n a /\ ~ In n b.
Proof.
  intro H. apply NoDup_remove_2 in H. rewrite in_app_iff in H. tauto.
Qed.

Lemma put_same {A} k (v : A) f : put k v f k = v.
Proof. unfold put. now rewrite Nat.eqb_refl. Qed.
Lemma put_other {A} k (v : A) f i : i <> k -> put k v f i = f i.
Proof. intro H. unfold put. now apply Nat.eqb_neq in H as ->. Qed.

Section Values.
Variable T : Type.
Variable d : T.

(** ** What holds of every memory *)

Definition good_obj (m : mem T) (o : obj) : Prop :=
  NoDup (ob_values o)
  /\ (forall n, In n (ob_values o) -> n < me_next m /\ me_nodes m n <> None)
  /\ ob_cur o < me_next m.
Definition minv (m : mem T) : Prop :=
  (forall x o, me_objs m x = Some o -> good_obj m o)
  /\ (forall x y o p n, me_objs m x = Some o -> me_objs m y = Some p ->
        In n (ob_values o) -> In n (ob_values p) -> x = y).

Lemma minv0 : minv mem0.
Proof. split; cbn; discriminate. Qed.

(** The memory may grow. *)
Definition grows (m m' : mem T) : Prop :=
  me_next m <= me_next m'
  /\ (forall n, n < me_next m -> me_nodes m' n = me_nodes m n)
  /\ me_objs m' = me_objs m.

Lemma grows_refl m : grows m m.
Proof. unfold grows. auto. Qed.

Lemma grows_trans a b c : grows a b -> grows b c -> grows a c.
Proof.
  intros (N1 & V1 & O1) (N2 & V2 & O2). split; [lia|]. split; [|congruence].
  intros n H. rewrite V2 by lia. auto.
Qed.

Lemma alloc_grows v m : grows m (snd (alloc v m)).
Proof.
  unfold grows, alloc. cbn. split; [lia|]. split; [|reflexivity].
  intros n H. apply put_other. lia.
Qed.

Lemma alloc_all_spec l m ns m' : alloc_all l m = (ns, m') ->
  grows m m' /\ ns = seq (me_next m) (length l) /\ me_next m' = me_next m + length l
  /\ Forall2 (fun n v => me_nodes m' n = Some v) ns l.
Proof.
  revert m ns m'. induction l as [|v l IH]; intros m ns m' E; cbn in E.
  - injection E as <- <-. repeat split; auto; cbn; lia.
  - destruct (alloc_all l _) as (ns1, m2) eqn:E1. injection E as <- <-.
    destruct (IH _ _ _ E1) as (G & -> & N & F). cbn in N.
    split; [eapply grows_trans; [apply (alloc_grows v)|exact G]|].
    split; [reflexivity|]. split; [cbn; lia|].
    constructor; [|exact F].
    destruct G as (_ & V & _). cbn in V. rewrite V by lia. apply put_same.
Qed.

Lemma good_obj_grows m m' o : good_obj m o -> grows m m' -> good_obj m' o.
Proof.
  intros (D & V & C) (N & G & _). split; [exact D|]. split; [|lia].
  intros n H. destruct (V n H) as (L & S). split; [lia|]. now rewrite G.
Qed.

Lemma minv_grows m m' : minv m -> grows m m' -> minv m'.
Proof.
  intros (A & B) G. assert (O : me_objs m' = me_objs m) by apply G. split.
  - intros x o H. rewrite O in H. eapply good_obj_grows; eauto.
  - intros x y o p n H1 H2. rewrite O in H1, H2. eauto.
Qed.

(** Replacing one object. *)
Lemma minv_set m x o : minv m -> good_obj m o ->
  (forall y p n, y <> x -> me_objs m y = Some p -> In n (ob_values p) -> ~ In n (ob_values o)) ->
  minv (set_obj x (Some o) m).
Proof.
  intros (A & B) G S. split; cbn.
  - intros y p. unfold put. destruct (Nat.eqb y x) eqn:E.
    + intros [= <-]. exact G.
    + intro H. exact (A _ _ H).
  - intros y z p q n. unfold put.
    destruct (Nat.eqb_spec y x), (Nat.eqb_spec z x); subst; auto.
    + intros [= <-] H I1 I2. exfalso. eapply S; eauto.
    + intros H [= <-] I1 I2. exfalso. eapply S; eauto.
    + eauto.
Qed.

Lemma minv_drop m x : minv m -> minv (set_obj x None m).
Proof.
  intros (A & B). split; cbn.
  - intros y p. unfold put. destruct (Nat.eqb y x) eqn:E; [discriminate|]. intro H. exact (A _ _ H).
  - intros y z p q n. unfold put.
    destruct (Nat.eqb y x), (Nat.eqb z x); try discriminate. eauto.
Qed.

Lemma free_all_spec l (m : mem T) :
  me_next (free_all l m) = me_next m /\ me_objs (free_all l m) = me_objs m
  /\ (forall n, me_nodes (free_all l m) n = if existsb (Nat.eqb n) l then None else me_nodes m n).
Proof.
  induction l as [|k l (N & O & V)]; cbn.
  - auto.
  - split; [exact N|]. split; [exact O|]. intro n. unfold put. rewrite V.
    destruct (Nat.eqb n k); reflexivity.
Qed.

Lemma obind_inv {A B} (m : outcome A) (k : A -> outcome B) b :
  obind m k = Ok b -> exists a, m = Ok a /\ k a = Ok b.
Proof. destruct m; cbn; try discriminate. eauto. Qed.

Lemma object_inv x (m : mem T) o : object x m = Ok o -> me_objs m x = Some o.
Proof. unfold object. destruct (me_objs m x); cbn; congruence. Qed.

Lemma vacant_inv x (m : mem T) u : vacant x m = Ok u -> me_objs m x = None.
Proof. unfold vacant. destruct (me_objs m x); cbn; congruence. Qed.

Lemma comparable_inv o u : comparable o = Ok u -> In (ob_cur o) (ob_values o).
Proof.
  unfold comparable. destruct (existsb _ _) eqn:E; [|discriminate]. intros _. now apply existsb_In.
Qed.

Lemma succ_of_In n l c : succ_of n l = Some c -> In c l.
Proof.
  induction l as [|x l IH]; cbn; [discriminate|].
  destruct (Nat.eqb x n).
  - destruct l; [discriminate|]. intros [= ->]. right. now left.
  - auto.
Qed.

Lemma set_grown (m : mem T) x o v : minv m -> me_objs m x = Some o ->
  let vs := fst (if is_last (ob_cur o) (ob_values o)
     then let (n, m1) := alloc v m in (ob_values o ++ [n], m1) else (ob_values o, m)) in
  let m1 := snd (if is_last (ob_cur o) (ob_values o)
     then let (n, m1) := alloc v m in (ob_values o ++ [n], m1) else (ob_values o, m)) in
  grows m m1 /\ minv m1 /\ NoDup vs /\ incl (ob_values o) vs
  /\ (forall n, In n vs -> n < me_next m1 /\ me_nodes m1 n <> None)
  /\ (forall n, In n vs -> In n (ob_values o) \/ n = me_next m).
Proof.
  intros I H. destruct (proj1 I _ _ H) as (D & V & C).
  destruct (is_last (ob_cur o) (ob_values o)); cbn.
  - split; [apply (alloc_grows v)|].
    split; [exact (minv_grows I (alloc_grows v m))|].
    split.
    { eapply Permutation_NoDup; [apply Permutation_cons_append|]. constructor; [|exact D].
      intro Hi. apply V in Hi. lia. }
    split; [apply incl_appl, incl_refl|].
    split.
    + intros n Hn. apply in_app_iff in Hn as [Hn|[<-|[]]].
      * destruct (V _ Hn). split; [lia|]. rewrite put_other by lia. assumption.
      * split; [lia|]. rewrite put_same. discriminate.
    + intros n Hn. apply in_app_iff in Hn as [Hn|[<-|[]]]; auto.
  - split; [apply grows_refl|]. split; [exact I|]. split; [exact D|].
    split; [apply incl_refl|]. split; [exact V|auto].
Qed.

Lemma n_set_minv x v (m m' : mem T) : minv m -> n_set x v m = Ok m' -> minv m'.
Proof.
  intros I E. unfold n_set in E.
  apply obind_inv in E as (o & Ho & E). apply object_inv in Ho.
  apply obind_inv in E as ([] & _ & E).
  pose proof (@set_grown m x o v I Ho) as H. cbn zeta in H.
  destruct (if is_last _ _ then _ else _) as (vs, m1). cbn [fst snd] in H.
  destruct H as (G & I1 & D & _ & V & W).
  apply obind_inv in E as (c & Hc & E). injection E as <-.
  destruct (succ_of (ob_cur o) vs) as [c'|] eqn:Sc; [|discriminate]. injection Hc as ->.
  apply minv_set; [exact I1| |].
  - split; [exact D|]. split; [exact V|]. cbn. apply succ_of_In in Sc. now apply V.
  - cbn. intros y p n N Hy Hn Hi. destruct G as (_ & _ & O). rewrite O in Hy.
    apply W in Hi as [Hi| ->].
    + apply N. eapply (proj2 I); eauto.
    + apply (proj1 I _ _ Hy) in Hn. lia.
Qed.

Lemma pred_of_In n l c : pred_of n l = Some c -> In c l.
Proof. unfold pred_of. intro H. apply succ_of_In in H. now apply in_rev. Qed.

Lemma n_undo_minv x (m m' : mem T) : minv m -> n_undo x m = Ok m' -> minv m'.
Proof.
  intros I E. unfold n_undo in E.
  apply obind_inv in E as (o & Ho & E). apply object_inv in Ho.
  apply obind_inv in E as ([] & _ & E). apply obind_inv in E as ([] & _ & E).
  apply obind_inv in E as (c & Hc & E). injection E as <-.
  destruct (pred_of (ob_cur o) (ob_values o)) as [c'|] eqn:Sc; [|discriminate]. injection Hc as ->.
  apply pred_of_In in Sc. destruct (proj1 I _ _ Ho) as (D & V & C).
  apply minv_set; [exact I| |].
  - split; [exact D|]. split; [exact V|]. now apply V.
  - cbn. intros y p n N Hy Hn Hi. apply N. eapply (proj2 I); eauto.
Qed.

Lemma n_new_minv x (m m' : mem T) : minv m -> n_new d x m = Ok m' -> minv m'.
Proof.
  intros I E. unfold n_new in E. apply obind_inv in E as ([] & _ & E). cbn in E. injection E as <-.
  apply (@minv_set _ x (mkObj [me_next m] (me_next m)) (minv_grows I (alloc_grows d m))).
  - split; [repeat constructor; auto|]. split; [|cbn; lia].
    cbn. intros n [<-|[]]. split; [lia|]. now rewrite put_same.
  - cbn. intros y p n N Hy Hn [<-|[]]. apply (proj1 I _ _ Hy) in Hn. lia.
Qed.

Lemma n_copy_minv x y (m m' : mem T) : minv m -> n_copy x y m = Ok m' -> minv m'.
Proof.
  intros I E. unfold n_copy in E. apply obind_inv in E as (o & Ho & E). apply object_inv in Ho.
  apply obind_inv in E as ([] & _ & E). apply obind_inv in E as (vs & _ & E).
  destruct (alloc_all vs m) as (ns, m1) eqn:A. injection E as <-.
  destruct (alloc_all_spec _ _ A) as (G & -> & N & F).
  apply minv_set; [exact (minv_grows I G)| |].
  - split; [apply seq_NoDup|]. split.
    + cbn. intros n Hn. split; [apply in_seq in Hn; lia|].
      clear - F Hn. induction F; [destruct Hn|]. destruct Hn as [<-|Hn]; [congruence|auto].
    + cbn. destruct (proj1 I _ _ Ho) as (_ & _ & C). lia.
  - cbn. intros z p n Nz Hz Hn Hi. destruct G as (_ & _ & O). rewrite O in Hz.
    apply (proj1 I _ _ Hz) in Hn. apply in_seq in Hi. lia.
Qed.

Lemma n_move_minv x y (m m' : mem T) : minv m -> n_move x y m = Ok m' -> minv m'.
Proof.
  intros I E. unfold n_move in E. apply obind_inv in E as (o & Ho & E). apply object_inv in Ho.
  apply obind_inv in E as (u & Hv & E). injection E as <-. apply vacant_inv in Hv.
  destruct (proj1 I _ _ Ho) as (D & V & C).
  assert (I1 : minv (set_obj x (Some (mkObj [] (ob_cur o))) m)).
  { apply minv_set; [exact I| |].
    - split; [constructor|]. split; [intros n []|exact C].
    - cbn. auto. }
  apply minv_set; [exact I1| |].
  - split; [exact D|]. split; [exact V|exact C].
  - cbn. intros z p n Nz Hz Hn Hi. unfold put in Hz. destruct (Nat.eqb_spec z x) as [->|Ne].
    + injection Hz as <-. destruct Hn.
    + apply Ne. eapply (proj2 I); eauto.
Qed.

Lemma n_assign_minv x y (m m' : mem T) : minv m -> n_assign d x y m = Ok m' -> minv m'.
Proof.
  intros I E. unfold n_assign in E. apply obind_inv in E as (o & _ & E). apply obind_inv in E as (p & _ & E).
  apply obind_inv in E as ([] & _ & E). apply obind_inv in E as (v & _ & E). eapply n_set_minv; eauto.
Qed.

(** Destroying the nodes of an object, which becomes empty. *)
Definition emptied x (o : obj) (m : mem T) : mem T :=
  set_obj x (Some (mkObj [] (ob_cur o))) (free_all (ob_values o) m).
Lemma emptied_minv x o (m : mem T) : minv m -> me_objs m x = Some o -> minv (emptied x o m).
Proof.
  intros I Ho. destruct (free_all_spec (ob_values o) m) as (N & O & V). split; cbn; rewrite O.
  - intros y p. unfold put. destruct (Nat.eqb_spec y x) as [->|Ne].
    + intros [= <-]. split; [constructor|]. split; [intros n []|]. cbn. rewrite N. apply (proj1 I _ _ Ho).
    + intro Hy. destruct (proj1 I _ _ Hy) as (D & W & C). split; [exact D|]. cbn. rewrite N. split; [|exact C].
      intros n Hn. destruct (W _ Hn) as (L & S). split; [exact L|]. rewrite V.
      destruct (existsb _ _) eqn:Ex; [|exact S]. apply existsb_In in Ex. destruct Ne. eapply (proj2 I); eauto.
  - intros y z p q n. unfold put.
    destruct (Nat.eqb_spec y x), (Nat.eqb_spec z x); subst; auto.
    + intros [= <-] _ [].
    + intros _ [= <-] _ [].
    + apply (proj2 I).
Qed.

Lemma set_obj_twice x o p (m : mem T) : forall y, me_objs (set_obj x o (set_obj x p m)) y = me_objs (set_obj x o m) y.
Proof. intro y. cbn. unfold put. now destruct (Nat.eqb y x). Qed.
(** Memories that do not differ. *)
Definition same (m m' : mem T) : Prop :=
  me_next m = me_next m' /\ me_nodes m = me_nodes m' /\ forall x, me_objs m x = me_objs m' x.
Lemma same_minv m m' : same m m' -> minv m -> minv m'.
Proof.
  intros (N & V & O) (A & B). split.
  - intros x o H. rewrite <- O in H. destruct (A _ _ H) as (D & W & C). split; [exact D|].
    rewrite <- N, <- V. auto.
  - intros x y o p n H1 H2. rewrite <- O in H1, H2. eauto.
Qed.
Lemma alloc_all_objs l (m m' : mem T) : me_next m = me_next m' -> me_nodes m = me_nodes m' ->
  fst (alloc_all l m) = fst (alloc_all l m') /\ me_next (snd (alloc_all l m)) = me_next (snd (alloc_all l m')) /\
  me_nodes (snd (alloc_all l m)) = me_nodes (snd (alloc_all l m')).
Proof.
  revert m m'. induction l as [|v l IH]; intros m m' N V; cbn [alloc_all alloc]; [auto|].
  destruct (IH (mkMem (S (me_next m)) (put (me_next m) (Some v) (me_nodes m)) (me_objs m))
    (mkMem (S (me_next m')) (put (me_next m') (Some v) (me_nodes m')) (me_objs m'))) as (A & B & C);
    [cbn; congruence|cbn; congruence|].
  destruct (alloc_all l _) as (ns, m1). destruct (alloc_all l (mkMem (S (me_next m')) _ _)) as (ns', m1').
  cbn [fst snd] in *. rewrite N, A. auto.
Qed.

Lemma n_copy_to_same x y o p vs ns m1 (m : mem T) : me_objs m x = Some o -> me_objs m y = Some p -> x <> y ->
  load_all (ob_values o) m = Ok vs -> alloc_all vs (free_all (ob_values p) m) = (ns, m1) ->
  exists m2, alloc_all vs (emptied y p m) = (ns, m2) /\
    same (set_obj y (Some (mkObj ns (ob_cur o))) m2) (set_obj y (Some (mkObj ns (ob_cur o))) m1).
Proof.
  intros Ho Hp Ne L A.
  destruct (alloc_all_objs vs (emptied y p m) (free_all (ob_values p) m)) as (E1 & E2 & E3); [reflexivity|reflexivity|].
  destruct (alloc_all vs (emptied y p m)) as (ns', m2) eqn:A2. rewrite A in *. cbn [fst snd] in *. subst ns'.
  exists m2. split; [reflexivity|]. split; [exact E2|]. split; [exact E3|].
  destruct (alloc_all_spec _ _ A) as ((_ & _ & O1) & _). destruct (alloc_all_spec _ _ A2) as ((_ & _ & O2) & _).
  intro z. cbn. unfold put. destruct (Nat.eqb z y) eqn:Ez; [reflexivity|]. rewrite O1, O2. cbn. unfold put. now rewrite Ez.
Qed.

Lemma n_copy_to_minv x y (m m' : mem T) : minv m -> n_copy_to x y m = Ok m' -> minv m'.
Proof.
  intros I E. unfold n_copy_to in E. apply obind_inv in E as (o & Ho & E). apply object_inv in Ho.
  apply obind_inv in E as (p & Hp & E). apply object_inv in Hp.
  destruct (Nat.eqb_spec x y) as [->|Ne]; [injection E as <-; exact I|].
  apply obind_inv in E as (vs & L & E). destruct (alloc_all vs (free_all _ _)) as (ns, m1) eqn:A. injection E as <-.
  destruct (@n_copy_to_same x y o p vs ns m1 m Ho Hp Ne L A) as (m2 & A2 & Sm).
  eapply same_minv; [exact Sm|]. pose proof (emptied_minv _ I Hp) as I2.
  destruct (alloc_all_spec _ _ A2) as (G & -> & N & F).
  apply minv_set; [exact (minv_grows I2 G)| |].
  - split; [apply seq_NoDup|]. split.
    + cbn [ob_values]. intros n Hn. split; [apply in_seq in Hn; lia|].
      clear - F Hn. induction F; [destruct Hn|]. destruct Hn as [<-|Hn]; [congruence|auto].
    + cbn [ob_cur]. destruct (proj1 I _ _ Ho) as (_ & _ & C). destruct (free_all_spec (ob_values p) m) as (N1 & _).
      change (me_next (emptied y p m)) with (me_next (free_all (ob_values p) m)) in N. rewrite N1 in N. lia.
  - cbn [ob_values]. intros z q n Nz Hz Hn Hi. destruct G as (_ & _ & O). rewrite O in Hz.
    apply (proj1 I2 _ _ Hz) in Hn. apply in_seq in Hi. lia.
Qed.

Lemma n_move_to_minv x y (m m' : mem T) : minv m -> n_move_to x y m = Ok m' -> minv m'.
Proof.
  intros I E. unfold n_move_to in E. apply obind_inv in E as (o & Ho & E). apply object_inv in Ho.
  apply obind_inv in E as (p & Hp & E). apply object_inv in Hp.
  destruct (Nat.eqb_spec x y) as [->|Ne]; [discriminate|]. injection E as <-.
  pose proof (emptied_minv _ I Hp) as I2.
  assert (Ho2 : me_objs (emptied y p m) x = Some o).
  { cbn. rewrite put_other by exact Ne. now destruct (free_all_spec (ob_values p) m) as (_ & -> & _). }
  destruct (proj1 I2 _ _ Ho2) as (D & V & C).
  assert (I1 : minv (set_obj x (Some (mkObj [] (ob_cur o))) (emptied y p m))).
  { apply minv_set; [exact I2| |].
    - split; [constructor|]. split; [intros n []|exact C].
    - cbn. auto. }
  apply same_minv with (m := set_obj y (Some o) (set_obj x (Some (mkObj [] (ob_cur o))) (emptied y p m))).
  { split; [reflexivity|]. split; [reflexivity|]. intro z. cbn. unfold put.
    destruct (Nat.eqb z y) eqn:Ez; [reflexivity|]. now destruct (Nat.eqb z x). }
  apply minv_set; [exact I1| |].
  - split; [exact D|]. split; [exact V|exact C].
  - intros z q n Nz Hz Hn Hi. cbn in Hz. unfold put in Hz. destruct (Nat.eqb_spec z x) as [->|Nx].
    + injection Hz as <-. destruct Hn.
    + destruct (Nat.eqb_spec z y); [contradiction|]. apply Nx. eapply (proj2 I2); [|exact Ho2|exact Hn|exact Hi].
      cbn. rewrite put_other by assumption. exact Hz.
Qed.

Lemma n_kill_minv x (m m' : mem T) : minv m -> n_kill x m = Ok m' -> minv m'.
Proof.
  intros I E. unfold n_kill in E. apply obind_inv in E as (o & Ho & E). apply object_inv in Ho.
  injection E as <-. destruct (free_all_spec (ob_values o) m) as (N & O & V).
  split; cbn; rewrite O.
  - intros y p. unfold put. destruct (Nat.eqb_spec y x) as [|Ne]; [discriminate|]. intro Hy.
    destruct (proj1 I _ _ Hy) as (D & W & C). split; [exact D|]. cbn. rewrite N. split; [|exact C].
    intros n Hn. destruct (W _ Hn) as (L & S). split; [exact L|]. rewrite V.
    destruct (existsb _ _) eqn:Ex; [|exact S]. apply existsb_In in Ex. destruct Ne. eapply (proj2 I); eauto.
  - intros y z p q n. unfold put.
    destruct (Nat.eqb y x), (Nat.eqb z x); try discriminate. apply (proj2 I).
Qed.

Lemma deed_minv o (m m' : mem T) v : minv m -> deed d o m = Ok (v, m') -> minv m'.
Proof.
  intros I E. destruct o; cbn in E; apply obind_inv in E as (a & Ha & E); injection E as <- <-;
    eauto using n_new_minv, n_set_minv, n_undo_minv, n_copy_minv, n_move_minv, n_kill_minv,
      n_assign_minv, n_copy_to_minv, n_move_to_minv.
Qed.

(** ** Programs without copies *)

Definition stored (m : mem T) (n : nat) (v : T) : Prop := me_nodes m n = Some v.
Definition holds (m : mem T) (o : obj) (u : undoable T) : Prop :=
  exists ps ns, ob_values o = rev ps ++ ob_cur o :: ns
    /\ Forall2 (stored m) ps (u_past u) /\ stored m (ob_cur o) (u_cur u)
    /\ Forall2 (stored m) ns (u_next u).
Definition agree (m : mem T) (s : cells T) : Prop :=
  forall x, match s x with
    | Absent _ => me_objs m x = None
    | Husk _ => exists o, me_objs m x = Some o /\ ob_values o = []
    | Live u => exists o, me_objs m x = Some o /\ holds m o u
    end.

Lemma holds_next m m' o u : holds m o u ->
  (forall n, In n (ob_values o) -> me_nodes m' n = me_nodes m n) -> holds m' o u.
Proof.
  intros (ps & ns & V & P & C & F) H.
  assert (Q : forall l us, (forall n, In n l -> In n (ob_values o)) ->
    Forall2 (stored m) l us -> Forall2 (stored m') l us).
  { intros l us Hl Hf. induction Hf as [|n v l us Hn Hf IH]; constructor.
    - unfold stored. rewrite H; [exact Hn|]. apply Hl. now left.
    - apply IH. intros k Hk. apply Hl. now right. }
  exists ps, ns. split; [exact V|]. split; [|split].
  - apply Q; [|exact P]. intros n Hn. rewrite V. apply in_app_iff. left. now apply in_rev in Hn.
  - unfold stored. rewrite H; [exact C|]. rewrite V. apply in_app_iff. right. now left.
  - apply Q; [|exact F]. intros n Hn. rewrite V. apply in_app_iff. right. now right.
Qed.

Lemma agree_grows m m' s : minv m -> agree m s -> grows m m' -> agree m' s.
Proof.
  intros I A G x. specialize (A x). assert (O := proj2 (proj2 G)). rewrite O.
  destruct (s x); auto. destruct A as (o & Ho & Hh). exists o. split; [exact Ho|].
  eapply holds_next; [exact Hh|]. intros n Hn. apply (proj1 (proj2 G)).
  now apply (proj1 I _ _ Ho) in Hn.
Qed.

Lemma agree_set m s x o c : agree m s ->
  match c with
  | Absent _ => o = None
  | Husk _ => exists p, o = Some p /\ ob_values p = []
  | Live u => exists p, o = Some p /\ holds m p u
  end -> agree (set_obj x o m) (store x c s).
Proof.
  intros A H y. specialize (A y). unfold store. cbn. unfold put.
  destruct (Nat.eqb y x); [|exact A]. destruct c; auto.
Qed.

Lemma agree_value m s x u : agree m s -> value x s = Ok u ->
  exists o, me_objs m x = Some o /\ holds m o u.
Proof.
  intros A E. specialize (A x). unfold value in E. destruct (s x); try discriminate.
  injection E as ->. exact A.
Qed.

Lemma agree_free m s x : agree m s -> free_at x s = Ok tt -> vacant x m = Ok tt.
Proof.
  intros A E. specialize (A x). unfold free_at in E. destruct (s x); try discriminate.
  unfold vacant. now rewrite A.
Qed.

Lemma holds_comparable m o u : holds m o u -> comparable o = Ok tt.
Proof.
  intros (ps & ns & V & _). unfold comparable.
  destruct (existsb _ _) eqn:E; [reflexivity|]. apply existsb_notIn in E. destruct E.
  rewrite V. apply in_app_iff. right. now left.
Qed.

Lemma set_agrees x v u m s : minv m -> agree m s -> value x s = Ok u ->
  exists m', n_set x v m = Ok m' /\ agree m' (store x (Live (u_set v u)) s).
Proof.
  intros I A F.
  destruct (agree_value _ A F) as (o & Ho & Hh). pose proof (holds_comparable Hh) as Hc.
  destruct Hh as (ps & ns & V & P & C & N). destruct (proj1 I _ _ Ho) as (D & W & Cu).
  unfold n_set, object. rewrite Ho. cbn [or_ub obind]. rewrite Hc. cbn [obind].
  rewrite V in D. destruct (nodup_mid _ _ _ D) as (D1 & D2).
  rewrite V. rewrite is_last_mid by assumption.
  destruct ns as [|n ns].
  + cbn [alloc]. rewrite <- app_assoc. cbn [app]. rewrite succ_of_mid by assumption. cbn [hd_error or_ub obind].
    eexists. split; [reflexivity|].
    inversion N as [N0 N1|]; subst.
    apply agree_set; [exact (agree_grows I A (alloc_grows v m))|].
    eexists. split; [reflexivity|]. unfold u_set. rewrite <- N1. 
    assert (Q : holds (snd (alloc v m)) o u).
    { eapply holds_next with (m := m). 
      - exists ps, []. rewrite <- N1. auto.
      - intros n Hn. apply (alloc_grows v m). now apply W in Hn. }
    exists (ob_cur o :: ps), []. cbn [ob_values ob_cur rev u_past u_cur u_next].
    split; [rewrite <- app_assoc; reflexivity|].
    destruct Q as (ps' & ns' & V' & P' & C' & _).
    assert (ps' = ps) as ->.
    { rewrite V in V'. assert (NoDup (rev ps' ++ ob_cur o :: ns')) as D' by (rewrite <- V'; exact D).
      destruct (nodup_mid _ _ _ D') as (D1' & D2').
      assert (X := pred_of_mid). clear X.
      apply (f_equal (@rev nat)) in V'. rewrite !rev_app_distr in V'. cbn in V'. rewrite !rev_involutive in V'.
      destruct (rev ns') as [|z zs] eqn:Z.
      - cbn in V'. congruence.
      - cbn in V'. injection V' as E1 E2. subst z. destruct D2'. apply in_rev. rewrite Z. now left. }
    split; [constructor; assumption|]. split; [|constructor].
    unfold stored. cbn. apply put_same.
  + rewrite succ_of_mid by assumption. cbn [hd_error or_ub obind]. eexists. split; [reflexivity|].
    inversion N as [|n0 t ns0 ts Hn Hf E1 E2]; subst.
    apply agree_set; [exact A|]. eexists. split; [reflexivity|]. unfold u_set. rewrite <- E2.
    exists (ob_cur o :: ps), ns. cbn [ob_values ob_cur rev u_past u_cur u_next].
    split; [rewrite <- app_assoc; reflexivity|].
    split; [constructor; assumption|]. split; assumption.
Qed.

Lemma assign_set x y v m m' : n_get y m = Ok v -> n_set x v m = Ok m' -> n_assign d x y m = Ok m'.
Proof.
  intros G E. unfold n_assign. unfold n_set in E. apply obind_inv in E as (o & Ho & E). rewrite Ho. cbn [obind].
  assert (exists p, object y m = Ok p) as (p & ->).
  { unfold n_get in G. apply obind_inv in G as (p & Hp & _). eauto. }
  cbn [obind]. apply obind_inv in E as ([] & Hc & E). rewrite Hc. cbn [obind].
  destruct (is_last _ _) eqn:La; [rewrite G|]; cbn [obind]; unfold n_set; rewrite Ho; cbn [obind]; rewrite Hc; cbn [obind];
    rewrite La; exact E.
Qed.

Lemma agree_emptied m s y p : minv m -> agree m s -> me_objs m y = Some p ->
  agree (emptied y p m) (store y (Husk T) s).
Proof.
  intros I A Hp x. specialize (A x). destruct (free_all_spec (ob_values p) m) as (_ & O & V).
  unfold store. cbn. unfold put. rewrite O.
  destruct (Nat.eqb_spec x y) as [->|Ne]; [eauto|].
  destruct (s x); auto. destruct A as (q & Hq & Hh). exists q. split; [exact Hq|].
  eapply holds_next; [exact Hh|]. intros n Hn. cbn. rewrite V.
  destruct (existsb _ _) eqn:Ex; [|reflexivity]. apply existsb_In in Ex. destruct Ne. eapply (proj2 I); eauto.
Qed.

Lemma agree_same m m' s s' : same m m' -> (forall x, s x = s' x) -> agree m s -> agree m' s'.
Proof.
  intros (N & V & O) Es A x. specialize (A x). rewrite Es, O in A. destruct (s' x); auto.
  destruct A as (o & Ho & Hh). exists o. split; [exact Ho|]. eapply holds_next; [exact Hh|]. intros n _. now rewrite V.
Qed.

Lemma agree_taken m s x : agree m s -> taken x s = Ok tt -> exists o, me_objs m x = Some o.
Proof.
  intros A E. specialize (A x). unfold taken in E. destruct (s x); [discriminate| |]; destruct A as (o & Ho & _); eauto.
Qed.

Lemma step_agrees o m s : no_copy o -> minv m -> agree m s -> wish d o s <> UB ->
  match wish d o s with
  | Ok (v, s') => exists m', deed d o m = Ok (v, m') /\ agree m' s'
  | Abort => deed d o m = Abort
  | _ => False
  end.
Proof.
  intros NC I A NU. destruct o as [x|x|x v|x|x y|x y|x y|x y|x y|x]; cbn [wish deed] in *;
    [| | | |destruct NC| | |destruct NC| |].
  - (* new *)
    destruct (free_at x s) as [[]| | |] eqn:F; cbn [obind] in *;
      try (unfold free_at in F; destruct (s x); congruence).
    unfold n_new. rewrite (agree_free _ A F). cbn [obind alloc]. eexists. split; [reflexivity|].
    apply agree_set; [exact (agree_grows I A (alloc_grows d m))|].
    eexists. split; [reflexivity|]. exists [], []. cbn. repeat split; auto.
    unfold stored. cbn. apply put_same.
  - (* get *)
    destruct (value x s) as [u| | |] eqn:F; cbn [obind] in *;
      try (unfold value in F; destruct (s x); congruence).
    destruct (agree_value _ A F) as (o & Ho & ps & ns & V & P & C & N).
    exists m. split; [|exact A]. unfold n_get, object. rewrite Ho. cbn. unfold load.
    rewrite C. reflexivity.
  - (* set *)
    destruct (value x s) as [u| | |] eqn:F; cbn [obind] in *;
      try (unfold value in F; destruct (s x); congruence).
    destruct (@set_agrees x v u m s I A F) as (m' & -> & A'). cbn [obind]. eauto.
  - (* undo *)
    destruct (value x s) as [u| | |] eqn:F; cbn [obind] in *;
      try (unfold value in F; destruct (s x); congruence).
    destruct (agree_value _ A F) as (o & Ho & Hh). pose proof (holds_comparable Hh) as Hc.
    destruct Hh as (ps & ns & V & P & C & N). destruct (proj1 I _ _ Ho) as (D & W & Cu).
    unfold n_undo, object. rewrite Ho. cbn [or_ub obind]. rewrite Hc. cbn [obind].
    rewrite V in D. destruct (nodup_mid _ _ _ D) as (D1 & D2).
    rewrite V. rewrite is_first_mid, pred_of_mid by assumption. rewrite rev_involutive.
    unfold u_undo in *. inversion P as [E1 E2|p t ps0 ts Hp Hf E1 E2]; subst; cbn.
    + reflexivity.
    + replace (match rev ps0 ++ [p] with [] => true | _ => false end) with false by now destruct (rev ps0).
      cbn. eexists. split; [reflexivity|].
      apply agree_set; [exact A|]. eexists. split; [reflexivity|].
      exists ps0, (ob_cur o :: ns). cbn.
      split; [rewrite <- app_assoc; reflexivity|].
      split; [assumption|]. split; [assumption|]. constructor; assumption.
  - (* move *)
    destruct (value x s) as [u| | |] eqn:F; cbn [obind] in *;
      try (unfold value in F; destruct (s x); congruence).
    destruct (free_at y s) as [[]| | |] eqn:G; cbn [obind] in *;
      try (unfold free_at in G; destruct (s y); congruence).
    destruct (agree_value _ A F) as (o & Ho & Hh).
    unfold n_move, object. rewrite Ho. cbn [or_ub obind]. rewrite (agree_free _ A G). cbn [obind].
    eexists. split; [reflexivity|]. apply agree_set.
    + apply agree_set; [exact A|]. eauto.
    + eauto.
  - (* assign *)
    destruct (value x s) as [u| | |] eqn:F; cbn [obind] in *;
      try (unfold value in F; destruct (s x); congruence).
    destruct (value y s) as [w| | |] eqn:G; cbn [obind] in *;
      try (unfold value in G; destruct (s y); congruence).
    destruct (@set_agrees x (u_get w) u m s I A F) as (m' & E & A').
    destruct (agree_value _ A G) as (o & Ho & ps & ns & V & P & C & N).
    erewrite assign_set; [cbn [obind]; eauto| |exact E].
    unfold n_get, object. rewrite Ho. cbn. unfold load. rewrite C. reflexivity.
  - (* move assignment *)
    destruct (value x s) as [u| | |] eqn:F; cbn [obind] in *;
      try (unfold value in F; destruct (s x); congruence).
    destruct (taken y s) as [[]| | |] eqn:G; cbn [obind] in *;
      try (unfold taken in G; destruct (s y); congruence).
    destruct (Nat.eqb_spec x y) as [->|Ne]; [congruence|].
    destruct (agree_taken _ A G) as (p & Hp). pose proof (agree_emptied _ I A Hp) as A2.
    assert (F2 : value x (store y (Husk T) s) = Ok u).
    { unfold value, store. apply Nat.eqb_neq in Ne. rewrite Ne. exact F. }
    destruct (agree_value _ A F) as (o & Ho & _). destruct (agree_value _ A2 F2) as (o2 & Ho2 & Hh).
    assert (o2 = o) as ->.
    { cbn in Ho2. rewrite put_other in Ho2 by exact Ne. destruct (free_all_spec (ob_values p) m) as (_ & O & _).
      rewrite O in Ho2. congruence. }
    unfold n_move_to, object. rewrite Ho, Hp. cbn [or_ub obind]. apply Nat.eqb_neq in Ne as Ne'. rewrite Ne'. cbn [obind].
    eexists. split; [reflexivity|].
    eapply agree_same; [| |eapply (@agree_set _ _ y (Some o) (Live u)); [eapply (@agree_set _ _ x (Some (mkObj [] (ob_cur o))) (Husk T)); [exact A2|eauto]|eauto]].
    + split; [reflexivity|]. split; [reflexivity|]. intro z. cbn. unfold put.
      destruct (Nat.eqb z y) eqn:Ez; [reflexivity|]. now destruct (Nat.eqb z x).
    + intro z. unfold store. destruct (Nat.eqb z y); [reflexivity|]. now destruct (Nat.eqb z x).
  - (* kill *)
    destruct (taken x s) as [[]| | |] eqn:G; cbn [obind] in *;
      try (unfold taken in G; destruct (s x); congruence).
    destruct (agree_taken _ A G) as (o & Ho).
    assert (Q : agree (set_obj x None (free_all (ob_values o) m)) (store x (Absent T) s)).
    { destruct (free_all_spec (ob_values o) m) as (_ & O & V).
      intro y. specialize (A y). unfold store. cbn. unfold put.
      destruct (Nat.eqb_spec y x) as [->|Ne]; [reflexivity|]. rewrite O.
      destruct (s y); auto. destruct A as (p & Hp & Hh). exists p. split; [exact Hp|].
      eapply holds_next; [exact Hh|]. intros n Hn. cbn. rewrite V.
      destruct (existsb _ _) eqn:Ex; [|reflexivity]. apply existsb_In in Ex. destruct Ne. eapply (proj2 I); eauto. }
    unfold n_kill, object. rewrite Ho. cbn [or_ub obind]. eauto.
Qed.

Lemma program_agrees l m s : Forall (@no_copy T) l -> minv m -> agree m s ->
  program (wish d) l s <> UB ->
  match program (wish d) l s with
  | Ok (vs, s') => exists m', program (deed d) l m = Ok (vs, m') /\ agree m' s' /\ minv m'
  | Abort => program (deed d) l m = Abort
  | _ => False
  end.
Proof.
  revert m s. induction l as [|o l IH]; intros m s NC I A NU; cbn [program] in *.
  - exists m. auto.
  - inversion NC as [|? ? N1 N2]; subst.
    assert (wish d o s <> UB) as NU1 by (intro E; rewrite E in NU; now apply NU).
    pose proof (@step_agrees o m s N1 I A NU1) as H.
    destruct (wish d o s) as [(v, s1)| | |]; [|now rewrite H|congruence|destruct H].
    destruct H as (m1 & E1 & A1). rewrite E1. cbn [obind] in *.
    pose proof (deed_minv _ I E1) as I1.
    assert (program (wish d) l s1 <> UB) as NU2 by (intro E; rewrite E in NU; now apply NU).
    specialize (IH _ _ N2 I1 A1 NU2).
    destruct (program (wish d) l s1) as [(vs, s2)| | |]; [|now rewrite IH|congruence|destruct IH].
    destruct IH as (m2 & E2 & A2 & I2). rewrite E2. cbn [obind]. eauto.
Qed.

(** ** A copy shares the place in the history, not the history *)

(** [a] owns the node that [b]'s iterator designates. *)
Definition aliased (a b : nat) (v : T) (m : mem T) : Prop :=
  a <> b /\ exists c o p, me_objs m a = Some o /\ me_objs m b = Some p
    /\ In c (ob_values o) /\ ob_cur p = c /\ me_nodes m c = Some v.

Lemma alias_set a b v x (m m' : mem T) p : aliased a b v m -> grows m p -> minv m ->
  me_next m' = me_next p -> me_nodes m' = me_nodes p ->
  (forall y, y <> x -> me_objs m' y = me_objs m y) ->
  x <> b ->
  (x = a -> exists o o', me_objs m a = Some o /\ me_objs m' a = Some o' /\ incl (ob_values o) (ob_values o')) ->
  aliased a b v m'.
Proof.
  intros (Ne & c & o & q & Ha & Hb & Hc & Hq & Hv) (N & V & O) I N' V' O' Nb Xa.
  assert (L : c < me_next m) by (now apply (proj1 I _ _ Ha) in Hc).
  assert (Hv' : me_nodes m' c = Some v) by (rewrite V', V; assumption).
  split; [exact Ne|].
  destruct (Nat.eq_dec x a) as [->|Nx].
  - destruct (Xa eq_refl) as (o1 & o' & H1 & H2 & H3). assert (o1 = o) as -> by congruence.
    exists c, o', q. rewrite (O' b) by auto. repeat split; auto.
  - exists c, o, q. rewrite (O' a), (O' b) by auto. repeat split; auto.
Qed.

Lemma aliased_stuck a b v m p : aliased a b v m -> minv m -> me_objs m b = Some p -> comparable p = UB.
Proof.
  intros (Ne & c & o & q & Ha & Hb & Hc & Hq & _) I Hp. assert (q = p) as -> by congruence.
  unfold comparable. destruct (existsb _ _) eqn:E; [|reflexivity]. apply existsb_In in E.
  rewrite Hq in E. destruct Ne. eapply (proj2 I); eauto.
Qed.

Lemma aliased_get a b v m : aliased a b v m -> n_get b m = Ok v.
Proof.
  intros (_ & c & o & q & _ & Hb & _ & Hq & Hv). unfold n_get, object. rewrite Hb. cbn. rewrite Hq.
  unfold load. now rewrite Hv.
Qed.

Lemma aliased_set a b v w m : aliased a b v m -> minv m -> n_set b w m = UB.
Proof.
  intros A I. destruct A as (Ne & c & o & q & Ha & Hb & R). unfold n_set, object. rewrite Hb. cbn [or_ub obind].
  erewrite aliased_stuck; [reflexivity| |exact I|exact Hb]. split; [exact Ne|]. exists c, o, q. eauto.
Qed.

Lemma aliased_undo a b v m : aliased a b v m -> minv m -> n_undo b m = UB.
Proof.
  intros A I. destruct A as (Ne & c & o & q & Ha & Hb & R). unfold n_undo, object. rewrite Hb. cbn [or_ub obind].
  erewrite aliased_stuck; [reflexivity| |exact I|exact Hb]. split; [exact Ne|]. exists c, o, q. eauto.
Qed.

Lemma aliased_taken a b v m x u : aliased a b v m -> vacant x m = Ok u -> x <> a /\ x <> b.
Proof.
  intros (_ & c & o & q & Ha & Hb & _) H. apply vacant_inv in H. split; intros ->; congruence.
Qed.

Lemma aliased_after_set a b v x w m m' : aliased a b v m -> minv m -> n_set x w m = Ok m' -> aliased a b v m'.
Proof.
  intros A I Ht.
  assert (x <> b) as Nb by (intros ->; rewrite (aliased_set w A I) in Ht; discriminate).
  unfold n_set in Ht. apply obind_inv in Ht as (o & Ho & Ht). apply object_inv in Ho.
  apply obind_inv in Ht as ([] & _ & Ht).
  pose proof (@set_grown m x o w I Ho) as H. cbn zeta in H.
  destruct (if is_last _ _ then _ else _) as (vs, m1). cbn [fst snd] in H.
  destruct H as (G & I1 & D & In1 & V & W).
  apply obind_inv in Ht as (c & _ & Ht). injection Ht as <-.
  eapply alias_set with (x := x) (p := m1); eauto.
  + intros y Hy. cbn. rewrite put_other by assumption. now rewrite (proj2 (proj2 G)).
  + intros ->. eexists _, _. split; [exact Ho|]. cbn. rewrite put_same. split; [reflexivity|exact In1].
Qed.

Lemma aliased_step a b v o m m' r : aliased a b v m -> minv m -> spares a o -> spares b o ->
  deed d o m = Ok (r, m') -> aliased a b v m'.
Proof.
  intros A I Sa Sb E. destruct o as [x|x|x w|x|x y|x y|x y|x y|x y|x]; cbn [deed spares] in *;
    apply obind_inv in E as (t & Ht & E); injection E as <- <-.
  - unfold n_new in Ht. apply obind_inv in Ht as ([] & Hv & Ht). cbn in Ht. injection Ht as <-.
    destruct (aliased_taken _ A Hv) as (Na & Nb).
    eapply alias_set with (x := x) (p := snd (alloc d m)); eauto using alloc_grows.
    + intros y Hy. cbn. now apply put_other.
    + intros ->. now destruct Na.
  - exact A.
  - eapply aliased_after_set; eauto.
  - assert (x <> b) as Nb by (intros ->; rewrite (aliased_undo A I) in Ht; discriminate).
    unfold n_undo in Ht. apply obind_inv in Ht as (o & Ho & Ht). apply object_inv in Ho.
    apply obind_inv in Ht as ([] & _ & Ht). apply obind_inv in Ht as ([] & _ & Ht).
    apply obind_inv in Ht as (c & _ & Ht). injection Ht as <-.
    eapply alias_set with (x := x) (p := m); eauto using grows_refl.
    + intros y Hy. cbn. now apply put_other.
    + intros ->. eexists _, _. split; [exact Ho|]. cbn. rewrite put_same. split; [reflexivity|apply incl_refl].
  - unfold n_copy in Ht. apply obind_inv in Ht as (o & Ho & Ht).
    apply obind_inv in Ht as ([] & Hv & Ht). apply obind_inv in Ht as (vs & _ & Ht).
    destruct (alloc_all vs m) as (ns, m1) eqn:Al. injection Ht as <-.
    destruct (aliased_taken _ A Hv) as (Na & Nb). destruct (alloc_all_spec _ _ Al) as (G & _).
    eapply alias_set with (x := y) (p := m1); eauto.
    + intros z Hz. cbn. rewrite put_other by assumption. now rewrite (proj2 (proj2 G)).
    + intros ->. now destruct Na.
  - unfold n_move in Ht. apply obind_inv in Ht as (o & Ho & Ht).
    apply obind_inv in Ht as ([] & Hv & Ht). injection Ht as <-.
    destruct (aliased_taken _ A Hv) as (Na & Nb).
    destruct A as (Ne & c & o1 & q & Ha & Hb & R). split; [exact Ne|]. exists c, o1, q. cbn.
    rewrite !put_other by auto. auto.
  - unfold n_assign in Ht. apply obind_inv in Ht as (o & _ & Ht). apply obind_inv in Ht as (p & _ & Ht).
    apply obind_inv in Ht as ([] & _ & Ht). apply obind_inv in Ht as (w & _ & Ht). eapply aliased_after_set; eauto.
  - unfold n_copy_to in Ht. apply obind_inv in Ht as (o & Ho & Ht). apply object_inv in Ho.
    apply obind_inv in Ht as (p & Hp & Ht). apply object_inv in Hp.
    destruct (Nat.eqb x y); [injection Ht as <-; exact A|]. apply obind_inv in Ht as (vs & _ & Ht).
    destruct (alloc_all vs _) as (ns, m1) eqn:Al. injection Ht as <-.
    destruct A as (Ne & c & o1 & q & Ha & Hb & Hc & Hq & Hv).
    destruct (free_all_spec (ob_values p) m) as (N1 & O & V). destruct (alloc_all_spec _ _ Al) as ((_ & G & O1) & _).
    split; [exact Ne|]. exists c, o1, q. cbn. rewrite !put_other by auto. rewrite O1, O.
    assert (L : c < me_next m) by (now apply (proj1 I _ _ Ha) in Hc).
    rewrite G by (rewrite N1; exact L). rewrite V.
    destruct (existsb _ _) eqn:Ex; [|auto]. apply existsb_In in Ex. destruct Sa. eapply (proj2 I); eauto.
  - unfold n_move_to in Ht. apply obind_inv in Ht as (o & Ho & Ht). apply object_inv in Ho.
    apply obind_inv in Ht as (p & Hp & Ht). apply object_inv in Hp.
    destruct (Nat.eqb x y); [discriminate|]. injection Ht as <-.
    destruct A as (Ne & c & o1 & q & Ha & Hb & Hc & Hq & Hv). destruct Sa as (Sa & Sa'), Sb as (Sb & Sb').
    destruct (free_all_spec (ob_values p) m) as (N1 & O & V).
    split; [exact Ne|]. exists c, o1, q. cbn. rewrite !put_other by auto. rewrite O, V.
    destruct (existsb _ _) eqn:Ex; [|auto]. apply existsb_In in Ex. destruct Sa'. eapply (proj2 I); eauto.
  - unfold n_kill in Ht. apply obind_inv in Ht as (o & Ho & Ht). apply object_inv in Ho. injection Ht as <-.
    destruct A as (Ne & c & o1 & q & Ha & Hb & Hc & Hq & Hv).
    destruct (free_all_spec (ob_values o) m) as (_ & O & V).
    split; [exact Ne|]. exists c, o1, q. cbn. rewrite O, V. rewrite !put_other by auto.
    destruct (existsb _ _) eqn:Ex; [|auto]. apply existsb_In in Ex. destruct Sa. eapply (proj2 I); eauto.
Qed.

Lemma program_app {S} (step : uop T -> S -> outcome (option T * S)) l1 l2 s :
  program step (l1 ++ l2) s =
  (let! (v1, s1) := program step l1 s in let! (v2, s2) := program step l2 s1 in Ok (v1 ++ v2, s2)).
Proof.
  revert s. induction l1 as [|o l IH]; intro s; cbn [app program obind].
  - now destruct (program step l2 s) as [(v, s2)| | |].
  - destruct (step o s) as [(v, s1)| | |]; cbn [obind]; try reflexivity. rewrite IH.
    destruct (program step l s1) as [(v1, s2)| | |]; cbn [obind]; try reflexivity.
    destruct (program step l2 s2) as [(v2, s3)| | |]; cbn [obind]; try reflexivity.
    now destruct v.
Qed.

Lemma aliased_run a b v l m r m' : aliased a b v m -> minv m ->
  Forall (fun o => spares a o /\ spares b o) l ->
  program (deed d) l m = Ok (r, m') -> aliased a b v m' /\ minv m'.
Proof.
  revert m r. induction l as [|o l IH]; intros m r A I F E; cbn [program] in E.
  - injection E as <- <-. auto.
  - inversion F as [|? ? (Sa & Sb) F2]; subst.
    apply obind_inv in E as ((v1, m1) & E1 & E). apply obind_inv in E as ((v2, m2) & E2 & E).
    injection E as <- <-. eapply IH; [| |exact F2|exact E2].
    + eapply aliased_step; eauto.
    + eapply deed_minv; eauto.
Qed.

Lemma program_minv l m r m' : minv m -> program (deed d) l m = Ok (r, m') -> minv m'.
Proof.
  revert m r. induction l as [|o l IH]; intros m r I E; cbn [program] in E.
  - injection E as <- <-. exact I.
  - apply obind_inv in E as ((v1, m1) & E1 & E). apply obind_inv in E as ((v2, m2) & E2 & E).
    injection E as <- <-. eapply IH; [|exact E2]. eapply deed_minv; eauto.
Qed.

Lemma load_all_ok l (m : mem T) : (forall n, In n l -> me_nodes m n <> None) -> exists vs, load_all l m = Ok vs.
Proof.
  induction l as [|n l IH]; intro H; cbn.
  - eauto.
  - unfold load. destruct (me_nodes m n) as [t|] eqn:E; [|destruct (H n (or_introl eq_refl) E)].
    cbn. destruct IH as (vs & ->); [intros k Hk; apply H; now right|]. cbn. eauto.
Qed.

Lemma copy_aliases m s a b u : minv m -> agree m s -> value a s = Ok u -> free_at b s = Ok tt ->
  exists m', n_copy a b m = Ok m' /\ aliased a b (u_cur u) m' /\ minv m'.
Proof.
  intros I A Ha Hb. destruct (agree_value _ A Ha) as (o & Ho & ps & ns & V & P & C & N).
  pose proof (agree_free _ A Hb) as Vb.
  destruct (@load_all_ok (ob_values o) m) as (vs & L); [intros n Hn; now apply (proj1 I _ _ Ho)|].
  assert (exists m', n_copy a b m = Ok m') as (m' & E).
  { unfold n_copy, object. rewrite Ho. cbn [or_ub obind]. rewrite Vb. cbn [obind]. rewrite L. cbn [obind].
    destruct (alloc_all vs m). eauto. }
  exists m'. split; [exact E|]. split; [|eapply n_copy_minv; eauto].
  unfold n_copy, object in E. rewrite Ho in E. cbn [or_ub obind] in E. rewrite Vb in E. cbn [obind] in E.
  rewrite L in E. cbn [obind] in E.
  destruct (alloc_all vs m) as (ks, m1) eqn:Al. injection E as <-.
  destruct (alloc_all_spec _ _ Al) as (G & _).
  assert (Hin : In (ob_cur o) (ob_values o)) by (rewrite V; apply in_app_iff; right; now left).
  assert (a <> b) as Ne by (intros ->; apply vacant_inv in Vb; congruence).
  split; [exact Ne|]. exists (ob_cur o), o, (mkObj ks (ob_cur o)). cbn.
  rewrite put_same, put_other by exact Ne. rewrite (proj2 (proj2 G)). repeat split; auto.
  rewrite (proj1 (proj2 G)); [exact C|]. now apply (proj1 I _ _ Ho).
Qed.

Lemma copy_to_aliases m s a b u : minv m -> agree m s -> value a s = Ok u -> taken b s = Ok tt -> a <> b ->
  exists m', n_copy_to a b m = Ok m' /\ aliased a b (u_cur u) m' /\ minv m'.
Proof.
  intros I A Ha Hb Ne. destruct (agree_value _ A Ha) as (o & Ho & ps & ns & V & P & C & N).
  destruct (agree_taken _ A Hb) as (p & Hp).
  destruct (@load_all_ok (ob_values o) m) as (vs & L); [intros n Hn; now apply (proj1 I _ _ Ho)|].
  destruct (alloc_all vs (free_all (ob_values p) m)) as (ks, m1) eqn:Al.
  assert (E : n_copy_to a b m = Ok (set_obj b (Some (mkObj ks (ob_cur o))) m1)).
  { unfold n_copy_to, object. rewrite Ho, Hp. cbn [or_ub obind]. apply Nat.eqb_neq in Ne as Ne'. rewrite Ne', L.
    cbn [obind]. now rewrite Al. }
  eexists. split; [exact E|]. split; [|eapply n_copy_to_minv; eauto].
  destruct (alloc_all_spec _ _ Al) as ((_ & G & O1) & _). destruct (free_all_spec (ob_values p) m) as (N1 & O & W).
  assert (Hin : In (ob_cur o) (ob_values o)) by (rewrite V; apply in_app_iff; right; now left).
  split; [exact Ne|]. exists (ob_cur o), o, (mkObj ks (ob_cur o)). cbn.
  rewrite put_same, put_other by exact Ne. rewrite O1, O. repeat split; auto.
  rewrite G by (rewrite N1; now apply (proj1 I _ _ Ho)). rewrite W.
  destruct (existsb _ _) eqn:Ex; [|exact C]. apply existsb_In in Ex. destruct Ne. eapply (proj2 I); eauto.
Qed.

Lemma copies_alias m s a b u o : minv m -> agree m s -> s a = Live u -> copies a b s o ->
  exists m', deed d o m = Ok (None, m') /\ aliased a b (u_cur u) m' /\ minv m'.
Proof.
  intros I A Ha [(-> & Hb)|(-> & Hb & Ne)]; cbn [deed].
  - destruct (@copy_aliases m s a b u I A) as (m1 & -> & R).
    + unfold value. now rewrite Ha. + unfold free_at. now rewrite Hb. + cbn [obind]. eauto.
  - destruct (@copy_to_aliases m s a b u I A) as (m1 & -> & R); auto.
    + unfold value. now rewrite Ha. + unfold taken. destruct (s b); congruence. + cbn [obind]. eauto.
Qed.

Lemma aliased_dangles a b v m m' : aliased a b v m -> n_kill a m = Ok m' -> n_get b m' = UB.
Proof.
  intros (Ne & c & o & q & Ha & Hb & Hc & Hq & Hv) E. unfold n_kill, object in E. rewrite Ha in E.
  cbn [or_ub obind] in E. injection E as <-.
  destruct (free_all_spec (ob_values o) m) as (_ & O & V).
  unfold n_get, object. cbn. rewrite O, put_other, Hb by auto. cbn. unfold load. cbn. rewrite V, Hq.
  apply existsb_In in Hc. now rewrite Hc.
Qed.

Lemma agree0 : agree mem0 (@cells0 T).
Proof. intro x. reflexivity. Qed.
End Values.
