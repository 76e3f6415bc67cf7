(** C95: undoable values own the memory of their histories. *)
From Verif Require Import Base Limbo UNode UNodeSpec UNodeProofs.

Section Values.
Variable T : Type.
Variable d : T.

(** The node belongs to the object. *)
Definition owns (m : mem T) (x n : nat) : Prop := exists o, me_objs m x = Some o /\ In n (ob_values o).
Definition exists_node (m : mem T) (n : nat) : Prop := me_nodes m n <> None.
(** Destroying an object and assigning to it as a whole release its history. *)
Definition releases (o : uop T) (x : nat) : Prop :=
  match o with
  | UKill _ y | UMoveTo _ _ y => x = y
  | UCopyTo _ z y => x = y /\ z <> y
  | _ => False
  end.

Definition owned (m : mem T) : Prop := forall n, exists_node m n -> exists x, owns m x n.

Lemma owned_set m x o : owned m -> (forall n p, me_objs m x = Some p -> In n (ob_values p) -> In n (ob_values o)) ->
  owned (set_obj x (Some o) m).
Proof.
  intros W K n E. destruct (W n E) as (y & p & Hy & Hn). unfold owns. cbn. destruct (Nat.eq_dec y x) as [->|Ne].
  - exists x, o. rewrite put_same. eauto.
  - exists y, p. rewrite put_other by exact Ne. auto.
Qed.

Lemma alloc_all_new l m ns m' : alloc_all l m = (ns, m') -> forall n, exists_node m' n -> In n ns \/ exists_node m n.
Proof.
  revert m ns m'. induction l as [|v l IH]; intros m ns m' A n E; cbn in A.
  - injection A as <- <-. now right.
  - destruct (alloc_all l _) as (ns1, m2) eqn:A1. injection A as <- <-. destruct (IH _ _ _ A1 n E) as [Hn|Hn].
    + left. now right.
    + unfold exists_node in Hn. cbn in Hn. destruct (Nat.eq_dec n (me_next m)) as [->|Ne]; [left; now left|].
      right. now rewrite put_other in Hn by exact Ne.
Qed.

Lemma free_all_left l (m : mem T) n : exists_node (free_all l m) n <-> exists_node m n /\ ~ In n l.
Proof.
  destruct (free_all_spec l m) as (_ & _ & V). unfold exists_node. rewrite V.
  destruct (existsb (Nat.eqb n) l) eqn:E.
  - apply existsb_In in E. tauto.
  - apply existsb_notIn in E. tauto.
Qed.

Lemma n_set_owned x v m m' : owned m -> n_set x v m = Ok m' -> owned m'.
Proof.
  intros W E. unfold n_set in E. apply obind_inv in E as (o & Ho & E). apply object_inv in Ho.
  apply obind_inv in E as ([] & _ & E). destruct (is_last (ob_cur o) (ob_values o)).
  - change (let (n, m1) := alloc v m in (ob_values o ++ [n], m1)) with
      (ob_values o ++ [me_next m], snd (alloc v m)) in E.
    apply obind_inv in E as (c & _ & E). injection E as <-. intros n Hn. unfold exists_node in Hn. cbn in Hn.
    destruct (Nat.eq_dec n (me_next m)) as [->|Ne].
    + exists x. eexists. cbn. rewrite put_same. split; [reflexivity|]. cbn. apply in_app_iff. right. now left.
    + rewrite put_other in Hn by exact Ne. destruct (W n Hn) as (y & p & Hy & Hi). unfold owns. cbn.
      destruct (Nat.eq_dec y x) as [->|Nx].
      * exists x. eexists. rewrite put_same. split; [reflexivity|]. cbn. apply in_app_iff. left. congruence.
      * exists y, p. rewrite put_other by exact Nx. auto.
  - apply obind_inv in E as (c & _ & E). injection E as <-. apply owned_set; [exact W|].
    cbn. intros n p Hp. congruence.
Qed.

Lemma n_copied y ns m1 c m : owned m -> (forall z, z <> y -> me_objs m1 z = me_objs m z) ->
  (forall n, exists_node m1 n -> In n ns \/ exists_node m n /\ ~ owns m y n) ->
  owned (set_obj y (Some (mkObj ns c)) m1).
Proof.
  intros W O N n Hn. unfold owns. cbn. destruct (N n Hn) as [Hi|(He & Hy)].
  - exists y. eexists. rewrite put_same. split; [reflexivity|exact Hi].
  - destruct (W n He) as (z & p & Hz & Hi). destruct (Nat.eq_dec z y) as [->|Ne].
    + destruct Hy. exists p. auto.
    + exists z, p. rewrite put_other, O by exact Ne. auto.
Qed.

Lemma deed_owned o m v m' : minv m -> owned m -> deed d o m = Ok (v, m') -> owned m'.
Proof.
  intros I W E. destruct o as [x|x|x w|x|x y|x y|x y|x y|x y|x]; cbn in E; apply obind_inv in E as (a & Ha & E);
    injection E as _ <-.
  - unfold n_new in Ha. apply obind_inv in Ha as (u & Hv & E). apply vacant_inv in Hv. cbn in E. injection E as <-.
    intros n Hn. unfold exists_node in Hn. unfold owns. cbn in *. destruct (Nat.eq_dec n (me_next m)) as [->|Ne].
    + exists x. eexists. rewrite put_same. split; [reflexivity|now left].
    + rewrite put_other in Hn by exact Ne. destruct (W n Hn) as (y & p & Hy & Hi). exists y, p.
      rewrite put_other by congruence. auto.
  - exact W.
  - eapply n_set_owned; eauto.
  - unfold n_undo in Ha. apply obind_inv in Ha as (o & Ho & E). apply object_inv in Ho.
    apply obind_inv in E as ([] & _ & E). apply obind_inv in E as ([] & _ & E). apply obind_inv in E as (c & _ & E).
    injection E as <-. apply owned_set; [exact W|]. cbn. intros n p Hp. congruence.
  - unfold n_copy in Ha. apply obind_inv in Ha as (o & _ & E). apply obind_inv in E as (u & Hv & E). apply vacant_inv in Hv.
    apply obind_inv in E as (vs & _ & E). destruct (alloc_all vs m) as (ns, m1) eqn:A. injection E as <-.
    destruct (alloc_all_spec _ _ A) as ((_ & _ & O) & _).
    eapply n_copied; [exact W|intros z _; now rewrite O|]. intros n Hn.
    destruct (alloc_all_new _ _ _ _ A n Hn) as [Hi|Hi]; [now left|right]. split; [exact Hi|].
    intros (p & Hp & _). congruence.
  - unfold n_move in Ha. apply obind_inv in Ha as (o & Ho & E). apply object_inv in Ho.
    apply obind_inv in E as (u & Hv & E). apply vacant_inv in Hv. injection E as <-.
    intros n Hn. destruct (W n Hn) as (z & p & Hz & Hi). unfold owns. cbn.
    destruct (Nat.eq_dec z x) as [->|Nx].
    + exists y, o. rewrite put_same. split; [reflexivity|congruence].
    + exists z, p. rewrite !put_other by congruence. auto.
  - unfold n_assign in Ha. apply obind_inv in Ha as (o & _ & E). apply obind_inv in E as (p & _ & E).
    apply obind_inv in E as ([] & _ & E). apply obind_inv in E as (w & _ & E). eapply n_set_owned; eauto.
  - unfold n_copy_to in Ha. apply obind_inv in Ha as (o & _ & E). apply obind_inv in E as (p & Hp & E).
    apply object_inv in Hp. destruct (Nat.eqb x y); [injection E as <-; exact W|].
    apply obind_inv in E as (vs & _ & E). destruct (alloc_all vs _) as (ns, m1) eqn:A. injection E as <-.
    destruct (alloc_all_spec _ _ A) as ((_ & _ & O) & _). destruct (free_all_spec (ob_values p) m) as (_ & O2 & _).
    eapply n_copied; [exact W|intros z _; congruence|]. intros n Hn.
    destruct (alloc_all_new _ _ _ _ A n Hn) as [Hi|Hi]; [now left|right]. apply free_all_left in Hi as (Hi & Nn).
    split; [exact Hi|]. intros (q & Hq & Hk). congruence.
  - unfold n_move_to in Ha. apply obind_inv in Ha as (o & Ho & E). apply object_inv in Ho.
    apply obind_inv in E as (p & Hp & E). apply object_inv in Hp. destruct (Nat.eqb_spec x y) as [|Ne]; [discriminate|].
    injection E as <-. intros n Hn.
    assert (Hn' : exists_node (free_all (ob_values p) m) n) by exact Hn. apply free_all_left in Hn' as (He & Nn).
    destruct (W n He) as (z & q & Hz & Hi). destruct (free_all_spec (ob_values p) m) as (_ & O2 & _). unfold owns. cbn.
    destruct (Nat.eq_dec z y) as [->|Ny]; [congruence|]. destruct (Nat.eq_dec z x) as [->|Nx].
    + exists y, o. rewrite put_same. split; [reflexivity|congruence].
    + exists z, q. rewrite !put_other by assumption. rewrite O2. auto.
  - unfold n_kill in Ha. apply obind_inv in Ha as (o & Ho & E). apply object_inv in Ho. injection E as <-.
    intros n Hn. assert (Hn' : exists_node (free_all (ob_values o) m) n) by exact Hn. apply free_all_left in Hn' as (He & Nn).
    destruct (W n He) as (z & q & Hz & Hi). destruct (free_all_spec (ob_values o) m) as (_ & O2 & _). unfold owns. cbn.
    exists z, q. rewrite put_other by congruence. rewrite O2. auto.
Qed.

Lemma program_owned l : forall m vs m', minv m -> owned m -> program (deed d) l m = Ok (vs, m') -> minv m' /\ owned m'.
Proof.
  induction l as [|o l IH]; intros m vs m' I W E; cbn [program] in E.
  - injection E as _ <-. auto.
  - apply obind_inv in E as ((v, m1) & E1 & E). apply obind_inv in E as ((ws, m2) & E2 & E). injection E as _ <-.
    eapply IH; [eapply deed_minv; eauto|eapply deed_owned; eauto|exact E2].
Qed.

(** A node keeps its value until its object is destroyed or assigned to. *)
Lemma deed_kept o m v m' n : minv m -> owned m -> deed d o m = Ok (v, m') -> exists_node m n ->
  (me_nodes m' n = me_nodes m n /\ ~ exists x, owns m x n /\ releases o x) \/
  (me_nodes m' n = None /\ exists x, owns m x n /\ releases o x).
Proof.
  intros I W E Hn.
  assert (L : n < me_next m) by (destruct (W n Hn) as (x & p & Hp & Hi); now apply (proj1 I _ _ Hp)).
  assert (S : forall x w m1, n_set x w m = Ok m1 -> me_nodes m1 n = me_nodes m n).
  { intros x w m1 H. unfold n_set in H. apply obind_inv in H as (o' & _ & H). apply obind_inv in H as ([] & _ & H).
    destruct (is_last _ _).
    - change (let (k, m1) := alloc w m in (ob_values o' ++ [k], m1)) with
        (ob_values o' ++ [me_next m], snd (alloc w m)) in H.
      apply obind_inv in H as (c & _ & H). injection H as <-. cbn. apply put_other. lia.
    - apply obind_inv in H as (c & _ & H). injection H as <-. reflexivity. }
  assert (F : forall y p (x : mem T), me_objs m y = Some p -> releases o y -> (forall z, releases o z -> z = y) ->
    me_nodes x n = me_nodes (free_all (ob_values p) m) n ->
    (me_nodes x n = me_nodes m n /\ ~ exists x, owns m x n /\ releases o x) \/
    (me_nodes x n = None /\ exists x, owns m x n /\ releases o x)).
  { intros y p x Hp R U V. rewrite V. destruct (free_all_spec (ob_values p) m) as (_ & _ & ->).
    destruct (existsb (Nat.eqb n) (ob_values p)) eqn:X.
    - right. split; [reflexivity|]. apply existsb_In in X. exists y. split; [exists p; auto|exact R].
    - left. split; [reflexivity|]. apply existsb_notIn in X. intros (z & (q & Hq & Hi) & Rz).
      apply U in Rz. subst z. congruence. }
  destruct o as [x|x|x w|x|x y|x y|x y|x y|x y|x]; cbn in E; apply obind_inv in E as (a & Ha & E);
    injection E as _ <-; try (left; split; [|intros (? & _ & []); fail]).
  - unfold n_new in Ha. apply obind_inv in Ha as (u & _ & E). cbn in E. injection E as <-. cbn. apply put_other. lia.
  - reflexivity.
  - eapply S; eauto.
  - unfold n_undo in Ha. apply obind_inv in Ha as (o & Ho & E).
    apply obind_inv in E as ([] & _ & E). apply obind_inv in E as ([] & _ & E). apply obind_inv in E as (c & _ & E).
    injection E as <-. reflexivity.
  - unfold n_copy in Ha. apply obind_inv in Ha as (o & _ & E). apply obind_inv in E as (u & _ & E).
    apply obind_inv in E as (vs & _ & E). destruct (alloc_all vs m) as (ns, m1) eqn:A. injection E as <-.
    destruct (alloc_all_spec _ _ A) as ((_ & O & _) & _). cbn. auto.
  - unfold n_move in Ha. apply obind_inv in Ha as (o & _ & E). apply obind_inv in E as (u & _ & E). injection E as <-. reflexivity.
  - unfold n_assign in Ha. apply obind_inv in Ha as (o & _ & E). apply obind_inv in E as (p & _ & E).
    apply obind_inv in E as ([] & _ & E). apply obind_inv in E as (w & _ & E). eapply S; eauto.
  - unfold n_copy_to in Ha. apply obind_inv in Ha as (o & _ & E). apply obind_inv in E as (p & Hp & E).
    apply object_inv in Hp. destruct (Nat.eqb_spec x y) as [->|Ne].
    { injection E as <-. left. split; [reflexivity|]. intros (z & _ & -> & N). now apply N. }
    apply obind_inv in E as (vs & _ & E). destruct (alloc_all vs _) as (ns, m1) eqn:A. injection E as <-.
    destruct (alloc_all_spec _ _ A) as ((_ & O & _) & _). destruct (free_all_spec (ob_values p) m) as (N2 & _ & _).
    eapply F; [exact Hp|split; [reflexivity|exact Ne]|now intros z (-> & _)|]. cbn. apply O. lia.
  - unfold n_move_to in Ha. apply obind_inv in Ha as (o & _ & E).
    apply obind_inv in E as (p & Hp & E). apply object_inv in Hp. destruct (Nat.eqb_spec x y) as [|Ne]; [discriminate|].
    injection E as <-. eapply F; [exact Hp|reflexivity|now intros z ->|reflexivity].
  - unfold n_kill in Ha. apply obind_inv in Ha as (o & Ho & E). apply object_inv in Ho. injection E as <-.
    eapply F; [exact Ho|reflexivity|now intros z ->|reflexivity].
Qed.
End Values.

(** Whatever a program does, copies included, every node that exists belongs to
    exactly one of the objects that exist, once, and every node of an object
    exists. *)
Theorem C95_owner : forall T (d : T) l vs m, program (deed d) l mem0 = Ok (vs, m) ->
  (forall n, exists_node T m n <-> exists x, owns T m x n) /\
  (forall x y n, owns T m x n -> owns T m y n -> x = y) /\
  (forall x o, me_objs m x = Some o -> NoDup (ob_values o)).
Proof.
  intros T d l vs m E.
  destruct (program_owned T d l mem0 vs m (@minv0 T)) as (I & W); [intros n H; now destruct H|exact E|].
  split; [|split].
  - intros n. split; [apply W|]. intros (x & o & Ho & Hn). now apply (proj1 I _ _ Ho).
  - intros x y n (o & Ho & Hn) (p & Hp & Hk). eapply (proj2 I); eauto.
  - intros x o Ho. apply (proj1 I _ _ Ho).
Qed.
Print Assumptions C95_owner.

(** A node keeps the value it was made with until the object it belongs to is
    destroyed or assigned to as a whole, and not longer; undoing in particular
    releases nothing. *)
Theorem C95_release : forall T (d : T) l vs m o r m' n v, program (deed d) l mem0 = Ok (vs, m) ->
  deed d o m = Ok (r, m') -> me_nodes m n = Some v ->
  me_nodes m' n = Some v /\ ~ (exists x, owns T m x n /\ releases T o x) \/
  me_nodes m' n = None /\ exists x, owns T m x n /\ releases T o x.
Proof.
  intros T d l vs m o r m' n v E D H.
  destruct (program_owned T d l mem0 vs m (@minv0 T)) as (I & W); [intros k K; now destruct K|exact E|].
  rewrite <- H. apply (deed_kept T d o m r m' n I W D). unfold exists_node. congruence.
Qed.
Print Assumptions C95_release.

(** Nothing is left when all objects are gone. *)
Theorem C95_no_leak : forall T (d : T) l vs m, program (deed d) l mem0 = Ok (vs, m) ->
  (forall x, me_objs m x = None) -> forall n, me_nodes m n = None.
Proof.
  intros T d l vs m E H n. destruct (C95_owner T d l vs m E) as (W & _).
  destruct (me_nodes m n) eqn:X; [|reflexivity].
  destruct (proj1 (W n)) as (x & o & Ho & _); [unfold exists_node; congruence|]. congruence.
Qed.
Print Assumptions C95_no_leak.

(** A copy and an assignment, then both objects destroyed: nodes 0 to 2 are the
    first object's, 3 the second's first, 4 to 6 its copy's. *)
Definition C95_prog : list (uop nat) :=
  [UNew _ 0; USet 0 7; USet 0 8; UUndo _ 0; UNew _ 1; UCopyTo _ 0 1].
(** The first eight nodes, and the nodes of the first two objects. *)
Definition C95_seen (l : list (uop nat)) : option (list (option nat) * list (option (list nat))) :=
  match program (deed 0) l mem0 with
  | Ok (_, m) => Some (map (me_nodes m) (seq 0 8), map (fun x => option_map (@ob_values) (me_objs m x)) [0; 1])
  | _ => None
  end.
Example C95_ex :
  C95_seen C95_prog =
    Some ([Some 0; Some 7; Some 8; None; Some 0; Some 7; Some 8; None], [Some [0; 1; 2]; Some [4; 5; 6]]) /\
  C95_seen (C95_prog ++ [UMoveTo _ 0 1]) =
    Some ([Some 0; Some 7; Some 8; None; None; None; None; None], [Some []; Some [0; 1; 2]]) /\
  C95_seen (C95_prog ++ [UKill _ 1; UKill _ 0]) = Some (repeat None 8, [None; None]).
Proof. repeat split; vm_compute; reflexivity. Qed.
