(** Model of BasicUndoable objects as the class really keeps them: a std::list
    of nodes and an iterator (include/ygopen/client/undoable.hpp:15-93), with
    the copy and move constructors and assignments and the destructor that the
    compiler adds to the class, which declares none.  Limbo.v replaces the list
    and the iterator by a list split in two; PropsUNode.v says when that is
    right. *)
From Verif Require Import Base.

Set Implicit Arguments.

Section Values.
Variable T : Type.
(** The value-initialised T. *)
Variable d : T.

(** 90-92.  A node is named by its address; [ob_cur] is the node the iterator
    [current_] designates. *)
Record obj := mkObj { ob_values : list nat; ob_cur : nat }.

(** The nodes and the objects that exist, by address.  Addresses of nodes are
    not used twice: whatever refers to a destroyed node is dangling for ever. *)
Record mem := mkMem {
  me_next : nat;
  me_nodes : nat -> option T;
  me_objs : nat -> option obj
}.
Definition mem0 : mem := mkMem 0 (fun _ => None) (fun _ => None).

Definition put {A} (k : nat) (v : A) (f : nat -> A) : nat -> A :=
  fun i => if Nat.eqb i k then v else f i.
Definition set_obj (x : nat) (o : option obj) (m : mem) : mem :=
  mkMem (me_next m) (me_nodes m) (put x o (me_objs m)).

(** A new node. *)
Definition alloc (v : T) (m : mem) : nat * mem :=
  (me_next m, mkMem (S (me_next m)) (put (me_next m) (Some v) (me_nodes m)) (me_objs m)).
Fixpoint alloc_all (l : list T) (m : mem) : list nat * mem :=
  match l with
  | [] => ([], m)
  | v :: l' =>
      let (n, m1) := alloc v m in
      let (ns, m2) := alloc_all l' m1 in
      (n :: ns, m2)
  end.
(** The destruction of the nodes of a list. *)
Definition free_all (l : list nat) (m : mem) : mem :=
  fold_right (fun n m => mkMem (me_next m) (put n None (me_nodes m)) (me_objs m)) m l.

(** Using an object that does not exist, or an address that is taken, is
    undefined. *)
Definition object (x : nat) (m : mem) : outcome obj := or_ub (me_objs m x).
Definition vacant (x : nat) (m : mem) : outcome unit :=
  match me_objs m x with Some _ => UB | None => Ok tt end.
(** Reading through an iterator. *)
Definition load (n : nat) (m : mem) : outcome T := or_ub (me_nodes m n).
Fixpoint load_all (l : list nat) (m : mem) : outcome (list T) :=
  match l with
  | [] => Ok []
  | n :: l' => let! v := load n m in let! vs := load_all l' m in Ok (v :: vs)
  end.

(** [current_] compared with an iterator of [values_]: defined only for
    iterators of the same list. *)
Definition comparable (o : obj) : outcome unit :=
  if existsb (Nat.eqb (ob_cur o)) (ob_values o) then Ok tt else UB.
(** [current_ == --values_.cend()] and [current_ == values_.cbegin()]. *)
Definition is_last (n : nat) (l : list nat) : bool :=
  match rev l with x :: _ => Nat.eqb x n | [] => false end.
Definition is_first (n : nat) (l : list nat) : bool :=
  match l with x :: _ => Nat.eqb x n | [] => false end.
(** [current_++]; at the last node the iterator becomes end(), which nothing
    here does. *)
Fixpoint succ_of (n : nat) (l : list nat) : option nat :=
  match l with
  | x :: l' => if Nat.eqb x n then match l' with y :: _ => Some y | [] => None end else succ_of n l'
  | [] => None
  end.
(** [current_--] *)
Definition pred_of (n : nat) (l : list nat) : option nat := succ_of n (rev l).

(** 22-24 *)
Definition n_new (x : nat) (m : mem) : outcome mem :=
  vacant x m ;;!
  let (n, m1) := alloc d m in
  Ok (set_obj x (Some (mkObj [n] n)) m1).
(** 26-29 *)
Definition n_get (x : nat) (m : mem) : outcome T :=
  let! o := object x m in load (ob_cur o) m.
(** 31-38 and 60-66.  [--values_.cend()] of an empty list is undefined, which
    [comparable] covers. *)
Definition n_set (x : nat) (v : T) (m : mem) : outcome mem :=
  let! o := object x m in
  comparable o ;;!
  let (vs, m1) :=
    (if is_last (ob_cur o) (ob_values o)
     then let (n, m1) := alloc v m in (ob_values o ++ [n], m1)
     else (ob_values o, m)) in
  let! c := or_ub (succ_of (ob_cur o) vs) in
  Ok (set_obj x (Some (mkObj vs c)) m1).
(** 46-50 *)
Definition n_undo (x : nat) (m : mem) : outcome mem :=
  let! o := object x m in
  comparable o ;;!
  assert_ (negb (is_first (ob_cur o) (ob_values o))) ;;!
  let! c := or_ub (pred_of (ob_cur o) (ob_values o)) in
  Ok (set_obj x (Some (mkObj (ob_values o) c)) m).
(** The implicit copy constructor: the list is copied node by node, the
    iterator as it is. *)
Definition n_copy (x y : nat) (m : mem) : outcome mem :=
  let! o := object x m in
  vacant y m ;;!
  let! vs := load_all (ob_values o) m in
  let (ns, m1) := alloc_all vs m in
  Ok (set_obj y (Some (mkObj ns (ob_cur o))) m1).
(** The implicit move constructor: the list's nodes change hands, the iterator
    is copied. *)
Definition n_move (x y : nat) (m : mem) : outcome mem :=
  let! o := object x m in
  vacant y m ;;!
  Ok (set_obj y (Some o) (set_obj x (Some (mkObj [] (ob_cur o))) m)).
(** [x = y] with y a BasicUndoable lvalue that is not const: overload resolution
    selects the template of 31-38, which reads y, converted by 26-29, only if it
    stores a value. *)
Definition n_assign (x y : nat) (m : mem) : outcome mem :=
  let! o := object x m in
  let! _ := object y m in
  comparable o ;;!
  let! v := (if is_last (ob_cur o) (ob_values o) then n_get y m else Ok d) in
  n_set x v m.
(** [y = x] with x const: the implicit copy assignment.  std::list may destroy
    or reuse the nodes y had; they are taken to be destroyed. *)
Definition n_copy_to (x y : nat) (m : mem) : outcome mem :=
  let! o := object x m in
  let! p := object y m in
  if Nat.eqb x y then Ok m else
  let! vs := load_all (ob_values o) m in
  let (ns, m1) := alloc_all vs (free_all (ob_values p) m) in
  Ok (set_obj y (Some (mkObj ns (ob_cur o))) m1).
(** [y = std::move(x)]: the implicit move assignment.  What it does to an object
    moved to itself is unspecified, here undefined. *)
Definition n_move_to (x y : nat) (m : mem) : outcome mem :=
  let! o := object x m in
  let! p := object y m in
  if Nat.eqb x y then UB else
  Ok (set_obj y (Some o) (set_obj x (Some (mkObj [] (ob_cur o))) (free_all (ob_values p) m))).
(** The implicit destructor. *)
Definition n_kill (x : nat) (m : mem) : outcome mem :=
  let! o := object x m in
  Ok (set_obj x None (free_all (ob_values o) m)).

End Values.

Arguments mem0 {T}.
