(** Model of LimboFrame (include/ygopen/client/frame_limbo.hpp) and of
    BasicUndoable (include/ygopen/client/undoable.hpp). *)
From Verif Require Import Base Place Frame.

Set Implicit Arguments.
Local Open Scope N_scope.

(** ** BasicUndoable *)

(** undoable.hpp:90-92.  The list [values_] is split at the iterator
    [current_]: [u_past] holds the older values, newest first, [u_next] the
    newer ones.  The list is never empty. *)
Record undoable (T : Type) := mkUndoable { u_past : list T; u_cur : T; u_next : list T }.
Arguments mkUndoable {T}.

(** undoable.hpp:22-24; [d] is the value-initialised T. *)
Definition u_new {T} (d : T) : undoable T := mkUndoable [] d [].
(** undoable.hpp:26-29 and 40-44 *)
Definition u_get {T} (u : undoable T) : T := u_cur u.
(** undoable.hpp:31-38 and, for containers, 60-66: at the end the value is
    appended; elsewhere it is ignored and the cursor moves forward. *)
Definition u_set {T} (v : T) (u : undoable T) : undoable T :=
  match u_next u with
  | [] => mkUndoable (u_cur u :: u_past u) v []
  | x :: l => mkUndoable (u_cur u :: u_past u) x l
  end.
(** undoable.hpp:46-50 *)
Definition u_undo {T} (u : undoable T) : outcome (undoable T) :=
  match u_past u with
  | [] => Abort
  | x :: l => Ok (mkUndoable l x (u_cur u :: u_next u))
  end.
(** undoable.hpp:52-55 and 68-88: assert(false). *)
Definition u_unsupported {T} (u : undoable T) : outcome (undoable T) := Abort.

(** ** LimboFrame *)
Section Cards.
Variable C : Type.
Variable c0 : C.

(** frame_limbo.hpp:194-215.  A ClearOp has the same members as the frame's
    containers, so it is a [layout]. *)
Inductive lop :=
| CardOp (c : ptr)
| ResizeOp (prev_size : nat) (slice : list ptr)
| ClearOp (saved : layout).

(** frame_limbo.hpp:26-28 and 218-220.  The base frame, op_, processed_op_
    and operations_. *)
Record limbo := mkLimbo {
  lb_frame : frame C;
  lb_op : nat;
  lb_processed : nat;
  lb_ops : list lop
}.
Definition limbo0 : limbo := mkLimbo frame0 0 0 [].

Definition lb_lay (w : limbo) : layout := f_lay (lb_frame w).
Definition lb_with_frame (w : limbo) (f : frame C) : limbo :=
  mkLimbo f (lb_op w) (lb_processed w) (lb_ops w).
Definition lb_with_lay (w : limbo) (L : layout) : limbo :=
  lb_with_frame w (with_lay (lb_frame w) L).

(** frame_limbo.hpp:222-225 *)
Definition advance_op (w : limbo) : bool * limbo :=
  if Nat.eqb (lb_op w) (lb_processed w)
  then (true, mkLimbo (lb_frame w) (S (lb_op w)) (S (lb_processed w)) (lb_ops w))
  else (false, mkLimbo (lb_frame w) (S (lb_op w)) (lb_processed w) (lb_ops w)).

(** frame_limbo.hpp:227-231 *)
Definition regress_op (w : limbo) : outcome limbo :=
  match lb_op w with
  | O => Abort
  | S n => Ok (mkLimbo (lb_frame w) n (lb_processed w) (lb_ops w))
  end.

(** frame_limbo.hpp:256-260 *)
Definition emplace_op (o : lop) (w : limbo) : limbo :=
  mkLimbo (lb_frame w) (lb_op w) (lb_processed w) (lb_ops w ++ [o]).

(** [operations_[op_ - 1]] preceded by the size assertion
    (frame_limbo.hpp:81-83, 116-118, 151-153, 176-178 and 251-253).  With
    [op_ = 0] the index wraps and the access is undefined. *)
Definition current_op (w : limbo) : outcome lop :=
  assert_ (Nat.leb (lb_op w) (length (lb_ops w))) ;;!
  match lb_op w with
  | O => UB
  | S n => or_ub (nth_error (lb_ops w) n)
  end.

(** frame_limbo.hpp:249-254 *)
Definition current_card (w : limbo) : outcome ptr :=
  let! o := current_op w in
  match o with CardOp c => Ok c | _ => Abort end.

Definition current_resize (w : limbo) : outcome (nat * list ptr) :=
  let! o := current_op w in
  match o with ResizeOp n l => Ok (n, l) | _ => Abort end.

Definition current_clear (w : limbo) : outcome layout :=
  let! o := current_op w in
  match o with ClearOp L => Ok L | _ => Abort end.

(** Writing through the reference to the current operation. *)
Definition set_current_op (o : lop) (w : limbo) : limbo :=
  mkLimbo (lb_frame w) (lb_op w) (lb_processed w) (upd (lb_op w - 1) o (lb_ops w)).

(** Using a card through a pointer: it must be alive. *)
Definition alive (id : cid) (w : limbo) : outcome unit :=
  match heap_get id (f_heap (lb_frame w)) with Some _ => Ok tt | None => UB end.

(** frame_limbo.hpp:34-43; resize(op_) only shortens the deque here. *)
Definition l_erase_history (w : limbo) : outcome limbo :=
  if Nat.eqb (lb_op w) (lb_processed w) then Ok w
  else
    assert_ (Nat.leb (lb_op w) (length (lb_ops w))) ;;!
    assert_ (Nat.ltb (lb_op w) (lb_processed w)) ;;!
    Ok (mkLimbo (lb_frame w) (lb_op w) (lb_op w) (firstn (lb_op w) (lb_ops w))).

(** frame_limbo.hpp:45-57 *)
Definition l_card_add (p : place) (w : limbo) : outcome (cid * limbo) :=
  let '(processing, w1) := advance_op w in
  if processing then
    let! (c, f) := card_add c0 p (lb_frame w1) in
    Ok (c, emplace_op (CardOp (Some c)) (lb_with_frame w1 f))
  else
    let! q := current_card w1 in
    let! c := deref q in
    alive c w1 ;;!
    let! L := card_insert p c (lb_lay w1) in
    let! h := has_card p L in
    assert_ h ;;!
    Ok (c, lb_with_lay w1 L).

(** frame_limbo.hpp:59-69 *)
Definition l_card_remove (p : place) (w : limbo) : outcome limbo :=
  let! h := has_card p (lb_lay w) in
  assert_ h ;;!
  let! (c, L) := card_erase p (lb_lay w) in
  alive c w ;;!
  let '(processing, w1) := advance_op (lb_with_lay w L) in
  if processing then Ok (emplace_op (CardOp (Some c)) w1)
  else
    let! q := current_card w1 in
    assert_ (match q with Some c' => c' =? c | None => false end) ;;!
    Ok w1.

(** Resizing a vector of pointers (frame_limbo.hpp:101 and 162). *)
Definition resize_ptrs (n : nat) (l : list ptr) : list ptr :=
  firstn n l ++ repeat None (n - length l).

(** [std::copy] of [src] to the beginning of [dst]; undefined when it does not
    fit (frame_limbo.hpp:102 and 163-164). *)
Definition copy_to (src dst : list ptr) : outcome (list ptr) :=
  if Nat.leb (length src) (length dst) then Ok (src ++ skipn (length src) dst) else UB.

(** frame_limbo.hpp:90-91: [n] freshly constructed cards are appended. *)
Definition l_grow (n : nat) (r : pref) (w : limbo) : limbo :=
  lb_with_frame w (grow_pile c0 n r (lb_frame w)).

(** frame_limbo.hpp:71-107 *)
Definition l_pile_resize (p : place) (count : N) (w : limbo) : outcome limbo :=
  assert_ (is_pile p) ;;!
  let '(processing, w1) := advance_op w in
  let! r := pile_of p in
  let! (w2, slice) :=
    (if processing then Ok (emplace_op (ResizeOp 0 []) w1, [])
     else let! (_, s) := current_resize w1 in Ok (w1, s)) in
  let l := get_pile r (lb_lay w2) in
  let size := lenN l in
  let n := N.to_nat count in
  let! w3 :=
    (if size <? count then
       let w3 := set_current_op (ResizeOp (length l) slice) w2 in
       if processing then Ok (l_grow (N.to_nat (count - size)) r w3)
       else Ok (lb_with_lay w3 (set_pile r (l ++ slice) (lb_lay w3)))
     else if count <? size then
       let diff := (length l - n)%nat in
       let! s := copy_to (skipn diff l) (resize_ptrs diff slice) in
       let w3 := set_current_op (ResizeOp (length l) s) w2 in
       Ok (lb_with_lay w3 (set_pile r (firstn n l) (lb_lay w3)))
     else Ok (set_current_op (ResizeOp (length l) slice) w2)) in
  assert_ (lenN (get_pile r (lb_lay w3)) =? count) ;;!
  verify_pile (get_pile r (lb_lay w3)) ;;!
  Ok w3.

(** frame_limbo.hpp:109-121 and 233-247: every container is exchanged with the
    operation's, which for a new operation are empty. *)
Definition l_clear (w : limbo) : outcome limbo :=
  let '(processing, w1) := advance_op w in
  let! (w2, saved) :=
    (if processing then Ok (emplace_op (ClearOp layout0) w1, layout0)
     else let! L := current_clear w1 in Ok (w1, L)) in
  Ok (lb_with_lay (set_current_op (ClearOp (lb_lay w2)) w2) saved).

(** frame_limbo.hpp:125-132 *)
Definition l_undo_card_add (p : place) (w : limbo) : outcome (cid * limbo) :=
  let! h := has_card p (lb_lay w) in
  assert_ h ;;!
  let! (c, L) := card_erase p (lb_lay w) in
  alive c w ;;!
  let! q := current_card w in
  assert_ (match q with Some c' => c' =? c | None => false end) ;;!
  let! w1 := regress_op (lb_with_lay w L) in
  Ok (c, w1).

(** frame_limbo.hpp:134-141 *)
Definition l_undo_card_remove (p : place) (w : limbo) : outcome (cid * limbo) :=
  let! q := current_card w in
  let! c := deref q in
  alive c w ;;!
  let! L := card_insert p c (lb_lay w) in
  let! w1 := regress_op (lb_with_lay w L) in
  let! h := has_card p (lb_lay w1) in
  assert_ h ;;!
  Ok (c, w1).

(** frame_limbo.hpp:143-170; [count] is unused. *)
Definition l_undo_pile_resize (p : place) (count : N) (w : limbo) : outcome limbo :=
  assert_ (is_pile p) ;;!
  let! r := pile_of p in
  let! (prev, slice) := current_resize w in
  let l := get_pile r (lb_lay w) in
  let! w1 :=
    (if Nat.ltb (length l) prev then
       Ok (lb_with_lay w (set_pile r (l ++ slice) (lb_lay w)))
     else if Nat.ltb prev (length l) then
       let diff := (length l - prev)%nat in
       let! s := copy_to (skipn (length l - diff) l) (resize_ptrs diff slice) in
       let w1 := set_current_op (ResizeOp prev s) w in
       Ok (lb_with_lay w1 (set_pile r (firstn prev l) (lb_lay w1)))
     else Ok w) in
  let! w2 := regress_op w1 in
  assert_ (Nat.eqb (length (get_pile r (lb_lay w2))) prev) ;;!
  verify_pile (get_pile r (lb_lay w2)) ;;!
  Ok w2.

(** frame_limbo.hpp:172-182 *)
Definition l_undo_clear (w : limbo) : outcome limbo :=
  let! L := current_clear w in
  regress_op (lb_with_lay (set_current_op (ClearOp (lb_lay w)) w) L).

(** frame_limbo.hpp:184-189: assert(false). *)
Definition l_undo_card_shuffle (prev cur : list place) (w : limbo) : outcome limbo := Abort.

(** The operations inherited unchanged from BasicFrame. *)
Definition l_lift (op : layout -> outcome layout) (w : limbo) : outcome limbo :=
  let! f := lift op (lb_frame w) in Ok (lb_with_frame w f).
Definition l_card_move (from to : place) (w : limbo) : outcome (cid * limbo) :=
  let! (c, f) := f_card_move from to (lb_frame w) in Ok (c, lb_with_frame w f).

End Cards.

Arguments mkLimbo {C}.
Arguments limbo0 {C}.
