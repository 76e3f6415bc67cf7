(** The frame of include/ygopen/client/frame.hpp with an arbitrary allocator.

    Frame.v never hands out the identity of a destroyed card again.  Here a new
    node of the list of cards (frame.hpp:556-559) gets the address an allocator
    chooses, which may be the address of a card destroyed earlier.  [f_next]
    only counts the allocations.  The operations that construct no card are
    those of Frame.v. *)
From Verif Require Import Base Place Frame Msg Event Query.

Set Implicit Arguments.
Local Open Scope N_scope.

(** What the allocator answers to the [k]th request, given the addresses in use. *)
Definition allocator := N -> list cid -> cid.

Section Alloc.
Variable A : allocator.
Variable C : Type.
Variable c0 : C.

(** frame.hpp:556-559 *)
Definition a_construct (f : frame C) : cid * frame C :=
  let id := A (f_next f) (map fst (f_heap f)) in
  (id, mkFrame (f_next f + 1) ((id, c0) :: f_heap f) (f_lay f)).

(** frame.hpp:224-229 *)
Definition a_card_add (p : place) (f : frame C) : outcome (cid * frame C) :=
  let '(c, f1) := a_construct f in
  let! L := card_insert p c (f_lay f1) in
  Ok (c, with_lay f1 L).

(** frame.hpp:416-417 *)
Fixpoint a_grow (n : nat) (r : pref) (f : frame C) : frame C :=
  match n with
  | O => f
  | S n' =>
      let '(c, f1) := a_construct f in
      a_grow n' r (with_lay f1 (set_pile r (get_pile r (f_lay f1) ++ [Some c]) (f_lay f1)))
  end.

(** frame.hpp:409-428 *)
Definition a_resize (p : place) (count : N) (f : frame C) : outcome (frame C) :=
  assert_ (is_pile p) ;;!
  let! r := pile_of p in
  let size := lenN (get_pile r (f_lay f)) in
  let! f1 := (if size <? count then Ok (a_grow (N.to_nat (count - size)) r f)
              else if count <? size then shrink_pile (N.to_nat (size - count)) r f
              else Ok f) in
  verify_pile (get_pile r (f_lay f1)) ;;!
  Ok f1.

(** parse_event.hpp:79-267 on a board with such a frame. *)
Definition a_fo : frame_ops (frame C) :=
  mkFrameOps
    (fun p f => let! (_, f') := a_card_add p f in Ok f')
    (fun p f => card_remove p f)
    (fun a b f => let! (_, f') := f_card_move a b f in Ok f')
    (fun a b f => lift (card_swap a b) f)
    (fun p c f => lift (card_shuffle p c) f)
    (fun p n f => a_resize p n f)
    (fun a n b r f => lift (pile_splice a n b r) f)
    (fun a b f => lift (pile_swap a b) f)
    (fun f => clear f).
Definition aparse (e : event) (b : pboard C) : outcome (pboard C) := parse_event a_fo plain_vo e b.

End Alloc.
