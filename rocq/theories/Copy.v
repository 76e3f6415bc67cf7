(** Model of the copy and the move constructor of BasicFrame, which
    include/ygopen/client/frame.hpp:63-675 leaves to the compiler: the members
    (frame.hpp:592-609) are copied, or moved, one by one.  A copied
    forward_list has nodes of its own, a copied pile or zone the same pointers.
    BasicBoard (board.hpp:31-138) is copied and moved with its frame.  Copying
    compiles only for card types that can be copied, such as those of
    test/frame.cpp:30-35; BasicCard (card.hpp:51-54) deletes its copy constructor,
    so a frame of such cards can only be moved. *)
From Verif Require Import Base Place Frame FrameSpec.

Set Implicit Arguments.
Local Open Scope N_scope.

Section Cards.
Variable C : Type.
Variable c0 : C.

(** Copying [cards_.m] (frame.hpp:595-600): as many new nodes with the same
    values in the same order. *)
Fixpoint copy_cards (next : cid) (h : list (cid * C)) : list (cid * C) :=
  match h with
  | [] => []
  | x :: h' => (next, snd x) :: copy_cards (next + 1) h'
  end.

(** The original and the copy when the copy has been made.  Addresses are handed
    out one after the other, so both go on after the copy's nodes. *)
Definition copy_frame (f : frame C) : frame C * frame C :=
  let next := f_next f + lenN (f_heap f) in
  (mkFrame next (f_heap f) (f_lay f), mkFrame next (copy_cards (f_next f) (f_heap f)) (f_lay f)).

(** What a moved-from frame holds: forward_lists and vectors are empty after
    having been moved from (frame.hpp:595-606 and 77); the pointer of a zone
    (frame.hpp:76) is copied and stays. *)
Definition left_zone (z : zone) : zone := mkZone (z_card z) [].
Definition left_side (s : side) : side :=
  mkSide (map left_zone (s_monster s)) (map left_zone (s_spell s)) (map left_zone (s_field s))
    (map left_zone (s_pend s)) (map left_zone (s_skill s)).
Definition moved_from (f : frame C) : frame C :=
  mkFrame (f_next f) [] (mkLayout ([], []) ([], []) ([], []) ([], []) ([], [])
    (left_side (fst (l_field (f_lay f))), left_side (snd (l_field (f_lay f))))).

(** The operations of a frame some of whose cards belong to somebody else:
    [others] are the cards outside the frame that exist.  Only two functions
    look at a card that they do not destroy. *)
(** frame.hpp:633-644 *)
Definition shared_card (others : list (cid * C)) (p : place) (f : frame C) : outcome cid :=
  assert_ (negb (is_empty p)) ;;!
  let! h := has_card p (f_lay f) in
  assert_ h ;;!
  let! c := (if is_pile p then
               let! r := pile_of p in nth_ptr (get_pile r (f_lay f)) (p_seq p)
             else
               let! r := zone_of p in
               let! z := read_zone r (f_lay f) in
               if not_mat p then Ok (z_card z) else nth_ptr (z_mats z) (oseqN p)) in
  let! id := deref c in
  let! _ := or_ub (heap_get id (f_heap f ++ others)) in
  Ok id.
(** frame.hpp:237-308 *)
Definition shared_move (others : list (cid * C)) (from to : place) (f : frame C) : outcome (cid * frame C) :=
  let! (c, L) := card_move from to (f_lay f) in
  let! _ := or_ub (heap_get c (f_heap f ++ others)) in
  Ok (c, with_lay f L).

Definition shared_step (others : list (cid * C)) (o : fop) (f : frame C) : outcome (frame C) :=
  match o with
  | OpMove a b => let! (_, f') := shared_move others a b f in Ok f'
  | _ => fstep c0 o f
  end.
Definition shared_run (others : list (cid * C)) (ops : list fop) (f : frame C) : outcome (frame C) :=
  ofold (shared_step others) ops f.

End Cards.
