(** The code compiled without assertions (NDEBUG): frame.hpp, frame_limbo.hpp,
    undoable.hpp, board.hpp, parse_query.hpp and
    edo9300_ocgcore_decode.cpp as the files Frame, Limbo, Event, Query and Decode
    model them, without the assertions.  The argument of an assertion is then not
    evaluated, and what the assertion kept out happens: an index out of range
    is undefined, a card in the way is overwritten.  Functions without
    assertions, and all types, are those of the other files.  erase_history
    and queries on undoable cards are in ReleaseUndo.v, the encoder in
    ReleaseEncode.v. *)
From Verif Require Import Base Place Msg Frame Limbo Event Query Decode.

Set Implicit Arguments.
Local Open Scope N_scope.

(** ** Layouts *)

(** frame.hpp:613-631, pile_. *)
Definition rel_pile_ref (con : Z) (loc : N) : outcome pref :=
  if loc =? LOCATION_MAIN_DECK then let! c := con_index con in Ok (c, LDeck)
  else if loc =? LOCATION_HAND then let! c := con_index con in Ok (c, LHand)
  else if loc =? LOCATION_GRAVEYARD then let! c := con_index con in Ok (c, LGrave)
  else if loc =? LOCATION_BANISHED then let! c := con_index con in Ok (c, LBan)
  else if loc =? LOCATION_EXTRA_DECK then let! c := con_index con in Ok (c, LExtra)
  else UB.

(** frame.hpp:105-121, Side::at_: which array. *)
Definition rel_side_at (loc : N) : outcome zloc :=
  if loc =? LOCATION_MONSTER_ZONE then Ok ZMonster
  else if loc =? LOCATION_SPELL_ZONE then Ok ZSpell
  else if loc =? LOCATION_FIELD_ZONE then Ok ZField
  else if loc =? LOCATION_PENDULUM_ZONE then Ok ZPend
  else if loc =? LOCATION_SKILL_ZONE then Ok ZSkill
  else UB.

(** frame.hpp:646-653, zone_. *)
Definition rel_zone_ref (con : Z) (loc seq : N) : outcome zref :=
  let! c := con_index con in
  let! z := rel_side_at loc in
  Ok (c, z, N.to_nat seq).

(** frame.hpp:165-182 and 203-220: the overloads taking a Place. *)
Definition rel_pile_of (p : place) : outcome pref := rel_pile_ref (p_con p) (p_loc p).

Definition rel_zone_of (p : place) : outcome zref := rel_zone_ref (p_con p) (p_loc p) (p_seq p).

(** frame.hpp:138-150 *)
Definition rel_has_card (p : place) (L : layout) : outcome bool :=
  if is_pile p then
    let! r := rel_pile_of p in
    Ok (p_seq p <? lenN (get_pile r L))
  else
    let! r := rel_zone_of p in
    let! z := read_zone r L in
    if not_mat p then Ok (negb (is_null (z_card z)))
    else Ok (oseqN p <? lenN (z_mats z)).

(** frame.hpp:657-665.  Returns the taken pointer and the shortened vector. *)
Definition rel_take_at (p : list ptr) (i : N) : outcome (ptr * list ptr) :=
  let! c := or_ub (nth_error p (N.to_nat i)) in
  Ok (c, remove_nth (N.to_nat i) p).

(** frame.hpp:667-674; inserting past the end is undefined. *)
Definition rel_insert_at (p : list ptr) (i : N) (c : ptr) : outcome (list ptr) :=
  if i <=? lenN p then Ok (insert_nth (N.to_nat i) c p) else UB.

(** frame.hpp:518-534.  The card is passed by reference, so it is not null. *)
Definition rel_card_insert (p : place) (c : cid) (L : layout) : outcome layout :=
  if is_pile p then
    let! r := rel_pile_of p in
    let! l := rel_insert_at (get_pile r L) (p_seq p) (Some c) in
    Ok (set_pile r l L)
  else
    let! r := rel_zone_of p in
    let! z := read_zone r L in
    if not_mat p then
      Ok (set_zone r (mkZone (Some c) (z_mats z)) L)
    else
      let! m := rel_insert_at (z_mats z) (oseqN p) (Some c) in
      Ok (set_zone r (mkZone (z_card z) m) L).

(** frame.hpp:536-554.  For a pile, [p[seq]] and [p.erase(begin + seq)] are
    undefined when out of range. *)
Definition rel_card_erase (p : place) (L : layout) : outcome (cid * layout) :=
  if is_pile p then
    let! r := rel_pile_of p in
    let l := get_pile r L in
    let! c := or_ub (if p_seq p <? lenN l then nth_error l (N.to_nat (p_seq p)) else None) in
    let! id := deref c in
    Ok (id, set_pile r (remove_nth (N.to_nat (p_seq p)) l) L)
  else
    let! r := rel_zone_of p in
    let! z := read_zone r L in
    if not_mat p then
      let! id := deref (z_card z) in
      Ok (id, set_zone r (mkZone None (z_mats z)) L)
    else
      let! (c, m) := rel_take_at (z_mats z) (oseqN p) in
      let! id := deref c in
      Ok (id, set_zone r (mkZone (z_card z) m) L).

(** frame.hpp:237-308.  Returns the moved card. *)
Definition rel_card_move (from to : place) (L : layout) : outcome (cid * layout) :=
  let fp := is_pile from in
  let tp := is_pile to in
  let fnm := not_mat from in
  let tnm := not_mat to in
  if fp && tp then (* 249-254 *)
    let! r1 := rel_pile_of from in
    let! r2 := rel_pile_of to in
    let! (c, l1) := rel_take_at (get_pile r1 L) (p_seq from) in
    let L1 := set_pile r1 l1 L in
    let! l2 := rel_insert_at (get_pile r2 L1) (p_seq to) c in
    let! id := deref c in
    Ok (id, set_pile r2 l2 L1)
  else if fp && negb tp then (* 255-269 *)
    let! r1 := rel_pile_of from in
    let! (c, l1) := rel_take_at (get_pile r1 L) (p_seq from) in
    let L1 := set_pile r1 l1 L in
    let! r2 := rel_zone_of to in
    let! z := read_zone r2 L1 in
    if tnm then
      let! id := deref c in
      Ok (id, set_zone r2 (mkZone c (z_mats z)) L1)
    else
      let! m := rel_insert_at (z_mats z) (oseqN to) c in
      let! id := deref c in
      Ok (id, set_zone r2 (mkZone (z_card z) m) L1)
  else if negb fp && tp then (* 270-278 *)
    let! r1 := rel_zone_of from in
    let! z := read_zone r1 L in
    let! (c, z') :=
      (if fnm then Ok (z_card z, mkZone None (z_mats z))
       else let! (c, m) := rel_take_at (z_mats z) (oseqN from) in
            Ok (c, mkZone (z_card z) m)) in
    let L1 := set_zone r1 z' L in
    let! r2 := rel_pile_of to in
    let! l2 := rel_insert_at (get_pile r2 L1) (p_seq to) c in
    let! id := deref c in
    Ok (id, set_pile r2 l2 L1)
  else (* 279-306 *)
    let! r1 := rel_zone_of from in
    let! r2 := rel_zone_of to in
    if fnm && tnm then
      let! z1 := read_zone r1 L in
      let c := z_card z1 in
      (* std::swap(c, z1.card); z2.card = c; *)
      let L1 := set_zone r1 (mkZone None (z_mats z1)) L in
      let! z2' := read_zone r2 L1 in
      let L2 := set_zone r2 (mkZone c (z_mats z2')) L1 in
      (* std::swap(z2.materials, z1.materials); *)
      let! z1' := read_zone r1 L2 in
      let! z2'' := read_zone r2 L2 in
      let m1 := z_mats z1' in
      let m2 := z_mats z2'' in
      let L3 := set_zone r2 (mkZone (z_card z2'') m1) L2 in
      let! z1'' := read_zone r1 L3 in
      let L4 := set_zone r1 (mkZone (z_card z1'') m2) L3 in
      let! id := deref c in
      Ok (id, L4)
    else if fnm && negb tnm then
      let! z1 := read_zone r1 L in
      let c := z_card z1 in
      let L1 := set_zone r1 (mkZone None (z_mats z1)) L in
      let! z2 := read_zone r2 L1 in
      let! m := rel_insert_at (z_mats z2) (oseqN to) c in
      let! id := deref c in
      Ok (id, set_zone r2 (mkZone (z_card z2) m) L1)
    else if negb fnm && tnm then
      let! z1 := read_zone r1 L in
      let! (c, m) := rel_take_at (z_mats z1) (oseqN from) in
      let L1 := set_zone r1 (mkZone (z_card z1) m) L in
      let! z2' := read_zone r2 L1 in
      let! id := deref c in
      Ok (id, set_zone r2 (mkZone c (z_mats z2')) L1)
    else
      let! z1 := read_zone r1 L in
      let! (c, m) := rel_take_at (z_mats z1) (oseqN from) in
      let L1 := set_zone r1 (mkZone (z_card z1) m) L in
      let! z2 := read_zone r2 L1 in
      let! m' := rel_insert_at (z_mats z2) (oseqN to) c in
      let! id := deref c in
      Ok (id, set_zone r2 (mkZone (z_card z2) m') L1).

(** frame.hpp:326-341.  [todo] is the number of iterations left, [i] the index.
    Reading past the end of the current places is undefined. *)
Fixpoint rel_shuffle_loop (todo i : nat) (cur : list place) (seqs : list N) (L : layout)
  : outcome layout :=
  match todo with
  | O => Ok L
  | S todo' =>
      match cur with
      | [] => UB
      | p :: cur' =>
          if is_empty p then rel_shuffle_loop todo' (S i) cur' seqs L
          else
            let! si := or_ub (nth_error seqs i) in
            let! a := rel_zone_ref (p_con p) (p_loc p) si in
            let! b := rel_zone_of p in
            let! L' := swap_zones a b L in
            let seqs' := upd i (p_seq p) (replace_first (p_seq p) si seqs) in
            rel_shuffle_loop todo' (S i) cur' seqs' L'
      end
  end.

(** frame.hpp:310-342.  An empty range is no longer dereferenced (line 315); an
    eighth place is written past the end of [seqs] (line 324). *)
Definition rel_card_shuffle (prev cur : list place) (L : layout) : outcome layout :=
  if lenN prev <=? 7 then rel_shuffle_loop (length prev) 0 cur (map p_seq prev) L else UB.

(** frame.hpp:344-407.  Lines 400 and 404 index the materials of [a]'s zone
    with [a.seq()], as written. *)
Definition rel_card_swap (a b : place) (L : layout) : outcome layout :=
  let ap := is_pile a in
  let bp := is_pile b in
  let anm := not_mat a in
  let bnm := not_mat b in
  if ap && bp then (* 361-366 *)
    let! ra := rel_pile_of a in
    let! rb := rel_pile_of b in
    swap_lval (LvPile ra (p_seq a)) (LvPile rb (p_seq b)) L
  else if ap && negb bp then (* 367-375 *)
    let! ra := rel_pile_of a in
    let! rb := rel_zone_of b in
    swap_lval (LvPile ra (p_seq a)) (if bnm then LvCard rb else LvMat rb (oseqN b)) L
  else if negb ap && bp then (* 376-384 *)
    let! ra := rel_zone_of a in
    let! rb := rel_pile_of b in
    swap_lval (if anm then LvCard ra else LvMat ra (oseqN a)) (LvPile rb (p_seq b)) L
  else (* 385-406 *)
    let! ra := rel_zone_of a in
    let! rb := rel_zone_of b in
    if anm && bnm then
      let! L1 := swap_lval (LvCard ra) (LvCard rb) L in
      let! za := read_zone ra L1 in
      let! zb := read_zone rb L1 in
      let L2 := set_zone ra (mkZone (z_card za) (z_mats zb)) L1 in
      let! zb' := read_zone rb L2 in
      Ok (set_zone rb (mkZone (z_card zb') (z_mats za)) L2)
    else if anm && negb bnm then swap_lval (LvCard ra) (LvMat rb (oseqN b)) L
    else if negb anm && bnm then swap_lval (LvMat ra (p_seq a)) (LvCard rb) L
    else swap_lval (LvMat ra (p_seq a)) (LvMat rb (oseqN b)) L.

(** frame.hpp:430-457.  Copying and erasing past the end (lines 440-447) is
    undefined, and so is inserting past the end (line 452). *)
Definition rel_pile_splice (from : place) (count : N) (to : place) (rev_ : bool) (L : layout)
  : outcome layout :=
  let! r1 := rel_pile_of from in
  let l1 := get_pile r1 L in
  if negb (count + p_seq from <=? lenN l1) then UB else
  let n := N.to_nat count in
  let s := N.to_nat (p_seq from) in
  let cut := firstn n (skipn s l1) in
  let cache := if rev_ then rev cut else cut in
  let l1' := firstn s l1 ++ skipn (s + n) l1 in
  let L1 := set_pile r1 l1' L in
  let! r2 := rel_pile_of to in
  let l2 := get_pile r2 L1 in
  if p_seq to <=? lenN l2 then
    let t := N.to_nat (p_seq to) in
    let l2' := firstn t l2 ++ cache ++ skipn t l2 in
    Ok (set_pile r2 l2' L1)
  else UB.

(** frame.hpp:459-465 *)
Definition rel_pile_swap (a b : place) (L : layout) : outcome layout :=
  let! ra := rel_pile_of a in
  let! rb := rel_pile_of b in
  let la := get_pile ra L in
  let lb := get_pile rb L in
  Ok (set_pile rb la (set_pile ra lb L)).

(** ** Frames *)

Section Cards.
Variable C : Type.
Variable c0 : C.

(** frame.hpp:561-579; a card that is not found is left alone. *)
Definition rel_destruct_card (c : cid) (f : frame C) : outcome (frame C) :=
  match heap_remove c (f_heap f) with
  | Some h => Ok (mkFrame (f_next f) h (f_lay f))
  | None => Ok f
  end.

(** frame.hpp:633-644, card_.  Binding a reference to a destroyed or null card
    is undefined. *)
Definition rel_card_at_place (p : place) (f : frame C) : outcome cid :=
  let! c := (if is_pile p then
               let! r := rel_pile_of p in nth_ptr (get_pile r (f_lay f)) (p_seq p)
             else
               let! r := rel_zone_of p in
               let! z := read_zone r (f_lay f) in
               if not_mat p then Ok (z_card z) else nth_ptr (z_mats z) (oseqN p)) in
  let! id := deref c in
  let! _ := or_ub (heap_get id (f_heap f)) in
  Ok id.

(** frame.hpp:224-229 *)
Definition rel_card_add (p : place) (f : frame C) : outcome (cid * frame C) :=
  let '(c, f1) := construct_card c0 f in
  let! L := rel_card_insert p c (f_lay f1) in
  Ok (c, with_lay f1 L).

(** frame.hpp:231-235 *)
Definition rel_card_remove (p : place) (f : frame C) : outcome (frame C) :=
  let! (c, L) := rel_card_erase p (f_lay f) in
  rel_destruct_card c (with_lay f L).

(** frame.hpp:421-425: destroy and pop the last [n] cards. *)
Fixpoint rel_shrink_pile (n : nat) (r : pref) (f : frame C) : outcome (frame C) :=
  match n with
  | O => Ok f
  | S n' =>
      let l := get_pile r (f_lay f) in
      let! c := or_ub (nth_error l (length l - 1)) in
      let! id := deref c in
      let! f1 := rel_destruct_card id f in
      rel_shrink_pile n' r (with_lay f1 (set_pile r (firstn (length l - 1) l) (f_lay f1)))
  end.

(** frame.hpp:409-428 *)
Definition rel_pile_resize (p : place) (count : N) (f : frame C) : outcome (frame C) :=
  let! r := rel_pile_of p in
  let size := lenN (get_pile r (f_lay f)) in
  let! f1 := (if size <? count then Ok (grow_pile c0 (N.to_nat (count - size)) r f)
              else if count <? size then rel_shrink_pile (N.to_nat (size - count)) r f
              else Ok f) in
  Ok f1.

(** frame.hpp:472-477, the loop of destruct_pile. *)
Fixpoint rel_destruct_all (l : list ptr) (f : frame C) : outcome (frame C) :=
  match l with
  | [] => Ok f
  | c :: l' =>
      let! id := deref c in
      let! f1 := rel_destruct_card id f in
      rel_destruct_all l' f1
  end.

(** frame.hpp:488-497 for one pile. *)
Definition rel_clear_pile (r : pref) (f : frame C) : outcome (frame C) :=
  let! f1 := rel_destruct_all (get_pile r (f_lay f)) f in
  Ok (with_lay f1 (set_pile r [] (f_lay f1))).

(** frame.hpp:480-486 for one zone. *)
Definition rel_clear_zone (r : zref) (f : frame C) : outcome (frame C) :=
  let! z := read_zone r (f_lay f) in
  let! f1 := (match z_card z with
              | Some id => rel_destruct_card id f
              | None => Ok f
              end) in
  let! f2 := rel_destruct_all (z_mats z) f1 in
  Ok (with_lay f2 (set_zone r zone0 (f_lay f2))).

(** frame.hpp:470-506 *)
Definition rel_clear (f : frame C) : outcome (frame C) :=
  let! f1 := ofold rel_clear_pile all_prefs f in
  ofold rel_clear_zone all_zrefs f1.

Definition rel_f_card_move (from to : place) (f : frame C) : outcome (cid * frame C) :=
  let! (c, L) := rel_card_move from to (f_lay f) in
  let! _ := or_ub (heap_get c (f_heap f)) in
  Ok (c, with_lay f L).

(** ** Undoable boards *)

(** frame_limbo.hpp:227-231.  With [op_ = 0] the counter wraps to 2^64 - 1; the
    model does not follow it there and counts it as undefined. *)
Definition rel_regress_op (w : limbo C) : outcome (limbo C) :=
  match lb_op w with
  | O => UB
  | S n => Ok (mkLimbo (lb_frame w) n (lb_processed w) (lb_ops w))
  end.

(** [operations_[op_ - 1]]
    (frame_limbo.hpp:81-83, 116-118, 151-153, 176-178 and 251-253).  With
    [op_ = 0] the index wraps and the access is undefined. *)
Definition rel_current_op (w : limbo C) : outcome lop :=
  match lb_op w with
  | O => UB
  | S n => or_ub (nth_error (lb_ops w) n)
  end.

(** frame_limbo.hpp:249-254, and likewise for the two other kinds.  std::get of
    another alternative throws, which in a noexcept function terminates. *)
Definition rel_current_card (w : limbo C) : outcome ptr :=
  let! o := rel_current_op w in
  match o with CardOp c => Ok c | _ => Abort end.

Definition rel_current_resize (w : limbo C) : outcome (nat * list ptr) :=
  let! o := rel_current_op w in
  match o with ResizeOp n l => Ok (n, l) | _ => Abort end.

Definition rel_current_clear (w : limbo C) : outcome layout :=
  let! o := rel_current_op w in
  match o with ClearOp L => Ok L | _ => Abort end.

(** frame_limbo.hpp:45-57 *)
Definition rel_l_card_add (p : place) (w : limbo C) : outcome (cid * limbo C) :=
  let '(processing, w1) := advance_op w in
  if processing then
    let! (c, f) := rel_card_add p (lb_frame w1) in
    Ok (c, emplace_op (CardOp (Some c)) (lb_with_frame w1 f))
  else
    let! q := rel_current_card w1 in
    let! c := deref q in
    alive c w1 ;;!
    let! L := rel_card_insert p c (lb_lay w1) in
    Ok (c, lb_with_lay w1 L).

(** frame_limbo.hpp:59-69 *)
Definition rel_l_card_remove (p : place) (w : limbo C) : outcome (limbo C) :=
  let! (c, L) := rel_card_erase p (lb_lay w) in
  alive c w ;;!
  let '(processing, w1) := advance_op (lb_with_lay w L) in
  if processing then Ok (emplace_op (CardOp (Some c)) w1)
  else
    Ok w1.

(** frame_limbo.hpp:71-107 *)
Definition rel_l_pile_resize (p : place) (count : N) (w : limbo C) : outcome (limbo C) :=
  let '(processing, w1) := advance_op w in
  let! r := rel_pile_of p in
  let! (w2, slice) :=
    (if processing then Ok (emplace_op (ResizeOp 0 []) w1, [])
     else let! (_, s) := rel_current_resize w1 in Ok (w1, s)) in
  let l := get_pile r (lb_lay w2) in
  let size := lenN l in
  let n := N.to_nat count in
  let! w3 :=
    (if size <? count then
       let w3 := set_current_op (ResizeOp (length l) slice) w2 in
       if processing then Ok (l_grow c0 (N.to_nat (count - size)) r w3)
       else Ok (lb_with_lay w3 (set_pile r (l ++ slice) (lb_lay w3)))
     else if count <? size then
       let diff := (length l - n)%nat in
       let! s := copy_to (skipn diff l) (resize_ptrs diff slice) in
       let w3 := set_current_op (ResizeOp (length l) s) w2 in
       Ok (lb_with_lay w3 (set_pile r (firstn n l) (lb_lay w3)))
     else Ok (set_current_op (ResizeOp (length l) slice) w2)) in
  Ok w3.

(** frame_limbo.hpp:109-121 and 233-247: every container is exchanged with the
    operation's, which for a new operation are empty. *)
Definition rel_l_clear (w : limbo C) : outcome (limbo C) :=
  let '(processing, w1) := advance_op w in
  let! (w2, saved) :=
    (if processing then Ok (emplace_op (ClearOp layout0) w1, layout0)
     else let! L := rel_current_clear w1 in Ok (w1, L)) in
  Ok (lb_with_lay (set_current_op (ClearOp (lb_lay w2)) w2) saved).

(** frame_limbo.hpp:125-132 *)
Definition rel_l_undo_card_add (p : place) (w : limbo C) : outcome (cid * limbo C) :=
  let! (c, L) := rel_card_erase p (lb_lay w) in
  alive c w ;;!
  let! w1 := rel_regress_op (lb_with_lay w L) in
  Ok (c, w1).

(** frame_limbo.hpp:134-141 *)
Definition rel_l_undo_card_remove (p : place) (w : limbo C) : outcome (cid * limbo C) :=
  let! q := rel_current_card w in
  let! c := deref q in
  alive c w ;;!
  let! L := rel_card_insert p c (lb_lay w) in
  let! w1 := rel_regress_op (lb_with_lay w L) in
  Ok (c, w1).

(** frame_limbo.hpp:143-170; [count] is unused. *)
Definition rel_l_undo_pile_resize (p : place) (count : N) (w : limbo C) : outcome (limbo C) :=
  let! r := rel_pile_of p in
  let! (prev, slice) := rel_current_resize w in
  let l := get_pile r (lb_lay w) in
  let! w1 :=
    (if Nat.ltb (length l) prev then
       Ok (lb_with_lay w (set_pile r (l ++ slice) (lb_lay w)))
     else if Nat.ltb prev (length l) then
       let diff := (length l - prev)%nat in
       let! s := copy_to (skipn (length l - diff) l) (resize_ptrs diff slice) in
       let w1 := set_current_op (ResizeOp prev s) w in
       Ok (lb_with_lay w1 (set_pile r (firstn prev l) (lb_lay w1)))
     else Ok w) in
  let! w2 := rel_regress_op w1 in
  Ok w2.

(** frame_limbo.hpp:172-182 *)
Definition rel_l_undo_clear (w : limbo C) : outcome (limbo C) :=
  let! L := rel_current_clear w in
  rel_regress_op (lb_with_lay (set_current_op (ClearOp (lb_lay w)) w) L).

(** frame_limbo.hpp:184-189: nothing is left of the body. *)
Definition rel_l_undo_card_shuffle (prev cur : list place) (w : limbo C) : outcome (limbo C) := Ok w.

Definition rel_l_card_move (from to : place) (w : limbo C) : outcome (cid * limbo C) :=
  let! (c, f) := rel_f_card_move from to (lb_frame w) in Ok (c, lb_with_frame w f).

End Cards.

(** undoable.hpp:46-50; decrementing the first iterator is undefined. *)
Definition rel_u_undo {T} (u : undoable T) : outcome (undoable T) :=
  match u_past u with
  | [] => UB
  | x :: l => Ok (mkUndoable l x (u_cur u :: u_next u))
  end.

(** undoable.hpp:52-55 and 68-88: nothing is left of the bodies. *)
Definition rel_u_unsupported {T} (u : undoable T) : outcome (undoable T) := Ok u.


(** ** Boards *)

Section Boards.
Variable F : Type.
Variable V : Type -> Type.
Variable fo : frame_ops F.
Variable vo : value_ops V.
Variable uo : undo_ops F V.

(** parse_event.hpp:79-267 with board.hpp:112-118; the controllers of
    parse_state are the constants 0 and 1, on which the assertion holds. *)
Definition rel_parse_event (e : event) (b : board F V) : outcome (board F V) :=
  match e with
  | EvLp con t =>
      let! i := lp_index_const con in
      let! j := lp_index_const con in
      let lpv := vo_get vo (sel j (b_lp b)) in
      Ok (set_lp (put2 i (vo_set vo (new_lp t lpv) (sel i (b_lp b))) (b_lp b)) b)
  | _ => parse_event fo vo e b
  end.

(** undo_parse_event.hpp:41-205 *)
Definition rel_undo_parse_event (e : event) (b : board F V) : outcome (board F V) :=
  match e with
  | EvLp con _ =>
      let! i := lp_index_const con in
      let! x := uo_undo uo (sel i (b_lp b)) in
      Ok (set_lp (put2 i x (b_lp b)) b)
  | _ => undo_parse_event fo uo e b
  end.
End Boards.

Section Instances.
Variable C : Type.
Variable c0 : C.

Definition rel_plain_fo : frame_ops (frame C) :=
  mkFrameOps
    (fun p f => let! (_, f') := rel_card_add c0 p f in Ok f')
    (fun p f => rel_card_remove p f)
    (fun a b f => let! (_, f') := rel_f_card_move a b f in Ok f')
    (fun a b f => lift (rel_card_swap a b) f)
    (fun p c f => lift (rel_card_shuffle p c) f)
    (fun p n f => rel_pile_resize c0 p n f)
    (fun a n b r f => lift (rel_pile_splice a n b r) f)
    (fun a b f => lift (rel_pile_swap a b) f)
    (fun f => rel_clear f).

Definition rel_limbo_fo : frame_ops (limbo C) :=
  mkFrameOps
    (fun p w => let! (_, w') := rel_l_card_add c0 p w in Ok w')
    (fun p w => rel_l_card_remove p w)
    (fun a b w => let! (_, w') := rel_l_card_move a b w in Ok w')
    (fun a b w => l_lift (rel_card_swap a b) w)
    (fun p c w => l_lift (rel_card_shuffle p c) w)
    (fun p n w => rel_l_pile_resize c0 p n w)
    (fun a n b r w => l_lift (rel_pile_splice a n b r) w)
    (fun a b w => l_lift (rel_pile_swap a b) w)
    (fun w => rel_l_clear w).

Definition rel_undoable_vo : value_ops undoable :=
  mkValueOps undoable (fun T u => u_get u) (fun T v u => u_set v u)
    (fun T _ u => rel_u_unsupported u) (fun T u => rel_u_unsupported u).

Definition rel_limbo_uo : undo_ops (limbo C) undoable :=
  mkUndoOps undoable
    (fun p w => let! (_, w') := rel_l_undo_card_add p w in Ok w')
    (fun p w => let! (_, w') := rel_l_undo_card_remove p w in Ok w')
    (fun p n w => rel_l_undo_pile_resize p n w)
    (fun w => rel_l_undo_clear w)
    (fun p c w => rel_l_undo_card_shuffle p c w)
    (fun T u => rel_u_undo u)
    (fun T _ u => rel_u_unsupported u)
    (fun T u => rel_u_unsupported u).

Definition rel_pparse (e : event) (b : pboard C) : outcome (pboard C) :=
  rel_parse_event rel_plain_fo plain_vo e b.
Definition rel_uparse (e : event) (b : uboard C) : outcome (uboard C) :=
  rel_parse_event rel_limbo_fo rel_undoable_vo e b.
Definition rel_uundo (e : event) (b : uboard C) : outcome (uboard C) :=
  rel_undo_parse_event rel_limbo_fo rel_limbo_uo e b.
End Instances.

(** parse_query.hpp:78-122 *)
Definition rel_parse_query (use_cache : bool) (q : query) (f : frame card) : outcome (N * frame card) :=
  let! id := rel_card_at_place (qr_place q) f in
  let! c := or_ub (heap_get id (f_heap f)) in
  let (c', hits) := parse_data use_cache (qr_data q) c in
  Ok (hits, mkFrame (f_next f) (heap_set id c' (f_heap f)) (f_lay f)).

(** ** The decoder *)

(** edo9300_ocgcore_decode.cpp:46-88.  [request.select_card()] of another
    request is the default instance, which is not recursive; the first of no
    indexes (line 73) is undefined. *)
Definition rel_decode_card (rq : request) (a : ans_card) (out : list N) : outcome (list N) :=
  match a with
  | AcCancel | AcFinish => response_i (-1) out
  | AcIndexes l =>
      let unselect := match rq with RqCard (ScRecursive _ _ _ _ _ _) => true | _ => false end in
      if unselect then
        let! st := write 4 1 (resize 8 out, 0%nat) in
        let! first := or_ub (nth_error l 0) in
        let! (out', _) := write 4 (Z.of_N first) st in
        Ok out'
      else
        let! st := write 4 1 (resize (8 + 2 * length l) out, 0%nat) in
        let! st := write 4 (Z.of_nat (length l)) st in
        let! (out', _) := ofold (fun i => write 2 (Z.of_N i)) l st in
        Ok out'
  | AcNotSet => Ok out
  end.

(** 105-166.  [request.select_idle()] of another request is the default
    instance, whose is_battle_cmd is false. *)
Definition rel_decode_idle (rq : request) (a : ans_idle) (out : list N) : outcome (list N) :=
  let battle := match rq with RqIdle ri => si_is_battle_cmd ri | _ => false end in
  match a with
  | AiShuffle => response_i 8 out
  | AiPhase p =>
      if battle then
        let! out1 := (if has_flag p DPHASE_MAIN_2 then response_i 2 out else Ok out) in
        if has_flag p DPHASE_END then response_i 3 out1 else Ok out1
      else if has_flag p DPHASE_BATTLE then response_i 6 out
      else if has_flag p DPHASE_END then response_i 7 out
      else Ok out
  | AiAction act s =>
      let t := action_type battle act in
      response_i (Z.of_N (N.lor (u32 (N.shiftl (N.land s 0xFFFF) 16)) (N.land t 0xFFFF))) out
  | AiNotSet => Ok out
  end.

(** 28-241 *)
Definition rel_decode_one_answer (rq : request) (a : answer) (out : list N) : outcome (list N) :=
  match a with
  | AnCard c => rel_decode_card rq c out
  | AnIdle i => rel_decode_idle rq i out
  | _ => decode_one_answer rq a out
  end.

