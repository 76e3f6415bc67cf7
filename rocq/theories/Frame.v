(** Model of include/ygopen/client/frame.hpp: BasicFrame.

    Cards are identified by the address of their node in the forward_list
    [cards_.m]; an address is a number [cid] that is never reused (the real
    allocator may reuse one after a card was destroyed).  Pointers are
    [option cid], [None] being nullptr.

    A frame is split into its [layout] (who is where) and its heap (the
    forward_list, newest card first, together with the content of each card).
    [pile_splice_cache_] (frame.hpp:609) is scratch memory, overwritten before
    every use, and is not part of the state. *)
From Verif Require Import Base Place.

Set Implicit Arguments.
Local Open Scope N_scope.

Notation cid := N (only parsing).
Notation ptr := (option N) (only parsing).

(** Which of the five MultiPile members, frame.hpp:602-606. *)
Inductive ploc := LDeck | LHand | LGrave | LBan | LExtra.
(** Which of the five ZoneArray members, frame.hpp:98-102. *)
Inductive zloc := ZMonster | ZSpell | ZField | ZPend | ZSkill.

(** frame.hpp:74-78, Side::Zone. *)
Record zone := mkZone { z_card : ptr; z_mats : list ptr }.
(** A value-initialised zone (frame.hpp:76-77). *)
Definition zone0 : zone := mkZone None [].

(** frame.hpp:71-122, Side: the five arrays of zones. *)
Record side := mkSide {
  s_monster : list zone;
  s_spell : list zone;
  s_field : list zone;
  s_pend : list zone;
  s_skill : list zone
}.

(** frame.hpp:602-607: the five MultiPiles (arrays of two piles) and the field
    (array of two sides). *)
Record layout := mkLayout {
  l_main : list ptr * list ptr;
  l_hand : list ptr * list ptr;
  l_grave : list ptr * list ptr;
  l_ban : list ptr * list ptr;
  l_extra : list ptr * list ptr;
  l_field : side * side
}.

(** A default-constructed Side and layout: frame.hpp:98-102, 126-129, 602-607. *)
Definition side0 : side :=
  mkSide (repeat zone0 7) (repeat zone0 5) (repeat zone0 1) (repeat zone0 2) (repeat zone0 1).
Definition layout0 : layout :=
  mkLayout ([], []) ([], []) ([], []) ([], []) ([], []) (side0, side0).

(** Access to one of the two elements of a std::array, controller 0 being
    [false]. *)
Definition sel {A} (c : bool) (x : A * A) : A := if c then snd x else fst x.
Definition put2 {A} (c : bool) (a : A) (x : A * A) : A * A :=
  if c then (fst x, a) else (a, snd x).

(** A resolved reference to a pile, resp. to a zone. *)
Definition pref : Type := bool * ploc.
Definition zref : Type := bool * zloc * nat.

Definition get_mpile (l : ploc) (L : layout) : list ptr * list ptr :=
  match l with
  | LDeck => l_main L | LHand => l_hand L | LGrave => l_grave L
  | LBan => l_ban L | LExtra => l_extra L
  end.
Definition set_mpile (l : ploc) (m : list ptr * list ptr) (L : layout) : layout :=
  let '(mkLayout a b c d e f) := L in
  match l with
  | LDeck => mkLayout m b c d e f | LHand => mkLayout a m c d e f
  | LGrave => mkLayout a b m d e f | LBan => mkLayout a b c m e f
  | LExtra => mkLayout a b c d m f
  end.

(** Read and write through a [PileType&]. *)
Definition get_pile (r : pref) (L : layout) : list ptr := sel (fst r) (get_mpile (snd r) L).
Definition set_pile (r : pref) (p : list ptr) (L : layout) : layout :=
  set_mpile (snd r) (put2 (fst r) p (get_mpile (snd r) L)) L.

Definition get_zones (z : zloc) (s : side) : list zone :=
  match z with
  | ZMonster => s_monster s | ZSpell => s_spell s | ZField => s_field s
  | ZPend => s_pend s | ZSkill => s_skill s
  end.
Definition set_zones (z : zloc) (l : list zone) (s : side) : side :=
  let '(mkSide a b c d e) := s in
  match z with
  | ZMonster => mkSide l b c d e | ZSpell => mkSide a l c d e
  | ZField => mkSide a b l d e | ZPend => mkSide a b c l e
  | ZSkill => mkSide a b c d l
  end.

Definition set_field (f : side * side) (L : layout) : layout :=
  let '(mkLayout a b c d e _) := L in mkLayout a b c d e f.

(** Read and write through a [Zone&]. *)
Definition get_zone (r : zref) (L : layout) : option zone :=
  let '(c, z, i) := r in nth_error (get_zones z (sel c (l_field L))) i.
Definition set_zone (r : zref) (v : zone) (L : layout) : layout :=
  let '(c, z, i) := r in
  let s := sel c (l_field L) in
  set_field (put2 c (set_zones z (upd i v (get_zones z s)) s) (l_field L)) L.

(** Dereferencing a [Zone&]: the array element must exist. *)
Definition read_zone (r : zref) (L : layout) : outcome zone := or_ub (get_zone r L).

(** [arr[con]] for a std::array of two elements indexed by an int. *)
Definition con_index (con : Z) : outcome bool :=
  if (con =? 0)%Z then Ok false else if (con =? 1)%Z then Ok true else UB.

(** frame.hpp:613-631, pile_.  Note that [con <= 1] is a signed comparison. *)
Definition pile_ref (con : Z) (loc : N) : outcome pref :=
  assert_ (con <=? 1)%Z ;;!
  assert_ (loc_is_pile loc) ;;!
  if loc =? LOCATION_MAIN_DECK then let! c := con_index con in Ok (c, LDeck)
  else if loc =? LOCATION_HAND then let! c := con_index con in Ok (c, LHand)
  else if loc =? LOCATION_GRAVEYARD then let! c := con_index con in Ok (c, LGrave)
  else if loc =? LOCATION_BANISHED then let! c := con_index con in Ok (c, LBan)
  else if loc =? LOCATION_EXTRA_DECK then let! c := con_index con in Ok (c, LExtra)
  else UB.

(** frame.hpp:105-121, Side::at_: which array. *)
Definition side_at (loc : N) : outcome zloc :=
  assert_ (loc_is_zone loc) ;;!
  if loc =? LOCATION_MONSTER_ZONE then Ok ZMonster
  else if loc =? LOCATION_SPELL_ZONE then Ok ZSpell
  else if loc =? LOCATION_FIELD_ZONE then Ok ZField
  else if loc =? LOCATION_PENDULUM_ZONE then Ok ZPend
  else if loc =? LOCATION_SKILL_ZONE then Ok ZSkill
  else UB.

(** frame.hpp:646-653, zone_. *)
Definition zone_ref (con : Z) (loc seq : N) : outcome zref :=
  assert_ (con <=? 1)%Z ;;!
  let! lim := zone_seq_lim loc in
  assert_ (seq <? lim) ;;!
  let! c := con_index con in
  let! z := side_at loc in
  Ok (c, z, N.to_nat seq).

(** frame.hpp:165-182 and 203-220: the overloads taking a Place. *)
Definition pile_of (p : place) : outcome pref := pile_ref (p_con p) (p_loc p).
Definition zone_of (p : place) : outcome zref := zone_ref (p_con p) (p_loc p) (p_seq p).

(** [place.oseq() < 0] and the conversion of a non-negative oseq to size_t. *)
Definition not_mat (p : place) : bool := (p_oseq p <? 0)%Z.
Definition oseqN (p : place) : N := Z.to_N (p_oseq p).

Definition is_null (c : ptr) : bool := match c with None => true | Some _ => false end.
Definition is_nil {A} (l : list A) : bool := match l with [] => true | _ => false end.

(** frame.hpp:138-150 *)
Definition has_card (p : place) (L : layout) : outcome bool :=
  assert_ (negb (is_empty p)) ;;!
  if is_pile p then
    let! r := pile_of p in
    Ok (p_seq p <? lenN (get_pile r L))
  else
    assert_ (is_zone p) ;;!
    let! lim := zone_seq_lim (p_loc p) in
    assert_ (p_seq p <? lim) ;;!
    let! r := zone_of p in
    let! z := read_zone r L in
    if not_mat p then Ok (negb (is_null (z_card z)))
    else Ok (oseqN p <? lenN (z_mats z)).

(** frame.hpp:657-665.  Returns the taken pointer and the shortened vector. *)
Definition take_at (p : list ptr) (i : N) : outcome (ptr * list ptr) :=
  assert_ (i <? lenN p) ;;!
  let! c := or_ub (nth_error p (N.to_nat i)) in
  assert_ (negb (is_null c)) ;;!
  Ok (c, remove_nth (N.to_nat i) p).

(** frame.hpp:667-674 *)
Definition insert_at (p : list ptr) (i : N) (c : ptr) : outcome (list ptr) :=
  assert_ (i <=? lenN p) ;;!
  assert_ (negb (is_null c)) ;;!
  Ok (insert_nth (N.to_nat i) c p).

(** frame.hpp:583-587 *)
Definition verify_pile (p : list ptr) : outcome unit :=
  assert_ (forallb (fun c => negb (is_null c)) p).

(** frame.hpp:518-534.  The card is passed by reference, so it is not null. *)
Definition card_insert (p : place) (c : cid) (L : layout) : outcome layout :=
  if is_pile p then
    let! r := pile_of p in
    let! l := insert_at (get_pile r L) (p_seq p) (Some c) in
    Ok (set_pile r l L)
  else
    let! r := zone_of p in
    let! z := read_zone r L in
    if not_mat p then
      assert_ (is_null (z_card z)) ;;!
      Ok (set_zone r (mkZone (Some c) (z_mats z)) L)
    else
      let! m := insert_at (z_mats z) (oseqN p) (Some c) in
      Ok (set_zone r (mkZone (z_card z) m) L).

(** [return *c]: dereferencing a null pointer is undefined. *)
Definition deref (c : ptr) : outcome cid := or_ub c.

(** frame.hpp:536-554.  For a pile, [p[seq]] and [p.erase(begin + seq)] are
    undefined when out of range. *)
Definition card_erase (p : place) (L : layout) : outcome (cid * layout) :=
  if is_pile p then
    let! r := pile_of p in
    let l := get_pile r L in
    let! c := or_ub (if p_seq p <? lenN l then nth_error l (N.to_nat (p_seq p)) else None) in
    let! id := deref c in
    Ok (id, set_pile r (remove_nth (N.to_nat (p_seq p)) l) L)
  else
    let! r := zone_of p in
    let! z := read_zone r L in
    if not_mat p then
      let! id := deref (z_card z) in
      Ok (id, set_zone r (mkZone None (z_mats z)) L)
    else
      let! (c, m) := take_at (z_mats z) (oseqN p) in
      let! id := deref c in
      Ok (id, set_zone r (mkZone (z_card z) m) L).

(** frame.hpp:237-308.  Returns the moved card. *)
Definition card_move (from to : place) (L : layout) : outcome (cid * layout) :=
  let! h := has_card from L in
  assert_ h ;;!
  let fp := is_pile from in
  let tp := is_pile to in
  let fnm := not_mat from in
  let tnm := not_mat to in
  assert_ (negb fp || fnm) ;;!
  assert_ (negb tp || tnm) ;;!
  if fp && tp then (* 249-254 *)
    let! r1 := pile_of from in
    let! r2 := pile_of to in
    let! (c, l1) := take_at (get_pile r1 L) (p_seq from) in
    let L1 := set_pile r1 l1 L in
    let! l2 := insert_at (get_pile r2 L1) (p_seq to) c in
    let! id := deref c in
    Ok (id, set_pile r2 l2 L1)
  else if fp && negb tp then (* 255-269 *)
    let! r1 := pile_of from in
    let! (c, l1) := take_at (get_pile r1 L) (p_seq from) in
    let L1 := set_pile r1 l1 L in
    let! r2 := zone_of to in
    let! z := read_zone r2 L1 in
    if tnm then
      assert_ (is_null (z_card z)) ;;!
      let! id := deref c in
      Ok (id, set_zone r2 (mkZone c (z_mats z)) L1)
    else
      let! m := insert_at (z_mats z) (oseqN to) c in
      let! id := deref c in
      Ok (id, set_zone r2 (mkZone (z_card z) m) L1)
  else if negb fp && tp then (* 270-278 *)
    let! r1 := zone_of from in
    let! z := read_zone r1 L in
    let! (c, z') :=
      (if fnm then Ok (z_card z, mkZone None (z_mats z))
       else let! (c, m) := take_at (z_mats z) (oseqN from) in
            Ok (c, mkZone (z_card z) m)) in
    let L1 := set_zone r1 z' L in
    let! r2 := pile_of to in
    let! l2 := insert_at (get_pile r2 L1) (p_seq to) c in
    let! id := deref c in
    Ok (id, set_pile r2 l2 L1)
  else (* 279-306 *)
    let! r1 := zone_of from in
    let! r2 := zone_of to in
    if fnm && tnm then
      let! z2 := read_zone r2 L in
      assert_ (is_null (z_card z2) && is_nil (z_mats z2)) ;;!
      let! z1 := read_zone r1 L in
      let c := z_card z1 in
      (* std::swap(c, z1.card); z2.card = c; *)
      let L1 := set_zone r1 (mkZone None (z_mats z1)) L in
      let! z2' := read_zone r2 L1 in
      let L2 := set_zone r2 (mkZone c (z_mats z2')) L1 in
      (* std::swap(z2.materials, z1.materials); *)
      let! z1' := read_zone r1 L2 in
      let! z2'' := read_zone r2 L2 in
      let m1 := z_mats z1' in
      let m2 := z_mats z2'' in
      let L3 := set_zone r2 (mkZone (z_card z2'') m1) L2 in
      let! z1'' := read_zone r1 L3 in
      let L4 := set_zone r1 (mkZone (z_card z1'') m2) L3 in
      let! id := deref c in
      Ok (id, L4)
    else if fnm && negb tnm then
      let! z1 := read_zone r1 L in
      let c := z_card z1 in
      let L1 := set_zone r1 (mkZone None (z_mats z1)) L in
      let! z2 := read_zone r2 L1 in
      let! m := insert_at (z_mats z2) (oseqN to) c in
      let! id := deref c in
      Ok (id, set_zone r2 (mkZone (z_card z2) m) L1)
    else if negb fnm && tnm then
      let! z2 := read_zone r2 L in
      assert_ (is_null (z_card z2)) ;;!
      let! z1 := read_zone r1 L in
      let! (c, m) := take_at (z_mats z1) (oseqN from) in
      let L1 := set_zone r1 (mkZone (z_card z1) m) L in
      let! z2' := read_zone r2 L1 in
      let! id := deref c in
      Ok (id, set_zone r2 (mkZone c (z_mats z2')) L1)
    else
      let! z1 := read_zone r1 L in
      let! (c, m) := take_at (z_mats z1) (oseqN from) in
      let L1 := set_zone r1 (mkZone (z_card z1) m) L in
      let! z2 := read_zone r2 L1 in
      let! m' := insert_at (z_mats z2) (oseqN to) c in
      let! id := deref c in
      Ok (id, set_zone r2 (mkZone (z_card z2) m') L1).

(** [std::swap(zone(a), zone(b))]. *)
Definition swap_zones (a b : zref) (L : layout) : outcome layout :=
  let! za := read_zone a L in
  let! zb := read_zone b L in
  Ok (set_zone b za (set_zone a zb L)).

(** frame.hpp:320-325: read the sequences of the previous places. *)
Fixpoint shuffle_seqs (prev : list place) (L : layout) : outcome (list N) :=
  match prev with
  | [] => Ok []
  | p :: prev' =>
      let! h := has_card p L in
      assert_ h ;;!
      let! l := shuffle_seqs prev' L in
      Ok (p_seq p :: l)
  end.

(** frame.hpp:333-339: the first entry equal to [seq] becomes [v]. *)
Fixpoint replace_first (seq v : N) (l : list N) : list N :=
  match l with
  | [] => []
  | x :: l' => if x =? seq then v :: l' else x :: replace_first seq v l'
  end.

(** frame.hpp:326-341.  [todo] is the number of iterations left, [i] the index.
    Reading past the end of the current places is undefined. *)
Fixpoint shuffle_loop (todo i : nat) (cur : list place) (seqs : list N) (L : layout)
  : outcome layout :=
  match todo with
  | O => Ok L
  | S todo' =>
      match cur with
      | [] => UB
      | p :: cur' =>
          if is_empty p then shuffle_loop todo' (S i) cur' seqs L
          else
            let! si := or_ub (nth_error seqs i) in
            let! a := zone_ref (p_con p) (p_loc p) si in
            let! b := zone_of p in
            let! L' := swap_zones a b L in
            let seqs' := upd i (p_seq p) (replace_first (p_seq p) si seqs) in
            shuffle_loop todo' (S i) cur' seqs' L'
      end
  end.

(** frame.hpp:310-342.  The iterators are modelled as lists and [count] as the
    length of the previous places, which is how parse_event.hpp:160 calls it;
    [*previous] on an empty range is undefined. *)
Definition card_shuffle (prev cur : list place) (L : layout) : outcome layout :=
  match prev with
  | [] => UB
  | p0 :: _ =>
      assert_ (negb (is_pile p0)) ;;!
      assert_ (lenN prev <=? 7) ;;!
      let! seqs := shuffle_seqs prev L in
      shuffle_loop (length prev) 0 cur seqs L
  end.

(** A [CardType*&]: the element of a pile, the card of a zone or a material. *)
Inductive lval :=
| LvPile (r : pref) (i : N)
| LvCard (r : zref)
| LvMat (r : zref) (i : N).

(** Reading and writing through a [CardType*&]; an index out of range of the
    vector is undefined. *)
Definition nth_ptr (l : list ptr) (i : N) : outcome ptr :=
  or_ub (if i <? lenN l then nth_error l (N.to_nat i) else None).
Definition read_lval (v : lval) (L : layout) : outcome ptr :=
  match v with
  | LvPile r i => nth_ptr (get_pile r L) i
  | LvCard r => let! z := read_zone r L in Ok (z_card z)
  | LvMat r i => let! z := read_zone r L in nth_ptr (z_mats z) i
  end.
Definition write_lval (v : lval) (c : ptr) (L : layout) : outcome layout :=
  match v with
  | LvPile r i =>
      let! _ := nth_ptr (get_pile r L) i in
      Ok (set_pile r (upd (N.to_nat i) c (get_pile r L)) L)
  | LvCard r =>
      let! z := read_zone r L in Ok (set_zone r (mkZone c (z_mats z)) L)
  | LvMat r i =>
      let! z := read_zone r L in
      let! _ := nth_ptr (z_mats z) i in
      Ok (set_zone r (mkZone (z_card z) (upd (N.to_nat i) c (z_mats z))) L)
  end.
(** [std::swap] of two [CardType*&]. *)
Definition swap_lval (a b : lval) (L : layout) : outcome layout :=
  let! x := read_lval a L in
  let! y := read_lval b L in
  let! L1 := write_lval a y L in
  write_lval b x L1.

(** frame.hpp:357-360: [zone(p).materials.empty()], evaluated only when the
    disjuncts before it are false. *)
Definition mats_empty (p : place) (L : layout) : outcome bool :=
  let! r := zone_of p in
  let! z := read_zone r L in
  Ok (is_nil (z_mats z)).

(** frame.hpp:344-407.  Lines 400 and 404 index the materials of [a]'s zone
    with [a.seq()], as written. *)
Definition card_swap (a b : place) (L : layout) : outcome layout :=
  let! ha := has_card a L in
  assert_ ha ;;!
  let! hb := has_card b L in
  assert_ hb ;;!
  let ap := is_pile a in
  let bp := is_pile b in
  let anm := not_mat a in
  let bnm := not_mat b in
  assert_ (negb ap || anm) ;;!
  assert_ (negb bp || bnm) ;;!
  (let! ok := (if ap || negb anm then Ok true
               else let! e := mats_empty a L in Ok (e || negb bp)) in assert_ ok) ;;!
  (let! ok := (if bp || negb bnm then Ok true
               else let! e := mats_empty b L in Ok (e || negb ap)) in assert_ ok) ;;!
  if ap && bp then (* 361-366 *)
    let! ra := pile_of a in
    let! rb := pile_of b in
    swap_lval (LvPile ra (p_seq a)) (LvPile rb (p_seq b)) L
  else if ap && negb bp then (* 367-375 *)
    let! ra := pile_of a in
    let! rb := zone_of b in
    swap_lval (LvPile ra (p_seq a)) (if bnm then LvCard rb else LvMat rb (oseqN b)) L
  else if negb ap && bp then (* 376-384 *)
    let! ra := zone_of a in
    let! rb := pile_of b in
    swap_lval (if anm then LvCard ra else LvMat ra (oseqN a)) (LvPile rb (p_seq b)) L
  else (* 385-406 *)
    let! ra := zone_of a in
    let! rb := zone_of b in
    if anm && bnm then
      let! L1 := swap_lval (LvCard ra) (LvCard rb) L in
      let! za := read_zone ra L1 in
      let! zb := read_zone rb L1 in
      let L2 := set_zone ra (mkZone (z_card za) (z_mats zb)) L1 in
      let! zb' := read_zone rb L2 in
      Ok (set_zone rb (mkZone (z_card zb') (z_mats za)) L2)
    else if anm && negb bnm then swap_lval (LvCard ra) (LvMat rb (oseqN b)) L
    else if negb anm && bnm then swap_lval (LvMat ra (p_seq a)) (LvCard rb) L
    else swap_lval (LvMat ra (p_seq a)) (LvMat rb (oseqN b)) L.

(** frame.hpp:430-457.  The sum at line 438 is not wrapped: [count] has
    already been used to size the scratch vector at line 436, so it is far
    below 2^64.  Inserting past the end (line 452) is undefined. *)
Definition pile_splice (from : place) (count : N) (to : place) (rev_ : bool) (L : layout)
  : outcome layout :=
  assert_ (is_pile from) ;;!
  assert_ (is_pile to) ;;!
  let! r1 := pile_of from in
  let l1 := get_pile r1 L in
  assert_ (count + p_seq from <=? lenN l1) ;;!
  let n := N.to_nat count in
  let s := N.to_nat (p_seq from) in
  let cut := firstn n (skipn s l1) in
  let cache := if rev_ then rev cut else cut in
  let l1' := firstn s l1 ++ skipn (s + n) l1 in
  let L1 := set_pile r1 l1' L in
  verify_pile l1' ;;!
  let! r2 := pile_of to in
  let l2 := get_pile r2 L1 in
  if p_seq to <=? lenN l2 then
    let t := N.to_nat (p_seq to) in
    let l2' := firstn t l2 ++ cache ++ skipn t l2 in
    verify_pile l2' ;;!
    Ok (set_pile r2 l2' L1)
  else UB.

(** frame.hpp:459-465 *)
Definition pile_swap (a b : place) (L : layout) : outcome layout :=
  assert_ (is_pile a) ;;!
  assert_ (is_pile b) ;;!
  let! ra := pile_of a in
  let! rb := pile_of b in
  let la := get_pile ra L in
  let lb := get_pile rb L in
  Ok (set_pile rb la (set_pile ra lb L)).

(** ** Operations on cards *)
Section Cards.

Variable C : Type.
(** What [cards_.build()] returns (frame.hpp:558 and DefaultBuilder, 24-33). *)
Variable c0 : C.

(** frame.hpp:592-609: [cards_.m] and the layout. *)
Record frame := mkFrame {
  f_next : cid;             (* next address to be handed out *)
  f_heap : list (cid * C);  (* cards_.m *)
  f_lay : layout
}.

(** frame.hpp:126-129 *)
Definition frame0 : frame := mkFrame 0 [] layout0.

Definition with_lay (f : frame) (L : layout) : frame := mkFrame (f_next f) (f_heap f) L.

(** frame.hpp:556-559 *)
Definition construct_card (f : frame) : cid * frame :=
  (f_next f, mkFrame (f_next f + 1) ((f_next f, c0) :: f_heap f) (f_lay f)).

(** frame.hpp:566-577: remove the first node whose address is [c]. *)
Fixpoint heap_remove (c : cid) (h : list (cid * C)) : option (list (cid * C)) :=
  match h with
  | [] => None
  | x :: h' =>
      if fst x =? c then Some h'
      else match heap_remove c h' with Some h'' => Some (x :: h'') | None => None end
  end.

(** frame.hpp:561-579 *)
Definition destruct_card (c : cid) (f : frame) : outcome frame :=
  match heap_remove c (f_heap f) with
  | Some h => Ok (mkFrame (f_next f) h (f_lay f))
  | None => Abort
  end.

(** The node a pointer refers to, if it has not been destroyed. *)
Fixpoint heap_get (c : cid) (h : list (cid * C)) : option C :=
  match h with
  | [] => None
  | x :: h' => if fst x =? c then Some (snd x) else heap_get c h'
  end.
Fixpoint heap_set (c : cid) (v : C) (h : list (cid * C)) : list (cid * C) :=
  match h with
  | [] => []
  | x :: h' => if fst x =? c then (c, v) :: h' else x :: heap_set c v h'
  end.

(** frame.hpp:633-644, card_.  Binding a reference to a destroyed or null card
    is undefined. *)
Definition card_at_place (p : place) (f : frame) : outcome cid :=
  assert_ (negb (is_empty p)) ;;!
  let! h := has_card p (f_lay f) in
  assert_ h ;;!
  let! c := (if is_pile p then
               let! r := pile_of p in nth_ptr (get_pile r (f_lay f)) (p_seq p)
             else
               let! r := zone_of p in
               let! z := read_zone r (f_lay f) in
               if not_mat p then Ok (z_card z) else nth_ptr (z_mats z) (oseqN p)) in
  let! id := deref c in
  let! _ := or_ub (heap_get id (f_heap f)) in
  Ok id.

(** frame.hpp:224-229 *)
Definition card_add (p : place) (f : frame) : outcome (cid * frame) :=
  let '(c, f1) := construct_card f in
  let! L := card_insert p c (f_lay f1) in
  Ok (c, with_lay f1 L).

(** frame.hpp:231-235 *)
Definition card_remove (p : place) (f : frame) : outcome frame :=
  let! h := has_card p (f_lay f) in
  assert_ h ;;!
  let! (c, L) := card_erase p (f_lay f) in
  destruct_card c (with_lay f L).

(** frame.hpp:416-417: construct and push back [n] cards. *)
Fixpoint grow_pile (n : nat) (r : pref) (f : frame) : frame :=
  match n with
  | O => f
  | S n' =>
      let '(c, f1) := construct_card f in
      grow_pile n' r (with_lay f1 (set_pile r (get_pile r (f_lay f1) ++ [Some c]) (f_lay f1)))
  end.

(** frame.hpp:421-425: destroy and pop the last [n] cards. *)
Fixpoint shrink_pile (n : nat) (r : pref) (f : frame) : outcome frame :=
  match n with
  | O => Ok f
  | S n' =>
      let l := get_pile r (f_lay f) in
      let! c := or_ub (nth_error l (length l - 1)) in
      let! id := deref c in
      let! f1 := destruct_card id f in
      shrink_pile n' r (with_lay f1 (set_pile r (firstn (length l - 1) l) (f_lay f1)))
  end.

(** frame.hpp:409-428 *)
Definition pile_resize (p : place) (count : N) (f : frame) : outcome frame :=
  assert_ (is_pile p) ;;!
  let! r := pile_of p in
  let size := lenN (get_pile r (f_lay f)) in
  let! f1 := (if size <? count then Ok (grow_pile (N.to_nat (count - size)) r f)
              else if count <? size then shrink_pile (N.to_nat (size - count)) r f
              else Ok f) in
  verify_pile (get_pile r (f_lay f1)) ;;!
  Ok f1.

(** frame.hpp:472-477, the loop of destruct_pile. *)
Fixpoint destruct_all (l : list ptr) (f : frame) : outcome frame :=
  match l with
  | [] => Ok f
  | c :: l' =>
      let! id := deref c in
      let! f1 := destruct_card id f in
      destruct_all l' f1
  end.

(** frame.hpp:488-497 for one pile. *)
Definition clear_pile (r : pref) (f : frame) : outcome frame :=
  let! f1 := destruct_all (get_pile r (f_lay f)) f in
  Ok (with_lay f1 (set_pile r [] (f_lay f1))).

(** frame.hpp:480-486 for one zone. *)
Definition clear_zone (r : zref) (f : frame) : outcome frame :=
  let! z := read_zone r (f_lay f) in
  let! f1 := (match z_card z with
              | Some id => destruct_card id f
              | None => Ok f
              end) in
  let! f2 := destruct_all (z_mats z) f1 in
  Ok (with_lay f2 (set_zone r zone0 (f_lay f2))).

(** The piles in the order of frame.hpp:488-497. *)
Definition all_prefs : list pref :=
  flat_map (fun l => [(false, l); (true, l)]) [LDeck; LHand; LGrave; LBan; LExtra].

(** Number of elements of each ZoneArray (frame.hpp:98-102). *)
Definition zlen (z : zloc) : nat :=
  match z with ZMonster => 7 | ZSpell => 5 | ZField => 1 | ZPend => 2 | ZSkill => 1 end.

(** The zones in the order of frame.hpp:498-505. *)
Definition all_zrefs : list zref :=
  flat_map (fun c =>
    flat_map (fun z => map (fun i => (c, z, i)) (seq 0 (zlen z)))
      [ZMonster; ZSpell; ZField; ZPend; ZSkill]) [false; true].

(** frame.hpp:470-506 *)
Definition clear (f : frame) : outcome frame :=
  let! f1 := ofold clear_pile all_prefs f in
  ofold clear_zone all_zrefs f1.

(** The layout-only operations, on a frame. *)
Definition lift (op : layout -> outcome layout) (f : frame) : outcome frame :=
  let! L := op (f_lay f) in Ok (with_lay f L).
Definition f_card_move (from to : place) (f : frame) : outcome (cid * frame) :=
  let! (c, L) := card_move from to (f_lay f) in
  let! _ := or_ub (heap_get c (f_heap f)) in
  Ok (c, with_lay f L).

End Cards.

Arguments mkFrame {C}.
Arguments frame0 {C}.
