(** Specification vocabulary for frames: containers, positions, conservation.

    A frame is seen as a family of containers, each holding a sequence of
    cards: the ten piles, the card of each zone (a sequence of length at most
    one) and the materials of each zone.  A place names a container and an
    index in it. *)
From Verif Require Import Base Place Frame.

Set Implicit Arguments.
Local Open Scope N_scope.

Inductive cont :=
| CPile (r : pref)
| CCard (r : zref)
| CMats (r : zref).

(** ** Decidable equality *)
Lemma ploc_eq_dec : forall a b : ploc, {a = b} + {a <> b}.
Proof. decide equality. Defined.
Lemma zloc_eq_dec : forall a b : zloc, {a = b} + {a <> b}.
Proof. decide equality. Defined.
Lemma pref_eq_dec : forall a b : pref, {a = b} + {a <> b}.
Proof. decide equality; [apply ploc_eq_dec | apply bool_dec]. Defined.
Lemma zref_eq_dec : forall a b : zref, {a = b} + {a <> b}.
Proof.
  decide equality; [apply Nat.eq_dec|]. decide equality; [apply zloc_eq_dec | apply bool_dec].
Defined.
Lemma cont_eq_dec : forall a b : cont, {a = b} + {a <> b}.
Proof. decide equality; auto using pref_eq_dec, zref_eq_dec. Defined.
Lemma pos_eq_dec : forall a b : cont * nat, {a = b} + {a <> b}.
Proof. decide equality; [apply Nat.eq_dec | apply cont_eq_dec]. Defined.
Lemma ptr_eq_dec : forall a b : ptr, {a = b} + {a <> b}.
Proof. decide equality. apply N.eq_dec. Defined.

(** What a container holds. *)
Definition contents (k : cont) (L : layout) : list ptr :=
  match k with
  | CPile r => get_pile r L
  | CCard r => match get_zone r L with
               | Some z => match z_card z with Some c => [Some c] | None => [] end
               | None => []
               end
  | CMats r => match get_zone r L with Some z => z_mats z | None => [] end
  end.

(** The frame as a family of sequences, and changing one member of it. *)
Definition view (L : layout) : cont -> list ptr := fun k => contents k L.
Definition view_set (k : cont) (l : list ptr) (v : cont -> list ptr) : cont -> list ptr :=
  fun x => if cont_eq_dec x k then l else v x.
Definition view_insert (k : cont) (i : nat) (c : cid) (v : cont -> list ptr) :=
  view_set k (insert_nth i (Some c) (v k)) v.
Definition view_remove (k : cont) (i : nat) (v : cont -> list ptr) :=
  view_set k (remove_nth i (v k)) v.

(** Which container and index a place names; [None] for anything that is not a
    place of the game board. *)
Definition side_of_con (c : Z) : option bool :=
  match c with 0%Z => Some false | 1%Z => Some true | _ => None end.

Definition pile_table : list (N * ploc) :=
  [(0x1, LDeck); (0x2, LHand); (0x10, LGrave); (0x20, LBan); (0x40, LExtra)].
Definition zone_table : list (N * (zloc * N)) :=
  [(0x4, (ZMonster, 7)); (0x8, (ZSpell, 5)); (0x100, (ZField, 1));
   (0x200, (ZPend, 2)); (0x400, (ZSkill, 1))].

Fixpoint assocN {A} (x : N) (l : list (N * A)) : option A :=
  match l with
  | [] => None
  | (y, a) :: l' => if x =? y then Some a else assocN x l'
  end.

Definition slot (p : place) : option (cont * nat) :=
  match side_of_con (p_con p) with
  | None => None
  | Some c =>
      match assocN (p_loc p) pile_table with
      | Some l => Some (CPile (c, l), N.to_nat (p_seq p))
      | None =>
          match assocN (p_loc p) zone_table with
          | Some (z, lim) =>
              if p_seq p <? lim then
                let r := (c, z, N.to_nat (p_seq p)) in
                if (p_oseq p <? 0)%Z then Some (CCard r, 0%nat)
                else Some (CMats r, Z.to_nat (p_oseq p))
              else None
          | None => None
          end
      end
  end.

(** The zone a place lies in. *)
Definition zone_named (p : place) : option zref :=
  match side_of_con (p_con p), assocN (p_loc p) zone_table with
  | Some c, Some (z, lim) => if p_seq p <? lim then Some (c, z, N.to_nat (p_seq p)) else None
  | _, _ => None
  end.

(** Everything in a zone: its card and its materials. *)
Definition zone_view (r : zref) (L : layout) : list ptr * list ptr :=
  (contents (CCard r) L, contents (CMats r) L).

(** Well-formed input of a shuffle: both lists are places of one row [con]/[loc],
    of the same length, without repetition; a current place whose location is
    unspecified (0) is not disclosed. *)
Definition disclosed (p : place) : bool := negb (p_loc p =? 0).
Record shuffle_input (con : Z) (loc : N) (prev cur : list place) : Prop := {
  si_prev : forall p, In p prev -> p_con p = con /\ p_loc p = loc;
  si_cur : forall p, In p cur -> p_loc p <> 0 -> p_con p = con /\ p_loc p = loc;
  si_prev_nodup : NoDup (map p_seq prev);
  si_cur_nodup : NoDup (map p_seq (filter disclosed cur));
  si_len : length cur = length prev
}.

(** Who sits at index [i] of container [k]. *)
Definition occupant (L : layout) (pos : cont * nat) : option ptr :=
  nth_error (contents (fst pos) L) (snd pos).

(** What a successful move needs and does.  The target index counts after the
    removal.  Moving a zone's card to another zone takes the materials along. *)
Definition pile_place_ok (p : place) : Prop :=
  assocN (p_loc p) pile_table <> None -> (p_oseq p < 0)%Z.
Definition room_for (k : cont) (i : nat) (l : list ptr) : Prop :=
  (i <= length l)%nat /\ match k with CCard _ => l = [] | _ => True end.
Definition move_pre (from to : place) (c : cid) (v : cont -> list ptr) : Prop :=
  pile_place_ok from /\ pile_place_ok to /\
  exists k1 i1 k2 i2, slot from = Some (k1, i1) /\ slot to = Some (k2, i2) /\
    nth_error (v k1) i1 = Some (Some c) /\
    match k1, k2 with
    | CCard _, CCard r2 => v (CCard r2) = [] /\ v (CMats r2) = []
    | _, _ => room_for k2 i2 (view_remove k1 i1 v k2)
    end.
Definition move_view (from to : place) (c : cid) (v : cont -> list ptr) : cont -> list ptr :=
  match slot from, slot to with
  | Some (CCard r1, _), Some (CCard r2, _) =>
      view_set (CCard r2) [Some c] (view_set (CMats r2) (v (CMats r1))
        (view_set (CCard r1) [] (view_set (CMats r1) [] v)))
  | Some (k1, i1), Some (k2, i2) => view_insert k2 i2 c (view_remove k1 i1 v)
  | _, _ => v
  end.

(** Exchanging what is at two positions, resp. in two zones. *)
Definition exchange {K V} (dec : forall a b : K, {a = b} + {a <> b}) (a b : K) (g : K -> V) : K -> V :=
  fun x => if dec x a then g b else if dec x b then g a else g x.

(** What a swap needs: both places occupied; a zone's card cannot be exchanged
    with a pile's card while it has materials. *)
Definition swap_pre (a b : place) (v : cont -> list ptr) : Prop :=
  pile_place_ok a /\ pile_place_ok b /\
  exists ka ia kb ib, slot a = Some (ka, ia) /\ slot b = Some (kb, ib) /\
    nth_error (v ka) ia <> None /\ nth_error (v kb) ib <> None /\
    match ka, kb with
    | CCard r, CPile _ | CPile _, CCard r => v (CMats r) = []
    | _, _ => True
    end.

(** The swaps the code gets right: see C11_card_swap_refuted. *)
Definition swap_safe (a b : place) : Prop :=
  match slot a, slot b with
  | Some (CMats _, i), Some (CPile _, _) => True
  | Some (CMats _, i), _ => i = N.to_nat (p_seq a)
  | _, _ => True
  end.

(** A card is alive while it is in the frame's store. *)
Definition live {C} (f : frame C) (id : cid) : Prop := In id (map fst (f_heap f)).

(** Every live card is at exactly one position; only live cards are at
    positions; no position holds a null pointer. *)
Record conserved {C} (f : frame C) : Prop := {
  cons_unique : forall id, live f id ->
    exists! pos, occupant (f_lay f) pos = Some (Some id);
  cons_live : forall pos id, occupant (f_lay f) pos = Some (Some id) -> live f id;
  cons_nonnull : forall pos, occupant (f_lay f) pos <> Some None
}.

(** The public operations of a frame, with arbitrary arguments. *)
Inductive fop :=
| OpAdd (p : place)
| OpRemove (p : place)
| OpMove (from to : place)
| OpSwap (a b : place)
| OpShuffle (prev cur : list place)
| OpResize (p : place) (count : N)
| OpSplice (from : place) (count : N) (to : place) (rev_ : bool)
| OpPileSwap (a b : place)
| OpClear.

Definition fstep {C} (c0 : C) (o : fop) (f : frame C) : outcome (frame C) :=
  match o with
  | OpAdd p => let! (_, f') := card_add c0 p f in Ok f'
  | OpRemove p => card_remove p f
  | OpMove a b => let! (_, f') := f_card_move a b f in Ok f'
  | OpSwap a b => lift (card_swap a b) f
  | OpShuffle prev cur => lift (card_shuffle prev cur) f
  | OpResize p n => pile_resize c0 p n f
  | OpSplice a n b r => lift (pile_splice a n b r) f
  | OpPileSwap a b => lift (pile_swap a b) f
  | OpClear => clear f
  end.

Definition frun {C} (c0 : C) (ops : list fop) (f : frame C) : outcome (frame C) :=
  ofold (fstep c0) ops f.

(** A frame obtained from a new one by public operations. *)
Definition reachable {C} (c0 : C) (f : frame C) : Prop :=
  exists ops, frun c0 ops frame0 = Ok f.
