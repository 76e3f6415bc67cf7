(** Operations on a frame without assertions. *)
From Verif Require Import Base Place Frame FrameSpec Release.

Set Implicit Arguments.
Local Open Scope N_scope.

Definition rel_fstep {C} (c0 : C) (o : fop) (f : frame C) : outcome (frame C) :=
  match o with
  | OpAdd p => let! (_, f') := rel_card_add c0 p f in Ok f'
  | OpRemove p => rel_card_remove p f
  | OpMove a b => let! (_, f') := rel_f_card_move a b f in Ok f'
  | OpSwap a b => lift (rel_card_swap a b) f
  | OpShuffle prev cur => lift (rel_card_shuffle prev cur) f
  | OpResize p n => rel_pile_resize c0 p n f
  | OpSplice a n b r => lift (rel_pile_splice a n b r) f
  | OpPileSwap a b => lift (rel_pile_swap a b) f
  | OpClear => rel_clear f
  end.
Definition rel_frun {C} (c0 : C) (ops : list fop) (f : frame C) : outcome (frame C) :=
  ofold (rel_fstep c0) ops f.

(** No card is at two positions and only live cards are at positions.  A live
    card may be nowhere, and null pointers may be in piles. *)
Definition once {C} (f : frame C) : Prop :=
  (forall pos pos' id, occupant (f_lay f) pos = Some (Some id) -> occupant (f_lay f) pos' = Some (Some id) -> pos = pos') /\
  (forall pos id, occupant (f_lay f) pos = Some (Some id) -> live f id).

(** A card that is alive but nowhere. *)
Definition lost {C} (f : frame C) (id : cid) : Prop :=
  live f id /\ forall pos, occupant (f_lay f) pos <> Some (Some id).

(** The card lying where [p] puts the card of a zone. *)
Definition under (p : place) (L : layout) : list ptr :=
  match slot p with Some (CCard r, _) => contents (CCard r) L | _ => [] end.
(** The card that [o] puts another one on. *)
Definition buried (o : fop) (L : layout) (id : cid) : Prop :=
  match o with
  | OpAdd p => under p L = [Some id]
  | OpMove a b => slot a <> slot b /\ under b L = [Some id]
  | _ => False
  end.

(** A place for the card of a zone, and there is none. *)
Definition for_card (p : place) : Prop := exists r i, slot p = Some (CCard r, i).
Definition vacant (p : place) (L : layout) : Prop := for_card p /\ under p L = [].

(** What the operations ask for, if no card is to be lost and no null pointer to
    get on the board. *)
Definition careful (o : fop) (L : layout) : Prop :=
  match o with
  | OpAdd p => under p L = []
  | OpMove a b => slot a = slot b \/ under b L = []
  | OpSwap a b => (vacant a L -> for_card b) /\ (vacant b L -> for_card a)
  | _ => True
  end.
Fixpoint careful_run {C} (c0 : C) (ops : list fop) (f : frame C) : Prop :=
  match ops with
  | [] => True
  | o :: ops' => careful o (f_lay f) /\ forall f', rel_fstep c0 o f = Ok f' -> careful_run c0 ops' f'
  end.
