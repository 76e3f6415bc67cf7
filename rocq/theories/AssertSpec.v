(** What the assertions of the frame ask for. *)
From Verif Require Import Base Place Frame FrameSpec HazardSpec Release ReleaseFrameSpec.

Set Implicit Arguments.
Local Open Scope N_scope.

(** In a pile, and the materials in the zone that a place is in. *)
Definition in_pile (p : place) : Prop := assocN (p_loc p) pile_table <> None.
Definition mats_at (p : place) (L : layout) : list ptr :=
  match zone_named p with Some r => contents (CMats r) L | None => [] end.

(** What the assertions ask for that getting through does not.
    A card goes where no card is.
    No place is a material of a card in a pile.
    A zone's card is moved to a zone without materials, and not exchanged with
    a card in a pile if it has any.
    What is exchanged and what is shuffled is there, and shuffled are some
    cards, the first of which is in no pile. *)
Definition asked (o : fop) (L : layout) : Prop :=
  match o with
  | OpAdd p => under p L = []
  | OpMove a b => pile_place_ok a /\ pile_place_ok b /\ under b L = [] /\
      (for_card a -> for_card b -> mats_at b L = [])
  | OpSwap a b => occupied a L /\ occupied b L /\ pile_place_ok a /\ pile_place_ok b /\
      (for_card a -> in_pile b -> mats_at a L = []) /\ (for_card b -> in_pile a -> mats_at b L = [])
  | OpShuffle prev cur => (exists p rest, prev = p :: rest /\ loc_is_pile (p_loc p) = false) /\ Forall (fun p => occupied p L) prev
  | _ => True
  end.

(** Asked for, by one operation after the other. *)
Fixpoint asked_run {C} (c0 : C) (ops : list fop) (f : frame C) : Prop :=
  match ops with
  | [] => True
  | o :: ops' => asked o (f_lay f) /\ forall f', rel_fstep c0 o f = Ok f' -> asked_run c0 ops' f'
  end.
