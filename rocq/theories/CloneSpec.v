(** Specification vocabulary: a card shown at two places of an undoable frame,
    and the cards an operation brings back from the history. *)
From Verif Require Import Base Place Frame FrameSpec Limbo LimboSpec.

Set Implicit Arguments.

(** A card at two different positions of the board. *)
Definition cloned (L : layout) : Prop :=
  exists pos pos' id, pos <> pos' /\
    occupant L pos = Some (Some id) /\ occupant L pos' = Some (Some id).

(** The remembered operation after the cursor, which doing anything that is
    remembered consumes, and the one before it, which undoing consumes. *)
Definition op_ahead {C} (w : limbo C) : option lop := nth_error (lb_ops w) (lb_op w).
Definition op_behind {C} (w : limbo C) : option lop :=
  match lb_op w with O => None | S n => nth_error (lb_ops w) n end.

(** The cards an operation takes out of the history and puts on the board. *)
Definition recalled {C} (a : lact) (w : limbo C) : list ptr :=
  match a with
  | LAdd _ => match op_ahead w with Some (CardOp c) => [c] | _ => [] end
  | LUndoRemove _ => match op_behind w with Some (CardOp c) => [c] | _ => [] end
  | LResize p n =>
      match slot p, op_ahead w with
      | Some (CPile r, _), Some (ResizeOp _ s) =>
          if Nat.ltb (length (contents (CPile r) (lb_lay w))) (N.to_nat n) then s else []
      | _, _ => []
      end
  | LUndoResize p _ =>
      match slot p, op_behind w with
      | Some (CPile r, _), Some (ResizeOp prev s) =>
          if Nat.ltb (length (contents (CPile r) (lb_lay w))) prev then s else []
      | _, _ => []
      end
  | _ => []
  end.

(** One of them is on the board already, or comes twice. *)
Definition clash {C} (a : lact) (w : limbo C) : Prop :=
  (exists id pos, In (Some id) (recalled a w) /\ occupant (lb_lay w) pos = Some (Some id)) \/
  ~ NoDup (recalled a w).
(** No operation of a program clashes. *)
Fixpoint clash_free {C} (c0 : C) (acts : list lact) (w : limbo C) : Prop :=
  match acts with
  | [] => True
  | a :: acts' => ~ clash a w /\ forall w', lstep c0 a w = Ok w' -> clash_free c0 acts' w'
  end.

(** The operations that exchange the whole board for a remembered one. *)
Definition exchanges (a : lact) : Prop := match a with LClear | LUndoClear => True | _ => False end.
(** The operations that undo another. *)
Definition undoes (a : lact) : Prop :=
  match a with
  | LUndoAdd _ | LUndoRemove _ | LUndoResize _ _ | LUndoClear | LUndoShuffle _ _ => True
  | _ => False
  end.
