(** Specification vocabulary for undoable values and limbo frames. *)
From Verif Require Import Base Place Frame FrameSpec Limbo.

Set Implicit Arguments.

(** ** Undoable values: a cursor over a recorded history *)

(** A value is assigned, or the last step is undone. *)
Inductive uact (T : Type) := USet (v : T) | UUndo.
Arguments USet {T}.
Arguments UUndo {T}.

Definition ustep {T} (a : uact T) (u : undoable T) : outcome (undoable T) :=
  match a with USet v => Ok (u_set v u) | UUndo => u_undo u end.
Definition urun {T} (acts : list (uact T)) (u : undoable T) : outcome (undoable T) :=
  ofold ustep acts u.

(** The recorded history and the cursor, as a plain list and an index. *)
Definition cursor_step {T} (a : uact T) (s : list T * nat) : option (list T * nat) :=
  let (h, i) := s in
  match a with
  | USet v => if Nat.eqb (S i) (length h) then Some (h ++ [v], S i) else Some (h, S i)
  | UUndo => match i with O => None | S j => Some (h, j) end
  end.
Fixpoint cursor_run {T} (acts : list (uact T)) (s : list T * nat) : option (list T * nat) :=
  match acts with
  | [] => Some s
  | a :: acts' => match cursor_step a s with Some s' => cursor_run acts' s' | None => None end
  end.

(** How many assignments and undos there were. *)
Fixpoint sets {T} (acts : list (uact T)) : nat :=
  match acts with [] => 0 | USet _ :: l => S (sets l) | UUndo :: l => sets l end.
Fixpoint undos {T} (acts : list (uact T)) : nat :=
  match acts with [] => 0 | USet _ :: l => undos l | UUndo :: l => S (undos l) end.

(** ** Limbo frames *)

(** The public operations of a limbo frame, with arbitrary arguments. *)
Inductive lact :=
| LAdd (p : place)
| LRemove (p : place)
| LResize (p : place) (count : N)
| LClear
| LUndoAdd (p : place)
| LUndoRemove (p : place)
| LUndoResize (p : place) (count : N)
| LUndoClear
| LUndoShuffle (prev cur : list place)
| LErase
| LMove (from to : place)
| LSwap (a b : place)
| LShuffle (prev cur : list place)
| LSplice (from : place) (count : N) (to : place) (rev_ : bool)
| LPileSwap (a b : place).

Section Cards.
Variable C : Type.
Variable c0 : C.

Definition lstep (a : lact) (w : limbo C) : outcome (limbo C) :=
  match a with
  | LAdd p => let! (_, w') := l_card_add c0 p w in Ok w'
  | LRemove p => l_card_remove p w
  | LResize p n => l_pile_resize c0 p n w
  | LClear => l_clear w
  | LUndoAdd p => let! (_, w') := l_undo_card_add p w in Ok w'
  | LUndoRemove p => let! (_, w') := l_undo_card_remove p w in Ok w'
  | LUndoResize p n => l_undo_pile_resize p n w
  | LUndoClear => l_undo_clear w
  | LUndoShuffle prev cur => l_undo_card_shuffle prev cur w
  | LErase => l_erase_history w
  | LMove a b => let! (_, w') := l_card_move a b w in Ok w'
  | LSwap a b => l_lift (card_swap a b) w
  | LShuffle prev cur => l_lift (card_shuffle prev cur) w
  | LSplice a n b r => l_lift (pile_splice a n b r) w
  | LPileSwap a b => l_lift (pile_swap a b) w
  end.
Definition lrun (acts : list lact) (w : limbo C) : outcome (limbo C) := ofold lstep acts w.

(** A limbo frame obtained from a new one by any public operations: any mixture
    of doing, undoing, redoing and forgetting. *)
Definition lreachable (w : limbo C) : Prop := exists acts, lrun acts limbo0 = Ok w.

(** The visible frame and the position in the history. *)
Definition same_view (w w' : limbo C) : Prop :=
  lb_lay w = lb_lay w' /\ lb_op w = lb_op w'.
(** Also the same card objects with the same contents. *)
Definition same_cards (w w' : limbo C) : Prop := f_heap (lb_frame w) = f_heap (lb_frame w').

(** At the live end nothing remains to be redone. *)
Definition at_end (w : limbo C) : Prop := lb_op w = length (lb_ops w).

Definition card_alive (w : limbo C) (id : cid) : Prop := live (lb_frame w) id.

(** The cards a remembered operation refers to. *)
Definition op_mentions (o : lop) (id : cid) : Prop :=
  match o with
  | CardOp c => c = Some id
  | ResizeOp _ slice => In (Some id) slice
  | ClearOp L => exists pos, occupant L pos = Some (Some id)
  end.

End Cards.
