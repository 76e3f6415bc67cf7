(** What it means for the code without assertions to agree with the code with
    them. *)
From Verif Require Import Base.

Set Implicit Arguments.

(** Whatever [m] returns, [m'] returns it too.  When [m] is stopped by an
    assertion, or is undefined, nothing is said. *)
Definition keeps {A} (m m' : outcome A) : Prop := forall a, m = Ok a -> m' = Ok a.

(** A history of a board that can be undone. *)
Inductive do_step (E : Type) := Do (e : E) | Undo (e : E).
Arguments Do {E} e.
Arguments Undo {E} e.

(** Doing and undoing, one step after the other. *)
Definition do_run {E B} (parse undo : E -> B -> outcome B) (l : list (do_step E)) (b : B) : outcome B :=
  ofold (fun s b => match s with Do e => parse e b | Undo e => undo e b end) l b.
