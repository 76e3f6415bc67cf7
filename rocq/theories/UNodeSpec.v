(** What a program does with undoable values, and what it may expect: every
    value has its own history. *)
From Verif Require Import Base Limbo UNode.

Set Implicit Arguments.

Section Values.
Variable T : Type.
Variable d : T.

Inductive uop :=
| UNew (x : nat)
| UGet (x : nat)
| USet (x : nat) (v : T)
| UUndo (x : nat)
| UCopy (x y : nat)
| UMove (x y : nat)
| UAssign (x y : nat)
| UCopyTo (x y : nat)
| UMoveTo (x y : nat)
| UKill (x : nat).

(** What the class does (UNode.v): the value read, if any, and the memory
    afterwards. *)
Definition deed (o : uop) (m : mem T) : outcome (option T * mem T) :=
  match o with
  | UNew x => let! m' := n_new d x m in Ok (None, m')
  | UGet x => let! v := n_get x m in Ok (Some v, m)
  | USet x v => let! m' := n_set x v m in Ok (None, m')
  | UUndo x => let! m' := n_undo x m in Ok (None, m')
  | UCopy x y => let! m' := n_copy x y m in Ok (None, m')
  | UMove x y => let! m' := n_move x y m in Ok (None, m')
  | UAssign x y => let! m' := n_assign d x y m in Ok (None, m')
  | UCopyTo x y => let! m' := n_copy_to x y m in Ok (None, m')
  | UMoveTo x y => let! m' := n_move_to x y m in Ok (None, m')
  | UKill x => let! m' := n_kill x m in Ok (None, m')
  end.

(** The objects by address: absent, moved from, or an undoable value. *)
Inductive cell := Absent | Husk | Live (u : undoable T).
Definition cells := nat -> cell.
Definition cells0 : cells := fun _ => Absent.
Definition store (x : nat) (c : cell) (s : cells) : cells :=
  fun i => if Nat.eqb i x then c else s i.

(** Only a value can be read, written, copied and moved, only a free address
    built at, and only an object assigned to. *)
Definition value (x : nat) (s : cells) : outcome (undoable T) :=
  match s x with Live u => Ok u | _ => UB end.
Definition taken (x : nat) (s : cells) : outcome unit :=
  match s x with Absent => UB | _ => Ok tt end.
Definition free_at (x : nat) (s : cells) : outcome unit :=
  match s x with Absent => Ok tt | _ => UB end.

(** What is expected of one operation. *)
Definition wish (o : uop) (s : cells) : outcome (option T * cells) :=
  match o with
  | UNew x => free_at x s ;;! Ok (None, store x (Live (u_new d)) s)
  | UGet x => let! u := value x s in Ok (Some (u_get u), s)
  | USet x v => let! u := value x s in Ok (None, store x (Live (u_set v u)) s)
  | UUndo x => let! u := value x s in let! u' := u_undo u in Ok (None, store x (Live u') s)
  | UCopy x y => let! u := value x s in free_at y s ;;! Ok (None, store y (Live u) s)
  | UMove x y => let! u := value x s in free_at y s ;;! Ok (None, store y (Live u) (store x Husk s))
  | UAssign x y => let! u := value x s in let! w := value y s in Ok (None, store x (Live (u_set (u_get w) u)) s)
  | UCopyTo x y => let! u := value x s in taken y s ;;! Ok (None, store y (Live u) s)
  | UMoveTo x y =>
      let! u := value x s in taken y s ;;!
      if Nat.eqb x y then UB else Ok (None, store y (Live u) (store x Husk s))
  | UKill x => taken x s ;;! Ok (None, store x Absent s)
  end.

(** A whole program: the values read, in order. *)
Fixpoint program {S} (step : uop -> S -> outcome (option T * S)) (l : list uop) (s : S)
  : outcome (list T * S) :=
  match l with
  | [] => Ok ([], s)
  | o :: l' =>
      let! (v, s1) := step o s in
      let! (vs, s2) := program step l' s1 in
      Ok (match v with Some t => t :: vs | None => vs end, s2)
  end.
Definition reads {S} (r : outcome (list T * S)) : outcome (list T) := let! (l, _) := r in Ok l.

Definition no_copy (o : uop) : Prop := match o with UCopy _ _ | UCopyTo _ _ => False | _ => True end.
(** The operation leaves the object where it is and does not replace it. *)
Definition spares (x : nat) (o : uop) : Prop :=
  match o with
  | UKill y | UMove y _ | UCopyTo _ y => y <> x
  | UMoveTo y z => y <> x /\ z <> x
  | _ => True
  end.
(** The two ways to make [b] a copy of [a]. *)
Definition copies (a b : nat) (s : cells) (o : uop) : Prop :=
  (o = UCopy a b /\ s b = Absent) \/ (o = UCopyTo a b /\ s b <> Absent /\ a <> b).
End Values.
