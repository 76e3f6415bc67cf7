(** Common vocabulary: outcomes of C++ computations, machine integers and the
    list operations used to model std::vector / std::array.

    Nothing in this file models a particular function of /repo; it fixes how
    C++ behaviour is represented. *)
From Coq Require Export List NArith ZArith Bool Lia.
From Coq Require Export ZifyBool ZifyNat ZifyN.
Export ListNotations.

Set Implicit Arguments.

(** Result of running a piece of C++ code.
    - [Ok a]: it returned [a];
    - [Abort]: an [assert(...)] failed (assertions are assumed to be enabled);
    - [UB]: the C++ standard gives no meaning to the execution, which includes
      reaching YGOPEN_UNREACHABLE (include/ygopen/detail/config.hpp:9-13);
    - [Diverge]: a loop did not finish within the fuel given by the model. *)
Inductive outcome (A : Type) : Type :=
| Ok (a : A)
| Abort
| UB
| Diverge.

Arguments Ok {A} a.
Arguments Abort {A}.
Arguments UB {A}.
Arguments Diverge {A}.

Definition obind {A B} (m : outcome A) (k : A -> outcome B) : outcome B :=
  match m with
  | Ok a => k a
  | Abort => Abort
  | UB => UB
  | Diverge => Diverge
  end.

Declare Scope outcome_scope.
Delimit Scope outcome_scope with outcome.
Open Scope outcome_scope.

Notation "'let!' x ':=' m 'in' k" := (obind m (fun x => k))
  (at level 200, x pattern, m at level 100, k at level 200, right associativity)
  : outcome_scope.
Notation "m ';;!' k" := (obind m (fun _ => k))
  (at level 100, k at level 200, right associativity) : outcome_scope.

(** [assert(b)]. *)
Definition assert_ (b : bool) : outcome unit := if b then Ok tt else Abort.

(** Access that the C++ standard leaves undefined when out of range. *)
Definition or_ub {A} (o : option A) : outcome A :=
  match o with Some a => Ok a | None => UB end.

(** Sequential loop threading a state. *)
Fixpoint ofold {A S} (f : A -> S -> outcome S) (l : list A) (s : S) : outcome S :=
  match l with
  | [] => Ok s
  | a :: l' => let! s' := f a s in ofold f l' s'
  end.

(** Replace the element at an index known to be in range. *)
Fixpoint upd {A} (n : nat) (x : A) (l : list A) : list A :=
  match l, n with
  | [], _ => []
  | _ :: l', O => x :: l'
  | y :: l', S n' => y :: upd n' x l'
  end.

(** std::vector::insert of one element at an index known to be in range. *)
Definition insert_nth {A} (n : nat) (x : A) (l : list A) : list A :=
  firstn n l ++ x :: skipn n l.

(** std::vector::erase of one element at an index known to be in range. *)
Definition remove_nth {A} (n : nat) (l : list A) : list A :=
  firstn n l ++ skipn (S n) l.

(** Sizes as the unsigned values C++ compares against. *)
Definition lenN {A} (l : list A) : N := N.of_nat (length l).

(** Machine integers: conversion to an unsigned type of [w] bits, and the
    two's complement reading of such a value. *)
Definition wrap (w : N) (x : N) : N := (x mod 2 ^ w)%N.
Definition u8 := wrap 8.
Definition u16 := wrap 16.
Definition u32 := wrap 32.
Definition u64 := wrap 64.

Definition to_signed (w : N) (x : N) : Z :=
  let y := wrap w x in
  if (y <? 2 ^ (w - 1))%N then Z.of_N y else (Z.of_N y - 2 ^ Z.of_N w)%Z.

(** Conversion of a signed value to an unsigned type of [w] bits. *)
Definition of_signed (w : N) (z : Z) : N := Z.to_N (z mod 2 ^ Z.of_N w)%Z.
