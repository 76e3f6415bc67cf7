(** Specification of the bit utilities: the set bits of a number as the list of
    their positions.  Independent of the loops of Bit.v. *)
From Verif Require Import Base.

Local Open Scope N_scope.

(** Positions of the 1 bits of [x] below [w], in increasing order. *)
Definition bits_of (w : nat) (x : N) : list nat :=
  filter (fun i => N.testbit x (N.of_nat i)) (seq 0 w).

(** The number of 1 bits of [x] among its [w] lowest. *)
Definition hamming (w : nat) (x : N) : N := N.of_nat (length (bits_of w x)).

(** [r] consists of exactly the [count] least significant 1 bits of [x] (all of
    them when there are fewer). *)
Definition picks_lowest (w : nat) (count x r : N) : Prop :=
  r < 2 ^ N.of_nat w /\ bits_of w r = firstn (N.to_nat count) (bits_of w x).

(** [r] consists of exactly the [count] most significant 1 bits of [x] (all of
    them when there are fewer). *)
Definition picks_highest (w : nat) (count x r : N) : Prop :=
  r < 2 ^ N.of_nat w /\
  rev (bits_of w r) = firstn (N.to_nat count) (rev (bits_of w x)).
