(** Model of include/ygopen/bit.hpp. *)
From Verif Require Import Base.

Set Implicit Arguments.
Local Open Scope N_scope.

(** include/ygopen/bit.hpp:30-36, the portable loop of [popcnt]; the branches
    at lines 22-28 call a builtin and are assumed to agree with it.  The loop
    variable is unbounded here; [x & (x - 1)] never exceeds [x], so no wrap
    occurs at any width. *)
Fixpoint popcnt_loop (fuel : nat) (x count : N) : outcome N :=
  match fuel with
  | O => Diverge
  | S fuel' =>
      if x =? 0 then Ok count
      else popcnt_loop fuel' (N.land x (x - 1)) (count + 1)
  end.

(** include/ygopen/bit.hpp:18-38.  The fuel is one more than the number of
    binary digits of [x]; [popcnt_correct] shows it suffices. *)
Definition popcnt (x : N) : outcome N := popcnt_loop (S (N.to_nat (N.size x))) x 0.

(** [1U << i] on a 32-bit unsigned int: undefined when [i >= 32]
    (include/ygopen/bit.hpp:50 and 68). *)
Definition shl1U (i : N) : outcome N := if i <? 32 then Ok (2 ^ i) else UB.

(** include/ygopen/bit.hpp:48-54; [i] counts down from the number of digits. *)
Fixpoint choosel_loop (i : nat) (count x chosen : N) : outcome N :=
  match i with
  | O => Ok chosen
  | S i' =>
      let! b := shl1U (N.of_nat i') in
      let chosen' := N.lor chosen (N.land x b) in
      let! c := popcnt chosen' in
      if count <=? c then Ok chosen' else choosel_loop i' count x chosen'
  end.

(** include/ygopen/bit.hpp:42-56; [digits] is numeric_limits<T>::digits. *)
Definition choosel (digits : nat) (count x : N) : outcome N :=
  choosel_loop digits count x 0.

(** include/ygopen/bit.hpp:66-70; [todo] is [digits - i]. *)
Fixpoint chooser_loop (todo : nat) (i : N) (count x chosen : N) : outcome N :=
  match todo with
  | O => Ok chosen
  | S todo' =>
      let! c := popcnt chosen in
      if c <? count then
        let! b := shl1U i in
        chooser_loop todo' (i + 1) count x (N.lor chosen (N.land x b))
      else Ok chosen
  end.

(** include/ygopen/bit.hpp:60-72. *)
Definition chooser (digits : nat) (count x : N) : outcome N :=
  chooser_loop digits 0 count x 0.
