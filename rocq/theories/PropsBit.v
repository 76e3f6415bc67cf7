(** Properties C01-C04: include/ygopen/bit.hpp. *)
From Verif Require Import Base BaseProofs Bit BitSpec BitProofs.

Local Open Scope N_scope.

(** C01: popcnt terminates and counts the 1 bits, at every width. *)
Theorem C01_popcnt_is_hamming_weight :
  forall w x, x < 2 ^ N.of_nat w -> popcnt x = Ok (hamming w x).
Proof. exact popcnt_hamming. Qed.
Print Assumptions C01_popcnt_is_hamming_weight.

Example C01_ex : (0xB5 < 2 ^ N.of_nat 8) /\ popcnt 0xB5 = Ok 5 /\ hamming 8 0xB5 = 5.
Proof. repeat split; reflexivity. Qed.

(** C02: chooser takes the lowest set bits, for operands of up to 32 bits. *)
Theorem C02_chooser_picks_lowest :
  forall w count x, (w <= 32)%nat -> x < 2 ^ N.of_nat w ->
  exists r, chooser w count x = Ok r /\ picks_lowest w count x r.
Proof. exact chooser_ok. Qed.
Print Assumptions C02_chooser_picks_lowest.

Example C02_ex : chooser 8 2 0xB4 = Ok 0x14 /\ bits_of 8 0xB4 = [2; 4; 5; 7]%nat.
Proof. split; reflexivity. Qed.

(** C03: choosel takes the highest set bits when at least one is asked for. *)
Theorem C03_choosel_picks_highest_partial :
  forall w count x, (w <= 32)%nat -> 0 < count -> x < 2 ^ N.of_nat w ->
  exists r, choosel w count x = Ok r /\ picks_highest w count x r.
Proof. exact choosel_ok. Qed.
Print Assumptions C03_choosel_picks_highest_partial.

Example C03_ex : choosel 8 2 0xB4 = Ok 0xA0.
Proof. reflexivity. Qed.

(** What is missing from C03 is exactly count 0: there the result is the top
    bit when the operand has it, at every width up to 32. *)
Theorem C03_choosel_count_zero :
  forall w x, (S w <= 32)%nat ->
  choosel (S w) 0 x = Ok (if N.testbit x (N.of_nat w) then 2 ^ N.of_nat w else 0).
Proof. exact choosel_zero. Qed.
Print Assumptions C03_choosel_count_zero.

(** Hence "at most count bits" is false: asking for none can return one. *)
Theorem C03_choosel_at_most_count_refuted :
  exists x r, x < 2 ^ N.of_nat 8 /\ choosel 8 0 x = Ok r /\
              ~ picks_highest 8 0 x r /\ hamming 8 r = 1.
Proof.
  exists 0x80, 0x80. repeat split. intros [_ H]. discriminate H.
Qed.
Print Assumptions C03_choosel_at_most_count_refuted.

(** C04: on 64-bit operands choosel is always undefined, *)
Theorem C04_choosel_64_undefined : forall count x, choosel 64 count x = UB.
Proof. exact choosel_64_ub. Qed.
Print Assumptions C04_choosel_64_undefined.
Theorem C04_choosel_64_refuted : exists count x, x < 2 ^ 64 /\ choosel 64 count x = UB.
Proof. exists 1, 1. split; [reflexivity|apply choosel_64_ub]. Qed.
Print Assumptions C04_choosel_64_refuted.

(** and chooser is defined (and right) exactly when the low 32 bits of the
    operand already contain enough set bits. *)
Theorem C04_chooser_64_partial : forall count x,
  (count <= hamming 32 (x mod 2 ^ 32) ->
     exists r, chooser 64 count x = Ok r /\ picks_lowest 64 count x r) /\
  (hamming 32 (x mod 2 ^ 32) < count -> chooser 64 count x = UB).
Proof. exact chooser_64. Qed.
Print Assumptions C04_chooser_64_partial.

Example C04_ex_ok : chooser 64 1 0x300000002 = Ok 2.
Proof. reflexivity. Qed.
Example C04_ex_ub : chooser 64 2 0x300000002 = UB.
Proof. reflexivity. Qed.
