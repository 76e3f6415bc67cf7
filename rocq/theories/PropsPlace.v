(** Properties C05-C06: places and locations. *)
From Verif Require Import Base BaseProofs Place PlaceProofs.

Local Open Scope N_scope.

(** C05: PlaceLess is the lexicographic order ... *)
Theorem C05_place_less_is_lexicographic :
  forall a b, place_less a b = true <-> lex_lt a b.
Proof. exact place_less_spec. Qed.
Print Assumptions C05_place_less_is_lexicographic.

(** ... a strict total order ... *)
Theorem C05_place_less_strict_total_order :
  (forall a, place_less a a = false) /\
  (forall a b c, place_less a b = true -> place_less b c = true -> place_less a c = true) /\
  (forall a b, place_less a b = true \/ a = b \/ place_less b a = true).
Proof. exact (conj place_less_irrefl (conj place_less_trans place_less_total)). Qed.
Print Assumptions C05_place_less_strict_total_order.

(** ... and operator== is equality of all four fields. *)
Theorem C05_place_eq_is_field_equality :
  forall a b, place_eqb a b = true <->
    p_con a = p_con b /\ p_loc a = p_loc b /\ p_seq a = p_seq b /\ p_oseq a = p_oseq b.
Proof.
  intros [a1 a2 a3 a4] [b1 b2 b3 b4]. rewrite place_eqb_eq. simpl.
  split; [intros H; injection H; auto | intros (-> & -> & -> & ->); reflexivity].
Qed.
Print Assumptions C05_place_eq_is_field_equality.

Example C05_ex :
  place_less (mkPlace 0 4 6 (-1)) (mkPlace 1 2 0 (-1)) = true /\
  place_less (mkPlace 1 4 3 (-1)) (mkPlace 1 4 3 0) = true /\
  place_eqb (mkPlace 1 4 3 0) (mkPlace 1 4 3 0) = true.
Proof. repeat split. Qed.

(** C06: every single-bit location is a pile exactly for the five pile
    constants, a zone exactly for the five zone constants, and no two of
    empty, pile and zone hold of it. *)
Theorem C06_location_classes : forall k,
  (loc_is_pile (2 ^ k) = true <-> In (2 ^ k) pile_locs) /\
  (loc_is_zone (2 ^ k) = true <-> In (2 ^ k) zone_locs) /\
  loc_is_empty (2 ^ k) = false /\
  (loc_is_pile (2 ^ k) = true -> loc_is_zone (2 ^ k) = false).
Proof.
  intros k. exact (conj (loc_is_pile_pow2 k) (conj (loc_is_zone_pow2 k) (loc_exclusive k))).
Qed.
Print Assumptions C06_location_classes.

(** On arbitrary 32-bit values the predicates test whether some bit is. *)
Theorem C06_location_masks : forall l,
  (loc_is_empty l = true <-> l = 0) /\
  (loc_is_pile l = true <-> exists k, N.testbit l k = true /\ In (2 ^ k) pile_locs) /\
  (loc_is_zone l = true <-> exists k, N.testbit l k = true /\ In (2 ^ k) zone_locs).
Proof.
  intros l. exact (conj (N.eqb_eq l 0) (conj (loc_is_pile_bits l) (loc_is_zone_bits l))).
Qed.
Print Assumptions C06_location_masks.

(** zone_seq_lim is defined exactly on the five zones, with these values. *)
Theorem C06_zone_seq_lim :
  (forall l n, zone_seq_lim l = Ok n <-> In (l, n) zone_limits) /\
  (forall l, ~ In l zone_locs -> zone_seq_lim l = UB).
Proof. exact (conj zone_seq_lim_spec zone_seq_lim_ub). Qed.
Print Assumptions C06_zone_seq_lim.

(** A location with bits of both kinds is both a pile and a zone for the
    predicates, so the exclusivity of C06 really needs a single bit. *)
Example C06_ex_mixed : loc_is_pile 0x5 = true /\ loc_is_zone 0x5 = true.
Proof. split; reflexivity. Qed.
Example C06_ex : zone_seq_lim 0x200 = Ok 2 /\ zone_seq_lim 0x80 = UB.
Proof. split; reflexivity. Qed.
