(** Model of the Place message and of the location constants. *)
From Verif Require Import Base.

Set Implicit Arguments.
Local Open Scope N_scope.

(** include/ygopen/proto/duel_data.proto:90-96.  [p_con] and [p_oseq] are
    32-bit signed, [p_loc] and [p_seq] 32-bit unsigned; the model keeps the
    values without bounding them. *)
Record place := mkPlace {
  p_con : Z;
  p_loc : N;
  p_seq : N;
  p_oseq : Z
}.

(** include/ygopen/proto/duel/data.hpp:19 *)
Definition OSEQ_INVALID : Z := (-1)%Z.

(** A default-constructed protobuf Place (all fields zero). *)
Definition place0 : place := mkPlace 0 0 0 0.

(** include/ygopen/proto/duel/data.hpp:22-45, PlaceLess. *)
Definition place_less (l r : place) : bool :=
  if (p_con l <? p_con r)%Z then true
  else if (p_con r <? p_con l)%Z then false
  else if p_loc l <? p_loc r then true
  else if p_loc r <? p_loc l then false
  else if p_seq l <? p_seq r then true
  else if p_seq r <? p_seq l then false
  else if (p_oseq l <? p_oseq r)%Z then true
  else false.

(** include/ygopen/proto/duel/data.hpp:47-51, operator==. *)
Definition place_eqb (l r : place) : bool :=
  negb (place_less l r) && negb (place_less r l).

(** include/ygopen/duel/constants/location.hpp:13-27 *)
Definition LOCATION_UNSPECIFIED : N := 0x0.
Definition LOCATION_MAIN_DECK : N := 0x1.
Definition LOCATION_HAND : N := 0x2.
Definition LOCATION_MONSTER_ZONE : N := 0x4.
Definition LOCATION_SPELL_ZONE : N := 0x8.
Definition LOCATION_GRAVEYARD : N := 0x10.
Definition LOCATION_BANISHED : N := 0x20.
Definition LOCATION_EXTRA_DECK : N := 0x40.
Definition LOCATION_FIELD_ZONE : N := 0x100.
Definition LOCATION_PENDULUM_ZONE : N := 0x200.
Definition LOCATION_SKILL_ZONE : N := 0x400.

(** The mask at include/ygopen/duel/constants/location.hpp:38-39. *)
Definition PILE_MASK : N :=
  N.lor LOCATION_MAIN_DECK (N.lor LOCATION_HAND (N.lor LOCATION_GRAVEYARD
    (N.lor LOCATION_BANISHED LOCATION_EXTRA_DECK))).

(** The mask at include/ygopen/duel/constants/location.hpp:46-47. *)
Definition ZONE_MASK : N :=
  N.lor LOCATION_MONSTER_ZONE (N.lor LOCATION_SPELL_ZONE (N.lor LOCATION_FIELD_ZONE
    (N.lor LOCATION_PENDULUM_ZONE LOCATION_SKILL_ZONE))).

(** include/ygopen/duel/constants/location.hpp:30-33 *)
Definition loc_is_empty (loc : N) : bool := loc =? LOCATION_UNSPECIFIED.
(** include/ygopen/duel/constants/location.hpp:36-40 *)
Definition loc_is_pile (loc : N) : bool := negb (N.land loc PILE_MASK =? 0).
(** include/ygopen/duel/constants/location.hpp:43-48 *)
Definition loc_is_zone (loc : N) : bool := negb (N.land loc ZONE_MASK =? 0).

(** include/ygopen/proto/duel/data.hpp:64-79, the Place overloads. *)
Definition is_empty (p : place) : bool := loc_is_empty (p_loc p).
Definition is_pile (p : place) : bool := loc_is_pile (p_loc p).
Definition is_zone (p : place) : bool := loc_is_zone (p_loc p).

(** include/ygopen/client/frame.hpp:35-61 (FieldZoneLimit and zone_seq_lim);
    falling off the chain of tests is YGOPEN_UNREACHABLE. *)
Definition zone_seq_lim (loc : N) : outcome N :=
  if loc =? LOCATION_MONSTER_ZONE then Ok 7
  else if loc =? LOCATION_SPELL_ZONE then Ok 5
  else if loc =? LOCATION_FIELD_ZONE then Ok 1
  else if loc =? LOCATION_PENDULUM_ZONE then Ok 2
  else if loc =? LOCATION_SKILL_ZONE then Ok 1
  else UB.
