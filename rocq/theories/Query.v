(** Model of parse_query (include/ygopen/client/parse_query.hpp) and of the card
    it fills in (include/ygopen/client/card.hpp with the types of
    default_card_traits.hpp; the fields come from queries.inl). *)
From Verif Require Import Base Place Frame Msg.

Set Implicit Arguments.
Local Open Scope N_scope.

(** card.hpp:28-47, one member per entry of queries.inl.  uint32_t, uint64_t
    and enumerations are [N]; int32_t and Controller are [Z]. *)
Record card := mkCard {
  c_code : N;
  c_position : N;
  c_alias : N;
  c_type : N;
  c_level : Z;
  c_xyz_rank : N;
  c_attribute : N;
  c_race : N;
  c_atk : Z;
  c_def : Z;
  c_base_atk : Z;
  c_base_def : Z;
  c_equipped_to : place;
  c_targets : list place;
  c_counters : list counter;
  c_owner : Z;
  c_status : N;
  c_is_public : bool;
  c_pend_l_scale : N;
  c_pend_r_scale : N;
  c_is_hidden : bool;
  c_cover : N;
  c_link_rate : N;
  c_link_arrow : N
}.
(** Every member is value-initialised (card.hpp:41). *)
Definition card0 : card :=
  mkCard 0 0 0 0 0%Z 0 0 0 0%Z 0%Z 0%Z 0%Z place0 [] [] 0%Z 0 false 0 0 false 0 0 0.

(** parse_query.hpp:87-106, the macro: a present field is compared with the
    card's (with caching) and assigned. *)
Definition field_step {T} (use_cache : bool) (eqb : T -> T -> bool) (bit : N)
  (qv : option T) (cur : T) (hits : N) : T * N :=
  match qv with
  | None => (cur, hits)
  | Some v =>
      if use_cache then
        if eqb cur v then (cur, N.lor hits bit) else (v, hits)
      else (v, hits)
  end.
(** parse_query.hpp:110-119: these two are always assigned. *)
Definition list_step {T} (qv : option (list T)) (cur : list T) : list T :=
  match qv with None => cur | Some l => l end.

(** parse_query.hpp:83 and 87-120 *)
Definition parse_data (use_cache : bool) (d : qdata) (c : card) : card * N :=
  let hits := 0 in
  let (x_code, hits) := field_step use_cache N.eqb 0x1 (q_code d) (c_code c) hits in
  let (x_position, hits) := field_step use_cache N.eqb 0x2 (q_position d) (c_position c) hits in
  let (x_alias, hits) := field_step use_cache N.eqb 0x4 (q_alias d) (c_alias c) hits in
  let (x_type, hits) := field_step use_cache N.eqb 0x8 (q_type d) (c_type c) hits in
  let (x_level, hits) := field_step use_cache Z.eqb 0x10 (q_level d) (c_level c) hits in
  let (x_xyz_rank, hits) := field_step use_cache N.eqb 0x20 (q_xyz_rank d) (c_xyz_rank c) hits in
  let (x_attribute, hits) := field_step use_cache N.eqb 0x40 (q_attribute d) (c_attribute c) hits in
  let (x_race, hits) := field_step use_cache N.eqb 0x80 (q_race d) (c_race c) hits in
  let (x_atk, hits) := field_step use_cache Z.eqb 0x100 (q_atk d) (c_atk c) hits in
  let (x_def, hits) := field_step use_cache Z.eqb 0x200 (q_def d) (c_def c) hits in
  let (x_base_atk, hits) := field_step use_cache Z.eqb 0x400 (q_base_atk d) (c_base_atk c) hits in
  let (x_base_def, hits) := field_step use_cache Z.eqb 0x800 (q_base_def d) (c_base_def c) hits in
  let (x_equipped_to, hits) := field_step use_cache place_eqb 0x4000 (q_equipped_to d) (c_equipped_to c) hits in
  let (x_owner, hits) := field_step use_cache Z.eqb 0x40000 (q_owner d) (c_owner c) hits in
  let (x_status, hits) := field_step use_cache N.eqb 0x80000 (q_status d) (c_status c) hits in
  let (x_is_public, hits) := field_step use_cache Bool.eqb 0x100000 (q_is_public d) (c_is_public c) hits in
  let (x_pend_l_scale, hits) := field_step use_cache N.eqb 0x200000 (q_pend_l_scale d) (c_pend_l_scale c) hits in
  let (x_pend_r_scale, hits) := field_step use_cache N.eqb 0x400000 (q_pend_r_scale d) (c_pend_r_scale c) hits in
  let (x_is_hidden, hits) := field_step use_cache Bool.eqb 0x1000000 (q_is_hidden d) (c_is_hidden c) hits in
  let (x_cover, hits) := field_step use_cache N.eqb 0x2000000 (q_cover d) (c_cover c) hits in
  let (x_link_rate, hits) := field_step use_cache N.eqb 0x100000000 (q_link_rate d) (c_link_rate c) hits in
  let (x_link_arrow, hits) := field_step use_cache N.eqb 0x200000000 (q_link_arrow d) (c_link_arrow c) hits in
  let x_counters := list_step (q_counters d) (c_counters c) in
  let x_targets := list_step (q_targets d) (c_targets c) in
  (mkCard x_code x_position x_alias x_type x_level x_xyz_rank x_attribute x_race x_atk x_def x_base_atk x_base_def x_equipped_to x_targets x_counters x_owner x_status x_is_public x_pend_l_scale x_pend_r_scale x_is_hidden x_cover x_link_rate x_link_arrow, hits).

(** parse_query.hpp:78-122 *)
Definition parse_query (use_cache : bool) (q : query) (f : frame card) : outcome (N * frame card) :=
  let! h := has_card (qr_place q) (f_lay f) in
  assert_ h ;;!
  let! id := card_at_place (qr_place q) f in
  let! c := or_ub (heap_get id (f_heap f)) in
  let (c', hits) := parse_data use_cache (qr_data q) c in
  Ok (hits, mkFrame (f_next f) (heap_set id c' (f_heap f)) (f_lay f)).
