(** Model of parse_query (include/ygopen/client/parse_query.hpp) on cards whose
    members are BasicUndoable (include/ygopen/client/undoable.hpp), the use its
    ValueTypeOrT (54-74) is made for, in a LimboFrame. *)
From Verif Require Import Base Place Frame Limbo Msg Query.

Set Implicit Arguments.
Local Open Scope N_scope.

(** card.hpp:28-47 with a traits class whose types are BasicUndoable of those of
    default_card_traits.hpp. *)
Record ucard := mkUCard {
  uc_code : undoable N;
  uc_position : undoable N;
  uc_alias : undoable N;
  uc_type : undoable N;
  uc_level : undoable Z;
  uc_xyz_rank : undoable N;
  uc_attribute : undoable N;
  uc_race : undoable N;
  uc_atk : undoable Z;
  uc_def : undoable Z;
  uc_base_atk : undoable Z;
  uc_base_def : undoable Z;
  uc_equipped_to : undoable place;
  uc_targets : undoable (list place);
  uc_counters : undoable (list counter);
  uc_owner : undoable Z;
  uc_status : undoable N;
  uc_is_public : undoable bool;
  uc_pend_l_scale : undoable N;
  uc_pend_r_scale : undoable N;
  uc_is_hidden : undoable bool;
  uc_cover : undoable N;
  uc_link_rate : undoable N;
  uc_link_arrow : undoable N
}.
(** card.hpp:41 and undoable.hpp:22-24: one value-initialised entry each. *)
Definition ucard0 : ucard :=
  mkUCard (u_new 0) (u_new 0) (u_new 0) (u_new 0) (u_new 0%Z) (u_new 0) (u_new 0) (u_new 0) (u_new 0%Z) (u_new 0%Z) (u_new 0%Z) (u_new 0%Z) (u_new place0) (u_new []) (u_new []) (u_new 0%Z) (u_new 0) (u_new false) (u_new 0) (u_new 0) (u_new false) (u_new 0) (u_new 0) (u_new 0).

(** parse_query.hpp:87-106: [==] (undoable.hpp:40-44) compares the current value,
    [=] (31-38) records a new one or moves forward. *)
Definition ufield_step {T} (use_cache : bool) (eqb : T -> T -> bool) (bit : N)
  (qv : option T) (cur : undoable T) (hits : N) : undoable T * N :=
  match qv with
  | None => (cur, hits)
  | Some v =>
      if use_cache then
        if eqb (u_get cur) v then (cur, N.lor hits bit) else (u_set v cur, hits)
      else (u_set v cur, hits)
  end.
(** parse_query.hpp:110-119 with the [assign] of undoable.hpp:60-66. *)
Definition ulist_step {T} (qv : option (list T)) (cur : undoable (list T)) : undoable (list T) :=
  match qv with None => cur | Some l => u_set l cur end.

(** parse_query.hpp:83 and 87-120 *)
Definition uparse_data (use_cache : bool) (d : qdata) (c : ucard) : ucard * N :=
  let hits := 0 in
  let (x_code, hits) := ufield_step use_cache N.eqb 0x1 (q_code d) (uc_code c) hits in
  let (x_position, hits) := ufield_step use_cache N.eqb 0x2 (q_position d) (uc_position c) hits in
  let (x_alias, hits) := ufield_step use_cache N.eqb 0x4 (q_alias d) (uc_alias c) hits in
  let (x_type, hits) := ufield_step use_cache N.eqb 0x8 (q_type d) (uc_type c) hits in
  let (x_level, hits) := ufield_step use_cache Z.eqb 0x10 (q_level d) (uc_level c) hits in
  let (x_xyz_rank, hits) := ufield_step use_cache N.eqb 0x20 (q_xyz_rank d) (uc_xyz_rank c) hits in
  let (x_attribute, hits) := ufield_step use_cache N.eqb 0x40 (q_attribute d) (uc_attribute c) hits in
  let (x_race, hits) := ufield_step use_cache N.eqb 0x80 (q_race d) (uc_race c) hits in
  let (x_atk, hits) := ufield_step use_cache Z.eqb 0x100 (q_atk d) (uc_atk c) hits in
  let (x_def, hits) := ufield_step use_cache Z.eqb 0x200 (q_def d) (uc_def c) hits in
  let (x_base_atk, hits) := ufield_step use_cache Z.eqb 0x400 (q_base_atk d) (uc_base_atk c) hits in
  let (x_base_def, hits) := ufield_step use_cache Z.eqb 0x800 (q_base_def d) (uc_base_def c) hits in
  let (x_equipped_to, hits) := ufield_step use_cache place_eqb 0x4000 (q_equipped_to d) (uc_equipped_to c) hits in
  let (x_owner, hits) := ufield_step use_cache Z.eqb 0x40000 (q_owner d) (uc_owner c) hits in
  let (x_status, hits) := ufield_step use_cache N.eqb 0x80000 (q_status d) (uc_status c) hits in
  let (x_is_public, hits) := ufield_step use_cache Bool.eqb 0x100000 (q_is_public d) (uc_is_public c) hits in
  let (x_pend_l_scale, hits) := ufield_step use_cache N.eqb 0x200000 (q_pend_l_scale d) (uc_pend_l_scale c) hits in
  let (x_pend_r_scale, hits) := ufield_step use_cache N.eqb 0x400000 (q_pend_r_scale d) (uc_pend_r_scale c) hits in
  let (x_is_hidden, hits) := ufield_step use_cache Bool.eqb 0x1000000 (q_is_hidden d) (uc_is_hidden c) hits in
  let (x_cover, hits) := ufield_step use_cache N.eqb 0x2000000 (q_cover d) (uc_cover c) hits in
  let (x_link_rate, hits) := ufield_step use_cache N.eqb 0x100000000 (q_link_rate d) (uc_link_rate c) hits in
  let (x_link_arrow, hits) := ufield_step use_cache N.eqb 0x200000000 (q_link_arrow d) (uc_link_arrow c) hits in
  let x_counters := ulist_step (q_counters d) (uc_counters c) in
  let x_targets := ulist_step (q_targets d) (uc_targets c) in
  (mkUCard x_code x_position x_alias x_type x_level x_xyz_rank x_attribute x_race x_atk x_def x_base_atk x_base_def x_equipped_to x_targets x_counters x_owner x_status x_is_public x_pend_l_scale x_pend_r_scale x_is_hidden x_cover x_link_rate x_link_arrow, hits).

(** Writing through the reference [frame.card(place)]. *)
Definition l_set_card {C} (id : cid) (c : C) (w : limbo C) : limbo C :=
  let f := lb_frame w in
  lb_with_frame w (mkFrame (f_next f) (heap_set id c (f_heap f)) (f_lay f)).

(** parse_query.hpp:78-122 *)
Definition uparse_query (use_cache : bool) (q : query) (w : limbo ucard) : outcome (N * limbo ucard) :=
  let! h := has_card (qr_place q) (lb_lay w) in
  assert_ h ;;!
  let! id := card_at_place (qr_place q) (lb_frame w) in
  let! c := or_ub (heap_get id (f_heap (lb_frame w))) in
  let (c', hits) := uparse_data use_cache (qr_data q) c in
  Ok (hits, l_set_card id c' w).
