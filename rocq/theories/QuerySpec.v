(** Specification vocabulary for queries: the fields, one by one. *)
From Verif Require Import Base Place Frame Msg Query.

Set Implicit Arguments.
Local Open Scope N_scope.

Inductive field :=
| F_code
| F_position
| F_alias
| F_type
| F_level
| F_xyz_rank
| F_attribute
| F_race
| F_atk
| F_def
| F_base_atk
| F_base_def
| F_equipped_to
| F_targets
| F_counters
| F_owner
| F_status
| F_is_public
| F_pend_l_scale
| F_pend_r_scale
| F_is_hidden
| F_cover
| F_link_rate
| F_link_arrow.

(** The bit the core gives each field (ocgcore common.h, the QUERY flags). *)
Definition flag (x : field) : N :=
  match x with
  | F_code => 0x1
  | F_position => 0x2
  | F_alias => 0x4
  | F_type => 0x8
  | F_level => 0x10
  | F_xyz_rank => 0x20
  | F_attribute => 0x40
  | F_race => 0x80
  | F_atk => 0x100
  | F_def => 0x200
  | F_base_atk => 0x400
  | F_base_def => 0x800
  | F_equipped_to => 0x4000
  | F_targets => 0x8000
  | F_counters => 0x20000
  | F_owner => 0x40000
  | F_status => 0x80000
  | F_is_public => 0x100000
  | F_pend_l_scale => 0x200000
  | F_pend_r_scale => 0x400000
  | F_is_hidden => 0x1000000
  | F_cover => 0x2000000
  | F_link_rate => 0x100000000
  | F_link_arrow => 0x200000000
  end.

(** A field's value. *)
Inductive fval :=
| VN (n : N)
| VZ (z : Z)
| VB (b : bool)
| VP (p : place)
| VPs (l : list place)
| VCs (l : list counter).

(** What a card holds and what a query says in a field. *)
Definition card_field (x : field) (c : card) : fval :=
  match x with
  | F_code => VN (c_code c)
  | F_position => VN (c_position c)
  | F_alias => VN (c_alias c)
  | F_type => VN (c_type c)
  | F_level => VZ (c_level c)
  | F_xyz_rank => VN (c_xyz_rank c)
  | F_attribute => VN (c_attribute c)
  | F_race => VN (c_race c)
  | F_atk => VZ (c_atk c)
  | F_def => VZ (c_def c)
  | F_base_atk => VZ (c_base_atk c)
  | F_base_def => VZ (c_base_def c)
  | F_equipped_to => VP (c_equipped_to c)
  | F_targets => VPs (c_targets c)
  | F_counters => VCs (c_counters c)
  | F_owner => VZ (c_owner c)
  | F_status => VN (c_status c)
  | F_is_public => VB (c_is_public c)
  | F_pend_l_scale => VN (c_pend_l_scale c)
  | F_pend_r_scale => VN (c_pend_r_scale c)
  | F_is_hidden => VB (c_is_hidden c)
  | F_cover => VN (c_cover c)
  | F_link_rate => VN (c_link_rate c)
  | F_link_arrow => VN (c_link_arrow c)
  end.
Definition query_field (x : field) (d : qdata) : option fval :=
  match x with
  | F_code => option_map VN (q_code d)
  | F_position => option_map VN (q_position d)
  | F_alias => option_map VN (q_alias d)
  | F_type => option_map VN (q_type d)
  | F_level => option_map VZ (q_level d)
  | F_xyz_rank => option_map VN (q_xyz_rank d)
  | F_attribute => option_map VN (q_attribute d)
  | F_race => option_map VN (q_race d)
  | F_atk => option_map VZ (q_atk d)
  | F_def => option_map VZ (q_def d)
  | F_base_atk => option_map VZ (q_base_atk d)
  | F_base_def => option_map VZ (q_base_def d)
  | F_equipped_to => option_map VP (q_equipped_to d)
  | F_targets => option_map VPs (q_targets d)
  | F_counters => option_map VCs (q_counters d)
  | F_owner => option_map VZ (q_owner d)
  | F_status => option_map VN (q_status d)
  | F_is_public => option_map VB (q_is_public d)
  | F_pend_l_scale => option_map VN (q_pend_l_scale d)
  | F_pend_r_scale => option_map VN (q_pend_r_scale d)
  | F_is_hidden => option_map VB (q_is_hidden d)
  | F_cover => option_map VN (q_cover d)
  | F_link_rate => option_map VN (q_link_rate d)
  | F_link_arrow => option_map VN (q_link_arrow d)
  end.

(** The two repeated fields are never cached. *)
Definition cached_field (x : field) : Prop := x <> F_targets /\ x <> F_counters.

(** The card a frame holds under an id. *)
Definition card_of (f : frame card) (id : cid) : option card := heap_get id (f_heap f).
