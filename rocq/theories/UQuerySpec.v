(** Specification vocabulary for queries on undoable cards. *)
From Verif Require Import Base Place Frame Limbo Msg Query QuerySpec UQuery.

Set Implicit Arguments.
Local Open Scope N_scope.

Definition u_map {A B} (f : A -> B) (u : undoable A) : undoable B :=
  mkUndoable (map f (u_past u)) (f (u_cur u)) (map f (u_next u)).

(** What an undoable card shows: the current value of each member. *)
Definition shown (c : ucard) : card :=
  mkCard (u_get (uc_code c)) (u_get (uc_position c)) (u_get (uc_alias c)) (u_get (uc_type c)) (u_get (uc_level c)) (u_get (uc_xyz_rank c)) (u_get (uc_attribute c)) (u_get (uc_race c)) (u_get (uc_atk c)) (u_get (uc_def c)) (u_get (uc_base_atk c)) (u_get (uc_base_def c)) (u_get (uc_equipped_to c)) (u_get (uc_targets c)) (u_get (uc_counters c)) (u_get (uc_owner c)) (u_get (uc_status c)) (u_get (uc_is_public c)) (u_get (uc_pend_l_scale c)) (u_get (uc_pend_r_scale c)) (u_get (uc_is_hidden c)) (u_get (uc_cover c)) (u_get (uc_link_rate c)) (u_get (uc_link_arrow c)).

(** One member, with its recorded history. *)
Definition ucard_field (x : field) (c : ucard) : undoable fval :=
  match x with
  | F_code => u_map VN (uc_code c)
  | F_position => u_map VN (uc_position c)
  | F_alias => u_map VN (uc_alias c)
  | F_type => u_map VN (uc_type c)
  | F_level => u_map VZ (uc_level c)
  | F_xyz_rank => u_map VN (uc_xyz_rank c)
  | F_attribute => u_map VN (uc_attribute c)
  | F_race => u_map VN (uc_race c)
  | F_atk => u_map VZ (uc_atk c)
  | F_def => u_map VZ (uc_def c)
  | F_base_atk => u_map VZ (uc_base_atk c)
  | F_base_def => u_map VZ (uc_base_def c)
  | F_equipped_to => u_map VP (uc_equipped_to c)
  | F_targets => u_map VPs (uc_targets c)
  | F_counters => u_map VCs (uc_counters c)
  | F_owner => u_map VZ (uc_owner c)
  | F_status => u_map VN (uc_status c)
  | F_is_public => u_map VB (uc_is_public c)
  | F_pend_l_scale => u_map VN (uc_pend_l_scale c)
  | F_pend_r_scale => u_map VN (uc_pend_r_scale c)
  | F_is_hidden => u_map VB (uc_is_hidden c)
  | F_cover => u_map VN (uc_cover c)
  | F_link_rate => u_map VN (uc_link_rate c)
  | F_link_arrow => u_map VN (uc_link_arrow c)
  end.

(** Nothing has been undone: every member is at its newest value. *)
Definition all_newest (c : ucard) : Prop := forall x, u_next (ucard_field x c) = [].

(** The values shown and the ones recorded before them; what lies ahead, to be
    replayed, is left out. *)
Definition same_so_far (c c' : ucard) : Prop :=
  forall x, u_cur (ucard_field x c) = u_cur (ucard_field x c') /\
            u_past (ucard_field x c) = u_past (ucard_field x c').

(** ** Taking a query back

    The repository has no function for this; a client has to call undo() on every
    member the query recorded a value in: those present in the query and not
    reported as hits. *)
Definition u_undo_if {T} (b : bool) (u : undoable T) : outcome (undoable T) :=
  if b then u_undo u else Ok u.
Definition given {T} (q : option T) : bool := match q with Some _ => true | None => false end.
Definition missed {T} (q : option T) (hits bit : N) : bool := given q && (N.land hits bit =? 0).
Definition take_back (d : qdata) (hits : N) (c : ucard) : outcome ucard :=
  let! x_code := u_undo_if (missed (q_code d) hits (flag F_code)) (uc_code c) in
  let! x_position := u_undo_if (missed (q_position d) hits (flag F_position)) (uc_position c) in
  let! x_alias := u_undo_if (missed (q_alias d) hits (flag F_alias)) (uc_alias c) in
  let! x_type := u_undo_if (missed (q_type d) hits (flag F_type)) (uc_type c) in
  let! x_level := u_undo_if (missed (q_level d) hits (flag F_level)) (uc_level c) in
  let! x_xyz_rank := u_undo_if (missed (q_xyz_rank d) hits (flag F_xyz_rank)) (uc_xyz_rank c) in
  let! x_attribute := u_undo_if (missed (q_attribute d) hits (flag F_attribute)) (uc_attribute c) in
  let! x_race := u_undo_if (missed (q_race d) hits (flag F_race)) (uc_race c) in
  let! x_atk := u_undo_if (missed (q_atk d) hits (flag F_atk)) (uc_atk c) in
  let! x_def := u_undo_if (missed (q_def d) hits (flag F_def)) (uc_def c) in
  let! x_base_atk := u_undo_if (missed (q_base_atk d) hits (flag F_base_atk)) (uc_base_atk c) in
  let! x_base_def := u_undo_if (missed (q_base_def d) hits (flag F_base_def)) (uc_base_def c) in
  let! x_equipped_to := u_undo_if (missed (q_equipped_to d) hits (flag F_equipped_to)) (uc_equipped_to c) in
  let! x_targets := u_undo_if (given (q_targets d)) (uc_targets c) in
  let! x_counters := u_undo_if (given (q_counters d)) (uc_counters c) in
  let! x_owner := u_undo_if (missed (q_owner d) hits (flag F_owner)) (uc_owner c) in
  let! x_status := u_undo_if (missed (q_status d) hits (flag F_status)) (uc_status c) in
  let! x_is_public := u_undo_if (missed (q_is_public d) hits (flag F_is_public)) (uc_is_public c) in
  let! x_pend_l_scale := u_undo_if (missed (q_pend_l_scale d) hits (flag F_pend_l_scale)) (uc_pend_l_scale c) in
  let! x_pend_r_scale := u_undo_if (missed (q_pend_r_scale d) hits (flag F_pend_r_scale)) (uc_pend_r_scale c) in
  let! x_is_hidden := u_undo_if (missed (q_is_hidden d) hits (flag F_is_hidden)) (uc_is_hidden c) in
  let! x_cover := u_undo_if (missed (q_cover d) hits (flag F_cover)) (uc_cover c) in
  let! x_link_rate := u_undo_if (missed (q_link_rate d) hits (flag F_link_rate)) (uc_link_rate c) in
  let! x_link_arrow := u_undo_if (missed (q_link_arrow d) hits (flag F_link_arrow)) (uc_link_arrow c) in
  Ok (mkUCard x_code x_position x_alias x_type x_level x_xyz_rank x_attribute x_race x_atk x_def x_base_atk x_base_def x_equipped_to x_targets x_counters x_owner x_status x_is_public x_pend_l_scale x_pend_r_scale x_is_hidden x_cover x_link_rate x_link_arrow).

(** The same through the frame. *)
Definition take_back_query (q : query) (hits : N) (w : limbo ucard) : outcome (limbo ucard) :=
  let! id := card_at_place (qr_place q) (lb_frame w) in
  let! c := or_ub (heap_get id (f_heap (lb_frame w))) in
  let! c' := take_back (qr_data q) hits c in
  Ok (l_set_card id c' w).
