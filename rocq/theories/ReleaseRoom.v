(** room.hpp compiled without assertions (NDEBUG); the functions of Room that
    have none are used as they are.  The assertions 91-93, 191, 197-198, 206 and
    213 are not in the model Room either, because they hold by construction. *)
From Verif Require Import Base Room.

Set Implicit Arguments.
Local Open Scope N_scope.

(** room.hpp:259-334.  The team of get_team_leader (263-270) is 0 or 1, on
    which its assertion holds. *)
Definition rel_enter_deciding (v : env) (r : room) : result :=
  on_enter_deciding v (set_state (Deciding None) r).

(** 228-236 with 245-257 *)
Definition rel_enter_configuring (r : room) : result :=
  let r' := set_state Configuring r in
  Ok (r', send_all r' (EvConf (CeEntering None [] 0))).

(** 343-433.  The assertions 372 and 378 hold: [find_empty]. *)
Definition rel_enter_conf (v : env) (c : N) (r : room) : result :=
  let es := EvConf (CeEntering (Some (rm_options r)) (all_duelists v r) (u32 (lenN (rm_spectators r)))) in
  let! s := find_empty r in
  match s with
  | Some (t, p) =>
      let r' := set_slot t p (set_client c) r in
      let e := EvConf (CeDuelistEnters (mkDuelist t p (ev_user v c) (rm_host r =? c) false)) in
      Ok (r', (c, es) :: send_all r' e)
  | None =>
      let r' := set_spectators (set_insert c (rm_spectators r)) r in
      Ok (r', (c, es) :: send_all r' (EvSpectators (u32 (lenN (rm_spectators r')))))
  end.

(** 111-115 *)
Definition rel_enter (v : env) (c : N) (r : room) : result :=
  match rm_state r with
  | Monostate => UB
  | Configuring => rel_enter_conf v c r
  | Deciding _ => Ok (r, [])
  end.

(** 77-100 *)
Definition rel_construct (v : env) (host : N) (o : options) : result :=
  let r := mkRoom 0 (clamp_options o) host (repeat slot0 3) (repeat slot0 3) [] Monostate in
  let! (r, out) := rel_enter_configuring r in
  let! (r, out') := rel_enter v host r in
  Ok (r, out ++ out').

(** 518-548 *)
Definition rel_start_dueling (v : env) (c : N) (r : room) : result :=
  if negb (c =? rm_host r) then Ok (r, [])
  else if negb (can_start r) then Ok (r, [])
  else rel_enter_deciding v r.

(** 442-552 *)
Definition rel_signal_conf (v : env) (c : N) (s : conf_signal) (r : room) : result :=
  match s with
  | CsStart _ => rel_start_dueling v c r
  | _ => signal_conf v c s r
  end.

(** 119-134 *)
Definition rel_visit (v : env) (c : N) (s : signal) (r : room) : result :=
  match rm_state r, s with
  | Configuring, SgConf s => rel_signal_conf v c s r
  | Deciding _, SgFirst s => signal_first c s r
  | _, _ => Ok (r, [])
  end.
