(** The room of include/ygopen/server/room.hpp with fewer simplifications than
    Room.v: the set of spectators (room.hpp:168) may keep its elements in any
    order, and what a client answers to fill_user (room.hpp:31, 400, 420, 512)
    may change between two calls.  Everything else is Room.v. *)
From Verif Require Import Base Room RoomSpec.

Set Implicit Arguments.
Local Open Scope N_scope.

Section Loose.
(** Where an element goes that the set does not have yet: the order of a
    std::set of pointers is that of the addresses. *)
Variable spot : N -> list N -> list N.

(** std::set::insert *)
Definition l_insert (c : N) (l : list N) : list N := if existsb (N.eqb c) l then l else spot c l.

(** 343-433 *)
Definition l_enter_conf (v : env) (c : N) (r : room) : result :=
  let es := EvConf (CeEntering (Some (rm_options r)) (all_duelists v r) (u32 (lenN (rm_spectators r)))) in
  let! s := find_empty r in
  match s with
  | Some (t, p) =>
      let r' := set_slot t p (set_client c) r in
      let e := EvConf (CeDuelistEnters (mkDuelist t p (ev_user v c) (rm_host r =? c) false)) in
      Ok (r', (c, es) :: send_all r' e)
  | None =>
      assert_ (negb (rm_host r =? c)) ;;!
      let r' := set_spectators (l_insert c (rm_spectators r)) r in
      Ok (r', (c, es) :: send_all r' (EvSpectators (u32 (lenN (rm_spectators r')))))
  end.

(** 111-115, with 337-341 and 435-439. *)
Definition l_enter (v : env) (c : N) (r : room) : result :=
  match rm_state r with
  | Monostate => UB
  | Configuring => l_enter_conf v c r
  | Deciding _ => Ok (r, [])
  end.

(** 77-100 *)
Definition l_construct (v : env) (host : N) (o : options) : result :=
  let r := mkRoom 0 (clamp_options o) host (repeat slot0 3) (repeat slot0 3) [] Monostate in
  let! (r, out) := enter_configuring r in
  let! (r, out') := l_enter v host r in
  assert_ (negb (state_index (rm_state r) =? 0)) ;;!
  Ok (r, out ++ out').

Definition l_act (v : env) (a : action) (r : room) : result :=
  match a with Enter c => l_enter v c r | Signal c s => visit v c s r end.

(** What the clients call themselves during the [k]th call. *)
Variable users : nat -> N -> user.
Definition at_call (v : env) (k : nat) : env := mkEnv (users k) (ev_check v) (ev_rng v) (ev_fuel v).

Fixpoint l_play (v : env) (k : nat) (l : list action) (r : room) (out : sent) : result :=
  match l with
  | [] => Ok (r, out)
  | a :: l' => let! (r', o) := l_act (at_call v k) a r in l_play v (S k) l' r' (out ++ o)
  end.
Definition l_session (v : env) (host : N) (o : options) (l : list action) : result :=
  let! (r, out) := l_construct (at_call v 0) host o in l_play v 1 l r out.
End Loose.
