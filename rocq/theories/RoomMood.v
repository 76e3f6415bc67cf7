(** The room of include/ygopen/server/room.hpp with a deck validator
    (room.hpp:36-46, 480) whose verdicts may change from call to call: Room.v asks
    it at most once in each call. *)
From Verif Require Import Base Room RoomSpec.

Set Implicit Arguments.
Local Open Scope N_scope.

Section Mood.
(** The validator during the [k]th call. *)
Variable checks : nat -> text -> deck -> bool * deck_error.
Variable v : env.
Definition in_mood (k : nat) : env := mkEnv (ev_user v) (checks k) (ev_rng v) (ev_fuel v).

Fixpoint m_play (k : nat) (l : list action) (r : room) (out : sent) : result :=
  match l with
  | [] => Ok (r, out)
  | a :: l' => let! (r', o) := act (in_mood k) a r in m_play (S k) l' r' (out ++ o)
  end.
(** The room is constructed in call 0. *)
Definition m_session (host : N) (o : options) (l : list action) : result :=
  let! (r, out) := construct (in_mood 0) host o in m_play 1 l r out.
End Mood.
