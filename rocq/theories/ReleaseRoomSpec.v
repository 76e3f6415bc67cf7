(** Histories of a room without assertions. *)
From Verif Require Import Base Room RoomSpec ReleaseRoom.

Set Implicit Arguments.
Local Open Scope N_scope.

Definition rel_act (v : env) (a : action) (r : room) : result :=
  match a with Enter c => rel_enter v c r | Signal c s => rel_visit v c s r end.

Fixpoint rel_play (v : env) (l : list action) (r : room) (out : sent) : result :=
  match l with
  | [] => Ok (r, out)
  | a :: l' => let! (r', o) := rel_act v a r in rel_play v l' r' (out ++ o)
  end.
Definition rel_session (v : env) (host : N) (o : options) (l : list action) : result :=
  let! (r, out) := rel_construct v host o in rel_play v l r out.

(** The host as a spectator of their own room. *)
Definition host_watches (r : room) : room := set_spectators (set_insert (rm_host r) (rm_spectators r)) r.
