(** What keeps a room from starting. *)
From Verif Require Import Base Room RoomSpec.

Local Open Scope N_scope.

(** A seat from which the duel can start; every seat but the first one of its
    client is such a seat. *)
Definition good (s : slot) : Prop := sl_valid s = true /\ sl_ready s = true.
Definition settled (r : room) : Prop := forall t p s c t0 p0, place r t p = Some s -> sl_client s = Some c ->
  sits r t0 p0 c -> before t0 p0 t p -> good s.
