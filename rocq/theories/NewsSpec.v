(** Specification vocabulary: what the room announces to everybody and what it
    tells one client. *)
From Verif Require Import Base Room RoomSpec.

Local Open Scope N_scope.

(** Everything but the description of the room for a newcomer, the verdict on a
    deck and the question who goes first. *)
Definition announces (e : event) : bool :=
  match e with
  | EvConf (CeEntering _ _ _) | EvConf (CeDeckStatus _) | EvFirst (FeDecide _) => false
  | _ => true
  end.
Definition announced (s : sent) : sent := filter (fun x => announces (snd x)) s.
Definition told (s : sent) : sent := filter (fun x => negb (announces (snd x))) s.
(** The announcements a client hears, in order. *)
Definition news (c : N) (s : sent) : list event := heard c (announced s).

(** How many places of the room a client has. *)
Definition places_of (r : room) (c : N) : nat := count_occ N.eq_dec (occupants r) c.

Definition actor (a : action) : N := match a with Enter c => c | Signal c _ => c end.
