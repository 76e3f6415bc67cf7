(** What it means that the order of the spectators and the names of the clients
    do not matter. *)
From Coq Require Import Permutation.
From Verif Require Import Base Room RoomSpec.

Set Implicit Arguments.
Local Open Scope N_scope.

(** The new element, and those that were there. *)
Definition keeps_set (spot : N -> list N -> list N) : Prop :=
  forall c l, ~ In c l -> Permutation (spot c l) (c :: l).

(** The same room, with the spectators listed in another order. *)
Definition same_room (r r' : room) : Prop :=
  Permutation (rm_spectators r) (rm_spectators r') /\ r' = set_spectators (rm_spectators r') r.

(** An event, with the users in it changed. *)
Section Dub.
Variable nm : user -> user.
Definition dub_duelist (d : duelist) : duelist :=
  mkDuelist (du_team d) (du_pos d) (nm (du_user d)) (du_host d) (du_ready d).
Definition dub (e : event) : event :=
  match e with
  | EvConf (CeEntering o l n) => EvConf (CeEntering o (map dub_duelist l) n)
  | EvConf (CeDuelistEnters d) => EvConf (CeDuelistEnters (dub_duelist d))
  | EvConf (CeUpdateDuelist d) => EvConf (CeUpdateDuelist (dub_duelist d))
  | _ => e
  end.
End Dub.
Definition anonymous (e : event) : event := dub (fun _ => mkUser [] []) e.

(** The duelists an event speaks of. *)
Definition mentions (e : event) : list duelist :=
  match e with
  | EvConf (CeEntering _ l _) => l
  | EvConf (CeDuelistEnters d) | EvConf (CeUpdateDuelist d) => [d]
  | _ => []
  end.
