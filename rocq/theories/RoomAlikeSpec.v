(** What it means that the room treats clients alike, and that it keeps decks
    to itself. *)
From Verif Require Import Base Room RoomSpec.

Set Implicit Arguments.
Local Open Scope N_scope.

(** ** Other clients in the same roles *)

Section Names.
Variable rho : N -> N.

Definition nm_slot (s : slot) : slot :=
  mkSlot (sl_valid s) (sl_ready s) (option_map rho (sl_client s)) (sl_deck s).
Definition nm_state (s : rstate) : rstate :=
  match s with
  | Monostate => Monostate
  | Configuring => Configuring
  | Deciding d => Deciding (option_map rho d)
  end.
(** The room in which [rho c] is in the place of [c]. *)
Definition nm_room (r : room) : room :=
  mkRoom (rm_drawn r) (rm_options r) (rho (rm_host r)) (map nm_slot (rm_team0 r)) (map nm_slot (rm_team1 r))
    (map rho (rm_spectators r)) (nm_state (rm_state r)).
Definition nm_sent (o : sent) : sent := map (fun x => (rho (fst x), snd x)) o.
Definition nm_action (a : action) : action :=
  match a with Enter c => Enter (rho c) | Signal c s => Signal (rho c) s end.
Definition nm_result (x : result) : result :=
  match x with
  | Ok (r, o) => Ok (nm_room r, nm_sent o)
  | Abort => Abort
  | UB => UB
  | Diverge => Diverge
  end.
End Names.

Definition distinct (rho : N -> N) : Prop := forall c d, rho c = rho d -> c = d.
(** [rho c] calls itself in [v'] what [c] calls itself in [v]; the validator and
    the random numbers are the same. *)
Definition same_world (rho : N -> N) (v v' : env) : Prop :=
  (forall c, ev_user v' (rho c) = ev_user v c) /\ (forall t d, ev_check v' t d = ev_check v t d) /\
  (forall k, ev_rng v' k = ev_rng v k) /\ ev_fuel v' = ev_fuel v.

(** ** Other decks with the same verdict *)

(** The action [a'] is [a], but for a deck handed in by a client in [w], which
    gets the same verdict. *)
Inductive other_deck (v : env) (o : options) (w : N -> Prop) : action -> action -> Prop :=
| od_same : forall a, other_deck v o w a a
| od_deck : forall c d d', w c -> fst (ev_check v (house_list o) d) = fst (ev_check v (house_list o) d') ->
    other_deck v o w (Signal c (SgConf (CsUpdateDeck d))) (Signal c (SgConf (CsUpdateDeck d'))).

(** The same but for the decks of the seats. *)
Definition undeck (s : slot) : slot := mkSlot (sl_valid s) (sl_ready s) (sl_client s) deck0.
Definition no_decks (r : room) : room :=
  mkRoom (rm_drawn r) (rm_options r) (rm_host r) (map undeck (rm_team0 r)) (map undeck (rm_team1 r))
    (rm_spectators r) (rm_state r).

(** A complaint about a deck without what it says. *)
Definition outline (e : event) : event :=
  match e with
  | EvConf (CeDeckStatus (Some _)) => EvConf (CeDeckStatus (Some (mkDeckError None None None None None)))
  | _ => e
  end.

(** Both runs end alike: if they reach rooms, then what is related. *)
Definition end_alike (R : room * sent -> room * sent -> Prop) (x y : result) : Prop :=
  match x, y with
  | Ok a, Ok b => R a b
  | Abort, Abort | UB, UB | Diverge, Diverge => True
  | _, _ => False
  end.

(** ** Other decks with another verdict *)

(** The clients in [w] hand in whatever decks, but never say that they are ready. *)
Inductive any_deck (w : N -> Prop) : action -> action -> Prop :=
| ad_same : forall a, (forall c, w c -> a <> Signal c (SgConf (CsReady true))) -> any_deck w a a
| ad_deck : forall c d d', w c ->
    any_deck w (Signal c (SgConf (CsUpdateDeck d))) (Signal c (SgConf (CsUpdateDeck d'))).
