(** Specification vocabulary: two boards that look the same. *)
From Verif Require Import Base Place Frame FrameSpec Limbo LimboSpec Msg Event EventSpec Query UQuery UQuerySpec UReplaySpec
  Encode CoreMsg EncodeSpec.

Set Implicit Arguments.
Local Open Scope N_scope.

(** Two runs end the same way, with related results if any. *)
Definition ends_alike {A B} (R : A -> B -> Prop) (x : outcome A) (y : outcome B) : Prop :=
  match x, y with
  | Ok a, Ok b => R a b
  | Abort, Abort | UB, UB | Diverge, Diverge => True
  | _, _ => False
  end.

(** What is written on a card of a frame. *)
Definition face {C} (f : frame C) (p : ptr) : option C :=
  match p with Some id => heap_get id (f_heap f) | None => None end.
(** Every pile, zone and overlay shows the same cards in the same order. *)
Definition alike {C} (f g : frame C) : Prop :=
  forall k, map (face f) (contents k (f_lay f)) = map (face g) (contents k (f_lay g)).

(** What a State event tells is shown alike. *)
Record board_alike {C} (a b : pboard C) : Prop := {
  ba_frame : alike (b_frame a) (b_frame b);
  ba_lp : b_lp a = b_lp b;
  ba_chain : b_chain a = b_chain b
}.

(** A board after some recording. *)
Definition has_played (use : bool) (b : pboard card) : Prop :=
  exists ss, pplay_all use ss (pboard0 card) = Ok b.

(** The items of a recording that set a member a State event may leave alone:
    the turn's number, whose turn it is, the phase and the blocked zones. *)
Definition tells_turn (s : rstep) : Prop :=
  exists st, s = REvent (EvBoard (BoardState st)) /\ (0 <= bs_turn_counter st)%Z.
Definition tells_player (s : rstep) : Prop := exists con, s = REvent (EvNextTurn con).
Definition tells_phase (s : rstep) : Prop := exists ph, s = REvent (EvNextPhase ph).
Definition tells_blocked (s : rstep) : Prop := exists l, s = REvent (EvZoneBlock l).

(** The core messages they come from. *)
Definition is_reload (m : core_msg) : Prop := match m with CmReloadField _ _ _ _ => True | _ => False end.
Definition is_start (m : core_msg) : Prop := match m with CmStart _ _ _ _ _ _ _ => True | _ => False end.
Definition is_turn (m : core_msg) : Prop := match m with CmNewTurn _ => True | _ => False end.
Definition is_phase (m : core_msg) : Prop := match m with CmNewPhase _ => True | _ => False end.
Definition is_blocking (m : core_msg) : Prop := match m with CmFieldDisabled _ => True | _ => False end.

(** What is written on a card of an undoable board. *)
Definition uface (u : uboard ucard) (p : ptr) : option card :=
  match p with Some id => option_map shown (content u id) | None => None end.
