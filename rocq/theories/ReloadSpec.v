(** Reload messages of the core in which cards may have materials anywhere. *)
From Verif Require Import Base CoreMsg.

Local Open Scope N_scope.

(** One player's part of a reload message: as the core writes it, materials
    anywhere. *)
Record side_fits (s : cside) : Prop := {
  sf_lp : is_u32 (sd_lp s);
  sf_monster : length (sd_monster s) = 7%nat /\ Forall czone_ok (sd_monster s);
  sf_spell : length (sd_spell s) = 8%nat /\ Forall czone_ok (sd_spell s);
  sf_piles : is_u32 (sd_main s) /\ is_u32 (sd_hand s) /\ is_u32 (sd_grave s) /\
             is_u32 (sd_ban s) /\ is_u32 (sd_extra s) /\ is_u32 (sd_extra_up s)
}.
(** No materials under the cards in the field zone and the pendulum zones. *)
Definition no_mats_there (s : cside) : Prop := Forall bare (skipn 5 (sd_spell s)).
