(** What the encoder uses of its context. *)
From Verif Require Import Base Place Frame Msg Event Query Encode EncodeSpec.

Set Implicit Arguments.
Local Open Scope N_scope.

(** Two boards with piles of the same sizes, and materials in the same zones. *)
Definition same_outline (L L' : layout) : Prop :=
  (forall r, length (get_pile r L) = length (get_pile r L')) /\
  (forall r, option_map (fun z => is_nil (z_mats z)) (get_zone r L) =
             option_map (fun z => is_nil (z_mats z)) (get_zone r L')).

(** A context with another board, other notes on materials or another reason. *)
Definition with_board (b : pboard card) (c : ctx) : ctx := mkCtx b (cx_mwr c) (cx_left c) (cx_deferred c).
Definition with_notes (l : list (place * place)) (d : list place) (c : ctx) : ctx := mkCtx (cx_board c) (cx_mwr c) l d.
Definition with_reason (r : option N) (c : ctx) : ctx := mkCtx (cx_board c) r (cx_left c) (cx_deferred c).

(** The outcome of encoding, with the context it leaves changed by [f]. *)
Definition leaving (f : ctx -> ctx) (o : outcome (eresult * ctx)) : outcome (eresult * ctx) :=
  let! (r, c) := o in Ok (r, f c).

(** The first byte of the buffer is none of these. *)
Definition starts_otherwise (types : list N) (bs : list N) : Prop :=
  match bs with b :: _ => ~ In b types | [] => True end.

(** ocgcore_messages.inl *)
Definition type_win : N := 5.
Definition type_swap_grave_deck : N := 35.
Definition type_reverse_deck : N := 37.
Definition type_deck_top : N := 38.
Definition type_move : N := 50.
Definition type_draw : N := 90.
Definition type_match_kill : N := 170.

(** The notes in a context, counted: places remembered (as a map has them, once
    per place) and materials waiting. *)
Definition noted (c : ctx) : nat :=
  (length (nodup place_eq_dec (map fst (cx_left c))) + length (cx_deferred c))%nat.
