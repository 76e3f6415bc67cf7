(** The rest of the undoable board compiled without assertions: erase_history
    and parse_query on undoable cards, as Limbo.v and UQuery.v model them. *)
From Verif Require Import Base Place Msg Frame Limbo Event Query UQuery Release.

Set Implicit Arguments.
Local Open Scope N_scope.

(** frame_limbo.hpp:34-43.  Without the assertions resize(op_) may also lengthen
    the deque, by value-initialised entries of the first alternative (215): a
    CardOp without a card. *)
Definition rel_l_erase_history {C} (w : limbo C) : outcome (limbo C) :=
  if Nat.eqb (lb_op w) (lb_processed w) then Ok w
  else Ok (mkLimbo (lb_frame w) (lb_op w) (lb_op w)
             (firstn (lb_op w) (lb_ops w) ++ repeat (CardOp None) (lb_op w - length (lb_ops w)))).

(** parse_query.hpp:78-122 *)
Definition rel_uparse_query (use_cache : bool) (q : query) (w : limbo ucard) : outcome (N * limbo ucard) :=
  let! id := rel_card_at_place (qr_place q) (lb_frame w) in
  let! c := or_ub (heap_get id (f_heap (lb_frame w))) in
  let (c', hits) := uparse_data use_cache (qr_data q) c in
  Ok (hits, l_set_card id c' w).
