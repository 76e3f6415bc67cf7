(** encode_one and the context compiled without assertions (NDEBUG), as Encode.v
    models them: edo9300_ocgcore_encode.cpp and basic_encode_context.hpp.  The
    only assertion of the encoder is line 1046; the others are those of the
    context's board and frame.  Functions that are not repeated here have none;
    [sel_card_r], [v_event] and the like are those of Encode.v. *)
From Verif Require Import Base Place Frame Msg Event Query Reader EncodeQuery Encode Release.

Set Implicit Arguments.
Local Open Scope N_scope.

(** ** The context: basic_encode_context.hpp *)

(** 33-36 *)
Definition rel_pile_size (c : ctx) (con : Z) (loc : N) : outcome N :=
  let! r := rel_pile_ref con loc in Ok (lenN (get_pile r (ctx_layout c))).
(** 43-46 *)
Definition rel_has_xyz_mat (c : ctx) (p : place) : outcome bool :=
  let! r := rel_zone_of p in
  let! z := read_zone r (ctx_layout c) in
  Ok (negb (is_nil (z_mats z))).

(** 74-81 *)
Definition rel_ctx_query (q : query) (c : ctx) : outcome ctx :=
  let! (_, f) := rel_parse_query false q (b_frame (cx_board c)) in
  Ok (set_board (set_frame f (cx_board c)) c).
Definition rel_ctx_parse (m : msg) (c : ctx) : outcome ctx :=
  let! c1 :=
    (match m_t m with
     | MsgEvent e => let! b := rel_pparse card0 e (cx_board c) in Ok (set_board b c)
     | _ => Ok c
     end) in
  ofold rel_ctx_query (m_queries m) c1.

(** ** The encoder: edo9300_ocgcore_encode.cpp *)

(** 1037-1077, MSG_SELECT_CARD after the replier.  The peek at the location of
    the first card (1047-1050) comes before anything that depends on the count. *)
Definition rel_select_card_r : reader request :=
  cancel <- read_bool ;;
  min <- read 4 ;;
  max <- read 4 ;;
  count <- read 4 ;;
  first_loc <- peek (rskip 5 ;;; read 1) ;;
  if negb (first_loc =? 0) then
    l <- rcount count sel_card_r ;; rret (RqCard (ScUniqueRange cancel min max l))
  else
    l <- rcount count (c <- read 4 ;; rskip CORE_LOC_INFO_SIZE ;;; rret c) ;;
    rret (RqCard (ScLimbo cancel min max l)).

Definition rel_request_case (k : kind) : option (Z -> reader request) :=
  match k with KSelectCard => Some (fun _ => rel_select_card_r) | _ => request_case k end.

(** 1357-1371 *)
Definition rel_deck_top_case (c : ctx) : reader (verdict * ctx) :=
  con <- read_con ;;
  size <- rlift (rel_pile_size c con LOCATION_MAIN_DECK) ;;
  s <- read 4 ;;
  rskip 4 ;;;
  rskip 4 ;;;
  rret (v_event (EvMeta (MetaUpdate 0
          [mkPlace con LOCATION_MAIN_DECK (of_signed 32 (Z.of_N size - 1 - Z.of_N s))
                   OSEQ_INVALID])), c).

(** 1388-1479 *)
Definition rel_move_verdict (prev curr : place) (reason : N) (c : ctx) : outcome (verdict * ctx) :=
  let prev_limbo := p_loc prev =? LOCATION_UNSPECIFIED in
  let curr_limbo := p_loc curr =? LOCATION_UNSPECIFIED in
  if prev_limbo && curr_limbo then Ok (v_swallowed, c)
  else if prev_limbo then Ok (v_event (EvCard reason (CardAdd [curr])), c)
  else if curr_limbo then
    let! had := (if negb (is_pile prev) then rel_has_xyz_mat c prev else Ok false) in
    Ok (v_event (EvCard reason (CardRemove [prev])),
        if had then xyz_left prev place0 c else c)
  else if negb (not_mat curr) && is_pile curr then Ok (v_swallowed, xyz_mat_defer prev c)
  else if not_mat curr && negb (is_pile curr) then
    let '(defs, c') := take_deferred_xyz_mat c in
    Ok (v_event (EvCard reason (CardMove (deferred_moves curr 0 defs ++ [mkPair prev curr]))), c')
  else if negb (not_mat prev) && is_pile prev then
    let! had := get_xyz_left c (set_oseq OSEQ_INVALID prev) in
    Ok (v_event (EvCard reason (CardMove [mkPair (set_oseq (p_oseq prev) had) curr])), c)
  else
    let! had := (if negb (is_pile prev) && is_pile curr then rel_has_xyz_mat c prev else Ok false) in
    Ok (v_event (EvCard reason (CardMove [mkPair prev curr])),
        if had then xyz_left curr prev c else c).

(** 1372-1480 *)
Definition rel_move_case (c : ctx) : reader (verdict * ctx) :=
  rskip 4 ;;;
  prev <- read_loc_info ;;
  curr <- read_loc_info ;;
  reason <- read 4 ;;
  rlift (rel_move_verdict prev curr reason c).

(** 1481-1566 *)
Definition rel_swap_grave_deck_case (c : ctx) : reader (verdict * ctx) :=
  con <- read_con ;;
  pos <- read 4 ;;
  bufsz <- read 4 ;;
  gy <- rlift (rel_pile_size c con LOCATION_GRAVEYARD) ;;
  deck <- rlift (rel_pile_size c con LOCATION_MAIN_DECK) ;;
  ops <- (fun bs => let! l := extra_loop con pos bs (seqN gy) 0 0 0 in Ok (l, bs)) ;;
  rskip bufsz ;;;
  rret (v_event (EvPile 0 (PileSplice (
          (if 0 <? gy then
             [mkSplice (pile_place con LOCATION_GRAVEYARD) (u32 gy)
                       (pile_place con LOCATION_MAIN_DECK) false] else [])
          ++ (if 0 <? deck then
             [mkSplice (mkPlace con LOCATION_MAIN_DECK (u32 gy) OSEQ_INVALID) (u32 deck)
                       (pile_place con LOCATION_GRAVEYARD) false] else [])
          ++ ops))), c).

(** 1567-1598 *)
Definition rel_draw_case (c : ctx) : reader (verdict * ctx) :=
  con <- read_con ;;
  n <- read 4 ;;
  rskip (8 * n) ;;;
  deck <- rlift (rel_pile_size c con LOCATION_MAIN_DECK) ;;
  hand <- rlift (rel_pile_size c con LOCATION_HAND) ;;
  rret (v_event (EvPile REASON_DRAW (PileSplice
          [mkSplice (mkPlace con LOCATION_MAIN_DECK (of_signed 32 (Z.of_N deck - Z.of_N n)) OSEQ_INVALID)
                    n (mkPlace con LOCATION_HAND (u32 hand) OSEQ_INVALID) true])), c).

(** 1599-1629 *)
Definition rel_reverse_deck_case (c : ctx) : reader (verdict * ctx) :=
  d0 <- rlift (rel_pile_size c 0%Z LOCATION_MAIN_DECK) ;;
  d1 <- rlift (rel_pile_size c 1%Z LOCATION_MAIN_DECK) ;;
  let op (con : Z) (n : N) :=
    mkSplice (pile_place con LOCATION_MAIN_DECK) (u32 n) (pile_place con LOCATION_MAIN_DECK) true in
  rret (v_event (EvPile REASON_EFFECT (PileSplice [op 0%Z d0; op 1%Z d1])), c).

(** 490-1731: the switch.  The other kinds do not look at the context's board. *)
Definition rel_dispatch (k : kind) (c : ctx) : reader (verdict * ctx) :=
  match rel_request_case k with
  | Some m =>
      (* create_request, 513-520 *)
      replier <- read_con ;;
      r <- m replier ;;
      rret (mkVerdict StOk (Some (mkMsg (MsgRequest replier r) [])), c)
  | None =>
  match k with
  | KDeckTop => rel_deck_top_case c
  | KMove => rel_move_case c
  | KSwapGraveDeck => rel_swap_grave_deck_case c
  | KDraw => rel_draw_case c
  | KReverseDeck => rel_reverse_deck_case c
  | _ => dispatch k c
  end
  end.

(** 490-1731 *)
Definition rel_encode_one (c : ctx) (bs : list N) : outcome (eresult * ctx) :=
  let! (b, rest) := read 1 bs in
  let! (vc, rest') :=
    (match kind_of b with
     | Some k => rel_dispatch k c rest
     | None => Ok ((v_none, c), rest)
     end) in
  let '(v, c') := vc in
  Ok (mkResult (v_state v) (lenN bs - lenN rest') (v_msg v), c').
