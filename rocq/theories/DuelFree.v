(** Bookkeeping of the cards without any restriction: what each message of the
    core does to the cards, whether or not the encoder copes with it. *)
From Verif Require Import Base BaseProofs Place Frame FrameSpec Msg Event EventSpec Query QuerySpec Encode CoreMsg EncodeSpec EncodeE2E Duel.

Local Open Scope N_scope.

Definition free_move (p q : spot) (K : cards) : option cards :=
  match p, q with
  | Outside, Outside => Some K
  | Outside, _ => let '(x, K1) := new_card K in put_in q x K1
  | _, Outside => option_map (fun _ => take_out p K) (card_on p K)
  | _, _ => obind_ (card_on p K) (fun x => put_in q x (take_out p K))
  end.

(** A tag swap: the partner's deck, extra deck and hand replace the player's;
    nobody has seen those cards. *)
Definition new_pile (n : N) (r : pref) (K : cards) : cards := deal (N.to_nat n) r (with_pile r [] K).

Definition free_cards (m : core_msg) (K : cards) : option cards :=
  match m with
  | CmMove _ p q _ =>
      match spot_of (core_place p), spot_of (core_place q) with
      | Some a, Some b => free_move a b K
      | _, _ => None
      end
  | CmStart _ _ _ md0 ed0 md1 ed1 =>
      Some (deal (N.to_nat ed1) (true, LExtra) (deal (N.to_nat md1) (true, LDeck)
             (deal (N.to_nat ed0) (false, LExtra) (deal (N.to_nat md0) (false, LDeck)
               (no_cards (k_next K))))))
  | CmReloadField _ s0 s1 _ =>
      option_map (fun K' => deal_side true s1 (deal_side false s0 K'))
        (place_all (side_places 0 s0 ++ side_places 1 s1) (no_cards (k_next K)))
  | CmDraw con l => obind_ (who_of con) (fun w => draw w (length l) K)
  | CmReverseDeck =>
      Some (with_pile (true, LDeck) (rev (k_pile K (true, LDeck)))
             (with_pile (false, LDeck) (rev (k_pile K (false, LDeck))) K))
  | CmSwapGraveDeck con pos bits => obind_ (who_of con) (fun w => swap_grave_deck w pos bits K)
  | CmSwap a b =>
      match spot_of (core_place (cc_loc a)), spot_of (core_place (cc_loc b)) with
      | Some (InZone x), Some (InZone y) => Some (exchange_zones x y K)
      | _, _ => None
      end
  | CmShuffleSetCard _ l => option_map (fun m => shuffle_zones m K) (zones_of l)
  | CmTagSwap con main extra _ hand _ _ =>
      option_map (fun w => new_pile hand (w, LHand) (new_pile extra (w, LExtra) (new_pile main (w, LDeck) K)))
        (who_of con)
  | CmUpdateData _ _ _ | CmUpdateCard _ _ => obind_ (core_queries m) (fun l => tell_all l K)
  | _ => Some K
  end.
Definition free_run (ms : list core_msg) (K : cards) : option cards :=
  fold_left (fun o m => obind_ o (free_cards m)) ms (Some K).

(** The cards of [K] are where the board has them, and the board knows of them
    what was told. *)
Record shows_cards (K : cards) (c : ctx) : Prop := {
  sc_pile : forall r, contents (CPile r) (ctx_layout c) = map Some (k_pile K r);
  sc_zone : forall z, contents (CCard z) (ctx_layout c) =
    match k_zone K z with Some x => [Some x] | None => [] end;
  sc_mats : at_rest K = true ->
    forall z, contents (CMats z) (ctx_layout c) = map Some (mats_of z K);
  sc_card : forall s x, card_on s K = Some x ->
    exists v, card_of (b_frame (cx_board c)) x = Some v /\ forall f, card_field f v = k_field K x f
}.

(** Nothing of an earlier duel is left: four face-down piles of unknown cards,
    an empty field, the given life points, turn 0 and no chain. *)
Record fresh_field (lp0 lp1 : N) (n : pref -> N) (c : ctx) : Prop := {
  ff_pile : forall r, lenN (contents (CPile r) (ctx_layout c)) = n r;
  ff_zone : forall z, contents (CCard z) (ctx_layout c) = [] /\ contents (CMats z) (ctx_layout c) = [];
  ff_card : forall k i x v, nth_error (contents k (ctx_layout c)) i = Some (Some x) ->
    card_of (b_frame (cx_board c)) x = Some v -> forall f, card_field f v = blank f;
  ff_lp : forall w : bool, lp_of w (cx_board c) = if w then lp1 else lp0;
  ff_turn : b_turn (cx_board c) = 0;
  ff_chain : b_chain (cx_board c) = []
}.
Record fresh_duel (lp0 lp1 : N) (n : pref -> N) (c : ctx) : Prop := {
  fd_field : fresh_field lp0 lp1 n c;
  fd_player : b_turn_controller (cx_board c) = 0%Z;
  fd_phase : b_phase (cx_board c) = 0;
  fd_blocked : b_blocked (cx_board c) = [];
  fd_deferred : cx_deferred c = []
}.
