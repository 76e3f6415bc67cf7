{
 "claims": [
  {
   "property": "C01",
   "status": "proved",
   "theorems": [
    "C01_popcnt_is_hamming_weight"
   ],
   "note": "All widths; the loop terminates with fuel equal to the number of digits plus one. The compiler builtins used on GCC/Clang are assumed to agree with the loop."
  },
  {
   "property": "C02",
   "status": "proved",
   "theorems": [
    "C02_chooser_picks_lowest"
   ],
   "note": "All operand types of at most 32 bits."
  },
  {
   "property": "C03",
   "status": "partial",
   "theorems": [
    "C03_choosel_picks_highest_partial",
    "C03_choosel_count_zero",
    "C03_choosel_at_most_count_refuted",
    "C03_choosel_iff_partial"
   ],
   "note": "True for every count >= 1; for count 0 the code returns the operand's top bit when it is set (C03_choosel_at_most_count_refuted), contrary to the documented 'at most count'. C03_choosel_iff_partial: right exactly unless count is 0 and the top bit is set."
  },
  {
   "property": "C04",
   "status": "partial",
   "theorems": [
    "C04_choosel_64_undefined",
    "C04_choosel_64_refuted",
    "C04_chooser_64_partial"
   ],
   "note": "Refuted for choosel (always undefined on 64-bit operands); chooser is right exactly when the low 32 bits hold enough set bits and undefined otherwise."
  },
  {
   "property": "C05",
   "status": "proved",
   "theorems": [
    "C05_place_less_is_lexicographic",
    "C05_place_less_strict_total_order",
    "C05_place_eq_is_field_equality"
   ],
   "note": "All places."
  },
  {
   "property": "C06",
   "status": "proved",
   "theorems": [
    "C06_location_classes",
    "C06_location_masks",
    "C06_zone_seq_lim"
   ],
   "note": "All location values."
  },
  {
   "property": "C07",
   "status": "proved",
   "theorems": [
    "C07_conservation"
   ],
   "note": "All operation sequences with arbitrary arguments, for any card type. UB and assertion outcomes end the sequence."
  },
  {
   "property": "C08",
   "status": "proved",
   "theorems": [
    "C08_card_add",
    "C08_card_add_succeeds"
   ],
   "note": "Effect on every container plus the exact success condition."
  },
  {
   "property": "C09",
   "status": "proved",
   "theorems": [
    "C09_card_remove",
    "C09_card_remove_succeeds",
    "C09_remove_after_add"
   ],
   "note": "Effect, success on every occupied place, and remove-after-add restores cards and layout (the card counter used to name cards keeps advancing)."
  },
  {
   "property": "C10",
   "status": "proved",
   "theorems": [
    "C10_card_move_iff",
    "C10_card_move",
    "C10_card_move_back"
   ],
   "note": "Exact success condition, effect on every container, inverse move."
  },
  {
   "property": "C11",
   "status": "partial",
   "theorems": [
    "C11_card_swap_refuted",
    "C11_card_swap_undefined_refuted",
    "C11_card_swap_partial",
    "C11_card_swap_iff_partial",
    "C11_card_swap_twice",
    "C11_card_swap_misindexed",
    "C11_card_swap_misindexed_iff"
   ],
   "note": "Applying a swap twice restores the frame for every pair of places (C11_card_swap_twice). The exchange itself is refuted for a material `a` against a zone place `b`: the code indexes with a.seq (frame.hpp:400,404), swapping the wrong card or reading out of range. Proved for all other pairs, with the exact success condition. For those pairs what the code does is stated exactly: it exchanges the material numbered like the zone, needs it to exist and is undefined otherwise (C11_card_swap_misindexed and _iff)."
  },
  {
   "property": "C12",
   "status": "proved",
   "theorems": [
    "C12_card_shuffle",
    "C12_card_shuffle_succeeds"
   ],
   "note": "All inputs of one row with distinct sequences; also shows success on well-formed input."
  },
  {
   "property": "C13",
   "status": "proved",
   "theorems": [
    "C13_pile_resize"
   ],
   "note": ""
  },
  {
   "property": "C14",
   "status": "proved",
   "theorems": [
    "C14_pile_splice",
    "C14_pile_splice_succeeds",
    "C14_pile_splice_back",
    "C14_pile_splice_index_unchecked_refuted"
   ],
   "note": "Effect, inverse and success for in-range arguments; C14_pile_splice_index_unchecked_refuted additionally shows that an out-of-range target index is undefined behaviour rather than rejected."
  },
  {
   "property": "C15",
   "status": "proved",
   "theorems": [
    "C15_pile_swap",
    "C15_pile_swap_succeeds"
   ],
   "note": ""
  },
  {
   "property": "C16",
   "status": "proved",
   "theorems": [
    "C16_clear"
   ],
   "note": ""
  },
  {
   "property": "C17",
   "status": "partial",
   "theorems": [
    "C17_negative_controller_refuted",
    "C17_two_locations_refuted",
    "C17_accessors_defined_partial",
    "C17_undefined_iff"
   ],
   "note": "Refuted for negative controllers and multi-bit locations; proved for non-negative controllers and single-bit (or zero) locations. C17_undefined_iff says for exactly which places each accessor is undefined."
  },
  {
   "property": "C18",
   "status": "proved",
   "theorems": [
    "C18_has_card_predicts_card"
   ],
   "note": ""
  },
  {
   "property": "C19",
   "status": "proved",
   "theorems": [
    "C19_card_add",
    "C19_undo_card_add",
    "C19_card_remove",
    "C19_undo_card_remove"
   ],
   "note": "card_add/card_remove at any history position, undo and redo."
  },
  {
   "property": "C20",
   "status": "partial",
   "theorems": [
    "C20_undo_pile_resize_refuted",
    "C20_undo_growth_partial",
    "C20_growth_succeeds",
    "C20_shrink_more_than_half_left",
    "C20_shrink_at_most_half_left",
    "C20_resize_iff_partial"
   ],
   "note": "False as stated: refuted with a witness. Growing proved for every history position; shrinking characterised exactly at the live end (undefined behaviour when more than half the cards stay, not undoable when fewer than half stay, correct only for exactly half). C20_resize_iff_partial puts these together: at the live end a resize works and is taken back exactly when the pile does not shrink or shrinks to half."
  },
  {
   "property": "C21",
   "status": "proved",
   "theorems": [
    "C21_clear_empties",
    "C21_undo_clear"
   ],
   "note": "clear, undo and redo; that the redo of an unrelated position can fail an assertion is part of the hypotheses (the clear succeeded)."
  },
  {
   "property": "C22",
   "status": "proved",
   "theorems": [
    "C22_cards_stay",
    "C22_references_alive",
    "C22_redo_creates_nothing"
   ],
   "note": "Includes that every remembered card is alive, for arbitrary (also mismatched) operation sequences."
  },
  {
   "property": "C23",
   "status": "proved",
   "theorems": [
    "C23_erase_history",
    "C23_next_is_new"
   ],
   "note": "erase_history at every position."
  },
  {
   "property": "C24",
   "status": "proved",
   "theorems": [
    "C24_cursor"
   ],
   "note": "Refinement to a list with an index."
  },
  {
   "property": "C25",
   "status": "proved",
   "theorems": [
    "C25_undo_restores",
    "C25_undo_oldest_stops"
   ],
   "note": "At every position, including redo ignoring the new value."
  },
  {
   "property": "C26",
   "status": "partial",
   "theorems": [
    "C26_lp_partial",
    "C26_lp_undoable_partial",
    "C26_recover_refuted",
    "C26_recover_iff_partial"
   ],
   "note": "Holds for every board and amount except recovering past 2^32, where the uint32_t wraps (C26_recover_refuted). Also on undoable boards showing their latest state. C26_recover_iff_partial: recovering is right exactly when the sum stays below 2^32."
  },
  {
   "property": "C27",
   "status": "proved",
   "theorems": [
    "C27_next_turn",
    "C27_next_phase",
    "C27_zone_block",
    "C27_chain_stack",
    "C27_chain_pop",
    "C27_no_effect",
    "C27_undoable"
   ],
   "note": "The turn counter increments modulo 2^32 (uint32_t). Popping from an empty chain is undefined behaviour, stated explicitly."
  },
  {
   "property": "C28",
   "status": "proved",
   "theorems": [
    "C28_state",
    "C28_state_accepted"
   ],
   "note": "For every reachable previous frame; acceptance characterised exactly by state_ok. Contents are compared by container sizes, as cards are new and indistinguishable."
  },
  {
   "property": "C29",
   "status": "partial",
   "theorems": [
    "C29_lp_controller_refuted",
    "C29_lp_const_undefined",
    "C29_lp_controller_partial",
    "C29_lp_controller_iff_partial"
   ],
   "note": "Refuted for con = 2 (off-by-one assertion) and for the const accessor (no assertion); proved for every other int. C29_lp_controller_iff_partial: 2 is the only exception."
  },
  {
   "property": "C30",
   "status": "partial",
   "theorems": [
    "C30_undo_parse_partial",
    "C30_undo_live_partial",
    "C30_stale_refuted",
    "C30_undo_iff_partial"
   ],
   "note": "At the live end of the history: for every event, whenever undo_parse_event gets through it restores the board (C30_undo_live_partial). At other history positions: for every event whose frame operations have working inverses (C30_undo_parse_partial). False in the middle of a history: undoing a shrinking resize brings back the cards another, undone, resize removed (C30_stale_refuted). C30_undo_iff_partial: at the live end an event can be taken back exactly when it does not shuffle cards and resizes no pile below its size other than to half."
  },
  {
   "property": "C31",
   "status": "proved",
   "theorems": [
    "C31_scrubbing",
    "C31_path_independent",
    "C31_no_step_fails"
   ],
   "note": "For every list of events a board accepts and every walk that gets through; C31_no_step_fails says which lists never stop a walk (the others: C32)."
  },
  {
   "property": "C32",
   "status": "partial",
   "theorems": [
    "C32_shuffle_never",
    "C32_every_event_refuted",
    "C32_shrink_refuted",
    "C32_undo_iff_partial",
    "C32_undo_partial",
    "C32_values_partial"
   ],
   "note": "Refuted for shuffles (undo asserts false whenever it is called: C32_shuffle_never) and for resizes that shrink a pile to more than half. At the live end of a history undo gets through if and only if the event is undoable in the sense of EventSpec (C32_undo_iff_partial); link pushes and pops are not accepted at all."
  },
  {
   "property": "C33",
   "status": "proved",
   "theorems": [
    "C33_parse_query",
    "C33_parse_query_succeeds"
   ],
   "note": "On every frame where the query's place holds a card, all 24 fields."
  },
  {
   "property": "C34",
   "status": "partial",
   "theorems": [
    "C34_hits_iff_partial",
    "C34_repeated_fields_never_hit",
    "C34_repeated_fields_refuted",
    "C34_hits_partial",
    "C34_flags_distinct",
    "C34_cache_same_card"
   ],
   "note": "Proved for the 22 single-valued fields; refuted for targets and counters, which never hit. C34_hits_iff_partial: exactly which fields hit."
  },
  {
   "property": "C35",
   "status": "proved",
   "theorems": [
    "C35_encode_one_terminates",
    "C35_result_discipline",
    "C35_board_untouched"
   ],
   "note": "Every buffer (also truncated ones) and every context; also termination, the upper bound on bytes_read and that the board is untouched."
  },
  {
   "property": "C36",
   "status": "proved",
   "theorems": [
    "C36_unknown_iff",
    "C36_unknown_one_byte"
   ],
   "note": "The handled bytes are listed; 22, 23, 142 and 144 (left as TODO in the code) count as not handled. Every other byte gives UNKNOWN with one byte."
  },
  {
   "property": "C37",
   "status": "partial",
   "theorems": [
    "C37_local_refuted",
    "C37_local_partial",
    "C37_local_iff_partial"
   ],
   "note": "Refuted for MSG_SWAP_GRAVE_DECK with a graveyard larger than the announced flag buffer; proved for every other buffer and context. C37_local_iff_partial: exactly these buffers depend on foreign bytes."
  },
  {
   "property": "C38",
   "status": "proved",
   "theorems": [
    "C38_frames",
    "C38_accepts",
    "C38_stream",
    "C38_stream_accepts",
    "C38_stream_follows"
   ],
   "note": "All 82 message shapes of CoreMsg.v; success conditions for the state-dependent ones; streams with an arbitrary caller between messages, which see the same results as one buffer per message (C38_stream_accepts, C38_stream_follows)."
  },
  {
   "property": "C39",
   "status": "proved",
   "theorems": [
    "C39_events",
    "C39_deck_top",
    "C39_silent"
   ],
   "note": "All event messages of CoreMsg.v; MSG_DECK_TOP against the deck size. Draw, reversal, swap, move and win are in C47-C53."
  },
  {
   "property": "C40",
   "status": "proved",
   "theorems": [
    "C40_requests",
    "C40_flag_bytes"
   ],
   "note": "All 18 implemented request messages."
  },
  {
   "property": "C41",
   "status": "proved",
   "theorems": [
    "C41_query"
   ],
   "note": "Single-valued fields report the last value; the two repeated fields accumulate. Unknown items are skipped by their size, which must be at least 4 (the flag)."
  },
  {
   "property": "C42",
   "status": "proved",
   "theorems": [
    "C42_batches"
   ],
   "note": "MSG_UPDATE_DATA with empty slots and MSG_UPDATE_CARD."
  },
  {
   "property": "C43",
   "status": "proved",
   "theorems": [
    "C43_zone_masks"
   ],
   "note": "MSG_FIELD_DISABLED and both zone selections; all masks. MSG_FIELD_DISABLED also lists the zones whose bit is clear."
  },
  {
   "property": "C44",
   "status": "proved",
   "theorems": [
    "C44_spell_sequences",
    "C44_others_untouched",
    "C44_injective"
   ],
   "note": "All spell sequences 0-7, all locations without the spell bit, injectivity over all core locations. A core sequence of 8 or more does not occur and is not covered."
  },
  {
   "property": "C45",
   "status": "partial",
   "theorems": [
    "C45_effect_refuted",
    "C45_effect_partial",
    "C45_counter",
    "C45_effect_iff_partial"
   ],
   "note": "Counters: proved for all words. Effects: proved below 2^52, refuted from there (the code is truncated to 32 bits). C45_effect_iff_partial: a 64-bit description is rebuilt exactly when it is below 2^52."
  },
  {
   "property": "C46",
   "status": "partial",
   "theorems": [
    "C46_overlay_refuted",
    "C46_overlay_partial",
    "C46_overlay_iff_partial"
   ],
   "note": "Proved for material indices below 2^31; refuted from there (they become negative). C46_overlay_iff_partial: the index comes through exactly below 2^31."
  },
  {
   "property": "C47",
   "status": "proved",
   "theorems": [
    "C47_draw",
    "C47_reason"
   ],
   "note": "Every context built by encoding and parsing; the drawn cards are the top ones, top card first; heap, other piles, zones and the encoder's memory unchanged. Piles below 2^32 cards."
  },
  {
   "property": "C48",
   "status": "proved",
   "theorems": [
    "C48_reverse_decks",
    "C48_reason"
   ],
   "note": "Both decks reversed, all else unchanged. Decks below 2^32 cards."
  },
  {
   "property": "C49",
   "status": "proved",
   "theorems": [
    "C49_swap_grave_deck"
   ],
   "note": "Flag buffer must cover the graveyard (otherwise C37's undefined behaviour) and the insert position must exist."
  },
  {
   "property": "C50",
   "status": "proved",
   "theorems": [
    "C50_start"
   ],
   "note": "From every context; also that all cards are fresh and phase, turn player and blocked zones stay."
  },
  {
   "property": "C51",
   "status": "partial",
   "theorems": [
    "C51_reload_partial",
    "C51_reload_refuted",
    "C51_reload_iff_partial"
   ],
   "note": "Proved for messages without materials in the field and pendulum zones; refuted for a material there (it is announced at the core's sequence and the board stops). C51_reload_iff_partial: it holds exactly for messages without such materials."
  },
  {
   "property": "C52",
   "status": "partial",
   "theorems": [
    "C52_attach_partial",
    "C52_attach_refuted",
    "C52_detach_partial",
    "C52_detach_refuted",
    "C52_detach_iff_partial",
    "C52_attach_iff_partial"
   ],
   "note": "Proved: waiting materials follow, in order, the next card that reaches the field; a material of a card that left is moved from the zone it left, unless it goes to the field or below a card outside it. Refuted: materials of one card are given to another that reaches the field first; a material moved from a departed card to the field is announced from the pile. C52_detach_iff_partial: a detached material is announced from the zone exactly when it goes to a pile as a card of its own, or below a card of the field; otherwise it is announced as removed, not at all, or from the pile. C52_attach_iff_partial: a card is announced with exactly its own materials just when every waiting material was announced for it (for zones none of them is already below)."
  },
  {
   "property": "C53",
   "status": "partial",
   "theorems": [
    "C53_win_reason_partial",
    "C53_win_reason_default_partial",
    "C53_win_reason_refuted",
    "C53_win_reason_iff_partial"
   ],
   "note": "Proved for value-initialised contexts and, after the first match kill, for default-initialised ones; refuted for a default-initialised context before that (indeterminate member). C53_win_reason_iff_partial: such a context announces a win exactly after a match kill."
  },
  {
   "property": "C54",
   "status": "partial",
   "theorems": [
    "C54_numbers",
    "C54_hands",
    "C54_no_chain",
    "C54_race_partial",
    "C54_race_refuted",
    "C54_race_iff_partial"
   ],
   "note": "Proved for every value of every listed answer except races from 2^32 on, which are refuted (the 64-bit race is cut to 32 bits). Also: previous output and request do not matter. C54_race_iff_partial: a race reads back exactly when it is below 2^32."
  },
  {
   "property": "C55",
   "status": "partial",
   "theorems": [
    "C55_cards_partial",
    "C55_select_unselect",
    "C55_declined",
    "C55_cards_refuted",
    "C55_safe",
    "C55_cards_iff_partial"
   ],
   "note": "Proved for indexes below 2^16 (all formats, all requests); refuted from there (cut to 16 bits). Also: the decoder stops on an assertion exactly for answers that do not fit the request and never writes outside its buffer. C55_cards_iff_partial: a selection reads back exactly when all its indexes are below 2^16."
  },
  {
   "property": "C56",
   "status": "partial",
   "theorems": [
    "C56_commands_partial",
    "C56_commands_refuted",
    "C56_foreign_command_refuted",
    "C56_commands_iff_partial"
   ],
   "note": "Proved for all eleven commands of both request kinds with card index below 2^16; refuted from there. Also refuted: a command foreign to the request kind is written as another command. C56_commands_iff_partial: a command reads back exactly when its card index is below 2^16."
  },
  {
   "property": "C57",
   "status": "partial",
   "theorems": [
    "C57_zones_partial",
    "C57_other_zones_wrong",
    "C57_zones_refuted",
    "C57_zones_iff_partial"
   ],
   "note": "Proved, through the encoder, for every monster and main spell zone; refuted for the field and pendulum zones, all of which are written with location 0. C57_zones_iff_partial: an answer is right exactly when none of its zones is a field or pendulum zone."
  },
  {
   "property": "C58",
   "status": "partial",
   "theorems": [
    "C58_sort_partial",
    "C58_skip",
    "C58_sort_refuted",
    "C58_sort_iff_partial"
   ],
   "note": "Proved for at most 254 indexes below 2^8; refuted beyond (cut to 8 bits). The format is the one the code writes; the core's own reader is not in /repo. C58_sort_iff_partial: an order reads back exactly when it has at most 254 indexes, all below 2^8."
  },
  {
   "property": "C59",
   "status": "partial",
   "theorems": [
    "C59_untouched_partial",
    "C59_untouched_refuted",
    "C59_untouched_iff_partial"
   ],
   "note": "Proved for unset answers, counters, unset inner answers and phases unknown to the request kind; refuted for an unset sort, which is written as an empty order. C59_untouched_iff_partial: the output is left alone, whatever it holds, exactly by those."
  },
  {
   "property": "C60",
   "status": "proved",
   "theorems": [
    "C60_options",
    "C60_kept"
   ],
   "note": "Also: options, sizes and the host's seat stay so through every history."
  },
  {
   "property": "C61",
   "status": "proved",
   "theorems": [
    "C61_seats"
   ],
   "note": "By an invariant over all histories."
  },
  {
   "property": "C62",
   "status": "proved",
   "theorems": [
    "C62_even",
    "C62_seating"
   ],
   "note": "The seat, or the spectator's place, is determined exactly, for each call and (C62_seating) for whole histories: who sits where and who watches follows from the order of arrival alone. The one other outcome, the host entering a full room again, stops on an assertion (see C71)."
  },
  {
   "property": "C63",
   "status": "partial",
   "theorems": [
    "C63_once_partial",
    "C63_once_refuted",
    "C63_watching_refuted",
    "C63_twice_iff_partial"
   ],
   "note": "Proved for histories in which no client enters twice; refuted otherwise, for two seats and for a seat and a spectator's place. Exactly when it fails is C63_twice_iff_partial: the client came twice while the room was being configured, the first time to sit down."
  },
  {
   "property": "C64",
   "status": "partial",
   "theorems": [
    "C64_when_partial",
    "C64_ready_partial",
    "C64_gate_partial",
    "C64_ready_refuted"
   ],
   "note": "Proved for histories in which no ready client hands in a deck that is then rejected; refuted otherwise: the flag stays set. Exactly when it happens, for a duelist with one place, is C64_when_partial. For every history nobody becomes ready without a valid deck."
  },
  {
   "property": "C65",
   "status": "proved",
   "theorems": [
    "C65_history",
    "C65_start",
    "C65_left"
   ],
   "note": "Both directions: the state is left exactly then, provided the call returns (see C71); it is not entered again. C65_history says it from the history alone: if nobody came twice, at least one other came and everybody at the table has a valid deck and is ready (C96)."
  },
  {
   "property": "C66",
   "status": "proved",
   "theorems": [
    "C66_mirror",
    "C66_options"
   ],
   "note": "By refinement: the client's fold agrees with the room after every history. The count is cut to 32 bits by the message. Also: everybody present has been told the room's options, and never any others."
  },
  {
   "property": "C67",
   "status": "proved",
   "theorems": [
    "C67_deck"
   ],
   "note": "Exact result for every seated sender, with any validator."
  },
  {
   "property": "C68",
   "status": "proved",
   "theorems": [
    "C68_ignored",
    "C68_late_entry"
   ],
   "note": "Also for entering late."
  },
  {
   "property": "C69",
   "status": "proved",
   "theorems": [
    "C69_dice",
    "C69_coin",
    "C69_others"
   ],
   "note": "Dice, coin, host and rock-paper-scissors; dice return exactly when some throw within the fuel is not a tie."
  },
  {
   "property": "C70",
   "status": "partial",
   "theorems": [
    "C70_decide_iff_partial",
    "C70_decide_partial",
    "C70_decide_refuted",
    "C70_ignored"
   ],
   "note": "Proved when the host chooses; nobody who was not asked can ever decide. Refuted for dice and coin: the asked client is ignored. C70_decide_iff_partial: an answer counts exactly when its sender was asked, the team exists and the host chooses."
  },
  {
   "property": "C71",
   "status": "partial",
   "theorems": [
    "C71_total_partial",
    "C71_stops_partial",
    "C71_total_refuted",
    "C71_sentinel_refuted",
    "C71_dice_refuted",
    "C71_method_iff_partial"
   ],
   "note": "Proved when the host does not enter again, the method is no enumeration sentinel and the dice do not tie for ever; each of the three is refuted, and the exact conditions for a call to stop are proved. C71_method_iff_partial: while the host does not enter again, no history stops the room exactly when the first turn method works (no sentinel; some pair of dice differs), given an acceptable deck."
  },
  {
   "property": "C72",
   "status": "proved",
   "theorems": [
    "C72_recipients"
   ],
   "note": ""
  },
  {
   "property": "C73",
   "status": "proved",
   "theorems": [
    "C73_stays"
   ],
   "note": ""
  },
  {
   "property": "C74",
   "status": "proved",
   "theorems": [
    "C74_decks"
   ],
   "note": "From the slot invariant and the start condition."
  },
  {
   "property": "C75",
   "status": "proved",
   "theorems": [
    "C75_ready"
   ],
   "note": "Exact result for every seated sender."
  },
  {
   "property": "C76",
   "status": "partial",
   "theorems": [
    "C76_undoable_query_partial",
    "C76_hits",
    "C76_same_as_plain",
    "C76_succeeds",
    "C76_mid_history_refuted",
    "C76_shows_iff_partial"
   ],
   "note": "Proved for members at their newest value, hits for all; refuted while values are undone: a new query's value is dropped in favour of the undone one. C76_shows_iff_partial says exactly when a query shows."
  },
  {
   "property": "C77",
   "status": "proved",
   "theorems": [
    "C77_take_back",
    "C77_other_mode_differs"
   ],
   "note": "take_back is the client's own code (the repository has only the Undoable members and the hit mask); the theorem says the hits returned are enough to write it."
  },
  {
   "property": "C78",
   "status": "proved",
   "theorems": [
    "C78_scrubbing",
    "C78_same_cards",
    "C78_no_step_fails",
    "C78_shuffle_stops"
   ],
   "note": "For every recording a board accepts and every walk that gets through; C78_no_step_fails says which recordings never stop a walk; C78_shuffle_stops: one that does."
  },
  {
   "property": "C79",
   "status": "proved",
   "theorems": [
    "C79_same_scene",
    "C79_same_hits",
    "C79_accepted_iff",
    "C79_scrubbing_viewer"
   ],
   "note": "Also which recordings the plain board accepts and the undoable one does not: exactly those with chain links pushed or popped or a pile shrunk to more than half. The scrubbing part holds for every walk that gets through."
  },
  {
   "property": "C80",
   "status": "proved",
   "theorems": [
    "C80_board_mirrors_duel",
    "C80_duel_is_bookkeeping"
   ],
   "note": "Duel.v is a separate specification: named cards in piles, zones or attached to other cards, plus life points, turn, phase, chain and blocked zones; duel_step says what each message of the core means. For every stream of well-formed messages the specification follows, the encoder accepts the bytes, and its board shows the cards in their places with what was told about them, the materials, and the numbers. The specification only refuses messages the encoder cannot follow (C81, C82); what it does to the cards is unrestricted bookkeeping (C80_duel_is_bookkeeping)."
  },
  {
   "property": "C81",
   "status": "partial",
   "theorems": [
    "C81_board_keeps_books_partial",
    "C81_rank_up_refuted",
    "C81_leaving_material_refuted",
    "C81_leaving_holder_refuted",
    "C81_same_zone_refuted",
    "C81_card_below_refuted",
    "C81_material_to_field_refuted",
    "C81_tag_swap_refuted"
   ],
   "note": "Proved for streams the duel specification accepts (C81_board_keeps_books_partial). False in general: ranking up into the same zone swaps the first two materials; a material that leaves the duel after its holder went to a pile removes the holder instead; a holder that leaves the duel leaves its materials under an empty zone; a move within one zone aborts; a card put below a card that still owes materials is undefined behaviour; a material put from a pile card onto the field aborts; after a tag swap the piles still show the earlier player's cards."
  },
  {
   "property": "C82",
   "status": "partial",
   "theorems": [
    "C82_start_is_fresh_partial",
    "C82_first_start",
    "C82_start_is_fresh_refuted",
    "C82_start_is_fresh_iff_partial"
   ],
   "note": "MSG_START always empties the field, sets decks of unknown cards, life points, turn 0 and no chain (C82_start_is_fresh_partial, from every sound context), and gives a fresh duel on a new context (C82_first_start). On a reused context turn player, phase, blocked zones and deferred moves of the previous duel survive (C82_start_is_fresh_refuted). C82_start_is_fresh_iff_partial: fresh exactly when none of these four was left."
  },
  {
   "property": "C83",
   "status": "partial",
   "theorems": [
    "C83_viewer_partial",
    "C83_scrubbing_duel_partial",
    "C83_playback_partial",
    "C83_chain_refuted",
    "C83_shuffle_refuted",
    "C83_watchable_iff_partial"
   ],
   "note": "For any duel without chain links that the specification of C80 follows: the encoder's events and queries can be recorded and played on an undoable board; for any walk of a viewer that gets through, with or without the query cache, whenever the viewer stops after the items of the first k core messages the board shows the duel after k messages (C83_viewer_partial); without shuffled set cards every walk gets through (C83_scrubbing_duel_partial). Missing and false: a chain link (C83_chain_refuted: the undoable board aborts), and stepping back over shuffled set cards (C83_shuffle_refuted). C83_watchable_iff_partial: the recording plays to the end exactly without chain links, and every walk gets through exactly when no set cards were shuffled either."
  },
  {
   "property": "C84",
   "status": "partial",
   "theorems": [
    "C84_understood_partial",
    "C84_everything_offered",
    "C84_told_apart_partial",
    "C84_no_card_refuted",
    "C84_field_zone_refuted",
    "C84_race_refuted",
    "C84_far_card_refuted",
    "C84_far_command_refuted",
    "C84_long_order_refuted",
    "C84_understood_iff_partial"
   ],
   "note": "Every question of the core that the encoder turns into a request: everything the core would accept can be picked from the request (offered), and every answer respecting the request and fitting the formats is decoded into bytes from which the core reads exactly what the answer means, which is something it would accept (understood_partial); answers with different meanings never give the same bytes (told_apart_partial). The partial theorems need fits: card indexes and command indexes below 2^16, races below 2^32, non-empty card selections, zones other than field and pendulum zones, fewer than 255 cards to sort; outside of each of these the claim is refuted by a choice the core accepts and no answer tells. C84_understood_iff_partial: of the answers respecting a request exactly those with room_for are understood (fits, with 32-bit indexes where one card is selected or unselected)."
  },
  {
   "property": "C85",
   "status": "partial",
   "theorems": [
    "C85_starts_partial",
    "C85_stuck",
    "C85_host",
    "C85_starts_refuted",
    "C85_self_refuted",
    "C85_can_start_iff_partial"
   ],
   "note": "C85_starts_partial: whatever the interleaving, if nobody enters twice, somebody but the host enters, every deck handed in is accepted, nobody withdraws and every client that enters (and the host) hands in a deck and then says it is ready, the host's start signal leaves the room deciding the first turn. Missing: clients entering twice, and the first turn methods of C71. C85_stuck: a later seat of a client without a deck keeps the room configuring whatever anybody does. C85_host: so does the host entering again. C85_starts_refuted: everybody cooperates, yet no continuation starts. C85_self_refuted: a client entering twice at the right moment plays against itself. C85_can_start_iff_partial: a room being configured can still be brought to the decision exactly when every seat but the first one of its client is ready and has a deck (given an acceptable deck and a working first turn method)."
  },
  {
   "property": "C86",
   "status": "partial",
   "theorems": [
    "C86_frame_partial",
    "C86_frame_wild",
    "C86_shuffle_wild",
    "C86_shuffle_iff",
    "C86_frame_refuted",
    "C86_order",
    "C86_irregular_refuted",
    "C86_limbo_partial",
    "C86_limbo_wild",
    "C86_limbo_refuted",
    "C86_event_partial",
    "C86_event_wild",
    "C86_duel_partial",
    "C86_event_refuted",
    "C86_uevent_partial",
    "C86_uevent_wild",
    "C86_undo_partial"
   ],
   "note": "True for regular places (controller not negative, location on the board) except the listed wild calls, for which the model is undefined: swap of a material with a zone card, splice past the end, shuffle with too few places, pop of an empty chain, missing life points, third player's life points, small shrink of a recorded pile, undo with nothing to undo. For shuffles C86_shuffle_iff says exactly which are undefined. The order in which C++ evaluates arguments makes no difference for regular places (C86_order). Irregular places refuted."
  },
  {
   "property": "C87",
   "status": "proved",
   "theorems": [
    "C87_wild",
    "C87_all",
    "C87_undefined",
    "C87_other_types"
   ],
   "note": "exact list: EncodeWildSpec.v lists the wild messages (a win before a reason is set, an unknown query flag with a size below four, a move out of both rows, a move of a material of a pile's card nobody knows); those are UB with any continuation, all other byte sequences can be continued to one that is encoded or asserted"
  },
  {
   "property": "C88",
   "status": "partial",
   "theorems": [
    "C88_message_partial",
    "C88_undefined_partial",
    "C88_shuffle_partial",
    "C88_stream_partial",
    "C88_refuted"
   ],
   "note": "False as stated: a damage message for a third player is undefined behaviour (C88_refuted). C88_message_partial lists every danger for well-formed messages in any context that was shown nothing else; C88_undefined_partial shows the listed ones really are undefined, except for piles over 2^32 cards; for shuffles, which may be stopped before they get to a pile, C88_shuffle_partial is exact. Covers encode_one and parse_event/parse_query on the server's board."
  },
  {
   "property": "C89",
   "status": "partial",
   "theorems": [
    "C89_fate_partial",
    "C89_view",
    "C89_scrub_partial",
    "C89_stuck_partial",
    "C89_tag_refuted"
   ],
   "note": "False: chain links stop a client (undoable values cannot push or pop), and a change of tag partners that shrinks a pile to more than half of its size is undefined behaviour on the client's board (LimboFrame::pile_resize), while the server goes on. Proved: exactly these, whichever comes first, keep a client from following; while it follows it shows the server's board and cards at every message boundary however it steps; it can step anywhere if no set cards are shuffled and no tag swap shrinks a pile other than to half, and the others cannot be taken back."
  },
  {
   "property": "C90",
   "status": "partial",
   "theorems": [
    "C90_same_show",
    "C90_reload_partial",
    "C90_client_partial",
    "C90_fate",
    "C90_turn_refuted"
   ],
   "note": "C90_same_show is the general fact about plain boards: the same State event and the same items afterwards give the same outcome and the same show, whatever the boards were. C90_reload_partial and C90_client_partial apply it to the server and a client that joins at a MSG_RELOAD_FIELD; C90_fate adds that the client can follow exactly as far as those that were there. Refuted for the number of the turn (C90_turn_refuted): MSG_RELOAD_FIELD does not carry it and nothing but a new duel sets it, so the latecomer stays behind for ever; the theorem gives the exact difference."
  },
  {
   "property": "C91",
   "status": "partial",
   "theorems": [
    "C91_scrubbing_partial",
    "C91_same_cards_partial",
    "C91_queries_partial",
    "C91_client_partial",
    "C91_lost_forever",
    "C91_shrink_refuted",
    "C91_erase_refuted",
    "C91_shrink_exact_partial",
    "C91_erase_exact_partial"
   ],
   "note": "Proved for every walk through every recording in which a pile only grows or shrinks to exactly half, with and without queries, and for every client of C89 that can follow and step back; a lost card is proved lost for good. Refuted when a pile of unknown cards shrinks otherwise, and for erase_history, which frees nothing."
  },
  {
   "property": "C92",
   "status": "partial",
   "theorems": [
    "C92_without_copies_partial",
    "C92_copies_alias_partial",
    "C92_copies_independent_refuted"
   ],
   "note": "Proved for all programs without copies (refinement from list nodes and iterators to the split list used everywhere else). With copies it is refuted: the implicit copy constructor and copy assignment duplicate the list but keep the iterator in the original, so the copy shows the original's value for ever, cannot be written or undone, and dangles once the original is gone."
  },
  {
   "property": "C93",
   "status": "partial",
   "theorems": [
    "C93_query_partial",
    "C93_undoable_query_partial",
    "C93_query_refuted"
   ],
   "note": "Exact classification for every query on every board that was used in any way, queries included, plain or undoable: it succeeds iff there is a card at its place, is undefined iff the place has a negative player or no single location, and is stopped by an assertion otherwise. As stated it is refuted by the undefined ones."
  },
  {
   "property": "C94",
   "status": "proved",
   "theorems": [
    "C94_board",
    "C94_undoable_board",
    "C94_cards"
   ],
   "note": "Card contents are proved for plain boards; for boards with memory the board and its history are proved, the contents per query in C76-C77."
  },
  {
   "property": "C95",
   "status": "proved",
   "theorems": [
    "C95_owner",
    "C95_release",
    "C95_no_leak"
   ],
   "note": "Node by node, in the model of the class as std::list and iterator, with the implicit copy and move operations; programs with copies included. std::list is taken to destroy the nodes of the target of an assignment rather than reuse them."
  },
  {
   "property": "C96",
   "status": "proved",
   "theorems": [
    "C96_seat"
   ],
   "note": "For duelists at one place (C63 says when that is). The history of a duelist is what it said at its seat while the room was being configured."
  },
  {
   "property": "C97",
   "status": "partial",
   "theorems": [
    "C97_twice_refuted",
    "C97_step_partial",
    "C97_run_partial",
    "C97_live_partial",
    "C97_end_partial"
   ],
   "note": "Refuted as stated: after undoing a removal, adding a card elsewhere takes the remembered card instead of a new one, so the card is at two places. Proved: an operation makes a card appear twice exactly when it takes out of the history a card that is on the board already (or one twice), for every frame that can be reached; programs without such a clash, in particular programs that undo nothing, never show a card twice."
  },
  {
   "property": "C98",
   "status": "proved",
   "theorems": [
    "C98_everybody",
    "C98_same_news"
   ],
   "note": "For every action in every session: at most two different announcements, each sent to every place of the room exactly once, and at most one client told something else (the one that acted or the one asked who goes first). Any two clients with one place each hear the same announcements in the same order from the moment both are in the room."
  },
  {
   "property": "C99",
   "status": "partial",
   "theorems": [
    "C99_copy_shares_partial",
    "C99_copy_run_partial",
    "C99_copy_stops",
    "C99_copy_dangles_partial",
    "C99_moved_shows_partial",
    "C99_moved_clear_partial",
    "C99_copy_refuted",
    "C99_copy_dangles_refuted",
    "C99_moved_clear_refuted"
   ],
   "note": "Refuted: BasicFrame's implicit copy constructor (usable when the card type can be copied, which BasicCard cannot) copies the card nodes but keeps the pointers, so removing a card through a copy aborts (C99_copy_refuted), and cards shown by a copy dangle once the original destroys them (C99_copy_dangles_refuted); a moved-from frame keeps the pointers of its zones and aborts when cleared (C99_moved_clear_refuted). Proved: the copy shows the original's own cards (C99_copy_shares_partial), runs exactly like the original as long as no old card is destroyed and aborts otherwise (C99_copy_run_partial, C99_copy_stops), shows a valid card exactly as long as the original keeps it (C99_copy_dangles_partial); what a moved-from frame shows and when it can be cleared (C99_moved_shows_partial, C99_moved_clear_partial)."
  },
  {
   "property": "C100",
   "status": "partial",
   "theorems": [
    "C100_message_partial",
    "C100_stream_partial",
    "C100_swap_partial",
    "C100_reload_partial",
    "C100_size_refuted"
   ],
   "note": "C100_message_partial: every message but MSG_RELOAD_FIELD and MSG_SWAP_GRAVE_DECK sends (or sets aside) at most 25 entries more than the bytes it reads; the bound is reached by MSG_FIELD_DISABLED. C100_stream_partial: over any stream of such messages the entries sent are at most the bytes used plus 25 per message, and each message uses a byte. C100_swap_partial: a graveyard and deck swap sends at most half as many operations as the graveyard has cards, plus 2. C100_reload_partial: a field reload sends at most one entry per byte, plus one for every material it announces. Refuted for reloads (C100_size_refuted): the material counts are 32-bit numbers that are followed by no data, and one entry is made for each (encode.cpp:884-905), so 100 bytes make a message with any number of entries below 2^31."
  },
  {
   "property": "C101",
   "status": "proved",
   "theorems": [
    "C101_server",
    "C101_server_new",
    "C101_viewer",
    "C101_seen",
    "C101_back"
   ],
   "note": "C101_server: whatever events and queries the server's board is given, giving them with the players exchanged (places, controllers, life points of a state) has the same outcome, call for call the same card objects and results, with the players exchanged. C101_server_new says the same from a new board: it only differs in whose turn the board says it is until the first turn event. C101_viewer: the same for undoable boards, from any board, with undoing and erasing the history. C101_seen: the same card is found at the other player's place. Controllers of life point events are taken to be ints; what a query says about a card is not exchanged."
  },
  {
   "property": "C102",
   "status": "proved",
   "theorems": [
    "C102_alike",
    "C102_heard"
   ],
   "note": "Equivariance: every room operation, and so every session, commutes with an injective renaming of the clients (with the users, the validator and the random numbers carried over). C102_heard reads off what each client hears and where it sits. The order in which different spectators are sent the same event follows the addresses in the C++ set; the model keeps the order of arrival, which per-client statements do not show."
  },
  {
   "property": "C103",
   "status": "proved",
   "theorems": [
    "C103_same_verdict",
    "C103_unready"
   ],
   "note": "Two-run statements about whole sessions. C103_same_verdict: decks replaced by others with the same verdict leave everything the same but the stored decks and the text of the owner's complaints. C103_unready: if the owners never signal to be ready, even the verdict may differ and nobody else can tell."
  },
  {
   "property": "C104",
   "status": "proved",
   "theorems": [
    "C104_memory"
   ],
   "note": "Alloc.v repeats the operations that construct cards with an arbitrary allocator, which may hand out the address of a destroyed card again. Every sequence of events and queries ends the same way as in Frame.v, with a board that looks the same, the same cards in the same order in the list of cards, the same query results, and every card at exactly one place. Undoable frames never destroy a card, so nothing can be reused there."
  },
  {
   "property": "C105",
   "status": "proved",
   "theorems": [
    "C105_order"
   ],
   "note": "RoomLoose.v keeps the set of spectators in any order, in particular that of the addresses, which Room.v does not. Every history has the same outcome, the same room but for that order, and every client hears the same events in the same order."
  },
  {
   "property": "C106",
   "status": "proved",
   "theorems": [
    "C106_names",
    "C106_current"
   ],
   "note": "RoomLoose.v lets what a client answers to fill_user change from call to call. Names influence nothing but the users shown (C106_names), and whatever is said about a duelist in answer to a call is true of the room and names the user as the client gives it at that call (C106_current)."
  },
  {
   "property": "C107",
   "status": "proved",
   "theorems": [
    "C107_constant",
    "C107_accepted",
    "C107_start"
   ],
   "note": "RoomMood.v lets the validator's verdicts change from call to call. C107_constant: everybody hears what they would hear with some unchanging validator and other decks, so the properties of the room that do not mention decks carry over. C107_accepted and C107_start: seats hold exactly decks their clients handed in and that were accepted then, all of them when the duel is about to start."
  },
  {
   "property": "C108",
   "status": "proved",
   "theorems": [
    "C108_board",
    "C108_undo",
    "C108_query",
    "C108_answer",
    "C108_chain",
    "C108_encoder",
    "C108_duel",
    "C108_room",
    "C108_viewer"
   ],
   "note": "Models of a build with NDEBUG: Release.v, ReleaseUndo.v, ReleaseEncode.v, ReleaseRoom.v. Whatever goes through with assertions goes the same way without."
  },
  {
   "property": "C109",
   "status": "proved",
   "theorems": [
    "C109_answers",
    "C109_selection"
   ],
   "note": "In a build without assertions."
  },
  {
   "property": "C110",
   "status": "proved",
   "theorems": [
    "C110_total",
    "C110_host",
    "C110_kept"
   ],
   "note": "In a build without assertions."
  },
  {
   "property": "C111",
   "status": "proved",
   "theorems": [
    "C111_board",
    "C111_context",
    "C111_once",
    "C111_lost",
    "C111_stays",
    "C111_careful"
   ],
   "note": "In a build without assertions; also for boards (C111_board) and the encoder's context (C111_context)."
  },
  {
   "property": "C112",
   "status": "proved",
   "theorems": [
    "C112_same",
    "C112_nothing"
   ],
   "note": "In a build without assertions; contexts are those reachable there."
  },
  {
   "property": "C113",
   "status": "proved",
   "theorems": [
    "C113_same",
    "C113_accepted_iff"
   ],
   "note": "In a build without assertions. The chain is excepted from what both show; what the board with a history shows as its chain is stated instead. Only forward play: undoing without assertions is compared with undoing with them (C108)."
  },
  {
   "property": "C114",
   "status": "proved",
   "theorems": [
    "C114_board",
    "C114_notes",
    "C114_reason",
    "C114_exactly",
    "C114_leaves"
   ],
   "note": "Of its context encode_one uses the sizes of the piles and which zones have materials, the notes only for MSG_MOVE, the match win reason only for MSG_WIN; exactly seven message types have anything to do with the context; the board is left as it was."
  },
  {
   "property": "C115",
   "status": "proved",
   "theorems": [
    "C115_asked",
    "C115_runs",
    "C115_stopped",
    "C115_else"
   ],
   "note": "C115_asked and C115_runs give an exact condition; C115_stopped excepts shuffles of nothing, which are undefined with assertions and do nothing without (C115_nothing_ex)."
  },
  {
   "property": "C116",
   "status": "proved",
   "theorems": [
    "C116_undo_iff",
    "C116_undo_always",
    "C116_values",
    "C116_shuffle"
   ],
   "note": "For every sequence of events an undoable board takes without assertions and every next event that adds, removes, moves or exchanges cards or piles: undoing it gives the scene back exactly if none of its steps put a card on an occupied zone. Undoing a shuffle leaves the board as it is. Undoing several events in a row without assertions is not covered."
  },
  {
   "property": "C117",
   "status": "proved",
   "theorems": [
    "C117_alive",
    "C117_always"
   ],
   "note": "C117_alive: whatever history of entries and signals, if nobody enters twice, some deck is acceptable and the first turn method works, the history runs through and some continuation reaches the decision about the first turn. C117_always: this holds after every extension, and the decision is never left again. The conditions cannot be dropped: see C85_starts_refuted and C71_method_iff_partial."
  }
 ]
}
