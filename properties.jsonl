{"id": "C01", "title": "popcnt is the Hamming weight", "statement": "popcnt(x) returns exactly the number of 1 bits of x, and the portable loop always terminates.", "quantifier": "every unsigned integer x of every width", "why_tests_cant": "the domain is 2^32 or 2^64 values; the loop's termination is not observable by sampling", "anchors": ["include/ygopen/bit.hpp: popcnt"]}
{"id": "C02", "title": "chooser picks the lowest set bits", "statement": "chooser(count, x) returns a value whose 1 bits are exactly the min(count, popcnt(x)) least significant 1 bits of x, for every operand type of at most 32 bits.", "quantifier": "every count and every x, widths up to 32", "why_tests_cant": "quantifies over all pairs (count, x)", "anchors": ["include/ygopen/bit.hpp: chooser"]}
{"id": "C03", "title": "choosel picks the highest set bits", "statement": "choosel(count, x) returns a value whose 1 bits are exactly the min(count, popcnt(x)) most significant 1 bits of x.", "quantifier": "every count and every x, widths up to 32", "why_tests_cant": "quantifies over all pairs; the unit tests never set the top bit together with count 0", "anchors": ["include/ygopen/bit.hpp: choosel"]}
{"id": "C04", "title": "bit choosers are defined for 64-bit operands", "statement": "choosel and chooser accept any unsigned T (only static_assert is_unsigned); for uint64_t operands they must have defined behaviour and choose among all 64 bits.", "quantifier": "every count and every 64-bit x", "why_tests_cant": "undefined behaviour (shift of a 32-bit 1U by 32 or more) may look right on one compiler and wrong on another", "anchors": ["include/ygopen/bit.hpp: choosel, chooser"]}
{"id": "C05", "title": "Place ordering is a strict total order", "statement": "PlaceLess is irreflexive, transitive and total up to operator==, and operator== holds exactly when con, loc, seq and oseq all agree, so Place is a sound std::map key.", "quantifier": "all pairs and triples of places", "why_tests_cant": "strict-weak-order laws quantify over all triples of 4-field values", "anchors": ["include/ygopen/proto/duel/data.hpp: PlaceLess, operator=="]}
{"id": "C06", "title": "Location classification", "statement": "Every location constant is exactly one of empty, pile or zone; is_pile/is_zone/is_empty agree with it, and zone_seq_lim is defined exactly on the five zone constants, giving 7, 5, 1, 2 and 1.", "quantifier": "all 32-bit location values", "why_tests_cant": "the classification is bit-mask based, so it must be checked over all combinations, not only the named constants", "anchors": ["include/ygopen/duel/constants/location.hpp: is_empty, is_pile, is_zone", "include/ygopen/client/frame.hpp: zone_seq_lim"]}
{"id": "C07", "title": "Card conservation", "statement": "After any sequence of frame operations that does not abort, every live card is referenced from exactly one position of the frame (a pile index, a zone, or a material index), no position holds a null or destroyed card where one is required, and no live card is unreferenced.", "quantifier": "every finite sequence of card_add, card_remove, card_move, card_swap, card_shuffle, pile_resize, pile_splice, pile_swap and clear with arbitrary places and counts", "why_tests_cant": "the invariant ranges over unbounded operation histories", "anchors": ["include/ygopen/client/frame.hpp: BasicFrame"]}
{"id": "C08", "title": "card_add effect", "statement": "When card_add(p) succeeds, the returned card is new, has_card(p) holds, card(p) is that card, cards at or above the index in the same list move up by one, and every other pile and zone is unchanged.", "quantifier": "every reachable frame and every place", "why_tests_cant": "must hold for all frames, places and list lengths", "anchors": ["include/ygopen/client/frame.hpp: card_add, card_insert, insert_at_, has_card, card"]}
{"id": "C09", "title": "card_remove effect", "statement": "When card_remove(p) succeeds, exactly the card at p disappears from the frame and is destroyed, the cards above it move down by one, and every other pile and zone is unchanged; card_remove(p) right after card_add(p) restores the frame.", "quantifier": "every reachable frame and every place", "why_tests_cant": "must hold for all frames and places", "anchors": ["include/ygopen/client/frame.hpp: card_remove, card_erase, destruct_card"]}
{"id": "C10", "title": "card_move relocates and is invertible", "statement": "When card_move(from, to) succeeds it returns the card that was at from, that card is afterwards at to, a zone-to-zone move of a card carries its materials along, other piles and zones are unchanged, and card_move(to, from) restores the frame exactly.", "quantifier": "every reachable frame and every pair of places for which the move does not abort", "why_tests_cant": "nine source/target shape combinations times arbitrary contents, including same-pile and same-zone aliasing", "anchors": ["include/ygopen/client/frame.hpp: card_move, take_at_, insert_at_"]}
{"id": "C11", "title": "card_swap exchanges two cards", "statement": "card_swap(a, b) exchanges the cards at a and b (with their materials when both are zone cards), leaves everything else alone, and applying it twice restores the frame.", "quantifier": "every reachable frame and every pair of occupied places", "why_tests_cant": "unit tests only use seq 0 and oseq 0, where wrong indices coincide", "anchors": ["include/ygopen/client/frame.hpp: card_swap"]}
{"id": "C12", "title": "card_shuffle realises the announced permutation", "statement": "card_shuffle(prev, cur) on one location with distinct previous and distinct non-empty current sequences leaves in each non-empty current place exactly the zone content that was at the corresponding previous place, and permutes zones without losing any.", "quantifier": "every frame, every number of shuffled cards up to the limit, every target assignment", "why_tests_cant": "n! permutations with optional holes", "anchors": ["include/ygopen/client/frame.hpp: card_shuffle"]}
{"id": "C13", "title": "pile_resize", "statement": "pile_resize(p, n) leaves a pile of exactly n cards whose first min(n, old size) cards are the old ones in order; grown cards are new, cut cards are destroyed; nothing else changes.", "quantifier": "every frame, pile and count", "why_tests_cant": "unbounded sizes", "anchors": ["include/ygopen/client/frame.hpp: pile_resize"]}
{"id": "C14", "title": "pile_splice", "statement": "pile_splice(from, n, to, reverse) removes the n cards starting at from and inserts them, in order or reversed, at to.seq of the target pile as it is after the removal; no card is lost or duplicated; splicing back with the same flag restores both piles.", "quantifier": "every frame, all piles including from and to in the same pile, all offsets and counts", "why_tests_cant": "all offset/count/aliasing combinations", "anchors": ["include/ygopen/client/frame.hpp: pile_splice"]}
{"id": "C15", "title": "pile_swap", "statement": "pile_swap(a, b) exchanges two whole piles, leaves everything else unchanged, and is its own inverse.", "quantifier": "every frame and pair of piles", "why_tests_cant": "all frames", "anchors": ["include/ygopen/client/frame.hpp: pile_swap"]}
{"id": "C16", "title": "clear empties the frame", "statement": "After clear() every pile and zone is empty and every card has been destroyed.", "quantifier": "every reachable frame", "why_tests_cant": "all frames", "anchors": ["include/ygopen/client/frame.hpp: clear"]}
{"id": "C17", "title": "Frame accessors reject bad places by assertion", "statement": "With assertions enabled, has_card/card/pile/zone either succeed or stop on an assertion for every place; they never run into undefined behaviour.", "quantifier": "every place value (all controllers, locations, sequences)", "why_tests_cant": "undefined behaviour is not observable by tests; a place arrives from the network as four arbitrary integers", "anchors": ["include/ygopen/client/frame.hpp: pile_, zone_, has_card, card_"]}
{"id": "C18", "title": "has_card predicts card", "statement": "On a valid place, card(p) succeeds exactly when has_card(p) is true, and then returns a live card.", "quantifier": "every reachable frame and every valid place", "why_tests_cant": "all frames and places", "anchors": ["include/ygopen/client/frame.hpp: has_card, card_"]}
{"id": "C19", "title": "Limbo undo of card_add and card_remove", "statement": "Undoing a card_add or card_remove at the same place restores the frame exactly and returns the same card object.", "quantifier": "every reachable limbo frame at any history position", "why_tests_cant": "all frames, places and history positions", "anchors": ["include/ygopen/client/frame_limbo.hpp: card_add, card_remove, undo_card_add, undo_card_remove"]}
{"id": "C20", "title": "Limbo undo of pile_resize", "statement": "undo_pile_resize after pile_resize restores the pile to its previous contents, whether the resize grew or shrank it.", "quantifier": "every pile, old size and new size", "why_tests_cant": "TODO in the unit tests; index arithmetic must be right for every pair of sizes", "anchors": ["include/ygopen/client/frame_limbo.hpp: pile_resize, undo_pile_resize"]}
{"id": "C21", "title": "Limbo undo of clear", "statement": "undo_clear after clear restores every pile and zone, and redoing the clear empties them again.", "quantifier": "every reachable limbo frame", "why_tests_cant": "all frames", "anchors": ["include/ygopen/client/frame_limbo.hpp: clear, undo_clear, swap_clear_op_"]}
{"id": "C22", "title": "Limbo card identity is stable", "statement": "A card object created by a limbo frame is never destroyed, and redoing an undone card_add re-inserts the very same object rather than a new one.", "quantifier": "every sequence of do, undo and redo operations", "why_tests_cant": "unbounded histories", "anchors": ["include/ygopen/client/frame_limbo.hpp: LimboFrame"]}
{"id": "C23", "title": "Limbo erase_history", "statement": "erase_history() leaves the visible frame unchanged, forgets the operations after the current position, and the next operation is treated as a new one; at the live end it is a no-op.", "quantifier": "every history position", "why_tests_cant": "unbounded histories", "anchors": ["include/ygopen/client/frame_limbo.hpp: erase_history, advance_op_"]}
{"id": "C24", "title": "Undoable value is a cursor over its history", "statement": "After any sequence of assignments and undos, the current value is the (a-u)-th entry of the recorded history, where assigning at the live end appends and assigning elsewhere only moves forward and discards the given value.", "quantifier": "every finite sequence of assignments and undos", "why_tests_cant": "unbounded histories", "anchors": ["include/ygopen/client/undoable.hpp: BasicUndoable"]}
{"id": "C25", "title": "Undoable undo restores the previous value", "statement": "An assignment followed by undo() restores the previously observed value at any history position; undo() at the oldest value stops on an assertion.", "quantifier": "every history and position", "why_tests_cant": "unbounded histories", "anchors": ["include/ygopen/client/undoable.hpp: operator=, undo"]}
{"id": "C26", "title": "Life point arithmetic", "statement": "An LP event sets the named player's LP to: the value (become), max(0, LP - n) (damage, pay), LP + n (recover); the other player's LP and the rest of the board are untouched.", "quantifier": "every LP value, amount and player", "why_tests_cant": "2^64 value pairs, including the wrap-around at 2^32", "anchors": ["include/ygopen/client/parse_event.hpp: parse_event kLp"]}
{"id": "C27", "title": "Turn and phase events", "statement": "next_turn increments the turn counter by one and sets the turn controller; next_phase sets the phase; zone_block replaces the blocked zones; chain push/pop act as a stack; each touches nothing else; finish and meta events change nothing.", "quantifier": "every board and every event", "why_tests_cant": "all boards", "anchors": ["include/ygopen/client/parse_event.hpp: parse_event"]}
{"id": "C28", "title": "A state event does not depend on the previous board", "statement": "After a board State event, the life points, chain stack and frame layout are exactly those described by the event, whatever the board was before (the turn counter is kept when negative).", "quantifier": "every previous board and every State event", "why_tests_cant": "all pairs of boards and events", "anchors": ["include/ygopen/client/parse_event.hpp: parse_event kState"]}
{"id": "C29", "title": "Board accessors reject out-of-range controllers", "statement": "lp(con) stops on an assertion for every con other than 0 and 1.", "quantifier": "every controller value", "why_tests_cant": "an off-by-one assertion passes every in-range test", "anchors": ["include/ygopen/client/board.hpp: lp"]}
{"id": "C30", "title": "undo_parse_event inverts parse_event", "statement": "On an undoable board, undo_parse_event(e) directly after parse_event(e) restores frame, life points, turn, turn controller, phase, chain stack and blocked zones, for every event the undo supports.", "quantifier": "every undoable board at any history position and every supported event", "why_tests_cant": "the product of all event shapes and board states", "anchors": ["include/ygopen/client/undo_parse_event.hpp: undo_parse_event", "include/ygopen/client/parse_event.hpp: parse_event"]}
{"id": "C31", "title": "Replay scrubbing", "statement": "Walking forwards and backwards through a recorded list of events with parse_event/undo_parse_event, the board after the walk depends only on the current position, not on the path taken.", "quantifier": "every event list and every walk", "why_tests_cant": "unbounded walks over unbounded lists", "anchors": ["include/ygopen/client/parse_event.hpp: parse_event", "include/ygopen/client/undo_parse_event.hpp: undo_parse_event"]}
{"id": "C32", "title": "Every parsed event can be undone", "statement": "For every event that parse_event accepts on an undoable board, undo_parse_event of the same event does not abort.", "quantifier": "every event kind", "why_tests_cant": "several undo operations are stubs; only per-kind coverage shows which", "anchors": ["include/ygopen/client/undoable.hpp: push_back, pop_back, undo_push_back", "include/ygopen/client/frame_limbo.hpp: undo_card_shuffle"]}
{"id": "C33", "title": "parse_query writes exactly the present fields", "statement": "parse_query sets each field present in the query on the card at the query's place to the query's value and leaves every absent field, every other card and the layout unchanged.", "quantifier": "every frame, place and subset of the 24 fields", "why_tests_cant": "2^24 subsets of fields times all values", "anchors": ["include/ygopen/client/parse_query.hpp: parse_query"]}
{"id": "C34", "title": "parse_query cache hits", "statement": "With caching, a field's hit bit is set exactly when the field is present and equal to the stored value; the resulting card is the same as without caching; without caching no bit is set.", "quantifier": "every card, query and field subset", "why_tests_cant": "2^24 subsets", "anchors": ["include/ygopen/client/parse_query.hpp: parse_query, QueryCacheHit"]}
{"id": "C35", "title": "encode_one result discipline", "statement": "Whenever encode_one returns, bytes_read >= 1, and the message pointer is non-null exactly when the state is OK.", "quantifier": "every byte buffer and every context", "why_tests_cant": "all buffers", "anchors": ["src/codec/edo9300_ocgcore_encode.cpp: encode_one", "include/ygopen/codec/encode_common.hpp: EncodeOneResult"]}
{"id": "C36", "title": "encode_one knows exactly the handled core messages", "statement": "encode_one returns UNKNOWN exactly for the message bytes it does not handle, and then it has consumed one byte.", "quantifier": "all 256 leading bytes and all buffers", "why_tests_cant": "all buffers", "anchors": ["src/codec/edo9300_ocgcore_encode.cpp: encode_one"]}
{"id": "C37", "title": "encode_one looks only at the bytes it reports", "statement": "If encode_one succeeds with bytes_read = n then its result depends only on the first n bytes of the buffer: any other buffer with the same first n bytes gives the same result.", "quantifier": "every buffer, every continuation, every context", "why_tests_cant": "all buffers and continuations", "anchors": ["src/codec/edo9300_ocgcore_encode.cpp: encode_one"]}
{"id": "C38", "title": "Stream framing", "statement": "For every core message laid out according to the core's format, followed by arbitrary bytes, encode_one consumes exactly that message, so a concatenation of messages is split correctly.", "quantifier": "every message value of every handled type and every suffix", "why_tests_cant": "list counts and contents are unbounded", "anchors": ["src/codec/edo9300_ocgcore_encode.cpp: encode_one"]}
{"id": "C39", "title": "Event contents survive encoding", "statement": "For every core event message, the encoded event carries exactly the fields of the core message (places, amounts, controllers, phases, statuses).", "quantifier": "every core event message", "why_tests_cant": "unbounded lists, full integer ranges", "anchors": ["src/codec/edo9300_ocgcore_encode.cpp: encode_one event cases"]}
{"id": "C40", "title": "Request contents survive encoding", "statement": "For every core request message, the encoded request carries exactly the replier and the choices of the core message, in order.", "quantifier": "every core request message", "why_tests_cant": "unbounded lists, full integer ranges", "anchors": ["src/codec/edo9300_ocgcore_encode.cpp: encode_one request cases"]}
{"id": "C41", "title": "encode_one_query reads any well-formed query", "statement": "For every sequence of query items in the core's format ending with the end marker, encode_one_query terminates, consumes exactly those bytes, reports the last value of each field and the overlay list, and skips unknown items by their declared size.", "quantifier": "every finite item sequence, including unknown flags", "why_tests_cant": "unbounded item sequences", "anchors": ["src/codec/edo9300_ocgcore_encode.cpp: encode_one_query"]}
{"id": "C42", "title": "Query batches are assigned to the right places", "statement": "MSG_UPDATE_DATA attributes the i-th non-empty query to sequence i of the given location (with the core's spell-zone sequences 5, 6, 7 mapped to field and pendulum zones) and each overlay code to the material index it has in the core.", "quantifier": "every batch, including empty slots", "why_tests_cant": "unbounded batches", "anchors": ["src/codec/edo9300_ocgcore_encode.cpp: encode_one MSG_UPDATE_DATA"]}
{"id": "C43", "title": "Zone bitmask decoding", "statement": "Zone selections and blocked-zone messages list a zone exactly when its bit is clear, in the replier-relative half for selections, and each listed zone is a valid place.", "quantifier": "all 2^32 bitmasks and both players", "why_tests_cant": "2^32 masks", "anchors": ["src/codec/edo9300_ocgcore_encode.cpp: unpack_zones"]}
{"id": "C44", "title": "Spell-zone sequence fix", "statement": "Core spell-zone sequences 0-4 map to spell zone 0-4, 5 to the field zone, 6 and 7 to the pendulum zones; the map is injective and yields valid places; other locations are untouched.", "quantifier": "every location and sequence", "why_tests_cant": "all pairs", "anchors": ["src/codec/edo9300_ocgcore_encode.cpp: fix_spell_loc_seq"]}
{"id": "C45", "title": "Effect and counter descriptors", "statement": "Splitting an effect descriptor into code and index, or a counter word into type and count, loses no information.", "quantifier": "all 64-bit effect descriptors and 32-bit counter words", "why_tests_cant": "2^64 descriptors; truncation only shows on large values", "anchors": ["src/codec/edo9300_ocgcore_encode.cpp: read_effect, read_counter"]}
{"id": "C46", "title": "Overlay locations", "statement": "A location with the overlay bit set is reported as the location without it plus a non-negative material index; otherwise the material index is OSEQ_INVALID.", "quantifier": "every location info", "why_tests_cant": "all location infos", "anchors": ["src/codec/edo9300_ocgcore_encode.cpp: read_loc_info"]}
{"id": "C47", "title": "Draw end to end", "statement": "Feeding a draw of n cards through encode_one and parse_event moves the top n cards of that player's deck, top card first, to the end of that player's hand, and changes nothing else.", "quantifier": "every board with at least n cards in the deck", "why_tests_cant": "unbounded piles", "anchors": ["src/codec/edo9300_ocgcore_encode.cpp: MSG_DRAW", "include/ygopen/client/parse_event.hpp: parse_event kPile", "include/ygopen/client/frame.hpp: pile_splice"]}
{"id": "C48", "title": "Deck reversal end to end", "statement": "MSG_REVERSE_DECK through encode_one and parse_event reverses both main decks in place and changes nothing else.", "quantifier": "every board", "why_tests_cant": "unbounded piles", "anchors": ["src/codec/edo9300_ocgcore_encode.cpp: MSG_REVERSE_DECK", "include/ygopen/client/parse_event.hpp: parse_event kPile"]}
{"id": "C49", "title": "Graveyard/deck swap end to end", "statement": "MSG_SWAP_GRAVE_DECK through encode_one and parse_event turns the old deck into the graveyard, the old graveyard minus flagged cards into the deck, and inserts the flagged cards in order at the given extra-deck position.", "quantifier": "every board and every flag bitmap", "why_tests_cant": "2^n bitmaps over unbounded graveyards; run-length grouping must be right for each", "anchors": ["src/codec/edo9300_ocgcore_encode.cpp: MSG_SWAP_GRAVE_DECK", "include/ygopen/client/parse_event.hpp: parse_event kPile"]}
{"id": "C50", "title": "Duel start end to end", "statement": "MSG_START through encode_one and parse_event yields turn 0, the given life points, decks and extra decks of the given sizes, and otherwise an empty field, from any previous board.", "quantifier": "every board and every start message", "why_tests_cant": "all boards and sizes", "anchors": ["src/codec/edo9300_ocgcore_encode.cpp: MSG_START", "include/ygopen/client/parse_event.hpp: parse_event kState"]}
{"id": "C51", "title": "Field reload end to end", "statement": "MSG_RELOAD_FIELD through encode_one and parse_event yields exactly the occupied zones, material counts, pile sizes, life points and chain links described by the message.", "quantifier": "every board and every reload message", "why_tests_cant": "all occupancy patterns", "anchors": ["src/codec/edo9300_ocgcore_encode.cpp: MSG_RELOAD_FIELD", "include/ygopen/client/parse_event.hpp: parse_event kState"]}
{"id": "C52", "title": "Xyz material bookkeeping", "statement": "Materials announced as attached to a card outside the field are emitted, in order, as moves when the card reaches the field; a material detached from a card that left the field is moved from the zone the card left.", "quantifier": "every sequence of announcements", "why_tests_cant": "unbounded sequences of deferred materials", "anchors": ["src/codec/edo9300_ocgcore_encode.cpp: MSG_MOVE", "include/ygopen/server/basic_encode_context.hpp: BasicEncodeContext"]}
{"id": "C53", "title": "Match win reason", "statement": "A win message reports the reason of the last match-kill message, and 0 if there was none.", "quantifier": "every message history", "why_tests_cant": "depends on history and on an uninitialised member", "anchors": ["src/codec/edo9300_ocgcore_encode.cpp: MSG_WIN, MSG_MATCH_KILL", "include/ygopen/server/basic_encode_context.hpp: match_win_reason_"]}
{"id": "C54", "title": "Integer answers", "statement": "Attribute, card code, effect, number, position, race, rock-paper-scissors, chain index and yes/no answers are written as one 4-byte little-endian integer from which the core recovers the answered value.", "quantifier": "every answer value of the proto type", "why_tests_cant": "full integer ranges; truncation appears only for large values", "anchors": ["src/codec/edo9300_ocgcore_decode.cpp: decode_one_answer"]}
{"id": "C55", "title": "Card selection answers", "statement": "A card selection is written in the core's list format (or the select/unselect format when the request was recursive) and the core's reader recovers the same indexes; cancel and finish give -1.", "quantifier": "every index list", "why_tests_cant": "unbounded lists, 16-bit truncation", "anchors": ["src/codec/edo9300_ocgcore_decode.cpp: decode_one_answer kSelectCard"]}
{"id": "C56", "title": "Idle and battle command answers", "statement": "For each idle/battle command the written integer is the core's command code for the request kind with the card index in the upper half.", "quantifier": "every action, index, phase and request kind", "why_tests_cant": "all combinations", "anchors": ["src/codec/edo9300_ocgcore_decode.cpp: decode_one_answer kSelectIdle"]}
{"id": "C57", "title": "Zone answers invert zone requests", "statement": "Answering with a place offered by a zone request yields the core's own (player, location, sequence) for that zone.", "quantifier": "every zone that encode_one can offer", "why_tests_cant": "field and pendulum zones use constants above 255, invisible in tests of monster zones", "anchors": ["src/codec/edo9300_ocgcore_decode.cpp: decode_one_answer kSelectZone", "src/codec/edo9300_ocgcore_encode.cpp: unpack_zones"]}
{"id": "C58", "title": "Sort answers", "statement": "A sort answer is written as a count followed by one byte per index, and the core's reader recovers the indexes; skipping gives -1.", "quantifier": "every index list", "why_tests_cant": "unbounded lists", "anchors": ["src/codec/edo9300_ocgcore_decode.cpp: decode_one_answer kSort"]}
{"id": "C59", "title": "Unsupported answers do not disturb the output", "statement": "Answers that are not set, or that the decoder does not implement, leave the output buffer as it was.", "quantifier": "every output buffer", "why_tests_cant": "all buffers", "anchors": ["src/codec/edo9300_ocgcore_decode.cpp: decode_one_answer"]}
{"id": "C60", "title": "Room options are clamped", "statement": "After construction the room has exactly two team sizes, each between 1 and 3, whatever the options said; the host is seated at team 0 position 0.", "quantifier": "every options message", "why_tests_cant": "unbounded repeated field, 32-bit values", "anchors": ["include/ygopen/server/room.hpp: clamp_options_, BasicRoom"]}
{"id": "C61", "title": "Seating stays within the configured team sizes", "statement": "At all times a seated client's position is below its team's maximum.", "quantifier": "every history of enters and signals", "why_tests_cant": "unbounded histories", "anchors": ["include/ygopen/server/room.hpp: on_client_enter_"]}
{"id": "C62", "title": "Teams are filled evenly", "statement": "While configuring, a new client is seated in the team with fewer duelists (team 0 on a tie) unless that team is full, at its first free position; it becomes a spectator only when both teams are full.", "quantifier": "every reachable room", "why_tests_cant": "unbounded histories", "anchors": ["include/ygopen/server/room.hpp: find_empty_duelist_slot"]}
{"id": "C63", "title": "A client occupies at most one place in the room", "statement": "No client is ever seated twice, or seated and spectating at once.", "quantifier": "every history of enters, including repeated ones", "why_tests_cant": "only repeated enters reveal it", "anchors": ["include/ygopen/server/room.hpp: on_client_enter_"]}
{"id": "C64", "title": "Readiness implies a valid deck", "statement": "At all times a duelist shown as ready has a valid deck.", "quantifier": "every history of signals", "why_tests_cant": "needs a particular order of signals", "anchors": ["include/ygopen/server/room.hpp: on_client_signal_ kUpdateDeck, kReadyStatus"]}
{"id": "C65", "title": "Starting requires the host and everybody ready", "statement": "The room leaves the configuring state only on a start signal by the host, when both teams have a duelist and every duelist has a valid deck and is ready.", "quantifier": "every history", "why_tests_cant": "unbounded histories", "anchors": ["include/ygopen/server/room.hpp: on_client_signal_ kStartDueling"]}
{"id": "C66", "title": "Clients' mirrors agree with the room", "statement": "A client that folds the events it received since it entered obtains exactly the room's duelist table (team, position, user, host flag, ready flag) and spectator count (as a 32-bit number).", "quantifier": "every history, every client in the room", "why_tests_cant": "unbounded histories and clients", "anchors": ["include/ygopen/server/room.hpp: on_client_enter_, on_client_signal_, send_all_"]}
{"id": "C67", "title": "Deck verdicts are private and accurate", "statement": "An update_deck signal is answered to its sender only, with an error exactly when the validator rejected the deck, and stores the deck exactly when it was accepted.", "quantifier": "every history, deck and validator", "why_tests_cant": "all validators", "anchors": ["include/ygopen/server/room.hpp: on_client_signal_ kUpdateDeck"]}
{"id": "C68", "title": "Signals of the wrong state or sender change nothing", "statement": "A signal that does not belong to the current state, comes from an unseated client, or is a start/choice by a non-host neither changes the room nor sends anything.", "quantifier": "every reachable room, client and signal", "why_tests_cant": "unbounded histories", "anchors": ["include/ygopen/server/room.hpp: visit, on_client_signal_"]}
{"id": "C69", "title": "Dice and coin are honest", "statement": "The announced dice results are pairs of values in 1..6 of which only the last is not a tie, and the winner is the team with the higher last roll; the coin's winner matches the announced side; the winning team's leader, and nobody else, is asked to decide.", "quantifier": "every random stream", "why_tests_cant": "all random streams, unboundedly many ties", "anchors": ["include/ygopen/server/room.hpp: on_enter_state_(DecidingFirstTurn)"]}
{"id": "C70", "title": "The asked client can decide who goes first", "statement": "Whichever client was asked to decide the first turn, its choice of team 0 or 1 is announced to everybody, and nobody else's is.", "quantifier": "every first-turn method and every history", "why_tests_cant": "all methods and histories", "anchors": ["include/ygopen/server/room.hpp: on_client_signal_(DecidingFirstTurn)"]}
{"id": "C71", "title": "The room never aborts", "statement": "No sequence of enters and signals by clients makes the room stop on an assertion or reach undefined behaviour.", "quantifier": "every options message, history and random stream", "why_tests_cant": "unbounded histories", "anchors": ["include/ygopen/server/room.hpp: BasicRoom"]}
{"id": "C72", "title": "Events stay in the room", "statement": "Every event sent by an enter or a signal goes to a client that is seated or spectating in the room.", "quantifier": "every history and action", "why_tests_cant": "unbounded histories", "anchors": ["include/ygopen/server/room.hpp: send_all_, send_"]}
{"id": "C73", "title": "Nobody loses their place", "statement": "An enter or a signal never takes a seated client's seat or a spectator's place away, whoever sent it.", "quantifier": "every history and action", "why_tests_cant": "unbounded histories", "anchors": ["include/ygopen/server/room.hpp: on_client_enter_, on_client_signal_"]}
{"id": "C74", "title": "Duels start with accepted decks only", "statement": "Once the room has left the configuring state both teams have a duelist, and every duelist is ready with a stored deck which the validator accepts under the room's banlist.", "quantifier": "every history and validator", "why_tests_cant": "unbounded histories, all validators", "anchors": ["include/ygopen/server/room.hpp: on_client_signal_ kStartDueling, kUpdateDeck"]}
{"id": "C75", "title": "Ready signals take effect exactly when allowed", "statement": "A ready signal of a seated client sets its flag to the given value, except that becoming ready needs a valid deck; everybody is told of the change exactly when there is one, and nothing else changes.", "quantifier": "every history, client and value", "why_tests_cant": "needs particular orders of signals", "anchors": ["include/ygopen/server/room.hpp: on_client_signal_ kReadyStatus"]}
{"id": "C76", "title": "Queries on undoable cards", "statement": "On a card with undoable members, parse_query makes each field present in the query show the query's value and keeps the value shown before as the next one to undo to, except that with caching an unchanged cached field records nothing; absent fields, other cards and the layout are unchanged; the hits are those of a plain card showing the same.", "quantifier": "every frame, place, field subset and member history", "why_tests_cant": "2^24 subsets of fields over unbounded histories", "anchors": ["include/ygopen/client/parse_query.hpp: parse_query", "include/ygopen/client/undoable.hpp: operator="]}
{"id": "C77", "title": "A query can be taken back from its hits", "statement": "Undoing exactly the fields present in a query without a hit restores what every card showed before it, and parsing the query again then gives the very same frame and hits.", "quantifier": "every frame at any history position and every query", "why_tests_cant": "2^24 subsets of fields over unbounded histories", "anchors": ["include/ygopen/client/parse_query.hpp: parse_query, QueryCacheHit", "include/ygopen/client/undoable.hpp: operator=, undo"]}
{"id": "C78", "title": "Replay scrubbing with queries", "statement": "Walking forwards and backwards through a recording of events and queries, the board and every card on it show what they showed when the recording was first played up to the current position, whatever the path taken.", "quantifier": "every recording and every walk", "why_tests_cant": "unbounded walks over unbounded recordings", "anchors": ["include/ygopen/client/parse_event.hpp: parse_event", "include/ygopen/client/undo_parse_event.hpp: undo_parse_event", "include/ygopen/client/parse_query.hpp: parse_query"]}
{"id": "C79", "title": "Replay viewers see what clients saw", "statement": "An undoable board that accepts a recording of events and queries shows the same board and cards, and returns the same hits, as a plain board given the same recording; a viewer scrubbing through events that can be undone sees at position i what a plain board shows after i items.", "quantifier": "every recording and every walk", "why_tests_cant": "two different frame implementations over unbounded recordings", "anchors": ["include/ygopen/client/parse_event.hpp: parse_event", "include/ygopen/client/parse_query.hpp: parse_query", "include/ygopen/client/frame_limbo.hpp: LimboFrame", "include/ygopen/client/frame.hpp: Frame"]}
{"id": "C80", "title": "The board mirrors the duel", "statement": "After any stream of core messages, the board of the encoding context has every card where the core has it, with its materials in order and everything the core told about it, and shows the core's life points, turn, phase, chain and blocked zones.", "quantifier": "every stream of well-formed messages that the duel specification follows", "why_tests_cant": "unbounded streams over an unbounded state space; the encoder has to infer materials from deferred moves", "anchors": ["src/codec/edo9300_ocgcore_encode.cpp: encode_one, parse_state, deferred moves", "include/ygopen/client/parse_event.hpp: parse_event", "include/ygopen/client/parse_query.hpp: parse_query", "include/ygopen/server/basic_encode_context.hpp: xyz_mat_defer, take_deferred_xyz_mat, has_xyz_mat, xyz_left"]}
{"id": "C81", "title": "The board keeps the core's books", "statement": "For any stream of core messages that plain bookkeeping of cards can follow, the board shows those cards in those places.", "quantifier": "every stream of well-formed messages", "why_tests_cant": "rare orders of messages: rank-ups, tokens as materials, cards put below others, tag duels", "anchors": ["src/codec/edo9300_ocgcore_encode.cpp: MSG_MOVE, MSG_TAG_SWAP", "include/ygopen/client/parse_event.hpp: parse_event"]}
{"id": "C82", "title": "A duel starts afresh", "statement": "After MSG_START nothing of an earlier duel is left in the encoding context or on its board: only unknown cards in decks, the given life points, turn 0, no phase, turn player, chain, blocked zones or deferred moves.", "quantifier": "every context", "why_tests_cant": "all histories of a reused context", "anchors": ["src/codec/edo9300_ocgcore_encode.cpp: MSG_START", "include/ygopen/client/parse_event.hpp: parse_state", "include/ygopen/server/basic_encode_context.hpp: BasicEncodeContext"]}
{"id": "C83", "title": "A replay of a duel shows the duel", "statement": "The events and queries the encoder makes of a duel can be recorded and watched on an undoable board: however a viewer steps forward and backward, with or without the query cache, no step fails, and whenever they stop after the items of the first k core messages the board shows the duel as it was after k messages.", "quantifier": "every duel (stream of core messages), every walk of the viewer", "why_tests_cant": "all interleavings of steps over all duels; needs the state of the core to compare with", "anchors": ["src/codec/edo9300_ocgcore_encode.cpp: encode_one", "include/ygopen/client/parse_event.hpp: parse_event", "include/ygopen/client/undo_parse_event.hpp: undo_event", "include/ygopen/client/parse_query.hpp: parse_query", "include/ygopen/client/frame_limbo.hpp: LimboFrame operations"]}
{"id": "C84", "title": "What a client picks from a request is what the core hears", "statement": "For every question of the core the encoded request lets a client pick exactly the choices the core accepts, and decoding an answer that respects the request gives bytes from which the core reads that choice and no other.", "quantifier": "every question, every answer that respects its request, every previous content of the output buffer", "why_tests_cant": "all questions times all answers; needs the reading side of the core", "anchors": ["src/codec/edo9300_ocgcore_encode.cpp: encode_one", "src/codec/edo9300_ocgcore_decode.cpp: decode_one_answer"]}
{"id": "C85", "title": "Cooperating clients get to the duel", "statement": "If every client that enters hands in an accepted deck and then says it is ready, in whatever order all this happens, the host's start signal moves the room on to deciding the first turn; conversely a room is never blocked for good while its clients cooperate.", "quantifier": "every room, every interleaving of the clients' signals", "why_tests_cant": "liveness over all interleavings; the converse is about all continuations", "anchors": ["include/ygopen/server/room.hpp: on_client_signal_(Configuring)", "include/ygopen/server/room.hpp: on_client_enter_(Configuring)"]}
{"id": "C86", "title": "Events that make no sense are stopped by assertions", "statement": "Applying or undoing any event, on a server's or a client's board in any reachable state, either succeeds or is stopped by an assertion, whatever the sequences, counts and material indices in it and whether or not the cards it talks about exist; nothing outside of the containers is ever accessed.", "quantifier": "every reachable board, every event whose places have a location of the board and a controller that is not negative", "why_tests_cant": "all broken events times all boards; undefined behaviour may go unnoticed in a test", "anchors": ["include/ygopen/client/frame.hpp: BasicFrame", "include/ygopen/client/frame_limbo.hpp: LimboFrame", "include/ygopen/client/parse_event.hpp: parse_event", "include/ygopen/client/undo_parse_event.hpp: undo_parse_event"]}
{"id": "C87", "title": "Which buffers the encoder cannot read", "statement": "Given any sequence of bytes, however broken, the encoder returns, is stopped by an assertion, or runs off the end of a buffer that is too short; anything else it cannot cope with is one of these: MSG_WIN to a default-initialised context that was told no win reason, a query whose flag is unknown and whose size is below four, MSG_MOVE from a location that is both rows at once to a pile or to nowhere, MSG_MOVE of a material of a card in a pile that is not known to have gone there.", "quantifier": "every byte sequence, every context reachable by encoding and parsing", "why_tests_cant": "all byte sequences of all lengths; reading past the end may go unnoticed in a test", "anchors": ["src/codec/edo9300_ocgcore_encode.cpp: encode_one", "src/codec/edo9300_ocgcore_encode.cpp: encode_one_query", "include/ygopen/codec/edo9300_ocgcore_encode.hpp: encode_one"]}
{"id": "C88", "title": "No message of the core breaks the server", "statement": "A server whose encoding context was shown nothing but well-formed messages of the core processes the next one, or is stopped by an assertion, however little the message fits the state of the duel.", "quantifier": "every context reached by well-formed messages, every next well-formed message and every rest of the buffer", "why_tests_cant": "messages that contradict the state of the duel are not produced by any test duel, and undefined behaviour often goes unnoticed", "anchors": ["src/codec/edo9300_ocgcore_encode.cpp: encode_one", "include/ygopen/client/parse_event.hpp: parse_event", "include/ygopen/client/parse_query.hpp: parse_query"]}
{"id": "C89", "title": "Clients can follow the server", "statement": "A client's undoable board that is sent everything the encoder made of a stream of core messages which the server's own board accepted accepts it too; at every message boundary it shows the server's board and cards after the same messages, and it can be stepped back and forth.", "quantifier": "every stream of well-formed core messages, every walk of the client", "why_tests_cant": "two frame implementations over unbounded streams; the failures depend on the sizes of piles at the moment of a tag swap", "anchors": ["src/codec/edo9300_ocgcore_encode.cpp", "include/ygopen/client/parse_event.hpp", "include/ygopen/client/undo_parse_event.hpp", "include/ygopen/client/frame_limbo.hpp"]}
{"id": "C90", "title": "Clients that join at a reload catch up", "statement": "A client with a fresh board that is sent the State event the encoder makes of MSG_RELOAD_FIELD and every event and query after it accepts and rejects exactly what a client that was there from the start does, and shows the same board: the same cards with the same contents in every pile, zone and overlay, the same life points and chain, and the same turn, turn player, phase and blocked zones.", "quantifier": "every history before the reload, every reload message, every stream of core messages after it, with and without the query cache, plain and undoable boards", "why_tests_cant": "Both boards have unbounded histories that differ before the reload; the claim relates two runs at every later point, which no pair of recorded duels covers.", "anchors": ["include/ygopen/client/parse_event.hpp", "include/ygopen/codec/encode_common.hpp"]}
{"id": "C91", "title": "Scrubbing loses no card and makes none", "statement": "However a viewer steps back and forth through a recorded duel on an undoable board, every card object ever made lies on the board or is referred to by the remembered operations, so that it can be shown again or freed; and the card objects are exactly those that parsing the recording once up to the furthest position visited makes. Forgetting undone operations with erase_history leaves no card behind.", "quantifier": "every recording of events and queries, every walk, every card", "why_tests_cant": "A lost card is not visible: nothing fails until a step back to it, or never, when it only leaks; and walks are unbounded.", "anchors": ["include/ygopen/client/frame_limbo.hpp", "include/ygopen/client/undo_parse_event.hpp", "include/ygopen/client/parse_event.hpp"]}
{"id": "C92", "title": "Undoable values do not share history", "statement": "A program that builds, reads, writes, undoes, moves, copies, assigns and destroys undoable values observes the same values as if every one had a history of its own, and stops where it would.", "quantifier": "for every type of value, every number of objects and every program", "why_tests_cant": "needs every interleaving of operations on several objects, and iterator identity, which tests cannot see", "anchors": ["include/ygopen/client/undoable.hpp"]}
{"id": "C93", "title": "Queries that make no sense are stopped by an assertion", "statement": "Parsing a query succeeds if there is a card at its place and is stopped by an assertion otherwise, on plain and undoable boards, whatever was done with the board before.", "quantifier": "for every query and every board reached by any operations, queries and, on undoable boards, undoings", "why_tests_cant": "needs every place against every board; undefined behaviour is not observable by tests", "anchors": ["include/ygopen/client/parse_query.hpp", "include/ygopen/client/frame.hpp"]}
{"id": "C94", "title": "Queries leave the board alone, and cards show what was told last", "statement": "However frame operations and queries are interleaved, the board (which card lies where, which cards exist, the history kept by a limbo frame) is the one the operations alone make, and any next operation succeeds, stops or is undefined on both alike; this holds as well if queries on an undoable board are taken back. On a plain board, every field of every card holds what the latest query that mentions the field told, among the queries that found this very card at their place, or what a new card holds if there was none, however often the card was moved, shuffled or attached in between.", "quantifier": "all finite sequences of frame operations and queries from a new frame; all operations, cards and fields", "why_tests_cant": "The interplay of every operation with every query at every moment is unbounded; tests check single queries on a fixed frame.", "anchors": ["include/ygopen/client/parse_query.hpp", "include/ygopen/client/frame.hpp", "include/ygopen/client/frame_limbo.hpp"]}
{"id": "C95", "title": "Undoable values own the memory of their histories", "statement": "After any program of constructions, reads, writes, undos, copies, moves, assignments and destructions of undoable values, every stored value belongs to exactly one existing object and occurs in it once; it stays unchanged until that object is destroyed or assigned to as a whole, and not longer. Undoing releases nothing. When all objects are destroyed nothing is left.", "quantifier": "every program over any number of undoable values of any type", "why_tests_cant": "the leak or double release would need a particular interleaving of copies, moves and undos", "anchors": ["include/ygopen/client/undoable.hpp: BasicUndoable (values_, current_)"]}
{"id": "C96", "title": "A duelist's seat shows what the duelist said", "statement": "The deck, its validity and the readiness recorded for a duelist who entered once follow from what that duelist itself sent from its seat during configuration: the verdict on the latest deck, the deck itself if accepted and an empty one if not, and the latest declaration of readiness made with a valid deck or withdrawal. Nothing anybody else sends matters.", "quantifier": "every history, every duelist at one place", "why_tests_cant": "unbounded interleavings of clients' signals", "anchors": ["include/ygopen/server/room.hpp: on_client_signal_ (Configuring)"]}
{"id": "C97", "title": "An undoable frame shows no card twice", "statement": "Whatever sequence of operations, undos and redos is applied to an undoable frame, no card object is at two positions of the board at once. Where this fails it fails exactly because an operation took a card out of the history that was on the board already.", "quantifier": "all sequences of public operations of FrameLimbo with any arguments, all frames reachable by them", "why_tests_cant": "a test replays histories in order; the failure needs an operation different from the remembered one in the middle of a history, and its absence elsewhere is a statement about all programs", "anchors": ["include/ygopen/client/frame_limbo.hpp"]}
{"id": "C98", "title": "Announcements reach everybody, answers one client", "statement": "Whatever happens in a room, what is announced (duelists entering and changing, the number of spectators, the start of the decision and its result) is sent to every client in the room, once for each place the client has, and everything else to one client: the one that acted or the one asked who goes first. Two clients that are in the room at one place each are sent the same announcements in the same order from then on.", "quantifier": "all hosts, options, validators, random numbers and histories of entering and signalling; all pairs of clients; all continuations", "why_tests_cant": "that two clients never diverge is a statement about all histories and all pairs of clients; a test follows a few clients through one history", "anchors": ["include/ygopen/server/room.hpp"]}
{"id": "C99", "title": "Copies of a frame stand on their own", "statement": "A copy of a frame whose card type can be copied answers and does what the original would: any sequence of operations that succeeds on the original succeeds on the copy and leaves the same board, and operations on one of them do not affect the cards shown by the other. A frame that has been moved from can be cleared and used again.", "quantifier": "all reachable frames, all sequences of operations, all places", "why_tests_cant": "Copying needs no code and is not exercised by the tests; that the pointers of a copy still refer to the original's cards only shows when one of the two destroys a card, at an operation that depends on the whole history.", "anchors": ["include/ygopen/client/frame.hpp", "include/ygopen/client/board.hpp"]}
{"id": "C100", "title": "Messages stay in proportion to what the core sent", "statement": "The number of entries (repeated fields and queries) of the messages encode_one produces is bounded by the number of bytes it reports as read plus a fixed constant per message, so nothing the core buffer says can make the server allocate out of proportion.", "quantifier": "every context, every buffer and every stream of buffers", "why_tests_cant": "amplification shows only for count fields far larger than any test writes; the bound quantifies over all buffers and histories", "anchors": ["src/codec/edo9300_ocgcore_encode.cpp: encode_one, MSG_RELOAD_FIELD, MSG_MOVE, MSG_SWAP_GRAVE_DECK, MSG_FIELD_DISABLED", "include/ygopen/codec/encode_common.hpp: IEncodeContext"]}
{"id": "C101", "title": "Both players are treated alike", "statement": "Exchanging the two players in every event and query given to a board (plain or undoable, with undo and erase_history) exchanges the two players in every result: the same calls succeed, assert or are undefined, and the same card objects are found at the other player's places.", "quantifier": "every sequence of calls; for undoable boards from every board state", "why_tests_cant": "a board that treats one player differently in one rarely used location or operation passes tests written for the other player", "anchors": ["include/ygopen/client/frame.hpp: BasicFrame", "include/ygopen/client/frame_limbo.hpp: LimboFrame", "include/ygopen/client/board.hpp: BasicBoard", "include/ygopen/client/parse_event.hpp: parse_event", "include/ygopen/client/undo_parse_event.hpp: undo_parse_event", "include/ygopen/client/parse_query.hpp: parse_query"]}
{"id": "C102", "title": "The room treats clients alike", "statement": "Which client objects take part does not matter, only who hosts and who does what when: if every client is replaced by another one (different ones by different ones) that calls itself the same, a whole session runs in the same way. The replacement of a client sits or watches where the client did and is sent exactly what the client was sent; nobody else is in the room or is sent anything.", "quantifier": "for all injective renamings of clients, users, validators, random numbers, hosts, options and sequences of entries and signals", "why_tests_cant": "Tests use a handful of clients in a fixed order; that no address or arrival identity leaks into the behaviour concerns all assignments of clients to roles.", "anchors": ["include/ygopen/server/room.hpp"]}
{"id": "C103", "title": "Decks stay secret in the room", "statement": "What the other clients are told does not depend on the decks handed in. If some clients hand in other decks that get the same verdict, everybody else is sent the same events, the owners are sent the same but for what the complaints say, and the room ends up the same but for the stored decks. If these clients never signal that they are ready, the others are sent the same events even when the verdicts differ.", "quantifier": "for all users, validators, random numbers, hosts, options, sets of clients and pairs of sequences of entries and signals that differ in decks handed in by these clients only", "why_tests_cant": "Secrecy compares two runs, and is about everything sent in all of them; a test looks at one run at a time.", "anchors": ["include/ygopen/server/room.hpp"]}
{"id": "C104", "title": "Where cards live in memory does not matter", "statement": "Whatever addresses new cards get, as long as no address in use is handed out, in particular when the addresses of destroyed cards are used again, every sequence of events and queries has the same outcome on the server's board: it ends in the same way, each pile, zone and overlay shows the same cards in the same order, every query returns the same, and every card is at exactly one place.", "quantifier": "for all allocators that hand out no address in use, and all sequences of events and queries starting with a new board", "why_tests_cant": "Whether an address is used again depends on the allocator of the platform; a test sees one allocator's choices, and a dangling pointer that happens to hit a new card may go unnoticed.", "anchors": ["include/ygopen/client/frame.hpp: construct_card, destruct_card, card_add, pile_resize", "include/ygopen/client/parse_event.hpp: parse_event", "include/ygopen/client/parse_query.hpp: parse_query"]}
{"id": "C105", "title": "The order of the spectators does not matter", "statement": "Whatever order the room's set of spectators keeps, every history of calls ends in the same way, with the same duelists, spectators, options and state, and every client is sent the same events in the same order.", "quantifier": "for all orders of the set, all hosts, options, deck validators, random numbers and histories of calls", "why_tests_cant": "The set is ordered by the addresses of the client objects, which differ from run to run; a test sees one order.", "anchors": ["include/ygopen/server/room.hpp: spectators_, send_spectators_, Configuring enter"]}
{"id": "C106", "title": "What clients call themselves influences nothing but the users shown", "statement": "Whatever users clients give from call to call, every history ends in the same way, with the same room, and every client is sent the same events but for the users in them. What the room says about a duelist in answer to a call (seat, host, readiness) is true of the room after the call, and the user it shows is the one the client in that seat gives at that call.", "quantifier": "for all users given from call to call, all hosts, options, deck validators, random numbers and histories of calls", "why_tests_cant": "Names are arbitrary strings that may change at any time; a test uses a few fixed ones.", "anchors": ["include/ygopen/server/room.hpp: fill_user, Configuring enter, kReadyStatus"]}
{"id": "C107", "title": "A deck validator may change its mind", "statement": "If the deck validator's verdicts change from call to call, the room still behaves as with some validator that does not: all clients hear the same as in a history with an unchanging validator in which other decks are handed in. A seat is marked as having a valid deck only if its client handed in exactly the deck it holds and it was accepted at that call; other seats hold no deck. When the duel is about to start every duelist is ready and has such a deck.", "quantifier": "for all sequences of validators, all hosts, options, users, random numbers and histories of calls", "why_tests_cant": "Validators are supplied by the application and may depend on data that changes while the room exists; a test uses one that does not.", "anchors": ["include/ygopen/server/room.hpp: DeckValidator, kUpdateDeck, kStartDueling"]}
{"id": "C108", "title": "Switching the assertions off changes nothing that goes through with them", "statement": "Any list of events on a board, any list of events done and undone on an undoable board (with queries and erased histories in between), any query, any list of core messages encoded and parsed, any decoded answer and any room history that goes through in a build with assertions has the same result in a build without. Pushing a link onto the chain of an undoable board, which is not implemented, stops a build with assertions and does nothing in one without.", "quantifier": "for all boards, lists of events, queries, answers, hosts, options and room histories", "why_tests_cant": "Tests run in one kind of build; a check with an effect, or one whose removal changes a later branch, shows only when every path is compared across the two.", "anchors": ["include/ygopen/client/frame.hpp: all assertions", "include/ygopen/client/frame_limbo.hpp: all assertions", "include/ygopen/client/board.hpp", "src/codec/edo9300_ocgcore_decode.cpp: assertions", "include/ygopen/server/room.hpp: assertions"]}
{"id": "C109", "title": "Without assertions every answer is decoded, except an empty pick where cards are picked one by one", "statement": "In a build without assertions no answer stops the decoder: every answer to every request yields bytes, except that an empty selection in answer to a request to pick cards one by one reads past the end of the list. A selection of cards that answers any other request, or none, is sent so that the core reads exactly the selected indexes.", "quantifier": "for all requests, answers and previous contents of the buffer", "why_tests_cant": "Requests and answers vary independently; tests pair matching ones.", "anchors": ["src/codec/edo9300_ocgcore_decode.cpp: decode_one_answer"]}
{"id": "C110", "title": "Without assertions nothing stops the room, not even the host entering again", "statement": "In a build without assertions every history of calls goes through if the first turn decision method is a known or unknown value other than the two sentinel values and the dice do not tie forever. A host who enters again when every seat is taken keeps their seat and becomes a spectator too: they are sent the description of the room, and everybody, the host once for each place, is sent the number of spectators. The host keeps the first seat, team sizes stay within limits and nobody is a spectator twice.", "quantifier": "for all hosts, options, users, validators, random numbers and histories of calls", "why_tests_cant": "A test history stops at the assertion; histories that go on past it are not explored.", "anchors": ["include/ygopen/server/room.hpp: Configuring enter, Deciding, Dueling"]}
{"id": "C111", "title": "Without assertions no card is ever in two places, and exactly the cards others are put on are lost", "statement": "In a build without assertions, whatever operations with whatever places go through on a new frame, no card is at two positions and every card at a position is allocated. A card gets lost (allocated, but nowhere on the board) exactly when another one is added or moved onto it in a zone, except when the two are the same; it stays lost, whatever follows, and is not even destroyed by clearing the board. If no card is put on another one and nothing but a zone's card is exchanged with an empty zone, every allocated card is at exactly one position and no position holds a null pointer.", "quantifier": "for all lists of frame operations with all places, counts and lists of places", "why_tests_cant": "Tests run with assertions, which stop at the first such operation.", "anchors": ["include/ygopen/client/frame.hpp: card_add, card_insert, card_erase, card_move, card_swap, card_shuffle, pile_resize, pile_splice, pile_swap, clear"]}
{"id": "C112", "title": "Without assertions the encoder is undefined where it would have been stopped, except for a selection among no cards", "statement": "In a build without assertions, in any context such a build can get into, encode_one of any buffer that does not start with a MSG_SELECT_CARD of no cards has the outcome it has with assertions, undefined instead of stopped. A MSG_SELECT_CARD of no cards, which is stopped with assertions, reads on into what follows: it is undefined if fewer than six bytes follow, and otherwise gives a selection of no cards, the message's own 15 bytes being counted as read, whose kind (limbo or not) is decided by the sixth byte after the message.", "quantifier": "for all contexts reachable in a build without assertions, all buffers, all repliers, flags, minima and maxima", "why_tests_cant": "Tests run with assertions; and what a message that looks beyond its end does depends on the message after it.", "anchors": ["src/codec/edo9300_ocgcore_encode.cpp:1037-1077", "src/codec/edo9300_ocgcore_encode.cpp:490-1731", "include/ygopen/server/basic_encode_context.hpp:33-81"]}
{"id": "C113", "title": "Without assertions, a viewer's undoable board shows what the server's plain board shows", "statement": "In a build without assertions, when a sequence of events goes through parse_event on a new undoable board and on a new plain board without undefined behaviour, both show the same positions of the same cards, life points, turn, turn player, phase and blocked zones, even where assertions would have stopped them. The undoable board shows the chain of the last snapshot event, not the links pushed and popped since. Every card on it is allocated. Of the sequences the plain board goes through, the undoable one goes through exactly those in which piles are grown or shrunk to at most half their size.", "quantifier": "all sequences of events, valid or not, and all card types of the two boards", "why_tests_cant": "Tests run with assertions, feed valid events and compare each board with expected values, not the two boards with each other.", "anchors": ["include/ygopen/client/undo_parse_event.hpp", "include/ygopen/client/frame.hpp", "include/ygopen/client/frame_limbo.hpp", "include/ygopen/client/undoable.hpp", "include/ygopen/client/parse_event.hpp"]}
{"id": "C114", "title": "What the encoder uses of its context", "statement": "encode_one gives the same bytes read, state and message for two contexts whose boards have piles of the same sizes and materials in the same zones, whatever the cards, life points, turn and phase; for two contexts that differ in the notes on materials, unless the message is MSG_MOVE; for two that differ in the match win reason, unless it is MSG_WIN or MSG_MATCH_KILL. The message types for which the context makes any difference, or is changed, are exactly MSG_WIN, MSG_SWAP_GRAVE_DECK, MSG_REVERSE_DECK, MSG_DECK_TOP, MSG_MOVE, MSG_DRAW and MSG_MATCH_KILL. Encoding never changes the board of the context, changes its notes only for MSG_MOVE and by at most one more, and changes the reason only for MSG_MATCH_KILL.", "quantifier": "all contexts, all byte buffers, all outcomes including aborts and undefined behaviour", "why_tests_cant": "A test compares a few contexts; here any two contexts with the same outline are compared on every buffer, and the list of message types is shown to be complete.", "anchors": ["src/codec/edo9300_ocgcore_encode.cpp:490-1731", "include/ygopen/server/basic_encode_context.hpp:33-72"]}
{"id": "C115", "title": "What the assertions of the board ask for", "statement": "On a reachable board, an operation that goes through in a build without assertions goes through in a build with them, to the same end, if and only if: a card is added or moved to where no card is; no place is a material of a card in a pile; the card of a zone is moved to a zone without materials; the two positions of a swap hold cards and no zone's card with materials is exchanged with a card in a pile; the places of a shuffle hold cards, and there is a first one, not in a pile. Removing, resizing, splicing, swapping piles and clearing go through with assertions whenever they do without. The same holds for operations in a row. Where the condition does not hold, the build with assertions aborts (except for shuffles of nothing or of places that make no sense). Whatever does not go through in a build without assertions is undefined behaviour there and does not go through in a build with assertions.", "quantifier": "for all reachable frames and all frame operations with all places, counts and lists of places", "why_tests_cant": "Tests exercise one build, and cannot observe the runs that assertions cut short.", "anchors": ["include/ygopen/client/frame.hpp: card_add, card_remove, card_move, card_swap, card_shuffle, pile_resize, pile_splice, pile_swap, clear"]}
{"id": "C116", "title": "Without assertions, an event taken back gives the board back exactly if it covered no card", "statement": "In a build without assertions, when an undoable board has taken any events and then takes an event that adds, removes, moves or exchanges cards, splices piles or exchanges piles, undoing that event succeeds and gives the board's previous contents if and only if no step of the event put a card on a monster, spell or other zone that held another card; removing, exchanging and splicing can therefore always be undone. Undoing a shuffle leaves the board as the shuffle left it, and undoing any event about life points, turns, phases, blocked zones or chains gives the previous contents.", "quantifier": "all sequences of events, all next events of these kinds with any places and counts, any card type", "why_tests_cant": "A covered card is not reported in such a build and goes missing only when the event is undone; the condition ranges over every history of the board and every list of places in the event.", "anchors": ["include/ygopen/client/frame_limbo.hpp", "include/ygopen/client/undo_parse_event.hpp", "include/ygopen/client/frame.hpp"]}
{"id": "C117", "title": "A room is never stuck while nobody enters twice", "statement": "However the clients used a room, including rejected decks, withdrawn readiness and starts that came too early, as long as no client entered twice there is a continuation of entries and signals after which the first turn is being decided, given that the validator accepts some deck and the first turn method is a working one; once deciding, the room never goes back to configuring.", "quantifier": "every history of entries and signals without repeated entries, every validator, random numbers, options", "why_tests_cant": "existence of a continuation for every one of unboundedly many histories cannot be sampled", "anchors": ["include/ygopen/server/room.hpp: on_client_signal_(Configuring)", "include/ygopen/server/room.hpp: on_client_enter_(Configuring)"]}
