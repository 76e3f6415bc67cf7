# Formal model of ygopen: design

The subject is the C++17 code in /repo (DyXel/ygopen).  It is read as text; nothing is
compiled or run.  The model is written in Rocq (Coq 8.16.1), in `/verif/rocq/theories`.

## 1. Conventions

* **Outcomes.**  Every partial C++ function is a total Gallina function into
  `outcome A := Ok a | Abort | UB | Diverge` (`Base.v`).
  - `Abort`: an `assert(...)` fails.  The model assumes a build with assertions enabled,
    as the project's own tests do.  `Release.v`, `ReleaseUndo.v`, `ReleaseEncode.v` and
    `ReleaseRoom.v` model a build without them (NDEBUG); C108 says that what goes through with
    assertions goes the same way without, C109 to C112 what else goes through.
  - `UB`: the C++ standard leaves the behaviour undefined (array index out of range,
    null/dangling dereference, `YGOPEN_UNREACHABLE`, shift past the width, reading past
    the buffer, ...).
  - `Diverge`: a loop's fuel ran out.  Theorems show fuel suffices wherever it is used;
    the only genuine use is the dice loop, whose termination depends on the random stream.
* **Integers.**  Unsigned C++ integers are `N`, signed ones `Z`; conversions wrap
  explicitly (`u8`, `u16`, `u32`, `i32`, ...).  `size_t` is 64 bits.  Container sizes are
  `nat`; no container reaches 2^64.
* **Host.**  64-bit, little endian (`std::memcpy` reads in the encoder), two's complement.
* **Order of evaluation.**  Arguments are evaluated left to right.  Only two calls have two
  arguments that may both fail (frame.hpp:331 and 464); `EvalOrder.v` gives the other order and
  `C86_order` shows that it makes no difference for places with a player and a location.
* **Citations.**  Every definition of a model file has a comment naming the lines of /repo
  it models and any simplification made.
* **Layout.**  `X.v` holds the model, `XProofs.v` the lemmas, `Props*.v` the
  theorems that count, each followed by `Print Assumptions` and a concrete `Example`.
  Specifications (what the English statement means) are defined apart from the model, in
  `*Spec.v` files or in a section headed `Specification` at the top of the proofs file.

## 2. What is modelled

| Code | Model | Notes |
|---|---|---|
| `include/ygopen/bit.hpp` | `Bit.v` | `popcnt` loop version (the builtin is assumed to agree), `choosel`, `chooser`; widths explicit, shift of `1U` by 32+ is `UB` |
| `proto/duel/data.hpp` `PlaceLess`, `==`; `duel/constants/location.hpp` | `Place.v` | proto getters as record projections |
| `client/frame.hpp` | `Frame.v`, `Copy.v` | card heap as a list of (id, content); ids never reused (`Alloc.v`: any allocator, see C104); `std::deque`/`vector`/`array` as lists; `Copy.v`: the implicit copy and move constructors (moved-from lists and vectors are taken to be empty; copying only applies to card types that can be copied, which `BasicCard` cannot) |
| `client/frame_limbo.hpp` | `Limbo.v` | `operations_` as a list of `CardOp`/`ResizeOp`/`ClearOp` |
| `client/undoable.hpp` | `Limbo.v`, `UNode.v` | `Limbo.v`: `std::list` + iterator as a zipper; `UNode.v`: nodes, iterator, the implicit copy and move constructors and assignments and the destructor, shown to be the zipper when nothing is copied (C92) |
| `client/board.hpp`, `client/parse_event.hpp`, `client/undo_parse_event.hpp` | `Msg.v` (the messages), `Event.v` | one generic `parse_event` over a record of board operations (the C++ template), instantiated with the plain and the undoable board |
| `client/parse_query.hpp`, `client/card.hpp`, `client/queries.inl` | `Query.v`, `UQuery.v` | `Query.v` with the default card traits (plain members), `UQuery.v` with undoable members |
| `server/basic_encode_context.hpp`, `codec/*encode*.hpp`, `src/codec/edo9300_ocgcore_encode.cpp` | `Encode*.v` | byte-exact reader |
| `src/codec/edo9300_ocgcore_decode.cpp` | `Decode.v` | byte-exact writer |
| `server/room.hpp` | `Room.v` | signals, states, broadcasts; RNG as a stream, deck validator as a parameter (`RoomMood.v`: its verdicts may change from call to call, C107); a client is a number and the user it fills in is a function of it (`RoomLoose.v`: it may change from call to call, C106); the set of spectators, ordered by address in the code, is a list in order of entry (`RoomLoose.v`: any order, C105); the dice loop has fuel, running out is `Diverge` |

Not modelled: protobuf's own (de)serialisation and arenas, memory exhaustion, exceptions
from allocation, threads (the code has none), `server/duel.hpp` (an
abstract interface, nothing to execute), the example programs, protobuf reflection
helpers, and the validators of `proto/banlist.hpp`, `proto/deck.hpp` and `proto/user.hpp`, whose
bodies are placeholders returning a constant and which nothing calls.
`Frame.v` never hands out a freed card's id again; `Alloc.v` does, with an arbitrary
allocator, and C104 shows that it makes no difference.

## 3. Trusted base

* Coq's kernel and the checker run by the gate.
* The correspondence between the C++ text and the Gallina model (reviewable through the
  citations).
* `Print Assumptions` for each theorem: see section 5.
* For the encoder/decoder, the core's message layout (`CoreMsg.v`) is written from the
  layout the encoder itself documents and reads, because the core's sources are not in
  /repo.

## 4. Properties

Per property: what is modelled and how it is proved.  `R` marks a property which the
faithful model refutes in full; then the theorem `..._refuted` gives a witness and a
`..._partial` theorem proves the part that does hold.

| Property | Model | Method |
|---|---|---|
| C01 | Bit | induction on the value (Kernighan step removes one bit) |
| C02 | Bit | loop invariant by induction on the bit index |
| C03 R | Bit | same; refuted for count 0 with the top bit set; `C03_choosel_iff_partial` (PropsExactMore.v): exactly then |
| C04 R | Bit | UB witness; 64-bit operands whose loop stops within 32 bits are fine |
| C05 | Place | case analysis, lexicographic order |
| C06 | Place | bitwise reasoning on all N |
| C07 | Frame | invariant over a labelled transition system of all operations |
| C08-C16 | Frame | operational lemmas with explicit frame conditions |
| C11 R | Frame | zone-material swaps use `seq` where `oseq` is meant; swapping twice restores the frame for all pairs, these included; what they do instead is stated exactly (PropsFrameExact) |
| C17 R | Frame | negative controllers and multi-bit locations reach UB; exact set of places (PropsFrameExact) |
| C18 | Frame | case analysis on place shape under the invariant |
| C19-C23 | Limbo | refinement: a history position determines the frame |
| C20 R | Limbo | shrink saves the wrong slice; `C20_resize_iff_partial` (PropsLimboExact.v): at the live end a resize is taken back exactly when the pile does not shrink or shrinks to half |
| C24-C25 | Undoable | induction over the operation list |
| C26-C29 | Event | symbolic execution of `parse_event` |
| C26 R | Event | recovering wraps at 2^32 |
| C29 R | Event | `lp(2)` passes the assertion; `C29_lp_controller_iff_partial` (PropsExactMore.v): of the invalid controllers only 2 |
| C30 R, C31, C32 R | Event | each event as a list of frame operations plus one update per value (`EventUndo.v`); transition relations on histories (`LimboUndo.v`); induction over walks.  At the live end every undo that gets through restores the board, and it gets through exactly for undoable events; in the middle of a history a shrinking resize can restore the cards of another one.  C31 needs no condition: along a walk over one list, what is undone is always what was recorded; `C30_undo_iff_partial` (PropsBoardExact.v): exactly which events can be taken back at the live end |
| C33-C34 | Query | per-field case analysis, all 24 fields; C34 R for the two repeated fields; `C34_hits_iff_partial` (PropsExactMore.v): exactly which fields hit |
| C35-C37 | Encode | compositional predicates on the reader monad |
| C38-C40 | Encode, CoreMsg | serializer/parser round trip, induction on lists |
| C41-C42 | EncodeQuery | loop invariant |
| C37 R | Encode | the flag loop of MSG_SWAP_GRAVE_DECK reads past the announced buffer; the converse runs the reported prefix alone |
| C43-C46 | Encode | bitwise reasoning; R for C45 (effects from 2^52) and C46 (indices from 2^31) |
| C47-C50 | Encode + Event | composition of the encoder with the board (`EncodeE2E.v`, `EncodeReload.v`), over contexts built by encoding and parsing |
| C51 R | Encode + Event | same; materials in the field and pendulum zones keep the core's place; conversely such a material is refused by the board |
| C52 R | Encode | induction over message histories (`EncodeHistory.v`); the list of waiting materials is shared, and one branch ignores the zone left; `C52_detach_iff_partial` (PropsHistoryExact.v): exactly which moves of a detached material are announced from the zone left |
| C53 R | Encode | uninitialised member; conversely undefined whenever no kill was heard |
| C54-C59 R | Decode | writer (with buffer and pointer) followed by a specification of the core's reader (`DecodeSpec.v`); R for truncated values, field/pendulum zones and the unset sort |
| C26 C45 C46 C54-C59 exact | Event, Encode, Decode | `PropsExact.v`: for each value range that fails, an equivalence saying which values come through |
| C76 | UQuery | per-member histories, all 24 fields; R: while values are undone a query's value is dropped; exact from the record of one member |
| C77 | UQuery | undoing a query from its hits; the undoing itself (`take_back`, in `UQuerySpec.v`) is client code that the repository leaves to its users |
| C78 | Event + UQuery | the walk invariant of C31 carried over to boards of undoable cards: the layout by naturality (`LimboNat.v`, `BoardNat.v`: frame operations do not look into cards), the cards by a second invariant (`UReplay.v`) |
| C79 | Event + UQuery | a simulation between limbo frames at the live end and plain frames with the same layout and next identity (`BoardAgree.v`), lifted to boards and recordings (`UReplayAgree.v`); the scrubbing part from C78 |
| C80 | Encode + Event + Query | refinement: `Duel.v` (specification) against fed contexts; invariant `mirrors` with debts for materials that have not moved yet; one step lemma per message (`DuelMove` … `DuelRun`), induction over the stream |
| C81 | Encode + Event + Query | from C80; seven refutations with computed witnesses (`PropsDuel.v`) |
| C82 | Encode + Event | quiet-board lemmas of `DuelTell.v`; refuted on a reused context; `C82_start_is_fresh_iff_partial` (PropsExactMore.v) is exact |
| C83 | Encode + Event + Query + Limbo | composition of C80 (mirrors), C79 (plain and undoable boards agree) and C78 (walks); every event the encoder produces for such a duel is undoable (`DuelReplay.v`: `step_good`); conversely chain links and shuffles are found in the recording and stop the board (`DuelReplayExact.v`) |
| C84 | Encode + Decode | composition of C40 (requests), C54 to C58 (answers) with the core side and the client side of each question specified separately (`DialogueSpec.v`); case analysis over the questions; the converse (`DialogueExact.v`) bounds what each format can carry |
| C85 | Room | invariant over histories: for each occupied seat, what is still to come suffices to make it ready (`RoomLive.v`); the seat found for a client is its first one, so a later seat without a deck is an invariant that blocks the start; `C85_can_start_iff_partial` (RoomStuckSpec.v, RoomStuck.v, PropsRoomStuck.v): exactly which rooms can still be started |
| C86 | Frame, Limbo, Event | every wild call is listed in `HazardSpec.v`; the others are shown to be done or aborted from the reachable-state invariants of C06/C18; the wild ones are shown to be UB, shuffles exactly (`ShuffleWild.v`, induction over the steps) |
| C87 | Encode, EncodeQuery, Reader | readers that only fail for want of bytes (`tight`), closed under the combinators; grammar of queries and updates in `EncodeWildSpec.v` with a padding lemma; case analysis of MSG_MOVE |
| C88 | Encode, Event, Query, Frame | invariant on what the context remembers (deferred places and leavers are on the board), C86 event by event, C87 for moves, places outside the board stop `has_card`, induction over the splices of MSG_SWAP_GRAVE_DECK |
| C89 | Encode, Event, Limbo, UQuery | simulation of the undoable board by the plain one (C79), classification of the events the encoder can make, failure of a resize by the hazards of C86 |
| C90 | Rename, LateSpec, UReplaySpec, DuelReplaySpec, CoreMsg | every frame operation commutes with a shift of all card identities; a State event empties the frame, so later runs are equal up to that shift |
| C91 | LostSpec, LimboSpec, EventSpec, UReplaySpec | each step moves references between the board and the history without dropping one; kept as an invariant of walks, with the history described step by step |
| C92 | UNode, UNodeSpec | every object owns its nodes, no two share one: kept by all operations; the split list of Limbo.v is what the nodes hold (simulation); a copy has its iterator in a node of the original, also an invariant |
| C93 R | Query, UQuery, QueryRunSpec | frame invariants kept by queries (they write to cards only); has_card decides before anything is touched |
| C94 | Query, UQuery, QueryRunSpec, QueryTellSpec | naturality of every frame operation in what cards hold (FrameNat, LimboNat) gives the same run on blank cards; induction over the run with the latest word per field gives the contents |
| C95 | UNode | ownership invariant over programs: the nodes that exist are those of the objects that exist, disjointly; every operation case by case |
| C96 | Room, SeatSpec | invariant over histories: free seats are blank, the seat of the client is the fold of what it said; every call case by case |
| C97 | Limbo, LimboSpec, CloneSpec | exact effect of each operation on the number of occurrences of each card; invariant over programs that the board and all remembered boards show each card once |
| C98 | Room, NewsSpec | per step, the sent list split into announcements and answers; induction over the rest of the session |
| C99 | Copy.v (implicit copy and move constructor of BasicFrame), Frame.v | Refuted by a frame with three cards. Positive part: simulation between the original and the copy over all programs (CopyProofs.v `run_onward`): same layout, heaps equal up to the original and the copied nodes; the copy aborts at the first operation that destroys an original card, addresses never come back (`run_less`). |
| C100 | Encode, EncodeQuery | SizeSpec counts the entries of the repeated fields of a message, independently of the encoder. Every reader of the encoder is shown to pay for its entries with the bytes it consumes (SizeProofs, one lemma per reader); the two messages that need not are bounded separately and the unbounded one is the witness of the refutation |
| C101 | Frame, Limbo, Event, Query, UQuery | Equivariance: FlipSpec exchanges the players on places, events and boards; every operation is shown to commute with the exchange (FlipProofs, one lemma per operation, no invariant needed except that clear() on the server frame succeeds), then induction over calls |
| C102 | Room | `RoomAlike.v`: every function of the room commutes with an injective renaming of clients; induction on the session (C102_alike), and what that means for seats and messages (C102_heard). |
| C103 | Room | Two runs side by side: `RoomAlike.v` (rooms equal but for decks), `RoomHush.v` (slots of never-ready owners differ in deck and verdict); C103_ex shows that a ready signal does tell verdicts apart. |
| C104 | Alloc, Event, Query | simulation between the frame of `Frame.v` and the one with the allocator: equal up to an injection of addresses that is extended at each construction (`AllocProofs.v`); needs the frame invariant of C07 (no dangling pointers). |
| C105 | RoomLoose | simulation with `Room.v`: rooms equal but for a permutation of the spectators (`RoomLooseProofs.v`) |
| C106 | RoomLoose | the simulation of C105 with events compared up to their users; the events of a call by cases, with the invariant of C61-C65 carried over |
| C107 | RoomMood | decks replaced by the number of the call they are handed in with, and the validator by one that looks the verdict up; rooms equal but for decks as in C103; then an invariant over histories |
| C108 | Release, ReleaseUndo, ReleaseEncode, ReleaseRoom | function by function: a run that is Ok with assertions is the same Ok without; folded over lists of events, undos, core messages and room histories |
| C109 | Release, DecodeSpec | case analysis over answers; the loop over indexes as in C55 |
| C110 | ReleaseRoom, RoomSpec | the only call whose outcome differs is the host entering a full room; the invariant of C60 is kept by it |
| C111 | Release, FrameSpec | live cards are counted on the board and in a list of lost ones; every operation keeps the balance, only adding and moving onto the card of a zone adds to the list |
| C112 | ReleaseEncode, EncodeSpec | readers related pointwise (stopped with assertions = undefined without) through the switch; contexts without assertions keep the shape of the field; the empty selection by evaluation |
| C113 | ReleaseAgreeSpec.v (alike, halving_all, snapshot_chain); Release.v | simulation between LimboFrame and BasicFrame without assertions, using the accounting of C111; parse_event split into operations on the frame and the rest |
| C114 | Encode.v | ContextProofs.v: a relation between two runs of dispatch whose contexts differ in one part, kind by kind; the converse by one buffer per type. |
| C115 | Frame, Release | each operation is compared with and without assertions; the places both reach are the same, so what is left are the assertions about what is on the board |
| C116 | Limbo, Event, Release | each step is shown to be inverted by its undoing on the layout; the number of cards on the board shows that a covered card does not come back; what undoing does in a release build when nothing has been done is not covered |
| C117 | Room | corollary of `C85_can_start_iff_partial`: with nobody seated twice every seat is its client's first one; the continuation hands in a deck and readiness for every occupant (`RoomStuck.v`) |
| C60-C62, C65, C67-C69, C72-C75 | Room | an invariant (`sane`) and a step relation over all histories of enters and signals (`RoomProofs.v`, `RoomInv.v`), exact results per call |
| C66 | Room | refinement: the fold of the events a client heard against the room (`RoomMirror.v`) |
| C62, C63 (PropsSeats.v) | Room | invariant over histories: each team's seats are a fixed function of the list of arrivals, the spectators its rest; the two limits are 1 to 3, so each call is a finite case analysis |
| C63 R, C64 R, C70 R, C71 R | Room | a second entry, a rejected deck after the ready flag, ignored choices after dice/coin; three ways to stop; `C70_decide_iff_partial` (PropsExactMore.v): exactly which answers decide; `C71_method_iff_partial` (PropsRoomStuck.v): exactly which first turn methods never stop a room |

## 5. Assumptions per theorem

Every theorem of the `Props*.v` files is followed by `Print Assumptions`; each of them prints
"Closed under the global context": no axioms, not even from the standard library.

## 6. Tests of the model and of the theorems

* `RepoTests.v` and `RepoTestsRoom.v` replay the repository's unit tests on the model, as
  evidence for the correspondence of section 3.  They are tests and count for no property.
  One expectation is not met: `FrameDeathTest.BadAccessViaCardDies` expects an access with
  two location bits set to die, but it reaches `YGOPEN_UNREACHABLE`, which is undefined.
* `seeded/LOG.jsonl` has one line per wrong program tried.  An edit is counted as rejected
  when the build fails.  Often the failure is in a lemma below the `Props*.v` theorems, and
  the log then names the lemma and the `Props*.v` files that could not be rebuilt: by itself
  this does not show that the *statement* of a property is false of the edited model, only
  that its proof does not go through.
