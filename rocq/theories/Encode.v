(** Model of encode_one (src/codec/edo9300_ocgcore_encode.cpp:490-1731) run on
    the context of include/ygopen/server/basic_encode_context.hpp. *)
From Verif Require Import Base Place Frame Msg Event Query Reader EncodeQuery.

Set Implicit Arguments.
Local Open Scope N_scope.

(** ** The context: basic_encode_context.hpp *)

(** 83-104.  [cx_mwr] is [None] while match_win_reason_ (102) is
    indeterminate.  [cx_left] stands for the std::map (103): the newest binding
    of a place comes first. *)
Record ctx := mkCtx {
  cx_board : pboard card;
  cx_mwr : option N;
  cx_left : list (place * place);
  cx_deferred : list place
}.

(** The two ways of creating a context.  The class has no user-provided
    constructor, so [BasicEncodeContext c{};] zeroes the object first while
    [BasicEncodeContext c;] leaves match_win_reason_ indeterminate. *)
Definition ctx_value_init : ctx := mkCtx (pboard0 card) (Some 0) [] [].
Definition ctx_default_init : ctx := mkCtx (pboard0 card) None [] [].

Definition ctx_layout (c : ctx) : layout := f_lay (b_frame (cx_board c)).

(** 33-36 *)
Definition pile_size (c : ctx) (con : Z) (loc : N) : outcome N :=
  let! r := pile_ref con loc in Ok (lenN (get_pile r (ctx_layout c))).
(** 38-41; reading an indeterminate value is undefined. *)
Definition get_match_win_reason (c : ctx) : outcome N := or_ub (cx_mwr c).
(** 43-46 *)
Definition has_xyz_mat (c : ctx) (p : place) : outcome bool :=
  let! r := zone_of p in
  let! z := read_zone r (ctx_layout c) in
  Ok (negb (is_nil (z_mats z))).
(** 48-51; dereferencing end() is undefined. *)
Fixpoint find_left (p : place) (l : list (place * place)) : option place :=
  match l with
  | [] => None
  | (k, v) :: l' => if place_eqb k p then Some v else find_left p l'
  end.
Definition get_xyz_left (c : ctx) (p : place) : outcome place := or_ub (find_left p (cx_left c)).
(** 53-56 *)
Definition match_win_reason (r : N) (c : ctx) : ctx :=
  mkCtx (cx_board c) (Some r) (cx_left c) (cx_deferred c).
(** 58-61 *)
Definition xyz_mat_defer (p : place) (c : ctx) : ctx :=
  mkCtx (cx_board c) (cx_mwr c) (cx_left c) (cx_deferred c ++ [p]).
(** 63-66 *)
Definition take_deferred_xyz_mat (c : ctx) : list place * ctx :=
  (cx_deferred c, mkCtx (cx_board c) (cx_mwr c) (cx_left c) []).
(** 68-72 *)
Definition xyz_left (left from : place) (c : ctx) : ctx :=
  mkCtx (cx_board c) (cx_mwr c) ((left, from) :: cx_left c) (cx_deferred c).

(** 74-81 *)
Definition set_board (b : pboard card) (c : ctx) : ctx :=
  mkCtx b (cx_mwr c) (cx_left c) (cx_deferred c).
Definition ctx_query (q : query) (c : ctx) : outcome ctx :=
  let! (_, f) := parse_query false q (b_frame (cx_board c)) in
  Ok (set_board (set_frame f (cx_board c)) c).
Definition ctx_parse (m : msg) (c : ctx) : outcome ctx :=
  let! c1 :=
    (match m_t m with
     | MsgEvent e => let! b := pparse card0 e (cx_board c) in Ok (set_board b c)
     | _ => Ok c
     end) in
  ofold ctx_query (m_queries m) c1.

(** ** The message types: src/codec/ocgcore_messages.inl *)
Inductive kind :=
| KRetry | KHint | KStart | KWin | KUpdateData | KUpdateCard
| KSelectBattlecmd | KSelectIdlecmd | KSelectEffectyn | KSelectYesno | KSelectOption
| KSelectCard | KSelectChain | KSelectPlace | KSelectPosition | KSelectTribute
| KSortChain | KSelectCounter | KSelectSum | KSelectDisfield | KSortCard
| KSelectUnselectCard
| KConfirmDecktop | KConfirmCards | KShuffleDeck | KShuffleHand | KSwapGraveDeck
| KShuffleSetCard | KReverseDeck | KDeckTop | KShuffleExtra | KNewTurn | KNewPhase
| KConfirmExtratop | KMove | KPosChange | KSet | KSwap | KFieldDisabled
| KSummoning | KSummoned | KSpsummoning | KSpsummoned | KFlipsummoning | KFlipsummoned
| KChaining | KChained | KChainSolving | KChainSolved | KChainEnd | KChainNegated
| KChainDisabled | KCardSelected | KRandomSelected | KBecomeTarget
| KDraw | KDamage | KRecover | KEquip | KLpupdate | KCardTarget | KCancelTarget
| KPayLpcost | KAddCounter | KRemoveCounter
| KAttack | KBattle | KAttackDisabled | KDamageStepStart | KDamageStepEnd
| KMissedEffect | KTossCoin | KTossDice | KRockPaperScissors | KHandRes
| KAnnounceRace | KAnnounceAttrib | KAnnounceCard | KAnnounceNumber | KAnnounceCardFilter
| KCardHint | KTagSwap | KReloadField | KAiName | KPlayerHint | KMatchKill.

Definition kind_table : list (N * kind) :=
  [ (1, KRetry); (2, KHint); (4, KStart); (5, KWin); (6, KUpdateData); (7, KUpdateCard);
    (10, KSelectBattlecmd); (11, KSelectIdlecmd); (12, KSelectEffectyn); (13, KSelectYesno);
    (14, KSelectOption); (15, KSelectCard); (16, KSelectChain); (18, KSelectPlace);
    (19, KSelectPosition); (20, KSelectTribute); (21, KSortChain); (22, KSelectCounter);
    (23, KSelectSum); (24, KSelectDisfield); (25, KSortCard); (26, KSelectUnselectCard);
    (30, KConfirmDecktop); (31, KConfirmCards); (32, KShuffleDeck); (33, KShuffleHand);
    (35, KSwapGraveDeck); (36, KShuffleSetCard); (37, KReverseDeck); (38, KDeckTop);
    (39, KShuffleExtra); (40, KNewTurn); (41, KNewPhase); (42, KConfirmExtratop);
    (50, KMove); (53, KPosChange); (54, KSet); (55, KSwap); (56, KFieldDisabled);
    (60, KSummoning); (61, KSummoned); (62, KSpsummoning); (63, KSpsummoned);
    (64, KFlipsummoning); (65, KFlipsummoned);
    (70, KChaining); (71, KChained); (72, KChainSolving); (73, KChainSolved);
    (74, KChainEnd); (75, KChainNegated); (76, KChainDisabled);
    (80, KCardSelected); (81, KRandomSelected); (83, KBecomeTarget);
    (90, KDraw); (91, KDamage); (92, KRecover); (93, KEquip); (94, KLpupdate);
    (96, KCardTarget); (97, KCancelTarget); (100, KPayLpcost); (101, KAddCounter);
    (102, KRemoveCounter); (110, KAttack); (111, KBattle); (112, KAttackDisabled);
    (113, KDamageStepStart); (114, KDamageStepEnd); (120, KMissedEffect);
    (130, KTossCoin); (131, KTossDice); (132, KRockPaperScissors); (133, KHandRes);
    (140, KAnnounceRace); (141, KAnnounceAttrib); (142, KAnnounceCard);
    (143, KAnnounceNumber); (144, KAnnounceCardFilter); (160, KCardHint);
    (161, KTagSwap); (162, KReloadField); (163, KAiName); (165, KPlayerHint);
    (170, KMatchKill) ].

Fixpoint lookup_kind (b : N) (l : list (N * kind)) : option kind :=
  match l with
  | [] => None
  | (v, k) :: l' => if b =? v then Some k else lookup_kind b l'
  end.
Definition kind_of (b : N) : option kind := lookup_kind b kind_table.

(** Constants: duel/constants/reason.hpp and phase.hpp. *)
Definition REASON_SUMMON : N := 0x10.
Definition REASON_EFFECT : N := 0x40.
Definition REASON_SPSUMMON : N := 0x800.
Definition REASON_FLIP : N := 0x2000.
Definition REASON_DRAW : N := 0x2000000.
Definition PHASE_BATTLE : N := 0x80.
Definition PHASE_MAIN_2 : N := 0x100.
Definition PHASE_END : N := 0x200.

(** ** Results: encode_common.hpp:45-65 *)
Inductive estate := StUnknown | StOk | StSwallowed.
Record verdict := mkVerdict { v_state : estate; v_msg : option msg }.

(** 501-524: create_event, create_queries, create_request and
    set_state_swallowed; [result] is value-initialised (495). *)
Definition v_event (e : event) : verdict := mkVerdict StOk (Some (mkMsg (MsgEvent e) [])).
Definition v_queries (l : list query) : verdict := mkVerdict StOk (Some (mkMsg MsgNotSet l)).
Definition v_swallowed : verdict := mkVerdict StSwallowed None.
Definition v_none : verdict := mkVerdict StUnknown None.

(** ** Event messages: 543-956 *)

(** A place with only [con] and [loc] set (protobuf defaults elsewhere). *)
Definition bare_place (con : Z) (loc : N) : place := mkPlace con loc 0 0.
(** A place naming a whole pile. *)
Definition pile_place (con : Z) (loc : N) : place := mkPlace con loc 0 OSEQ_INVALID.

(** 525-531, add_summoning. *)
Definition summoning (reason : N) : reader event :=
  rskip 4 ;;; p <- read_loc_info ;; rret (EvMeta (MetaUpdate reason [p])).
(** 533-539, add_selected. *)
Definition selected : reader event :=
  l <- rlist 4 read_loc_info ;; rret (EvMeta (MetaSelection place0 0 l)).
(** 699-706, LP. *)
Definition lp_event (t : N -> lp_ev) : reader event :=
  c <- read_con ;; n <- read 4 ;; rret (EvLp c (t n)).
(** 555-573 and 594-604.  The card codes are skipped one by one. *)
Definition shuffle_codes (loc : N) : reader event :=
  c <- read_con ;; n <- read 4 ;; rskip (4 * n) ;;;
  rret (EvMeta (MetaShufflePile [bare_place c loc])).
(** 675-692 *)
Definition status_event (s : chain_status) : reader event :=
  rskip 1 ;;; rret (EvMeta (MetaChainStatus s)).
(** 546-554 and 574-582 *)
Definition confirm_event : reader event :=
  rskip 1 ;;; l <- read_card_list 1 ;; rret (EvMeta (MetaConfirm 0 l)).

(** 665-674, also 925-931. *)
Definition chain_link : reader chain :=
  rskip 4 ;;;
  cp <- read_loc_info ;;
  p <- read_place4 ;;
  e <- read_effect ;;
  rret (mkChain cp p e).

(** 801-825, MSG_START *)
Definition start_event : reader event :=
  rskip 1 ;;;
  lp0 <- read 4 ;;
  lp1 <- read 4 ;;
  md0 <- read 2 ;;
  ed0 <- read 2 ;;
  md1 <- read 2 ;;
  ed1 <- read 2 ;;
  let pile (con : Z) (loc n : N) := mkResize (pile_place con loc) n in
  rret (EvBoard (BoardState (mkBState field_shape0 0%Z [lp0; lp1] [] []
    [ pile 0%Z LOCATION_MAIN_DECK md0; pile 0%Z LOCATION_EXTRA_DECK ed0;
      pile 1%Z LOCATION_MAIN_DECK md1; pile 1%Z LOCATION_EXTRA_DECK ed1 ]))).

(** 826-856, MSG_TAG_SWAP; the sum in the loop condition is a uint32_t. *)
Definition tag_swap_event : reader event :=
  c <- read_con ;;
  main <- read 4 ;;
  extra <- read 4 ;;
  rskip 4 ;;;
  hand <- read 4 ;;
  rskip 4 ;;;
  rskip (8 * u32 (extra + hand)) ;;;
  let pile (loc n : N) := mkResize (pile_place c loc) n in
  rret (EvBoard (BoardExchange (mkBExchange c [] []
    [ pile LOCATION_MAIN_DECK main; pile LOCATION_EXTRA_DECK extra;
      pile LOCATION_HAND hand ]))).

(** 884-905, parse_card_zone_array: one zone.  The materials keep the
    unmapped location and sequence. *)
Definition seqN (n : N) : list N := map N.of_nat (seq 0 (N.to_nat n)).
Definition zone_slot (con : Z) (loc : N) (seq : N) : reader (list place) :=
  h <- read 1 ;;
  if h =? 0 then rret []
  else
    rskip 1 ;;;
    let '(floc, fseq) :=
      (if loc =? LOCATION_SPELL_ZONE then fix_spell_loc_seq loc seq else (loc, seq)) in
    mats <- read 4 ;;
    rret (mkPlace con floc fseq OSEQ_INVALID
          :: map (fun o => mkPlace con loc seq (to_signed 32 o)) (seqN mats)).
Fixpoint zone_slots (con : Z) (loc : N) (seqs : list N) : reader (list place) :=
  match seqs with
  | [] => rret []
  | s :: seqs' =>
      a <- zone_slot con loc s ;; l <- zone_slots con loc seqs' ;; rret (a ++ l)
  end.

(** 874-926, read_controller_state: life points, added places, resizes. *)
Definition controller_state (con : Z) : reader (N * list place * list resize_op) :=
  lp <- read 4 ;;
  ms <- zone_slots con LOCATION_MONSTER_ZONE (seqN 7) ;;
  ss <- zone_slots con LOCATION_SPELL_ZONE (seqN 8) ;;
  main <- read 4 ;;
  hand <- read 4 ;;
  grave <- read 4 ;;
  ban <- read 4 ;;
  extra <- read 4 ;;
  rskip 4 ;;;
  let pile (loc n : N) := mkResize (pile_place con loc) n in
  rret (lp, ms ++ ss,
        [ pile LOCATION_MAIN_DECK main; pile LOCATION_HAND hand;
          pile LOCATION_GRAVEYARD grave; pile LOCATION_BANISHED ban;
          pile LOCATION_EXTRA_DECK extra ]).

(** 857-939, MSG_RELOAD_FIELD *)
Definition shape_of_flags (flags : N) : field_shape :=
  let has (m : N) := negb (N.land flags m =? 0) in
  mkShape (has 0x400000) (has 0x800) (has 0x1000) (has 0x2000) false.
Definition reload_event : reader event :=
  flags <- read 4 ;;
  s0 <- controller_state 0%Z ;;
  s1 <- controller_state 1%Z ;;
  chains <- rlist 4 chain_link ;;
  let '(lp0, add0, rz0) := s0 in
  let '(lp1, add1, rz1) := s1 in
  rret (EvBoard (BoardState (mkBState (shape_of_flags flags) (-1)%Z [lp0; lp1] chains
                                      (add0 ++ add1) (rz0 ++ rz1)))).

(** The readers of the pure event cases. *)
Definition event_case (k : kind) : option (reader event) :=
  match k with
  (* 546-554, 574-582 *)
  | KConfirmDecktop | KConfirmExtratop | KConfirmCards => Some confirm_event
  (* 555-562 *)
  | KShuffleDeck => Some (
      c <- read_con ;; rret (EvMeta (MetaShufflePile [bare_place c LOCATION_MAIN_DECK])))
  (* 563-573 *)
  | KShuffleHand => Some (shuffle_codes LOCATION_HAND)
  (* 583-593 *)
  | KShuffleSetCard => Some (
      rskip 1 ;;; n <- read 1 ;;
      prev <- rcount n read_loc_info ;; cur <- rcount n read_loc_info ;;
      rret (EvCard 0 (CardShuffle prev cur)))
  (* 594-604 *)
  | KShuffleExtra => Some (shuffle_codes LOCATION_EXTRA_DECK)
  (* 605-609 *)
  | KNewTurn => Some (c <- read_con ;; rret (EvNextTurn c))
  (* 610-615 *)
  | KNewPhase => Some (p <- read 2 ;; rret (EvNextPhase p))
  (* 616-624 *)
  | KPosChange => Some (
      rskip 4 ;;; p <- read_place1 ;; rskip 1 ;;; rskip 1 ;;;
      rret (EvMeta (MetaUpdate 0 [p])))
  (* 625-632 *)
  | KSet => Some (
      rskip 4 ;;; p <- read_place4 ;; rskip 4 ;;; rret (EvMeta (MetaUpdate 0 [p])))
  (* 633-642 *)
  | KSwap => Some (
      rskip 4 ;;; a <- read_loc_info ;; rskip 4 ;;; b <- read_loc_info ;;
      rret (EvCard 0 (CardExchange [mkPair a b])))
  (* 643-649 *)
  | KFieldDisabled => Some (z <- read 4 ;; rret (EvZoneBlock (unpack_zones z 0)))
  (* 650-664 *)
  | KSummoning => Some (summoning REASON_SUMMON)
  | KSpsummoning => Some (summoning REASON_SPSUMMON)
  | KFlipsummoning => Some (summoning REASON_FLIP)
  (* 665-674 *)
  | KChaining => Some (c <- chain_link ;; rskip 4 ;;; rret (EvChainStack (ChainPush c)))
  (* 675-692, MAP *)
  | KChained => Some (status_event CsChained)
  | KChainSolving => Some (status_event CsSolving)
  | KChainNegated => Some (status_event CsActNegated)
  | KChainDisabled => Some (status_event CsEffNegated)
  (* 693-698 *)
  | KChainSolved => Some (rskip 1 ;;; rret (EvChainStack (ChainPop true)))
  (* 707-727 *)
  | KDamage => Some (lp_event LpDamage)
  | KRecover => Some (lp_event LpRecover)
  | KLpupdate => Some (lp_event LpBecome)
  | KPayLpcost => Some (lp_event LpPay)
  (* 728-739 *)
  | KRandomSelected => Some (rskip 1 ;;; selected)
  | KCardSelected | KBecomeTarget => Some selected
  (* 740-747 *)
  | KCardTarget | KCancelTarget => Some (
      s <- read_loc_info ;; t <- read_loc_info ;; rret (EvMeta (MetaSelection s 0 [t])))
  (* 748-756 *)
  | KAddCounter | KRemoveCounter => Some (
      rskip 2 ;;; p <- read_place1 ;; rskip 2 ;;; rret (EvMeta (MetaUpdate 0 [p])))
  (* 757-766; a cleared target reads as the default place *)
  | KAttack => Some (
      a <- read_loc_info ;; t <- read_loc_info ;;
      rret (EvMeta (MetaAttack a (if p_loc t =? 0 then place0 else t))))
  (* 767-787, RESULT *)
  | KTossCoin => Some (
      c <- read_con ;; l <- rlist 1 (read 1) ;;
      rret (EvResult (ResultCoin c (map (fun v => negb (v =? 0)) l))))
  | KTossDice => Some (
      c <- read_con ;; l <- rlist 1 (read 1) ;; rret (EvResult (ResultDice c l)))
  (* 788-800 *)
  | KHandRes => Some (
      v <- read 1 ;;
      rret (EvResult (ResultRps [Z.of_N (N.land v 3); Z.of_N (N.land (N.shiftr v 2) 3)])))
  | KStart => Some start_event
  | KTagSwap => Some tag_swap_event
  | KReloadField => Some reload_event
  (* 940-956 *)
  | KPlayerHint => Some (
      c <- read_con ;; t <- read 1 ;; e <- read_effect ;;
      rret (EvMeta (MetaDescription c (if t =? 1 then DescAdd e else DescRemove e))))
  | _ => None
  end.

(** ** Query containers: 957-1021 *)

(** 977-993 and 1006-1017: the card's own query, then one query per overlay. *)
Fixpoint overlay_queries (p : place) (i : N) (codes : list N) : list query :=
  match codes with
  | [] => []
  | c :: codes' =>
      mkQuery (mkPlace (p_con p) (p_loc p) (p_seq p) (to_signed 32 i)) (qset_code (Some c) qdata0)
      :: overlay_queries p (i + 1) codes'
  end.
Definition card_queries (p : place) : reader (list query) :=
  st <- encode_one_query qdata0 ;;
  rret (mkQuery p (fst st) :: overlay_queries p 0 (snd st)).

(** The number of bytes a reader consumed. *)
Definition counted {A} (m : reader A) : reader (A * N) :=
  fun bs => let! (a, bs') := m bs in Ok ((a, lenN bs - lenN bs'), bs').
(** [read] followed by [back]. *)
Definition peek {A} (m : reader A) : reader A :=
  fun bs => let! (a, _) := m bs in Ok (a, bs).

(** 967-997, the loop; [read_size] is a uint32_t, as is [i].  Every iteration
    consumes at least two bytes. *)
Fixpoint update_loop (fuel : nat) (con : Z) (loc total i read_size : N) : reader (list query) :=
  if read_size <? total then
    match fuel with
    | O => rlift Diverge
    | S fuel' =>
        s <- peek (read 2) ;;
        if s =? 0 then rskip 2 ;;; update_loop fuel' con loc total (u32 (i + 1)) (u32 (read_size + 2))
        else
          let '(floc, fseq) := fix_spell_loc_seq loc i in
          r <- counted (card_queries (mkPlace con floc fseq OSEQ_INVALID)) ;;
          let '(q, n) := r in
          l <- update_loop fuel' con loc total (u32 (i + 1)) (u32 (read_size + n)) ;;
          rret (q ++ l)
    end
  else rret [].

Definition update_data : reader (list query) :=
  con <- read_con ;;
  loc <- read 1 ;;
  total <- read 4 ;;
  fun bs => update_loop (S (length bs)) con loc total 0 0 bs.

(** 1000-1021 *)
Definition update_card : reader (list query) := p <- read_place1 ;; card_queries p.

(** ** Requests: 1022-1326 *)

Definition sel_card_r : reader sel_card :=
  c <- read 4 ;; p <- read_loc_info ;; rret (mkSelCard p c).
(** 1145-1152, 1223-1230: an activable card of a battle or idle command. *)
Definition act_card_r : reader act_card :=
  rskip 4 ;;; p <- read_place4 ;; e <- read_effect ;; rskip 1 ;;; rret (mkActCard p e).
Definition listed_place (m : reader place) : reader place := rskip 4 ;;; m.

(** 1037-1077, MSG_SELECT_CARD after the replier. *)
Definition select_card_r : reader request :=
  cancel <- read_bool ;;
  min <- read 4 ;;
  max <- read 4 ;;
  count <- read 4 ;;
  rlift (assert_ (0 <? count)) ;;;
  first_loc <- peek (rskip 5 ;;; read 1) ;;
  if negb (first_loc =? 0) then
    l <- rcount count sel_card_r ;; rret (RqCard (ScUniqueRange cancel min max l))
  else
    l <- rcount count (c <- read 4 ;; rskip CORE_LOC_INFO_SIZE ;;; rret c) ;;
    rret (RqCard (ScLimbo cancel min max l)).

(** 1139-1172 *)
Definition select_battle_r : reader request :=
  act <- rlist 4 act_card_r ;;
  atk <- rlist 4 (p <- listed_place read_place1 ;; d <- read_bool ;; rret (mkAtkCard p d)) ;;
  mp2 <- read_bool ;;
  ep <- read_bool ;;
  let phases := N.lor (if mp2 then PHASE_MAIN_2 else 0) (if ep then PHASE_END else 0) in
  rret (RqIdle (mkIdle false phases act [] [] [] [] [] atk true)).

(** 1173-1241 *)
Definition select_idle_r : reader request :=
  sum <- rlist 4 (listed_place read_place4) ;;
  sps <- rlist 4 (listed_place read_place4) ;;
  rep <- rlist 4 (listed_place read_place1) ;;
  mset <- rlist 4 (listed_place read_place4) ;;
  sset <- rlist 4 (listed_place read_place4) ;;
  act <- rlist 4 act_card_r ;;
  bp <- read_bool ;;
  ep <- read_bool ;;
  sh <- read_bool ;;
  let phases := N.lor (if bp then PHASE_BATTLE else 0) (if ep then PHASE_END else 0) in
  rret (RqIdle (mkIdle sh phases act sum sps rep mset sset [] false)).

(** The readers of the request cases, after the replier (which 1305-1316
    needs). *)
Definition request_case (k : kind) : option (Z -> reader request) :=
  match k with
  (* 1025-1031 *)
  | KAnnounceAttrib => Some (fun _ => n <- read 1 ;; a <- read 4 ;; rret (RqAttribute n a))
  | KSelectCard => Some (fun _ => select_card_r)
  (* 1078-1101 *)
  | KSelectUnselectCard => Some (fun _ =>
      fin <- read_bool ;; acc <- read_bool ;; min <- read 4 ;; max <- read 4 ;;
      s <- rlist 4 sel_card_r ;; d <- rlist 4 sel_card_r ;;
      rret (RqCard (ScRecursive fin acc min max s d)))
  (* 1107-1123 *)
  | KSelectTribute => Some (fun _ =>
      cancel <- read_bool ;; min <- read 4 ;; max <- read 4 ;;
      l <- rlist 4 (c <- read 4 ;; p <- read_place4 ;; n <- read 1 ;; rret (mkTribCard p c n)) ;;
      rret (RqCard (ScUniqueTributes cancel min max l)))
  (* 1130-1138 *)
  | KSelectOption => Some (fun _ => l <- rlist 1 read_effect ;; rret (RqEffect 1 l))
  | KSelectBattlecmd => Some (fun _ => select_battle_r)
  | KSelectIdlecmd => Some (fun _ => select_idle_r)
  (* 1242-1250 *)
  | KAnnounceNumber => Some (fun _ => l <- rlist 1 (read 8) ;; rret (RqNumber 1 l))
  (* 1251-1258 *)
  | KSelectPosition => Some (fun _ => c <- read 4 ;; p <- read 1 ;; rret (RqPosition 1 c p))
  (* 1259-1265 *)
  | KAnnounceRace => Some (fun _ => n <- read 1 ;; r <- read 8 ;; rret (RqRace n r))
  (* 1266-1270 *)
  | KRockPaperScissors => Some (fun _ => rret (RqRps true))
  (* 1271-1290 *)
  | KSelectChain => Some (fun _ =>
      spe <- read 1 ;; forced <- read_bool ;; rskip 8 ;;;
      l <- rlist 4 (rskip 4 ;;; p <- read_loc_info ;; e <- read_effect ;; rskip 1 ;;;
                    rret (mkActCard p e)) ;;
      rret (RqToChain forced (0 <? N.land spe 0x7F) l))
  (* 1291-1298 *)
  | KSelectEffectyn => Some (fun _ =>
      c <- read 4 ;; p <- read_loc_info ;; e <- read_effect ;; rret (RqYesNo p c e))
  (* 1299-1304; place and code keep their defaults *)
  | KSelectYesno => Some (fun _ => e <- read_effect ;; rret (RqYesNo place0 0 e))
  (* 1305-1316 *)
  | KSelectPlace => Some (fun r =>
      n <- read 1 ;; z <- read 4 ;; rret (RqZone false n (unpack_zones z (Z.to_N r))))
  | KSelectDisfield => Some (fun r =>
      n <- read 1 ;; z <- read 4 ;; rret (RqZone true n (unpack_zones z (Z.to_N r))))
  (* 1317-1326 *)
  | KSortChain | KSortCard => Some (fun _ => l <- read_card_list 4 ;; rret (RqSort l))
  | _ => None
  end.

(** ** Special messages: 1327-1656 *)

(** 1330-1343 *)
Definition win_case (c : ctx) : reader (verdict * ctx) :=
  w <- read 1 ;;
  r <- read 1 ;;
  m <- rlift (get_match_win_reason c) ;;
  rret (v_event (EvFinish r m (if negb (w =? 2) then FinishWinner (Z.of_N w) else FinishDraw true)),
        c).

(** 1357-1371; the difference is a size_t stored into a uint32. *)
Definition deck_top_case (c : ctx) : reader (verdict * ctx) :=
  con <- read_con ;;
  size <- rlift (pile_size c con LOCATION_MAIN_DECK) ;;
  s <- read 4 ;;
  rskip 4 ;;;
  rskip 4 ;;;
  rret (v_event (EvMeta (MetaUpdate 0
          [mkPlace con LOCATION_MAIN_DECK (of_signed 32 (Z.of_N size - 1 - Z.of_N s))
                   OSEQ_INVALID])), c).

Definition set_oseq (o : Z) (p : place) : place := mkPlace (p_con p) (p_loc p) (p_seq p) o.

(** 1432-1447: the moves of the deferred materials; no-ops are left out. *)
Fixpoint deferred_moves (curr : place) (i : Z) (l : list place) : list pair_op :=
  match l with
  | [] => []
  | d :: l' =>
      let ops := deferred_moves curr (i + 1) l' in
      if (p_con d =? p_con curr)%Z && (p_loc d =? p_loc curr) && (p_seq d =? p_seq curr)
         && (p_oseq d =? i)%Z
      then ops
      else mkPair d (set_oseq i curr) :: ops
  end.

(** 1388-1479, MSG_MOVE after its fields have been read. *)
Definition move_verdict (prev curr : place) (reason : N) (c : ctx) : outcome (verdict * ctx) :=
  let prev_limbo := p_loc prev =? LOCATION_UNSPECIFIED in
  let curr_limbo := p_loc curr =? LOCATION_UNSPECIFIED in
  if prev_limbo && curr_limbo then Ok (v_swallowed, c)
  else if prev_limbo then Ok (v_event (EvCard reason (CardAdd [curr])), c)
  else if curr_limbo then
    let! had := (if negb (is_pile prev) then has_xyz_mat c prev else Ok false) in
    Ok (v_event (EvCard reason (CardRemove [prev])),
        if had then xyz_left prev place0 c else c)
  else if negb (not_mat curr) && is_pile curr then Ok (v_swallowed, xyz_mat_defer prev c)
  else if not_mat curr && negb (is_pile curr) then
    let '(defs, c') := take_deferred_xyz_mat c in
    Ok (v_event (EvCard reason (CardMove (deferred_moves curr 0 defs ++ [mkPair prev curr]))), c')
  else if negb (not_mat prev) && is_pile prev then
    let! had := get_xyz_left c (set_oseq OSEQ_INVALID prev) in
    Ok (v_event (EvCard reason (CardMove [mkPair (set_oseq (p_oseq prev) had) curr])), c)
  else
    let! had := (if negb (is_pile prev) && is_pile curr then has_xyz_mat c prev else Ok false) in
    Ok (v_event (EvCard reason (CardMove [mkPair prev curr])),
        if had then xyz_left curr prev c else c).

(** 1372-1480 *)
Definition move_case (c : ctx) : reader (verdict * ctx) :=
  rskip 4 ;;;
  prev <- read_loc_info ;;
  curr <- read_loc_info ;;
  reason <- read 4 ;;
  rlift (move_verdict prev curr reason c).

(** 1526-1559: the runs of set bits become splices to the extra deck.  The
    state is splice_seq, splice_size, sent_to_extra and the operations so
    far. *)
Definition extra_op (con : Z) (pos sseq ssize sent : N) : splice_op :=
  mkSplice (mkPlace con LOCATION_MAIN_DECK (of_signed 32 (Z.of_N sseq - Z.of_N sent)) OSEQ_INVALID)
           ssize
           (mkPlace con LOCATION_EXTRA_DECK (u32 (pos + sent)) OSEQ_INVALID) false.
Fixpoint extra_loop (con : Z) (pos : N) (data : list N) (is : list N)
                    (sseq ssize sent : N) : outcome (list splice_op) :=
  match is with
  | [] => Ok (if 0 <? ssize then [extra_op con pos sseq ssize sent] else [])
  | i :: is' =>
      let! b := or_ub (nth_error data (N.to_nat (i / 8))) in
      if N.testbit b (i mod 8) then
        extra_loop con pos data is' (if ssize =? 0 then i else sseq) (u32 (ssize + 1)) sent
      else if 0 <? ssize then
        let! l := extra_loop con pos data is' sseq 0 (u32 (sent + ssize)) in
        Ok (extra_op con pos sseq ssize sent :: l)
      else extra_loop con pos data is' sseq ssize sent
  end.

(** 1481-1566.  [gy_size] and [deck_size] are size_t values stored into
    uint32 fields. *)
Definition swap_grave_deck_case (c : ctx) : reader (verdict * ctx) :=
  con <- read_con ;;
  pos <- read 4 ;;
  bufsz <- read 4 ;;
  gy <- rlift (pile_size c con LOCATION_GRAVEYARD) ;;
  deck <- rlift (pile_size c con LOCATION_MAIN_DECK) ;;
  ops <- (fun bs => let! l := extra_loop con pos bs (seqN gy) 0 0 0 in Ok (l, bs)) ;;
  rskip bufsz ;;;
  rret (v_event (EvPile 0 (PileSplice (
          (if 0 <? gy then
             [mkSplice (pile_place con LOCATION_GRAVEYARD) (u32 gy)
                       (pile_place con LOCATION_MAIN_DECK) false] else [])
          ++ (if 0 <? deck then
             [mkSplice (mkPlace con LOCATION_MAIN_DECK (u32 gy) OSEQ_INVALID) (u32 deck)
                       (pile_place con LOCATION_GRAVEYARD) false] else [])
          ++ ops))), c).

(** 1567-1598 *)
Definition draw_case (c : ctx) : reader (verdict * ctx) :=
  con <- read_con ;;
  n <- read 4 ;;
  rskip (8 * n) ;;;
  deck <- rlift (pile_size c con LOCATION_MAIN_DECK) ;;
  hand <- rlift (pile_size c con LOCATION_HAND) ;;
  rret (v_event (EvPile REASON_DRAW (PileSplice
          [mkSplice (mkPlace con LOCATION_MAIN_DECK (of_signed 32 (Z.of_N deck - Z.of_N n)) OSEQ_INVALID)
                    n (mkPlace con LOCATION_HAND (u32 hand) OSEQ_INVALID) true])), c).

(** 1599-1629 *)
Definition reverse_deck_case (c : ctx) : reader (verdict * ctx) :=
  d0 <- rlift (pile_size c 0%Z LOCATION_MAIN_DECK) ;;
  d1 <- rlift (pile_size c 1%Z LOCATION_MAIN_DECK) ;;
  let op (con : Z) (n : N) :=
    mkSplice (pile_place con LOCATION_MAIN_DECK) (u32 n) (pile_place con LOCATION_MAIN_DECK) true in
  rret (v_event (EvPile REASON_EFFECT (PileSplice [op 0%Z d0; op 1%Z d1])), c).

(** ** encode_one: 490-1731 *)

(** The switch. *)
Definition dispatch (k : kind) (c : ctx) : reader (verdict * ctx) :=
  match event_case k with
  | Some m => e <- m ;; rret (v_event e, c)
  | None =>
  match request_case k with
  | Some m =>
      (* create_request, 513-520 *)
      replier <- read_con ;;
      r <- m replier ;;
      rret (mkVerdict StOk (Some (mkMsg (MsgRequest replier r) [])), c)
  | None =>
  match k with
  | KUpdateData => l <- update_data ;; rret (v_queries l, c)
  | KUpdateCard => l <- update_card ;; rret (v_queries l, c)
  | KWin => win_case c
  (* 1344-1356 *)
  | KHint => rskip 1 ;;; rskip 1 ;;; rskip 8 ;;; rret (v_swallowed, c)
  | KDeckTop => deck_top_case c
  | KMove => move_case c
  | KSwapGraveDeck => swap_grave_deck_case c
  | KDraw => draw_case c
  | KReverseDeck => reverse_deck_case c
  (* 1630-1636 *)
  | KMatchKill => r <- read 4 ;; rret (v_swallowed, match_win_reason r c)
  (* 1637-1656 *)
  | KCardHint => rskip CORE_LOC_INFO_SIZE ;;; rskip 1 ;;; rskip 8 ;;; rret (v_swallowed, c)
  (* 1660-1676, 1696-1706 *)
  | KRetry | KSummoned | KSpsummoned | KFlipsummoned | KChainEnd | KAttackDisabled
  | KDamageStepStart | KDamageStepEnd => rret (v_swallowed, c)
  (* 1677-1688 *)
  | KBattle =>
      rskip CORE_LOC_INFO_SIZE ;;; rskip 9 ;;; rskip CORE_LOC_INFO_SIZE ;;; rskip 9 ;;;
      rret (v_swallowed, c)
  (* 1689-1695 *)
  | KEquip => rskip CORE_LOC_INFO_SIZE ;;; rskip CORE_LOC_INFO_SIZE ;;; rret (v_swallowed, c)
  (* 1707-1714 *)
  | KMissedEffect => rskip CORE_LOC_INFO_SIZE ;;; rskip 4 ;;; rret (v_swallowed, c)
  (* 1715-1720 *)
  | KAiName => n <- read 2 ;; rskip (n + 1) ;;; rret (v_swallowed, c)
  (* 1032-1036, 1102-1106, 1124-1129: left as they are *)
  | KSelectCounter | KSelectSum | KAnnounceCard | KAnnounceCardFilter => rret (v_none, c)
  (* not reached: the kinds handled by event_case and request_case *)
  | _ => rret (v_none, c)
  end
  end
  end.

(** encode_common.hpp:45-65 *)
Record eresult := mkResult { r_state : estate; r_bytes_read : N; r_msg : option msg }.

(** 490-1731.  The message type is one byte (ocgcore_messages.inl:1); values
    outside the enumeration reach the default label (1724-1726). *)
Definition encode_one (c : ctx) (bs : list N) : outcome (eresult * ctx) :=
  let! (b, rest) := read 1 bs in
  let! (vc, rest') :=
    (match kind_of b with
     | Some k => dispatch k c rest
     | None => Ok ((v_none, c), rest)
     end) in
  let '(v, c') := vc in
  Ok (mkResult (v_state v) (lenN bs - lenN rest') (v_msg v), c').
