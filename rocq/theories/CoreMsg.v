(** Specification: the messages of the core (edo9300/ygopro-core) as data,
    their byte layout, and the duel message each of them stands for.

    The layout is the one documented by the types at
    src/codec/edo9300_ocgcore_encode.cpp:25-45; nothing here refers to the
    model of the encoder. *)
From Verif Require Import Base Place FrameSpec Msg QuerySpec.

Set Implicit Arguments.
Local Open Scope N_scope.

(** ** Integers *)
Fixpoint le_bytes (w : nat) (v : N) : list N :=
  match w with O => [] | S w' => v mod 256 :: le_bytes w' (v / 256) end.
Notation b1 := (le_bytes 1).
Notation b2 := (le_bytes 2).
Notation b4 := (le_bytes 4).
Notation b8 := (le_bytes 8).
Definition is_u8 (v : N) : Prop := v < 2 ^ 8.
Definition is_u16 (v : N) : Prop := v < 2 ^ 16.
Definition is_u32 (v : N) : Prop := v < 2 ^ 32.
Definition is_u64 (v : N) : Prop := v < 2 ^ 64.
Definition is_i32 (v : Z) : Prop := (- 2 ^ 31 <= v < 2 ^ 31)%Z.
Definition bb (b : bool) : list N := b1 (if b then 1 else 0).
(** Signed values in two's complement. *)
Definition bi4 (v : Z) : list N := b4 (Z.to_N (v mod 2 ^ 32)).

(** A counted sequence. *)
Definition seq4 {A} (f : A -> list N) (l : list A) : list N := b4 (lenN l) ++ flat_map f l.
Definition seq1 {A} (f : A -> list N) (l : list A) : list N := b1 (lenN l) ++ flat_map f l.
Definition short4 {A} (l : list A) : Prop := lenN l < 2 ^ 32.
Definition short1 {A} (l : list A) : Prop := lenN l < 2 ^ 8.

(** ** Locations

    The core knows eight spell and trap zones, 5 being the field zone, 6 and 7
    the pendulum zones.  A material has the location of its holder plus 0x80,
    its index is where the position of other cards is. *)
Record cloc := mkCloc { cl_con : N; cl_loc : N; cl_seq : N; cl_pos : N }.

Definition core_base (c : cloc) : N := if 0x80 <=? cl_loc c then cl_loc c - 0x80 else cl_loc c.
Definition core_spot (loc seq : N) : N * N :=
  match loc, seq with
  | 0x8, 5 => (0x100, 0)
  | 0x8, 6 => (0x200, 0)
  | 0x8, 7 => (0x200, 1)
  | _, _ => (loc, seq)
  end.
Definition core_place (c : cloc) : place :=
  let '(l, s) := core_spot (core_base c) (cl_seq c) in
  mkPlace (Z.of_N (cl_con c)) l s (if 0x80 <=? cl_loc c then Z.of_N (cl_pos c) else (-1)%Z).
(** The same without material index, for messages that do not carry it. *)
Definition core_card_place (c : cloc) : place :=
  let '(l, s) := core_spot (core_base c) (cl_seq c) in
  mkPlace (Z.of_N (cl_con c)) l s (-1)%Z.

Record cloc_ok (c : cloc) : Prop := {
  lo_con : is_u8 (cl_con c);
  lo_loc : In (core_base c) [0; 0x1; 0x2; 0x4; 0x8; 0x10; 0x20; 0x40];
  lo_byte : is_u8 (cl_loc c);
  lo_seq : is_u32 (cl_seq c);
  lo_spell : core_base c = 0x8 -> cl_seq c < 8;
  lo_pos : is_u32 (cl_pos c);
  lo_oseq : 0x80 <= cl_loc c -> cl_pos c < 2 ^ 31
}.
(** With a sequence of one byte. *)
Definition cloc1_ok (c : cloc) : Prop := cloc_ok c /\ is_u8 (cl_seq c).

Definition ser_loc (c : cloc) : list N :=
  b1 (cl_con c) ++ b1 (cl_loc c) ++ b4 (cl_seq c) ++ b4 (cl_pos c).
Definition ser_loc4 (c : cloc) : list N := b1 (cl_con c) ++ b1 (cl_loc c) ++ b4 (cl_seq c).
Definition ser_loc1 (c : cloc) : list N := b1 (cl_con c) ++ b1 (cl_loc c) ++ b1 (cl_seq c).
Definition ser_loc44 (c : cloc) : list N := b1 (cl_con c) ++ b4 (cl_loc c) ++ b4 (cl_seq c).

(** ** Descriptors *)
Definition effect_ok (e : effect) : Prop := is_u32 (e_code e) /\ e_index e < 2 ^ 20.
Definition ser_effect (e : effect) : list N := b8 (e_code e * 2 ^ 20 + e_index e).
Definition counter_ok (c : counter) : Prop := is_u16 (ct_type c) /\ is_u16 (ct_count c).
Definition ser_counter (c : counter) : list N := b4 (ct_type c + ct_count c * 2 ^ 16).

(** A card of a list: its code and where it is. *)
Record ccard := mkCcard { cc_code : N; cc_loc : cloc }.
Definition ccard_ok (c : ccard) : Prop := is_u32 (cc_code c) /\ cloc_ok (cc_loc c).
Definition ccard1_ok (c : ccard) : Prop := is_u32 (cc_code c) /\ cloc1_ok (cc_loc c).
Definition ser_ccard (c : ccard) : list N := b4 (cc_code c) ++ ser_loc (cc_loc c).
Definition ser_ccard4 (c : ccard) : list N := b4 (cc_code c) ++ ser_loc4 (cc_loc c).
Definition ser_ccard1 (c : ccard) : list N := b4 (cc_code c) ++ ser_loc1 (cc_loc c).
Definition ser_ccard44 (c : ccard) : list N := b4 (cc_code c) ++ ser_loc44 (cc_loc c).

(** A chain link: the card, where the effect was activated, the effect. *)
Record clink := mkClink { ck_card : ccard; ck_from : cloc; ck_effect : effect }.
Definition clink_ok (k : clink) : Prop :=
  ccard_ok (ck_card k) /\ cloc_ok (ck_from k) /\ effect_ok (ck_effect k).
Definition ser_clink (k : clink) : list N :=
  ser_ccard (ck_card k) ++ ser_loc4 (ck_from k) ++ ser_effect (ck_effect k).
Definition core_chain (k : clink) : chain :=
  mkChain (core_place (cc_loc (ck_card k))) (core_card_place (ck_from k)) (ck_effect k).

(** A card whose effect can be activated; the last byte is a client mode. *)
Record cact := mkCact { ca_card : ccard; ca_effect : effect; ca_mode : N }.
Definition cact_ok (a : cact) : Prop :=
  ccard_ok (ca_card a) /\ effect_ok (ca_effect a) /\ is_u8 (ca_mode a).
Definition ser_cact (a : cact) : list N :=
  ser_ccard (ca_card a) ++ ser_effect (ca_effect a) ++ b1 (ca_mode a).
Definition ser_cact4 (a : cact) : list N :=
  ser_ccard4 (ca_card a) ++ ser_effect (ca_effect a) ++ b1 (ca_mode a).
Definition core_act (a : cact) : act_card :=
  mkActCard (core_place (cc_loc (ca_card a))) (ca_effect a).
Definition core_act4 (a : cact) : act_card :=
  mkActCard (core_card_place (cc_loc (ca_card a))) (ca_effect a).

(** ** Field reload: a side *)

(** What a zone holds: nothing, or a card in a position with some materials. *)
Definition czone : Type := option (N * N).
Record cside := mkCside {
  sd_lp : N;
  sd_monster : list czone;
  sd_spell : list czone;
  sd_main : N; sd_hand : N; sd_grave : N; sd_ban : N; sd_extra : N; sd_extra_up : N
}.
(** Seven monster zones, eight spell zones; there are no materials in the
    field zone and in the pendulum zones. *)
Definition czone_ok (z : czone) : Prop :=
  match z with None => True | Some (pos, mats) => is_u8 pos /\ mats < 2 ^ 31 end.
Definition bare (z : czone) : Prop :=
  match z with None => True | Some (_, mats) => mats = 0 end.
Record cside_ok (s : cside) : Prop := {
  so_lp : is_u32 (sd_lp s);
  so_monster : length (sd_monster s) = 7%nat /\ Forall czone_ok (sd_monster s);
  so_spell : length (sd_spell s) = 8%nat /\ Forall czone_ok (sd_spell s);
  so_bare : Forall bare (skipn 5 (sd_spell s));
  so_piles : is_u32 (sd_main s) /\ is_u32 (sd_hand s) /\ is_u32 (sd_grave s) /\
             is_u32 (sd_ban s) /\ is_u32 (sd_extra s) /\ is_u32 (sd_extra_up s)
}.
Definition ser_czone (z : czone) : list N :=
  match z with None => b1 0 | Some (pos, mats) => b1 1 ++ b1 pos ++ b4 mats end.
Definition ser_cside (s : cside) : list N :=
  b4 (sd_lp s) ++ flat_map ser_czone (sd_monster s) ++ flat_map ser_czone (sd_spell s) ++
  b4 (sd_main s) ++ b4 (sd_hand s) ++ b4 (sd_grave s) ++ b4 (sd_ban s) ++ b4 (sd_extra s) ++
  b4 (sd_extra_up s).

(** The places a row of zones occupies, in order: each card, then its
    materials. *)
Fixpoint row_places (con : Z) (loc : N) (seq : N) (l : list czone) : list place :=
  match l with
  | [] => []
  | z :: l' =>
      (match z with
       | None => []
       | Some (_, mats) =>
           let '(fl, fs) := core_spot loc seq in
           mkPlace con fl fs (-1) ::
           map (fun o => mkPlace con fl fs (Z.of_nat o)) (List.seq 0 (N.to_nat mats))
       end) ++ row_places con loc (seq + 1) l'
  end.
Definition side_places (con : Z) (s : cside) : list place :=
  row_places con 0x4 0 (sd_monster s) ++ row_places con 0x8 0 (sd_spell s).
Definition whole_pile (con : Z) (loc : N) (n : N) : resize_op := mkResize (mkPlace con loc 0 (-1)) n.
Definition side_piles (con : Z) (s : cside) : list resize_op :=
  [ whole_pile con 0x1 (sd_main s); whole_pile con 0x2 (sd_hand s);
    whole_pile con 0x10 (sd_grave s); whole_pile con 0x20 (sd_ban s);
    whole_pile con 0x40 (sd_extra s) ].
Definition reload_state (flags : N) (s0 s1 : cside) (chains : list clink) : board_state :=
  mkBState (mkShape (N.testbit flags 22) (N.testbit flags 11) (N.testbit flags 12)
                    (N.testbit flags 13) false)
           (-1) [sd_lp s0; sd_lp s1] (map core_chain chains)
           (side_places 0 s0 ++ side_places 1 s1) (side_piles 0 s0 ++ side_piles 1 s1).

(** ** Queries *)

(** One field of a query, as the core writes it.  [ILink] is the old query
    carrying rating and arrows. *)
Inductive qitem :=
| ICode (n : N) | IPosition (n : N) | IAlias (n : N) | IType (n : N) | ILevel (z : Z)
| IRank (n : N) | IAttribute (n : N) | IRace (n : N)
| IAtk (z : Z) | IDef (z : Z) | IBaseAtk (z : Z) | IBaseDef (z : Z)
| IEquip (c : cloc) | ITargets (l : list cloc) | ICounters (l : list counter)
| IOwner (n : N) | IStatus (n : N) | IPublic (b : bool)
| ILscale (n : N) | IRscale (n : N) | ILink (rate arrow : N)
| IHidden (b : bool) | ICover (n : N)
| IOverlay (codes : list N)
| IOther (flag : N) (payload : list N).

(** Flags with a meaning of their own. *)
Definition known_flags : list N :=
  [0x1; 0x2; 0x4; 0x8; 0x10; 0x20; 0x40; 0x80; 0x100; 0x200; 0x400; 0x800; 0x4000; 0x8000;
   0x10000; 0x20000; 0x40000; 0x80000; 0x100000; 0x200000; 0x400000; 0x800000; 0x1000000;
   0x2000000; 0x80000000].

Definition item_flag (i : qitem) : N :=
  match i with
  | ICode _ => 0x1 | IPosition _ => 0x2 | IAlias _ => 0x4 | IType _ => 0x8 | ILevel _ => 0x10
  | IRank _ => 0x20 | IAttribute _ => 0x40 | IRace _ => 0x80
  | IAtk _ => 0x100 | IDef _ => 0x200 | IBaseAtk _ => 0x400 | IBaseDef _ => 0x800
  | IEquip _ => 0x4000 | ITargets _ => 0x8000 | ICounters _ => 0x20000
  | IOwner _ => 0x40000 | IStatus _ => 0x80000 | IPublic _ => 0x100000
  | ILscale _ => 0x200000 | IRscale _ => 0x400000 | ILink _ _ => 0x800000
  | IHidden _ => 0x1000000 | ICover _ => 0x2000000
  | IOverlay _ => 0x10000
  | IOther f _ => f
  end.
Definition item_payload (i : qitem) : list N :=
  match i with
  | ICode n | IPosition n | IAlias n | IType n | IRank n | IAttribute n | IStatus n
  | ILscale n | IRscale n | ICover n => b4 n
  | IRace n => b8 n
  | ILevel z | IAtk z | IDef z | IBaseAtk z | IBaseDef z => bi4 z
  | IEquip c => ser_loc c
  | ITargets l => seq4 ser_loc l
  | ICounters l => seq4 ser_counter l
  | IOwner n => b1 n
  | IPublic b | IHidden b => bb b
  | ILink r a => b4 r ++ b4 a
  | IOverlay l => seq4 b4 l
  | IOther _ p => p
  end.
Definition item_ok (i : qitem) : Prop :=
  4 + lenN (item_payload i) < 2 ^ 16 /\
  match i with
  | ICode n | IPosition n | IAlias n | IType n | IRank n | IAttribute n | IStatus n
  | ILscale n | IRscale n | ICover n => is_u32 n
  | IRace n => is_u64 n
  | ILevel z | IAtk z | IDef z | IBaseAtk z | IBaseDef z => is_i32 z
  | IEquip c => cloc_ok c
  | ITargets l => Forall cloc_ok l
  | ICounters l => Forall counter_ok l
  | IOwner n => is_u8 n
  | IPublic _ | IHidden _ => True
  | ILink r a => is_u32 r /\ is_u32 a
  | IOverlay l => Forall is_u32 l
  | IOther f p => is_u32 f /\ ~ In f known_flags /\ Forall is_u8 p
  end.
Definition ser_item (i : qitem) : list N :=
  b2 (4 + lenN (item_payload i)) ++ b4 (item_flag i) ++ item_payload i.
(** A query ends with an empty item flagged 0x80000000. *)
Definition ser_query (l : list qitem) : list N :=
  flat_map ser_item l ++ b2 4 ++ b4 0x80000000.

(** What an item says about a field, and what a whole query says: the last
    word for single values, everything in order for lists. *)
Definition item_says (x : field) (i : qitem) : option fval :=
  match x, i with
  | F_code, ICode n | F_position, IPosition n | F_alias, IAlias n | F_type, IType n
  | F_xyz_rank, IRank n | F_attribute, IAttribute n | F_race, IRace n | F_status, IStatus n
  | F_pend_l_scale, ILscale n | F_pend_r_scale, IRscale n | F_cover, ICover n
  | F_link_rate, ILink n _ | F_link_arrow, ILink _ n => Some (VN n)
  | F_level, ILevel z | F_atk, IAtk z | F_def, IDef z | F_base_atk, IBaseAtk z
  | F_base_def, IBaseDef z => Some (VZ z)
  | F_equipped_to, IEquip c => Some (VP (core_place c))
  | F_targets, ITargets l => Some (VPs (map core_place l))
  | F_counters, ICounters l => Some (VCs l)
  | F_owner, IOwner n => Some (VZ (Z.of_N n))
  | F_is_public, IPublic b | F_is_hidden, IHidden b => Some (VB b)
  | _, _ => None
  end.
Definition and_then (a b : option fval) : option fval :=
  match a, b with
  | Some (VPs l), Some (VPs l') => Some (VPs (l ++ l'))
  | Some (VCs l), Some (VCs l') => Some (VCs (l ++ l'))
  | _, Some v => Some v
  | a, None => a
  end.
Definition query_says (x : field) (l : list qitem) : option fval :=
  fold_left (fun v i => and_then v (item_says x i)) l None.
(** The materials a query lists: those of the last overlay item. *)
Definition query_overlays (l : list qitem) : list N :=
  fold_left (fun v i => match i with IOverlay o => o | _ => v end) l [].
Definition reads_as (d : qdata) (l : list qitem) : Prop := forall x, query_field x d = query_says x l.

(** ** Messages *)
Inductive core_msg :=
(* events *)
| CmConfirmDecktop (player : N) (cards : list ccard)
| CmConfirmExtratop (player : N) (cards : list ccard)
| CmConfirmCards (player : N) (cards : list ccard)
| CmShuffleDeck (con : N)
| CmShuffleHand (con : N) (codes : list N)
| CmShuffleExtra (con : N) (codes : list N)
| CmShuffleSetCard (loc : N) (pairs : list (cloc * cloc))
| CmNewTurn (con : N)
| CmNewPhase (phase : N)
| CmPosChange (card : ccard) (prev cur : N)
| CmSet (card : ccard) (pos : N)
| CmSwap (a b : ccard)
| CmFieldDisabled (mask : N)
| CmSummoning (card : ccard) | CmSpsummoning (card : ccard) | CmFlipsummoning (card : ccard)
| CmChaining (link : clink) (num : N)
| CmChained (num : N) | CmChainSolving (num : N) | CmChainSolved (num : N)
| CmChainNegated (num : N) | CmChainDisabled (num : N)
| CmDamage (con n : N) | CmRecover (con n : N) | CmLpupdate (con n : N) | CmPayLpcost (con n : N)
| CmRandomSelected (player : N) (l : list cloc)
| CmCardSelected (l : list cloc) | CmBecomeTarget (l : list cloc)
| CmCardTarget (a b : cloc) | CmCancelTarget (a b : cloc)
| CmAddCounter (type : N) (c : cloc) (n : N) | CmRemoveCounter (type : N) (c : cloc) (n : N)
| CmAttack (attacker target : cloc)
| CmTossCoin (con : N) (l : list bool)
| CmTossDice (con : N) (l : list N)
| CmHandRes (hand0 hand1 : N)
| CmStart (rule lp0 lp1 md0 ed0 md1 ed1 : N)
| CmTagSwap (con main extra extra_up hand top : N) (cards : list (N * N))
| CmReloadField (flags : N) (s0 s1 : cside) (chains : list clink)
| CmPlayerHint (con : N) (add : bool) (e : effect)
(* queries *)
| CmUpdateData (con loc : N) (slots : list (option (list qitem)))
| CmUpdateCard (c : cloc) (items : list qitem)
(* requests *)
| CmAnnounceAttrib (to count mask : N)
| CmAnnounceRace (to count mask : N)
| CmAnnounceNumber (to : N) (l : list N)
| CmSelectCard (to : N) (cancel : bool) (min max : N) (cards : list ccard)
| CmSelectUnselectCard (to : N) (finish accept : bool) (min max : N) (sel unsel : list ccard)
| CmSelectTribute (to : N) (cancel : bool) (min max : N) (cards : list (ccard * N))
| CmSelectOption (to : N) (l : list effect)
| CmSelectBattlecmd (to : N) (acts : list cact) (atks : list (ccard * bool)) (mp2 ep : bool)
| CmSelectIdlecmd (to : N) (summon spsummon repos mset sset : list ccard) (acts : list cact)
                  (bp ep shuffle : bool)
| CmSelectPosition (to code pos : N)
| CmRockPaperScissors (to : N)
| CmSelectChain (to spe : N) (forced : bool) (hint0 hint1 : N) (acts : list cact)
| CmSelectEffectyn (to : N) (card : ccard) (e : effect)
| CmSelectYesno (to : N) (e : effect)
| CmSelectPlace (to count mask : N)
| CmSelectDisfield (to count mask : N)
| CmSortChain (to : N) (cards : list ccard)
| CmSortCard (to : N) (cards : list ccard)
(* messages that need the state of the duel *)
| CmWin (player reason : N)
| CmDeckTop (con seq code pos : N)
| CmMove (code : N) (prev cur : cloc) (reason : N)
| CmSwapGraveDeck (con pos : N) (bits : list N)
| CmDraw (con : N) (cards : list (N * N))
| CmReverseDeck
| CmMatchKill (reason : N)
(* messages without a counterpart *)
| CmRetry | CmHint (type player data : N) | CmCardHint (c : cloc) (type value : N)
| CmSummoned | CmSpsummoned | CmFlipsummoned | CmChainEnd
| CmBattle (a : cloc) (atk def flag : N) (b : cloc) (atk' def' flag' : N)
| CmEquip (a b : cloc)
| CmAttackDisabled | CmDamageStepStart | CmDamageStepEnd
| CmMissedEffect (c : cloc) (code : N)
| CmAiName (name : list N).

(** The number of each message, ygopro-core common.h. *)
Definition msg_number (m : core_msg) : N :=
  match m with
  | CmRetry => 1 | CmHint _ _ _ => 2 | CmStart _ _ _ _ _ _ _ => 4 | CmWin _ _ => 5
  | CmUpdateData _ _ _ => 6 | CmUpdateCard _ _ => 7
  | CmSelectBattlecmd _ _ _ _ _ => 10 | CmSelectIdlecmd _ _ _ _ _ _ _ _ _ _ => 11
  | CmSelectEffectyn _ _ _ => 12 | CmSelectYesno _ _ => 13 | CmSelectOption _ _ => 14
  | CmSelectCard _ _ _ _ _ => 15 | CmSelectChain _ _ _ _ _ _ => 16
  | CmSelectPlace _ _ _ => 18 | CmSelectPosition _ _ _ => 19 | CmSelectTribute _ _ _ _ _ => 20
  | CmSortChain _ _ => 21 | CmSelectDisfield _ _ _ => 24 | CmSortCard _ _ => 25
  | CmSelectUnselectCard _ _ _ _ _ _ _ => 26
  | CmConfirmDecktop _ _ => 30 | CmConfirmCards _ _ => 31 | CmShuffleDeck _ => 32
  | CmShuffleHand _ _ => 33 | CmSwapGraveDeck _ _ _ => 35 | CmShuffleSetCard _ _ => 36
  | CmReverseDeck => 37 | CmDeckTop _ _ _ _ => 38 | CmShuffleExtra _ _ => 39
  | CmNewTurn _ => 40 | CmNewPhase _ => 41 | CmConfirmExtratop _ _ => 42
  | CmMove _ _ _ _ => 50 | CmPosChange _ _ _ => 53 | CmSet _ _ => 54 | CmSwap _ _ => 55
  | CmFieldDisabled _ => 56 | CmSummoning _ => 60 | CmSummoned => 61 | CmSpsummoning _ => 62
  | CmSpsummoned => 63 | CmFlipsummoning _ => 64 | CmFlipsummoned => 65
  | CmChaining _ _ => 70 | CmChained _ => 71 | CmChainSolving _ => 72 | CmChainSolved _ => 73
  | CmChainEnd => 74 | CmChainNegated _ => 75 | CmChainDisabled _ => 76
  | CmCardSelected _ => 80 | CmRandomSelected _ _ => 81 | CmBecomeTarget _ => 83
  | CmDraw _ _ => 90 | CmDamage _ _ => 91 | CmRecover _ _ => 92 | CmEquip _ _ => 93
  | CmLpupdate _ _ => 94 | CmCardTarget _ _ => 96 | CmCancelTarget _ _ => 97
  | CmPayLpcost _ _ => 100 | CmAddCounter _ _ _ => 101 | CmRemoveCounter _ _ _ => 102
  | CmAttack _ _ => 110 | CmBattle _ _ _ _ _ _ _ _ => 111 | CmAttackDisabled => 112
  | CmDamageStepStart => 113 | CmDamageStepEnd => 114 | CmMissedEffect _ _ => 120
  | CmTossCoin _ _ => 130 | CmTossDice _ _ => 131 | CmRockPaperScissors _ => 132
  | CmHandRes _ _ => 133 | CmAnnounceRace _ _ _ => 140 | CmAnnounceAttrib _ _ _ => 141
  | CmAnnounceNumber _ _ => 143 | CmCardHint _ _ _ => 160 | CmTagSwap _ _ _ _ _ _ _ => 161
  | CmReloadField _ _ _ _ => 162 | CmAiName _ => 163 | CmPlayerHint _ _ _ => 165
  | CmMatchKill _ => 170
  end.

Definition ser_slot (s : option (list qitem)) : list N :=
  match s with None => b2 0 | Some l => ser_query l end.

(** The bytes after the number. *)
Definition payload (m : core_msg) : list N :=
  match m with
  | CmConfirmDecktop p l | CmConfirmExtratop p l | CmConfirmCards p l => b1 p ++ seq4 ser_ccard4 l
  | CmShuffleDeck c | CmNewTurn c => b1 c
  | CmShuffleHand c l | CmShuffleExtra c l => b1 c ++ seq4 b4 l
  | CmShuffleSetCard loc l =>
      b1 loc ++ b1 (lenN l) ++ flat_map ser_loc (map fst l) ++ flat_map ser_loc (map snd l)
  | CmNewPhase p => b2 p
  | CmPosChange c p q => ser_ccard1 c ++ b1 p ++ b1 q
  | CmSet c p => ser_ccard4 c ++ b4 p
  | CmSwap a b => ser_ccard a ++ ser_ccard b
  | CmFieldDisabled z => b4 z
  | CmSummoning c | CmSpsummoning c | CmFlipsummoning c => ser_ccard c
  | CmChaining k n => ser_clink k ++ b4 n
  | CmChained n | CmChainSolving n | CmChainSolved n | CmChainNegated n | CmChainDisabled n => b1 n
  | CmDamage c n | CmRecover c n | CmLpupdate c n | CmPayLpcost c n => b1 c ++ b4 n
  | CmRandomSelected p l => b1 p ++ seq4 ser_loc l
  | CmCardSelected l | CmBecomeTarget l => seq4 ser_loc l
  | CmCardTarget a b | CmCancelTarget a b | CmAttack a b => ser_loc a ++ ser_loc b
  | CmAddCounter t c n | CmRemoveCounter t c n => b2 t ++ ser_loc1 c ++ b2 n
  | CmTossCoin c l => b1 c ++ seq1 bb l
  | CmTossDice c l => b1 c ++ seq1 b1 l
  | CmHandRes h0 h1 => b1 (h0 + 4 * h1)
  | CmStart r lp0 lp1 md0 ed0 md1 ed1 =>
      b1 r ++ b4 lp0 ++ b4 lp1 ++ b2 md0 ++ b2 ed0 ++ b2 md1 ++ b2 ed1
  | CmTagSwap c main extra up hand top l =>
      b1 c ++ b4 main ++ b4 extra ++ b4 up ++ b4 hand ++ b4 top ++
      flat_map (fun x : N * N => b4 (fst x) ++ b4 (snd x)) l
  | CmReloadField f s0 s1 l => b4 f ++ ser_cside s0 ++ ser_cside s1 ++ seq4 ser_clink l
  | CmPlayerHint c add e => b1 c ++ b1 (if add then 1 else 2) ++ ser_effect e
  | CmUpdateData c loc l =>
      b1 c ++ b1 loc ++ b4 (lenN (flat_map ser_slot l)) ++ flat_map ser_slot l
  | CmUpdateCard c l => ser_loc1 c ++ ser_query l
  | CmAnnounceAttrib to n m => b1 to ++ b1 n ++ b4 m
  | CmAnnounceRace to n m => b1 to ++ b1 n ++ b8 m
  | CmAnnounceNumber to l => b1 to ++ seq1 b8 l
  | CmSelectCard to c min max l => b1 to ++ bb c ++ b4 min ++ b4 max ++ seq4 ser_ccard l
  | CmSelectUnselectCard to f a min max l l' =>
      b1 to ++ bb f ++ bb a ++ b4 min ++ b4 max ++ seq4 ser_ccard l ++ seq4 ser_ccard l'
  | CmSelectTribute to c min max l =>
      b1 to ++ bb c ++ b4 min ++ b4 max ++
      seq4 (fun x : ccard * N => ser_ccard4 (fst x) ++ b1 (snd x)) l
  | CmSelectOption to l => b1 to ++ seq1 ser_effect l
  | CmSelectBattlecmd to l l' mp2 ep =>
      b1 to ++ seq4 ser_cact4 l ++
      seq4 (fun x : ccard * bool => ser_ccard1 (fst x) ++ bb (snd x)) l' ++ bb mp2 ++ bb ep
  | CmSelectIdlecmd to l1 l2 l3 l4 l5 l6 bp ep sh =>
      b1 to ++ seq4 ser_ccard4 l1 ++ seq4 ser_ccard4 l2 ++ seq4 ser_ccard1 l3 ++
      seq4 ser_ccard4 l4 ++ seq4 ser_ccard4 l5 ++ seq4 ser_cact4 l6 ++ bb bp ++ bb ep ++ bb sh
  | CmSelectPosition to code pos => b1 to ++ b4 code ++ b1 pos
  | CmRockPaperScissors to => b1 to
  | CmSelectChain to spe f h0 h1 l => b1 to ++ b1 spe ++ bb f ++ b4 h0 ++ b4 h1 ++ seq4 ser_cact l
  | CmSelectEffectyn to c e => b1 to ++ ser_ccard c ++ ser_effect e
  | CmSelectYesno to e => b1 to ++ ser_effect e
  | CmSelectPlace to n z | CmSelectDisfield to n z => b1 to ++ b1 n ++ b4 z
  | CmSortChain to l | CmSortCard to l => b1 to ++ seq4 ser_ccard44 l
  | CmWin p r => b1 p ++ b1 r
  | CmDeckTop c s code pos => b1 c ++ b4 s ++ b4 code ++ b4 pos
  | CmMove code p q r => b4 code ++ ser_loc p ++ ser_loc q ++ b4 r
  | CmSwapGraveDeck c pos l => b1 c ++ b4 pos ++ seq4 b1 l
  | CmDraw c l => b1 c ++ seq4 (fun x : N * N => b4 (fst x) ++ b4 (snd x)) l
  | CmMatchKill r => b4 r
  | CmHint t p d => b1 t ++ b1 p ++ b8 d
  | CmCardHint c t v => ser_loc c ++ b1 t ++ b8 v
  | CmBattle a x y z b x' y' z' =>
      ser_loc a ++ b4 x ++ b4 y ++ b1 z ++ ser_loc b ++ b4 x' ++ b4 y' ++ b1 z'
  | CmEquip a b => ser_loc a ++ ser_loc b
  | CmMissedEffect c code => ser_loc c ++ b4 code
  | CmAiName l => b2 (lenN l) ++ flat_map b1 l ++ b1 0
  | CmReverseDeck | CmRetry | CmSummoned | CmSpsummoned | CmFlipsummoned | CmChainEnd
  | CmAttackDisabled | CmDamageStepStart | CmDamageStepEnd => []
  end.
Definition ser (m : core_msg) : list N := msg_number m :: payload m.

(** Every field fits its width. *)
Definition slot_ok (s : option (list qitem)) : Prop :=
  match s with None => True | Some l => Forall item_ok l end.
Definition core_ok (m : core_msg) : Prop :=
  match m with
  | CmConfirmDecktop p l | CmConfirmExtratop p l | CmConfirmCards p l
  | CmSortChain p l | CmSortCard p l => is_u8 p /\ short4 l /\ Forall ccard_ok l
  | CmShuffleDeck c | CmNewTurn c => is_u8 c
  | CmShuffleHand c l | CmShuffleExtra c l => is_u8 c /\ short4 l /\ Forall is_u32 l
  | CmShuffleSetCard loc l =>
      is_u8 loc /\ short1 l /\ Forall (fun x : cloc * cloc => cloc_ok (fst x) /\ cloc_ok (snd x)) l
  | CmNewPhase p => is_u16 p
  | CmPosChange c p q => ccard1_ok c /\ is_u8 p /\ is_u8 q
  | CmSet c p => ccard_ok c /\ is_u32 p
  | CmSwap a b => ccard_ok a /\ ccard_ok b
  | CmFieldDisabled z => is_u32 z
  | CmSummoning c | CmSpsummoning c | CmFlipsummoning c => ccard_ok c
  | CmChaining k n => clink_ok k /\ is_u32 n
  | CmChained n | CmChainSolving n | CmChainSolved n | CmChainNegated n | CmChainDisabled n => is_u8 n
  | CmDamage c n | CmRecover c n | CmLpupdate c n | CmPayLpcost c n => is_u8 c /\ is_u32 n
  | CmRandomSelected p l => is_u8 p /\ short4 l /\ Forall cloc_ok l
  | CmCardSelected l | CmBecomeTarget l => short4 l /\ Forall cloc_ok l
  | CmCardTarget a b | CmCancelTarget a b | CmAttack a b | CmEquip a b => cloc_ok a /\ cloc_ok b
  | CmAddCounter t c n | CmRemoveCounter t c n => is_u16 t /\ cloc1_ok c /\ is_u16 n
  | CmTossCoin c l => is_u8 c /\ short1 l
  | CmTossDice c l => is_u8 c /\ short1 l /\ Forall is_u8 l
  | CmHandRes h0 h1 => h0 < 4 /\ h1 < 4
  | CmStart r lp0 lp1 md0 ed0 md1 ed1 =>
      is_u8 r /\ is_u32 lp0 /\ is_u32 lp1 /\ is_u16 md0 /\ is_u16 ed0 /\ is_u16 md1 /\ is_u16 ed1
  | CmTagSwap c main extra up hand top l =>
      is_u8 c /\ is_u32 main /\ is_u32 extra /\ is_u32 up /\ is_u32 hand /\ is_u32 top /\
      lenN l = extra + hand /\ short4 l /\
      Forall (fun x : N * N => is_u32 (fst x) /\ is_u32 (snd x)) l
  | CmReloadField f s0 s1 l =>
      is_u32 f /\ cside_ok s0 /\ cside_ok s1 /\ short4 l /\ Forall clink_ok l
  | CmPlayerHint c _ e => is_u8 c /\ effect_ok e
  | CmUpdateData c loc l =>
      is_u8 c /\ In loc [0; 0x1; 0x2; 0x4; 0x8; 0x10; 0x20; 0x40] /\
      (loc = 0x8 -> lenN l <= 8) /\
      Forall slot_ok l /\ lenN (flat_map ser_slot l) < 2 ^ 32
  | CmUpdateCard c l => cloc1_ok c /\ Forall item_ok l
  | CmAnnounceAttrib to n m => is_u8 to /\ is_u8 n /\ is_u32 m
  | CmAnnounceRace to n m => is_u8 to /\ is_u8 n /\ is_u64 m
  | CmAnnounceNumber to l => is_u8 to /\ short1 l /\ Forall is_u64 l
  | CmSelectCard to _ min max l =>
      is_u8 to /\ is_u32 min /\ is_u32 max /\ l <> [] /\ short4 l /\ Forall ccard_ok l
  | CmSelectUnselectCard to _ _ min max l l' =>
      is_u8 to /\ is_u32 min /\ is_u32 max /\ short4 l /\ Forall ccard_ok l /\
      short4 l' /\ Forall ccard_ok l'
  | CmSelectTribute to _ min max l =>
      is_u8 to /\ is_u32 min /\ is_u32 max /\ short4 l /\
      Forall (fun x : ccard * N => ccard_ok (fst x) /\ is_u8 (snd x)) l
  | CmSelectOption to l => is_u8 to /\ short1 l /\ Forall effect_ok l
  | CmSelectBattlecmd to l l' _ _ =>
      is_u8 to /\ short4 l /\ Forall cact_ok l /\ short4 l' /\
      Forall (fun x : ccard * bool => ccard1_ok (fst x)) l'
  | CmSelectIdlecmd to l1 l2 l3 l4 l5 l6 _ _ _ =>
      is_u8 to /\ (short4 l1 /\ Forall ccard_ok l1) /\ (short4 l2 /\ Forall ccard_ok l2) /\
      (short4 l3 /\ Forall ccard1_ok l3) /\ (short4 l4 /\ Forall ccard_ok l4) /\
      (short4 l5 /\ Forall ccard_ok l5) /\ (short4 l6 /\ Forall cact_ok l6)
  | CmSelectPosition to code pos => is_u8 to /\ is_u32 code /\ is_u8 pos
  | CmRockPaperScissors to => is_u8 to
  | CmSelectChain to spe _ h0 h1 l =>
      is_u8 to /\ is_u8 spe /\ is_u32 h0 /\ is_u32 h1 /\ short4 l /\ Forall cact_ok l
  | CmSelectEffectyn to c e => is_u8 to /\ ccard_ok c /\ effect_ok e
  | CmSelectYesno to e => is_u8 to /\ effect_ok e
  | CmSelectPlace to n z | CmSelectDisfield to n z => to < 2 /\ is_u8 n /\ is_u32 z
  | CmWin p r => is_u8 p /\ is_u8 r
  | CmDeckTop c s code pos => is_u8 c /\ is_u32 s /\ is_u32 code /\ is_u32 pos
  | CmMove code p q r => is_u32 code /\ cloc_ok p /\ cloc_ok q /\ is_u32 r
  | CmSwapGraveDeck c pos l => is_u8 c /\ is_u32 pos /\ short4 l /\ Forall is_u8 l
  | CmDraw c l =>
      is_u8 c /\ short4 l /\ Forall (fun x : N * N => is_u32 (fst x) /\ is_u32 (snd x)) l
  | CmMatchKill r => is_u32 r
  | CmHint t p d => is_u8 t /\ is_u8 p /\ is_u64 d
  | CmCardHint c t v => cloc_ok c /\ is_u8 t /\ is_u64 v
  | CmBattle a x y z b x' y' z' =>
      cloc_ok a /\ is_u32 x /\ is_u32 y /\ is_u8 z /\
      cloc_ok b /\ is_u32 x' /\ is_u32 y' /\ is_u8 z'
  | CmMissedEffect c code => cloc_ok c /\ is_u32 code
  | CmAiName l => lenN l < 2 ^ 16 /\ Forall is_u8 l
  | CmReverseDeck | CmRetry | CmSummoned | CmSpsummoned | CmFlipsummoned | CmChainEnd
  | CmAttackDisabled | CmDamageStepStart | CmDamageStepEnd => True
  end.

(** ** What each message means *)

(** The zones of a mask: a zone is listed when its bit is clear.  The low half
    belongs to [who], the high half to the opponent. *)
Definition half_table : list (N * N * N) :=
  [ (0, 0x4, 0); (1, 0x4, 1); (2, 0x4, 2); (3, 0x4, 3); (4, 0x4, 4); (5, 0x4, 5); (6, 0x4, 6);
    (8, 0x8, 0); (9, 0x8, 1); (10, 0x8, 2); (11, 0x8, 3); (12, 0x8, 4);
    (13, 0x100, 0); (14, 0x200, 0); (15, 0x200, 1) ].
Definition mask_table (who : N) : list (N * place) :=
  map (fun x : N * N * N => let '(b, l, s) := x in (b, mkPlace (Z.of_N who) l s (-1))) half_table ++
  map (fun x : N * N * N => let '(b, l, s) := x in (16 + b, mkPlace (1 - Z.of_N who) l s (-1))) half_table.
Definition clear_zones (mask who : N) : list place :=
  map snd (filter (fun x : N * place => negb (N.testbit mask (fst x))) (mask_table who)).

Definition codes_at (l : list ccard) : list sel_card :=
  map (fun c => mkSelCard (core_place (cc_loc c)) (cc_code c)) l.
Definition places_of (l : list ccard) : list place := map (fun c => core_card_place (cc_loc c)) l.
(** The first card decides whether a selection is about cards outside the
    game. *)
Definition in_limbo (l : list ccard) : bool :=
  match l with [] => false | c :: _ => cl_loc (cc_loc c) =? 0 end.

(** Events. *)
Definition core_event (m : core_msg) : option event :=
  match m with
  | CmConfirmDecktop _ l | CmConfirmExtratop _ l | CmConfirmCards _ l =>
      Some (EvMeta (MetaConfirm 0 (places_of l)))
  | CmShuffleDeck c => Some (EvMeta (MetaShufflePile [mkPlace (Z.of_N c) 0x1 0 0]))
  | CmShuffleHand c _ => Some (EvMeta (MetaShufflePile [mkPlace (Z.of_N c) 0x2 0 0]))
  | CmShuffleExtra c _ => Some (EvMeta (MetaShufflePile [mkPlace (Z.of_N c) 0x40 0 0]))
  | CmShuffleSetCard _ l =>
      Some (EvCard 0 (CardShuffle (map (fun x : cloc * cloc => core_place (fst x)) l)
                                  (map (fun x : cloc * cloc => core_place (snd x)) l)))
  | CmNewTurn c => Some (EvNextTurn (Z.of_N c))
  | CmNewPhase p => Some (EvNextPhase p)
  | CmPosChange c _ _ => Some (EvMeta (MetaUpdate 0 [core_card_place (cc_loc c)]))
  | CmSet c _ => Some (EvMeta (MetaUpdate 0 [core_card_place (cc_loc c)]))
  | CmSwap a b =>
      Some (EvCard 0 (CardExchange [mkPair (core_place (cc_loc a)) (core_place (cc_loc b))]))
  | CmFieldDisabled z => Some (EvZoneBlock (clear_zones z 0))
  | CmSummoning c => Some (EvMeta (MetaUpdate 0x10 [core_place (cc_loc c)]))
  | CmSpsummoning c => Some (EvMeta (MetaUpdate 0x800 [core_place (cc_loc c)]))
  | CmFlipsummoning c => Some (EvMeta (MetaUpdate 0x2000 [core_place (cc_loc c)]))
  | CmChaining k _ => Some (EvChainStack (ChainPush (core_chain k)))
  | CmChained _ => Some (EvMeta (MetaChainStatus CsChained))
  | CmChainSolving _ => Some (EvMeta (MetaChainStatus CsSolving))
  | CmChainNegated _ => Some (EvMeta (MetaChainStatus CsActNegated))
  | CmChainDisabled _ => Some (EvMeta (MetaChainStatus CsEffNegated))
  | CmChainSolved _ => Some (EvChainStack (ChainPop true))
  | CmDamage c n => Some (EvLp (Z.of_N c) (LpDamage n))
  | CmRecover c n => Some (EvLp (Z.of_N c) (LpRecover n))
  | CmLpupdate c n => Some (EvLp (Z.of_N c) (LpBecome n))
  | CmPayLpcost c n => Some (EvLp (Z.of_N c) (LpPay n))
  | CmRandomSelected _ l | CmCardSelected l | CmBecomeTarget l =>
      Some (EvMeta (MetaSelection place0 0 (map core_place l)))
  | CmCardTarget a b | CmCancelTarget a b =>
      Some (EvMeta (MetaSelection (core_place a) 0 [core_place b]))
  | CmAddCounter _ c _ | CmRemoveCounter _ c _ => Some (EvMeta (MetaUpdate 0 [core_card_place c]))
  | CmAttack a b =>
      (* a direct attack has a target with location 0 *)
      Some (EvMeta (MetaAttack (core_place a) (if core_base b =? 0 then place0 else core_place b)))
  | CmTossCoin c l => Some (EvResult (ResultCoin (Z.of_N c) l))
  | CmTossDice c l => Some (EvResult (ResultDice (Z.of_N c) l))
  | CmHandRes h0 h1 => Some (EvResult (ResultRps [Z.of_N h0; Z.of_N h1]))
  | CmStart _ lp0 lp1 md0 ed0 md1 ed1 =>
      Some (EvBoard (BoardState (mkBState field_shape0 0 [lp0; lp1] [] []
        [whole_pile 0 0x1 md0; whole_pile 0 0x40 ed0; whole_pile 1 0x1 md1; whole_pile 1 0x40 ed1])))
  | CmTagSwap c main extra _ hand _ _ =>
      let con := Z.of_N c in
      Some (EvBoard (BoardExchange (mkBExchange con [] []
        [whole_pile con 0x1 main; whole_pile con 0x40 extra; whole_pile con 0x2 hand])))
  | CmReloadField f s0 s1 l => Some (EvBoard (BoardState (reload_state f s0 s1 l)))
  | CmPlayerHint c add e =>
      Some (EvMeta (MetaDescription (Z.of_N c) (if add then DescAdd e else DescRemove e)))
  | _ => None
  end.

(** Requests and who has to answer. *)
Definition core_request (m : core_msg) : option (N * request) :=
  match m with
  | CmAnnounceAttrib to n m => Some (to, RqAttribute n m)
  | CmAnnounceRace to n m => Some (to, RqRace n m)
  | CmAnnounceNumber to l => Some (to, RqNumber 1 l)
  | CmSelectCard to c min max l =>
      Some (to, RqCard (if in_limbo l then ScLimbo c min max (map cc_code l)
                        else ScUniqueRange c min max (codes_at l)))
  | CmSelectUnselectCard to f a min max l l' =>
      Some (to, RqCard (ScRecursive f a min max (codes_at l) (codes_at l')))
  | CmSelectTribute to c min max l =>
      Some (to, RqCard (ScUniqueTributes c min max
        (map (fun x : ccard * N => mkTribCard (core_card_place (cc_loc (fst x))) (cc_code (fst x)) (snd x)) l)))
  | CmSelectOption to l => Some (to, RqEffect 1 l)
  | CmSelectBattlecmd to l l' mp2 ep =>
      Some (to, RqIdle (mkIdle false ((if mp2 then 0x100 else 0) + (if ep then 0x200 else 0))
        (map core_act4 l) [] [] [] [] []
        (map (fun x : ccard * bool => mkAtkCard (core_card_place (cc_loc (fst x))) (snd x)) l') true))
  | CmSelectIdlecmd to l1 l2 l3 l4 l5 l6 bp ep sh =>
      Some (to, RqIdle (mkIdle sh ((if bp then 0x80 else 0) + (if ep then 0x200 else 0))
        (map core_act4 l6) (places_of l1) (places_of l2) (places_of l3) (places_of l4)
        (places_of l5) [] false))
  | CmSelectPosition to code pos => Some (to, RqPosition 1 code pos)
  | CmRockPaperScissors to => Some (to, RqRps true)
  | CmSelectChain to spe f _ _ l => Some (to, RqToChain f (negb (spe mod 128 =? 0)) (map core_act l))
  | CmSelectEffectyn to c e => Some (to, RqYesNo (core_place (cc_loc c)) (cc_code c) e)
  | CmSelectYesno to e => Some (to, RqYesNo place0 0 e)
  | CmSelectPlace to n z => Some (to, RqZone false n (clear_zones z to))
  | CmSelectDisfield to n z => Some (to, RqZone true n (clear_zones z to))
  | CmSortChain to l | CmSortCard to l => Some (to, RqSort (places_of l))
  | _ => None
  end.

(** Queries: the place of every query in the message, and what it must say.
    A card's materials follow it, in order, with only their code known. *)
Definition slot_queries (con loc i : N) (l : list qitem) : list (place * list qitem) :=
  let '(fl, fs) := core_spot loc i in
  (mkPlace (Z.of_N con) fl fs (-1), l)
  :: map (fun x : nat * N => (mkPlace (Z.of_N con) fl fs (Z.of_nat (fst x)), [ICode (snd x)]))
         (combine (List.seq 0 (length (query_overlays l))) (query_overlays l)).
Fixpoint batch_queries (con loc i : N) (l : list (option (list qitem))) : list (place * list qitem) :=
  match l with
  | [] => []
  | s :: l' =>
      (match s with None => [] | Some q => slot_queries con loc i q end)
      ++ batch_queries con loc (i + 1) l'
  end.
Definition core_queries (m : core_msg) : option (list (place * list qitem)) :=
  match m with
  | CmUpdateData c loc l => Some (batch_queries c loc 0 l)
  | CmUpdateCard c l => Some (slot_queries (cl_con c) (core_base c) (cl_seq c) l)
  | _ => None
  end.
Definition query_matches (q : query) (x : place * list qitem) : Prop :=
  qr_place q = fst x /\ reads_as (qr_data q) (snd x).

(** Messages without a counterpart. *)
Definition core_silent (m : core_msg) : bool :=
  match m with
  | CmRetry | CmHint _ _ _ | CmCardHint _ _ _ | CmSummoned | CmSpsummoned | CmFlipsummoned
  | CmChainEnd | CmBattle _ _ _ _ _ _ _ _ | CmEquip _ _ | CmAttackDisabled
  | CmDamageStepStart | CmDamageStepEnd | CmMissedEffect _ _ | CmAiName _ => true
  | _ => false
  end.
