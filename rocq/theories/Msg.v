(** The duel messages as data: include/ygopen/proto/duel_data.proto and
    include/ygopen/proto/duel_msg.proto.

    A sub-message that is not set reads as its default value, which is what the
    generated getters return, so only [oneof]s and the query fields keep track
    of presence.  Every [oneof] has a constructor for "not set". *)
From Verif Require Import Base Place.

Set Implicit Arguments.

(** duel_data.proto:22-34 *)
Record field_shape := mkShape {
  fs_three_columns : bool;
  fs_has_pzones : bool;
  fs_has_separate_pzones : bool;
  fs_has_emzones : bool;
  fs_has_skill_zone : bool
}.
Definition field_shape0 : field_shape := mkShape false false false false false.

(** duel_data.proto:60-69 *)
Inductive chain_status := CsChaining | CsChained | CsSolving | CsActNegated | CsEffNegated.

(** duel_data.proto:84-88 *)
Record effect := mkEffect { e_code : N; e_index : N }.
Definition effect0 : effect := mkEffect 0 0.

(** duel_data.proto:71-76 *)
Record chain := mkChain { ch_card_place : place; ch_place : place; ch_effect : effect }.

(** duel_data.proto:78-82 *)
Record counter := mkCounter { ct_type : N; ct_count : N }.

(** ** Events *)

(** duel_msg.proto:218-222, 57-61/66-72/207-211 and 229-235: the operations
    carried by resize, exchange, move and splice events. *)
Record resize_op := mkResize { rz_place : place; rz_count : N }.
Record pair_op := mkPair { po_a : place; po_b : place }.
Record splice_op := mkSplice { sp_from : place; sp_count : N; sp_to : place; sp_reverse : bool }.

(** duel_msg.proto:20-46 *)
Record board_exchange := mkBExchange {
  bx_con : Z;
  bx_remove : list place;
  bx_add : list place;
  bx_resize : list resize_op
}.
Record board_state := mkBState {
  bs_shape : field_shape;
  bs_turn_counter : Z;
  bs_lps : list N;
  bs_chains : list chain;
  bs_add : list place;
  bs_resize : list resize_op
}.
Inductive board_ev :=
| BoardNotSet
| BoardExchange (x : board_exchange)
| BoardState (s : board_state).

(** duel_msg.proto:48-99, the [oneof]; the reason is kept beside it. *)
Inductive card_ev :=
| CardNotSet
| CardAdd (places : list place)
| CardExchange (ops : list pair_op)
| CardMove (ops : list pair_op)
| CardRemove (places : list place)
| CardShuffle (prev cur : list place).

(** duel_msg.proto:101-108 *)
Inductive chain_ev :=
| ChainNotSet
| ChainPush (c : chain)
| ChainPop (b : bool).

(** duel_msg.proto:110-120 *)
Inductive finish_t :=
| FinishNotSet
| FinishWinner (w : Z)
| FinishDraw (b : bool).

(** duel_msg.proto:122-132 *)
Inductive lp_ev :=
| LpNotSet
| LpBecome (n : N)
| LpDamage (n : N)
| LpPay (n : N)
| LpRecover (n : N).

(** duel_msg.proto:134-201 *)
Inductive desc_t :=
| DescNotSet
| DescAdd (e : effect)
| DescRemove (e : effect).
Inductive meta_ev :=
| MetaNotSet
| MetaAttack (attacker target : place)
| MetaChainStatus (s : chain_status)
| MetaConfirm (reason : N) (places : list place)
| MetaDescription (con : Z) (t : desc_t)
| MetaFlashCard (code : N) (has_number : bool) (number : Z)
| MetaMissedTiming (places : list place)
| MetaSelection (selector : place) (reason : N) (selected : list place)
| MetaShufflePile (places : list place)
| MetaUpdate (reason : N) (places : list place).

(** duel_msg.proto:203-247 *)
Inductive pile_ev :=
| PileNotSet
| PileExchange (ops : list pair_op)
| PileResize (ops : list resize_op)
| PileSplice (ops : list splice_op).

(** duel_msg.proto:249-274 *)
Inductive result_ev :=
| ResultNotSet
| ResultCoin (actor : Z) (values : list bool)
| ResultDice (actor : Z) (values : list N)
| ResultRps (values : list Z).

(** duel_msg.proto:18-297 *)
Inductive event :=
| EvNotSet
| EvBoard (b : board_ev)
| EvCard (reason : N) (c : card_ev)
| EvChainStack (c : chain_ev)
| EvNextTurn (con : Z)
| EvFinish (win_reason match_win_reason : N) (t : finish_t)
| EvLp (con : Z) (t : lp_ev)
| EvMeta (m : meta_ev)
| EvNextPhase (phase : N)
| EvPile (reason : N) (p : pile_ev)
| EvResult (r : result_ev)
| EvZoneBlock (zones : list place).

(** ** Requests, duel_msg.proto:299-575 *)

(** 301-306 *)
Record act_card := mkActCard { ac_place : place; ac_effect : effect }.
(** 318-322 *)
Record sel_card := mkSelCard { sc_place : place; sc_code : N }.
(** 367-378 *)
Record sum_card := mkSumCard { su_place : place; su_code : N; su_param1 : N; su_param2 : N }.
(** 394-401 *)
Record trib_card := mkTribCard { tb_place : place; tb_code : N; tb_count_as : N }.
(** 461-465 *)
Record atk_card := mkAtkCard { ak_place : place; ak_direct : bool }.
(** 438-443 *)
Record counter_card := mkCounterCard { cc_place : place; cc_amount : N }.

(** 413-420 *)
Inductive select_card :=
| ScNotSet
| ScLimbo (can_cancel : bool) (min max : N) (codes : list N)
| ScRecursive (can_finish accept : bool) (min max : N) (selectable deselectable : list sel_card)
| ScUniqueRange (can_cancel : bool) (min max : N) (cards : list sel_card)
| ScUniqueSum (can_cancel sum_exactly : bool) (sum_min sum_max : N) (cards : list sum_card)
| ScUniqueTributes (can_cancel : bool) (tmin tmax : N) (cards : list trib_card).

(** 459-488 *)
Record select_idle := mkIdle {
  si_can_shuffle : bool;
  si_phase : N;
  si_activable : list act_card;
  si_summonable : list place;
  si_spsummonable : list place;
  si_repositionable : list place;
  si_msetable : list place;
  si_ssetable : list place;
  si_can_attack : list atk_card;
  si_is_battle_cmd : bool
}.

(** 558-574; the replier is kept beside it. *)
Inductive request :=
| RqNotSet
| RqAttribute (count attribute : N)
| RqCard (c : select_card)
| RqCardCode (count : N) (opcodes : list N)
| RqCounter (c : counter) (cards : list counter_card)
| RqEffect (count : N) (effects : list effect)
| RqIdle (i : select_idle)
| RqNumber (count : N) (numbers : list N)
| RqPosition (count code position : N)
| RqRace (count race : N)
| RqRps (b : bool)
| RqToChain (forced triggering : bool) (cards : list act_card)
| RqYesNo (p : place) (code : N) (e : effect)
| RqZone (blocking : bool) (count : N) (places : list place)
| RqSort (places : list place).

(** ** Queries, duel_msg.proto:577-728; [None] is an absent field. *)
Record qdata := mkQData {
  q_code : option N;
  q_position : option N;
  q_alias : option N;
  q_type : option N;
  q_level : option Z;
  q_xyz_rank : option N;
  q_attribute : option N;
  q_race : option N;
  q_atk : option Z;
  q_def : option Z;
  q_base_atk : option Z;
  q_base_def : option Z;
  q_equipped_to : option place;
  q_targets : option (list place);
  q_counters : option (list counter);
  q_owner : option Z;
  q_status : option N;
  q_is_public : option bool;
  q_pend_l_scale : option N;
  q_pend_r_scale : option N;
  q_link_rate : option N;
  q_link_arrow : option N;
  q_is_hidden : option bool;
  q_cover : option N
}.
Definition qdata0 : qdata :=
  mkQData None None None None None None None None None None None None
          None None None None None None None None None None None None.

Record query := mkQuery { qr_place : place; qr_data : qdata }.

(** ** Messages, duel_msg.proto:730-736 *)
Inductive msg_t :=
| MsgNotSet
| MsgEvent (e : event)
| MsgRequest (replier : Z) (r : request).
Record msg := mkMsg { m_t : msg_t; m_queries : list query }.
