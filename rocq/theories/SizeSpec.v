(** How large a message is: the number of entries of its repeated fields. *)
From Verif Require Import Base Place Msg Encode.

Set Implicit Arguments.
Local Open Scope N_scope.

Definition event_size (e : event) : N :=
  match e with
  | EvBoard (BoardExchange x) => lenN (bx_remove x) + lenN (bx_add x) + lenN (bx_resize x)
  | EvBoard (BoardState s) => lenN (bs_lps s) + lenN (bs_chains s) + lenN (bs_add s) + lenN (bs_resize s)
  | EvCard _ (CardAdd l) | EvCard _ (CardRemove l) => lenN l
  | EvCard _ (CardExchange l) | EvCard _ (CardMove l) => lenN l
  | EvCard _ (CardShuffle a b) => lenN a + lenN b
  | EvMeta (MetaConfirm _ l) | EvMeta (MetaMissedTiming l) | EvMeta (MetaSelection _ _ l)
  | EvMeta (MetaShufflePile l) | EvMeta (MetaUpdate _ l) => lenN l
  | EvPile _ (PileExchange l) => lenN l
  | EvPile _ (PileResize l) => lenN l
  | EvPile _ (PileSplice l) => lenN l
  | EvResult (ResultCoin _ l) => lenN l
  | EvResult (ResultDice _ l) => lenN l
  | EvResult (ResultRps l) => lenN l
  | EvZoneBlock l => lenN l
  | _ => 0
  end.

Definition request_size (r : request) : N :=
  match r with
  | RqCard (ScLimbo _ _ _ l) => lenN l
  | RqCard (ScRecursive _ _ _ _ a b) => lenN a + lenN b
  | RqCard (ScUniqueRange _ _ _ l) => lenN l
  | RqCard (ScUniqueSum _ _ _ _ l) => lenN l
  | RqCard (ScUniqueTributes _ _ _ l) => lenN l
  | RqCardCode _ l => lenN l
  | RqCounter _ l => lenN l
  | RqEffect _ l => lenN l
  | RqIdle i => lenN (si_activable i) + lenN (si_summonable i) + lenN (si_spsummonable i)
      + lenN (si_repositionable i) + lenN (si_msetable i) + lenN (si_ssetable i) + lenN (si_can_attack i)
  | RqNumber _ l => lenN l
  | RqToChain _ _ l => lenN l
  | RqZone _ _ l => lenN l
  | RqSort l => lenN l
  | _ => 0
  end.

Definition size_of_option {A} (o : option (list A)) : N := match o with Some l => lenN l | None => 0 end.
Definition data_size (d : qdata) : N := size_of_option (q_targets d) + size_of_option (q_counters d).
Fixpoint queries_size (l : list query) : N :=
  match l with [] => 0 | q :: l' => 1 + data_size (qr_data q) + queries_size l' end.

Definition msg_size (m : msg) : N :=
  match m_t m with
  | MsgNotSet => 0
  | MsgEvent e => event_size e
  | MsgRequest _ r => request_size r
  end + queries_size (m_queries m).
(** No message has no entries. *)
Definition size_of (o : option msg) : N := match o with Some m => msg_size m | None => 0 end.

(** The entries of a reload that stand for xyz materials. *)
Definition materials (e : event) : N :=
  match e with
  | EvBoard (BoardState s) => lenN (filter (fun p => negb (p_oseq p =? OSEQ_INVALID)%Z) (bs_add s))
  | _ => 0
  end.
Definition materials_of (o : option msg) : N :=
  match o with Some m => match m_t m with MsgEvent e => materials e | _ => 0 end | None => 0 end.
