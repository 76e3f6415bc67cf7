(** Exchanging the two players: on places, events, queries and boards.  What is
    known about a card stays as it is. *)
From Verif Require Import Base Place Frame Limbo Msg Event Query UQuery.

Set Implicit Arguments.

Definition other (con : Z) : Z := if (con =? 0)%Z then 1%Z else if (con =? 1)%Z then 0%Z else con.
Definition fl_place (p : place) : place := mkPlace (other (p_con p)) (p_loc p) (p_seq p) (p_oseq p).
Definition fl_resize (o : resize_op) : resize_op := mkResize (fl_place (rz_place o)) (rz_count o).
Definition fl_pair (o : pair_op) : pair_op := mkPair (fl_place (po_a o)) (fl_place (po_b o)).
Definition fl_splice (o : splice_op) : splice_op :=
  mkSplice (fl_place (sp_from o)) (sp_count o) (fl_place (sp_to o)) (sp_reverse o).
Definition fl_chain (c : chain) : chain :=
  mkChain (fl_place (ch_card_place c)) (fl_place (ch_place c)) (ch_effect c).

(** The first two life points of a state change places. *)
Definition fl_two {A} (l : list A) : list A := match l with a :: b :: r => b :: a :: r | _ => l end.

Definition fl_event (e : event) : event :=
  match e with
  | EvBoard BoardNotSet => EvBoard BoardNotSet
  | EvBoard (BoardExchange x) =>
      EvBoard (BoardExchange (mkBExchange (other (bx_con x)) (map fl_place (bx_remove x))
        (map fl_place (bx_add x)) (map fl_resize (bx_resize x))))
  | EvBoard (BoardState s) =>
      EvBoard (BoardState (mkBState (bs_shape s) (bs_turn_counter s) (fl_two (bs_lps s))
        (map fl_chain (bs_chains s)) (map fl_place (bs_add s)) (map fl_resize (bs_resize s))))
  | EvCard r CardNotSet => EvCard r CardNotSet
  | EvCard r (CardAdd l) => EvCard r (CardAdd (map fl_place l))
  | EvCard r (CardExchange l) => EvCard r (CardExchange (map fl_pair l))
  | EvCard r (CardMove l) => EvCard r (CardMove (map fl_pair l))
  | EvCard r (CardRemove l) => EvCard r (CardRemove (map fl_place l))
  | EvCard r (CardShuffle a b) => EvCard r (CardShuffle (map fl_place a) (map fl_place b))
  | EvChainStack (ChainPush c) => EvChainStack (ChainPush (fl_chain c))
  | EvNextTurn con => EvNextTurn (other con)
  | EvFinish w m (FinishWinner c) => EvFinish w m (FinishWinner (other c))
  | EvLp con t => EvLp (other con) t
  | EvMeta (MetaAttack a b) => EvMeta (MetaAttack (fl_place a) (fl_place b))
  | EvMeta (MetaConfirm r l) => EvMeta (MetaConfirm r (map fl_place l))
  | EvMeta (MetaDescription c t) => EvMeta (MetaDescription (other c) t)
  | EvMeta (MetaMissedTiming l) => EvMeta (MetaMissedTiming (map fl_place l))
  | EvMeta (MetaSelection p r l) => EvMeta (MetaSelection (fl_place p) r (map fl_place l))
  | EvMeta (MetaShufflePile l) => EvMeta (MetaShufflePile (map fl_place l))
  | EvMeta (MetaUpdate r l) => EvMeta (MetaUpdate r (map fl_place l))
  | EvPile r (PileExchange l) => EvPile r (PileExchange (map fl_pair l))
  | EvPile r (PileResize l) => EvPile r (PileResize (map fl_resize l))
  | EvPile r (PileSplice l) => EvPile r (PileSplice (map fl_splice l))
  | EvResult (ResultCoin a v) => EvResult (ResultCoin (other a) v)
  | EvResult (ResultDice a v) => EvResult (ResultDice (other a) v)
  | EvResult (ResultRps v) => EvResult (ResultRps (fl_two v))
  | EvZoneBlock l => EvZoneBlock (map fl_place l)
  | _ => e
  end.
(** A query about the card at the other player's place; what it says stays. *)
Definition fl_query (q : query) : query := mkQuery (fl_place (qr_place q)) (qr_data q).

(** Boards. *)
Definition fl_pair2 {A} (x : A * A) : A * A := (snd x, fst x).
Definition fl_lay (L : layout) : layout :=
  mkLayout (fl_pair2 (l_main L)) (fl_pair2 (l_hand L)) (fl_pair2 (l_grave L)) (fl_pair2 (l_ban L))
    (fl_pair2 (l_extra L)) (fl_pair2 (l_field L)).

Section Cards.
Variable C : Type.
Definition fl_frame (f : frame C) : frame C := mkFrame (f_next f) (f_heap f) (fl_lay (f_lay f)).
Definition fl_lop (o : lop) : lop :=
  match o with ClearOp L => ClearOp (fl_lay L) | _ => o end.
Definition fl_limbo (w : limbo C) : limbo C :=
  mkLimbo (fl_frame (lb_frame w)) (lb_op w) (lb_processed w) (map fl_lop (lb_ops w)).

Definition fl_pboard (b : pboard C) : pboard C :=
  mkBoard plain (fl_frame (b_frame b)) (map fl_chain (b_chain b)) (b_turn b) (other (b_turn_controller b))
    (fl_pair2 (b_lp b)) (b_phase b) (map fl_place (b_blocked b)).

Definition u_map {T} (g : T -> T) (u : undoable T) : undoable T :=
  mkUndoable (map g (u_past u)) (g (u_cur u)) (map g (u_next u)).
Definition fl_uboard (b : uboard C) : uboard C :=
  mkBoard undoable (fl_limbo (b_frame b)) (u_map (map fl_chain) (b_chain b)) (b_turn b)
    (u_map other (b_turn_controller b)) (fl_pair2 (b_lp b)) (b_phase b) (u_map (map fl_place) (b_blocked b)).
End Cards.

(** The result of a call, seen from the other side. *)
Definition o_map {A B} (g : A -> B) (m : outcome A) : outcome B :=
  match m with Ok a => Ok (g a) | Abort => Abort | UB => UB | Diverge => Diverge end.

(** Controllers are of the type int. *)
Definition int_con (e : event) : Prop :=
  match e with EvLp con _ => (- 2 ^ 31 <= con < 2 ^ 31)%Z | _ => True end.

(** What the server does with its board, and a viewer with theirs. *)

Inductive pcall := PParse (e : event) | PQuery (use_cache : bool) (q : query).
Inductive ucall := UParse (e : event) | UUndo (e : event) | UQuery (use_cache : bool) (q : query) | UErase.

Definition pcall_run (x : pcall) (b : pboard card) : outcome (pboard card) :=
  match x with
  | PParse e => pparse card0 e b
  | PQuery u q => let! (_, f) := parse_query u q (b_frame b) in Ok (set_frame f b)
  end.
Definition ucall_run (x : ucall) (b : uboard ucard) : outcome (uboard ucard) :=
  match x with
  | UParse e => uparse ucard0 e b
  | UUndo e => uundo ucard0 e b
  | UQuery u q => let! (_, w) := uparse_query u q (b_frame b) in Ok (set_frame w b)
  | UErase => on_frame (@l_erase_history ucard) b
  end.
Definition fl_pcall (x : pcall) : pcall :=
  match x with PParse e => PParse (fl_event e) | PQuery u q => PQuery u (fl_query q) end.
Definition fl_ucall (x : ucall) : ucall :=
  match x with
  | UParse e => UParse (fl_event e) | UUndo e => UUndo (fl_event e) | UQuery u q => UQuery u (fl_query q)
  | UErase => UErase
  end.
Definition pcall_int (x : pcall) : Prop := match x with PParse e => int_con e | _ => True end.
Definition ucall_int (x : ucall) : Prop := match x with UParse e | UUndo e => int_con e | _ => True end.
