(** Model of BasicBoard (include/ygopen/client/board.hpp) and of the templates
    parse_event (include/ygopen/client/parse_event.hpp) and undo_parse_event
    (include/ygopen/client/undo_parse_event.hpp).

    The templates are modelled once, over the operations they need from the
    board's frame and values, and instantiated with the board the server keeps
    (BasicFrame and plain values, basic_encode_context.hpp:87-98) and with an
    undoable board (LimboFrame and BasicUndoable values, as in
    test/parse_event.cpp:21-30). *)
From Verif Require Import Base Place Frame Limbo Msg.

Set Implicit Arguments.
Local Open Scope N_scope.

(** What parse_event uses of a frame (the concept at parse_event.hpp:37-47,
    and card_shuffle and pile_swap). *)
Record frame_ops (F : Type) := mkFrameOps {
  fo_add : place -> F -> outcome F;
  fo_remove : place -> F -> outcome F;
  fo_move : place -> place -> F -> outcome F;
  fo_swap : place -> place -> F -> outcome F;
  fo_shuffle : list place -> list place -> F -> outcome F;
  fo_resize : place -> N -> F -> outcome F;
  fo_splice : place -> N -> place -> bool -> F -> outcome F;
  fo_pile_swap : place -> place -> F -> outcome F;
  fo_clear : F -> outcome F
}.

(** What parse_event uses of a board's values (the concepts at
    parse_event.hpp:17-35). *)
Record value_ops (V : Type -> Type) := mkValueOps {
  vo_get : forall T, V T -> T;
  vo_set : forall T, T -> V T -> V T;
  vo_push : forall T, T -> V (list T) -> outcome (V (list T));
  vo_pop : forall T, V (list T) -> outcome (V (list T))
}.

Arguments vo_get {V} v {T}.
Arguments vo_set {V} v {T}.
Arguments vo_push {V} v {T}.
Arguments vo_pop {V} v {T}.

(** board.hpp:130-137.  A std::vector used as a stack is a list whose last
    element is the top. *)
Record board (F : Type) (V : Type -> Type) := mkBoard {
  b_frame : F;
  b_chain : V (list chain);
  b_turn : V N;
  b_turn_controller : V Z;
  b_lp : V N * V N;
  b_phase : V N;
  b_blocked : V (list place)
}.

(** board.hpp:112-118.  The controller is converted to size_t and compared
    with the size of the array, 2, before indexing. *)
Definition lp_index (con : Z) : outcome bool :=
  let who := of_signed 64 con in
  assert_ (who <=? 2) ;;!
  if who =? 0 then Ok false else if who =? 1 then Ok true else UB.

(** board.hpp:75-79, the const overload: no assertion. *)
Definition lp_index_const (con : Z) : outcome bool :=
  let who := of_signed 64 con in
  if who =? 0 then Ok false else if who =? 1 then Ok true else UB.

Section Board.
Variable F : Type.
Variable V : Type -> Type.
Variable fo : frame_ops F.
Variable vo : value_ops V.

Notation board := (board F V).

(** Writing one member of the board. *)
Definition set_frame (x : F) (b : board) : board :=
  mkBoard V x (b_chain b) (b_turn b) (b_turn_controller b) (b_lp b) (b_phase b) (b_blocked b).
Definition set_chain x (b : board) : board :=
  mkBoard V (b_frame b) x (b_turn b) (b_turn_controller b) (b_lp b) (b_phase b) (b_blocked b).
Definition set_turn x (b : board) : board :=
  mkBoard V (b_frame b) (b_chain b) x (b_turn_controller b) (b_lp b) (b_phase b) (b_blocked b).
Definition set_turn_controller x (b : board) : board :=
  mkBoard V (b_frame b) (b_chain b) (b_turn b) x (b_lp b) (b_phase b) (b_blocked b).
Definition set_lp x (b : board) : board :=
  mkBoard V (b_frame b) (b_chain b) (b_turn b) (b_turn_controller b) x (b_phase b) (b_blocked b).
Definition set_phase x (b : board) : board :=
  mkBoard V (b_frame b) (b_chain b) (b_turn b) (b_turn_controller b) (b_lp b) x (b_blocked b).
Definition set_blocked x (b : board) : board :=
  mkBoard V (b_frame b) (b_chain b) (b_turn b) (b_turn_controller b) (b_lp b) (b_phase b) x.

(** [board.frame().op(...)] *)
Definition on_frame (op : F -> outcome F) (b : board) : outcome board :=
  let! x := op (b_frame b) in Ok (set_frame x b).

(** The loops over places and operations, in order. *)
Definition do_adds (l : list place) (x : F) : outcome F := ofold (fo_add fo) l x.
Definition do_removes (l : list place) (x : F) : outcome F := ofold (fo_remove fo) l x.
Definition do_resizes (l : list resize_op) (x : F) : outcome F :=
  ofold (fun o => fo_resize fo (rz_place o) (rz_count o)) l x.
Definition do_swaps (l : list pair_op) (x : F) : outcome F :=
  ofold (fun o => fo_swap fo (po_a o) (po_b o)) l x.
Definition do_moves (l : list pair_op) (x : F) : outcome F :=
  ofold (fun o => fo_move fo (po_a o) (po_b o)) l x.
Definition do_splices (l : list splice_op) (x : F) : outcome F :=
  ofold (fun o => fo_splice fo (sp_from o) (sp_count o) (sp_to o) (sp_reverse o)) l x.
Definition do_pile_swaps (l : list pair_op) (x : F) : outcome F :=
  ofold (fun o => fo_pile_swap fo (po_a o) (po_b o)) l x.

(** [board.lp(con) = v] *)
Definition assign_lp (con : Z) (v : N) (b : board) : outcome board :=
  let! i := lp_index con in
  Ok (set_lp (put2 i (vo_set vo v (sel i (b_lp b))) (b_lp b)) b).

(** parse_event.hpp:195-225, the new value of the life points; uint32_t. *)
Definition new_lp (t : lp_ev) (lpv : N) : N :=
  match t with
  | LpBecome n => n
  | LpDamage n => if lpv <? n then 0 else lpv - n
  | LpPay n => if lpv <? n then 0 else lpv - n
  | LpRecover n => u32 (lpv + n)
  | LpNotSet => lpv
  end.

(** parse_event.hpp:93-103 *)
Definition parse_exchange (x : board_exchange) (b : board) : outcome board :=
  on_frame (fun f =>
    let! f1 := do_resizes (bx_resize x) f in
    let! f2 := do_removes (bx_remove x) f1 in
    do_adds (bx_add x) f2) b.

(** parse_event.hpp:104-119.  Reading [state.lps(i)] past the end of the
    repeated field is undefined. *)
Definition parse_state (s : board_state) (b : board) : outcome board :=
  let b1 := if (0 <=? bs_turn_counter s)%Z
            then set_turn (vo_set vo (Z.to_N (bs_turn_counter s)) (b_turn b)) b else b in
  let! lp0 := or_ub (nth_error (bs_lps s) 0) in
  let! b2 := assign_lp 0 lp0 b1 in
  let! lp1 := or_ub (nth_error (bs_lps s) 1) in
  let! b3 := assign_lp 1 lp1 b2 in
  let b4 := set_chain (vo_set vo (bs_chains s) (b_chain b3)) b3 in
  on_frame (fun f =>
    let! f1 := fo_clear fo f in
    let! f2 := do_adds (bs_add s) f1 in
    do_resizes (bs_resize s) f2) b4.

(** parse_event.hpp:79-267 *)
Definition parse_event (e : event) (b : board) : outcome board :=
  match e with
  | EvBoard (BoardExchange x) => parse_exchange x b
  | EvBoard (BoardState s) => parse_state s b
  | EvBoard BoardNotSet => Ok b
  | EvCard _ (CardAdd l) => on_frame (do_adds l) b
  | EvCard _ (CardExchange l) => on_frame (do_swaps l) b
  | EvCard _ (CardMove l) => on_frame (do_moves l) b
  | EvCard _ (CardRemove l) => on_frame (do_removes l) b
  | EvCard _ (CardShuffle p c) => on_frame (fo_shuffle fo p c) b
  | EvCard _ CardNotSet => Ok b
  | EvChainStack (ChainPush c) =>
      let! x := vo_push vo c (b_chain b) in Ok (set_chain x b)
  | EvChainStack (ChainPop _) =>
      let! x := vo_pop vo (b_chain b) in Ok (set_chain x b)
  | EvChainStack ChainNotSet => Ok b
  | EvNextTurn con =>
      let next_turn := u32 (vo_get vo (b_turn b) + 1) in
      let b1 := set_turn (vo_set vo next_turn (b_turn b)) b in
      Ok (set_turn_controller (vo_set vo con (b_turn_controller b1)) b1)
  | EvLp con t =>
      let! i := lp_index con in
      let! j := lp_index con in
      let lpv := vo_get vo (sel j (b_lp b)) in
      Ok (set_lp (put2 i (vo_set vo (new_lp t lpv) (sel i (b_lp b))) (b_lp b)) b)
  | EvNextPhase ph => Ok (set_phase (vo_set vo ph (b_phase b)) b)
  | EvPile _ (PileSplice l) => on_frame (do_splices l) b
  | EvPile _ (PileExchange l) => on_frame (do_pile_swaps l) b
  | EvPile _ (PileResize _) => Ok b
  | EvPile _ PileNotSet => Ok b
  | EvZoneBlock l => Ok (set_blocked (vo_set vo l (b_blocked b)) b)
  | EvFinish _ _ _ => Ok b
  | EvMeta _ => Ok b
  | EvResult _ => Ok b
  | EvNotSet => Ok b
  end.

(** What undo_parse_event uses in addition. *)
Record undo_ops := mkUndoOps {
  uo_add : place -> F -> outcome F;
  uo_remove : place -> F -> outcome F;
  uo_resize : place -> N -> F -> outcome F;
  uo_clear : F -> outcome F;
  uo_shuffle : list place -> list place -> F -> outcome F;
  uo_undo : forall T, V T -> outcome (V T);
  uo_push : forall T, T -> V (list T) -> outcome (V (list T));
  uo_pop : forall T, V (list T) -> outcome (V (list T))
}.
Variable uo : undo_ops.
Arguments uo_undo u {T}.
Arguments uo_push u {T}.
Arguments uo_pop u {T}.

Definition undo_adds (l : list place) (x : F) : outcome F := ofold (uo_add uo) (rev l) x.
Definition undo_removes (l : list place) (x : F) : outcome F := ofold (uo_remove uo) (rev l) x.
Definition undo_resizes (l : list resize_op) (x : F) : outcome F :=
  ofold (fun o => uo_resize uo (rz_place o) (rz_count o)) (rev l) x.
Definition undo_splices (l : list splice_op) (x : F) : outcome F :=
  ofold (fun o => fo_splice fo (sp_to o) (sp_count o) (sp_from o) (sp_reverse o)) (rev l) x.

(** [board.lp(con).undo()] *)
Definition undo_lp (con : Z) (b : board) : outcome board :=
  let! i := lp_index con in
  let! x := uo_undo uo (sel i (b_lp b)) in
  Ok (set_lp (put2 i x (b_lp b)) b).

(** undo_parse_event.hpp:70-85 *)
Definition undo_state (s : board_state) (b : board) : outcome board :=
  let! b1 := on_frame (fun f =>
    let! f1 := undo_resizes (bs_resize s) f in
    let! f2 := undo_adds (bs_add s) f1 in
    uo_clear uo f2) b in
  let! c := uo_undo uo (b_chain b1) in
  let b2 := set_chain c b1 in
  let! b3 := undo_lp 1 b2 in
  let! b4 := undo_lp 0 b3 in
  if (0 <=? bs_turn_counter s)%Z then
    let! t := uo_undo uo (b_turn b4) in Ok (set_turn t b4)
  else Ok b4.

(** undo_parse_event.hpp:41-205 *)
Definition undo_parse_event (e : event) (b : board) : outcome board :=
  match e with
  | EvBoard (BoardExchange x) =>
      on_frame (fun f =>
        let! f1 := undo_adds (bx_add x) f in
        let! f2 := undo_removes (bx_remove x) f1 in
        undo_resizes (bx_resize x) f2) b
  | EvBoard (BoardState s) => undo_state s b
  | EvBoard BoardNotSet => Ok b
  | EvCard _ (CardAdd l) => on_frame (undo_adds l) b
  | EvCard _ (CardExchange l) => on_frame (do_swaps (rev l)) b
  | EvCard _ (CardMove l) =>
      on_frame (ofold (fun o => fo_move fo (po_b o) (po_a o)) (rev l)) b
  | EvCard _ (CardRemove l) => on_frame (undo_removes l) b
  | EvCard _ (CardShuffle p c) => on_frame (uo_shuffle uo p c) b
  | EvCard _ CardNotSet => Ok b
  | EvChainStack (ChainPush c) =>
      let! x := uo_push uo c (b_chain b) in Ok (set_chain x b)
  | EvChainStack (ChainPop _) =>
      let! x := uo_pop uo (b_chain b) in Ok (set_chain x b)
  | EvChainStack ChainNotSet => Ok b
  | EvNextTurn _ =>
      let! t := uo_undo uo (b_turn b) in
      let b1 := set_turn t b in
      let! c := uo_undo uo (b_turn_controller b1) in
      Ok (set_turn_controller c b1)
  | EvLp con _ => undo_lp con b
  | EvNextPhase _ => let! x := uo_undo uo (b_phase b) in Ok (set_phase x b)
  | EvPile _ (PileSplice l) => on_frame (undo_splices l) b
  | EvPile _ (PileExchange l) => on_frame (do_pile_swaps (rev l)) b
  | EvPile _ (PileResize _) => Ok b
  | EvPile _ PileNotSet => Ok b
  | EvZoneBlock _ => let! x := uo_undo uo (b_blocked b) in Ok (set_blocked x b)
  | EvFinish _ _ _ => Ok b
  | EvMeta _ => Ok b
  | EvResult _ => Ok b
  | EvNotSet => Ok b
  end.

End Board.

Arguments uo_undo {F V} u {T}.
Arguments uo_push {F V} u {T}.
Arguments uo_pop {F V} u {T}.

(** ** The two instances *)

Definition plain (T : Type) : Type := T.

(** std::vector::push_back and pop_back; popping an empty vector is
    undefined. *)
Definition pop_back {T} (l : list T) : outcome (list T) :=
  match l with [] => UB | _ => Ok (removelast l) end.
Definition plain_vo : value_ops plain :=
  mkValueOps plain (fun T x => x) (fun T x _ => x)
    (fun T x l => Ok (l ++ [x])) (fun T l => pop_back l).

(** undoable.hpp:68-88: push_back and pop_back are not implemented. *)
Definition undoable_vo : value_ops undoable :=
  mkValueOps undoable (fun T u => u_get u) (fun T v u => u_set v u)
    (fun T _ u => u_unsupported u) (fun T u => u_unsupported u).

Section Cards.
Variable C : Type.
Variable c0 : C.

Definition plain_fo : frame_ops (frame C) :=
  mkFrameOps
    (fun p f => let! (_, f') := card_add c0 p f in Ok f')
    (fun p f => card_remove p f)
    (fun a b f => let! (_, f') := f_card_move a b f in Ok f')
    (fun a b f => lift (card_swap a b) f)
    (fun p c f => lift (card_shuffle p c) f)
    (fun p n f => pile_resize c0 p n f)
    (fun a n b r f => lift (pile_splice a n b r) f)
    (fun a b f => lift (pile_swap a b) f)
    (fun f => clear f).

Definition limbo_fo : frame_ops (limbo C) :=
  mkFrameOps
    (fun p w => let! (_, w') := l_card_add c0 p w in Ok w')
    (fun p w => l_card_remove p w)
    (fun a b w => let! (_, w') := l_card_move a b w in Ok w')
    (fun a b w => l_lift (card_swap a b) w)
    (fun p c w => l_lift (card_shuffle p c) w)
    (fun p n w => l_pile_resize c0 p n w)
    (fun a n b r w => l_lift (pile_splice a n b r) w)
    (fun a b w => l_lift (pile_swap a b) w)
    (fun w => l_clear w).

Definition limbo_uo : undo_ops (limbo C) undoable :=
  mkUndoOps undoable
    (fun p w => let! (_, w') := l_undo_card_add p w in Ok w')
    (fun p w => let! (_, w') := l_undo_card_remove p w in Ok w')
    (fun p n w => l_undo_pile_resize p n w)
    (fun w => l_undo_clear w)
    (fun p c w => l_undo_card_shuffle p c w)
    (fun T u => u_undo u)
    (fun T _ u => u_unsupported u)
    (fun T u => u_unsupported u).

(** The server's board (basic_encode_context.hpp:84-100) and the undoable one. *)
Definition pboard := board (frame C) plain.
Definition uboard := board (limbo C) undoable.

(** board.hpp:42-49: value-initialised members. *)
Definition pboard0 : pboard := mkBoard plain frame0 [] 0 0%Z (0, 0) 0 [].
Definition uboard0 : uboard :=
  mkBoard undoable limbo0 (u_new []) (u_new 0) (u_new 0%Z) (u_new 0, u_new 0) (u_new 0) (u_new []).

Definition pparse (e : event) (b : pboard) : outcome pboard := parse_event plain_fo plain_vo e b.
Definition uparse (e : event) (b : uboard) : outcome uboard := parse_event limbo_fo undoable_vo e b.
Definition uundo (e : event) (b : uboard) : outcome uboard :=
  undo_parse_event limbo_fo limbo_uo e b.

End Cards.
