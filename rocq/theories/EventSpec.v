(** Specification vocabulary for boards, events and replays. *)
From Verif Require Import Base Place Frame FrameSpec Limbo LimboSpec Msg Event.

Set Implicit Arguments.

(** ** What a user of a board sees *)

(** The state shown at the current position of an undoable board. *)
Record scene := mkScene {
  sn_layout : layout;
  sn_chain : list chain;
  sn_turn : N;
  sn_turn_controller : Z;
  sn_lp : N * N;
  sn_phase : N;
  sn_blocked : list place
}.
Definition scene_of {C} (b : uboard C) : scene :=
  mkScene (lb_lay (b_frame b)) (u_get (b_chain b)) (u_get (b_turn b))
    (u_get (b_turn_controller b)) (u_get (fst (b_lp b)), u_get (snd (b_lp b)))
    (u_get (b_phase b)) (u_get (b_blocked b)).

(** The content of a card on an undoable board. *)
Definition content {C} (b : uboard C) (id : cid) : option C :=
  heap_get id (f_heap (lb_frame (b_frame b))).

(** The board shows the latest recorded state: nothing to redo. *)
Definition board_live {C} (b : uboard C) : Prop :=
  at_end (b_frame b) /\ u_next (b_chain b) = [] /\ u_next (b_turn b) = [] /\
  u_next (b_turn_controller b) = [] /\ u_next (fst (b_lp b)) = [] /\
  u_next (snd (b_lp b)) = [] /\ u_next (b_phase b) = [] /\ u_next (b_blocked b) = [].

(** An undoable board whose frame went through any public operations and whose
    values are at any point of any history. *)
Definition board_reachable {C} (c0 : C) (b : uboard C) : Prop := lreachable c0 (b_frame b).

(** ** Life points *)

(** The arithmetic of the game, over integers. *)
Definition lp_after (t : lp_ev) (x : Z) : Z :=
  match t with
  | LpBecome n => Z.of_N n
  | LpDamage n | LpPay n => Z.max 0 (x - Z.of_N n)
  | LpRecover n => x + Z.of_N n
  | LpNotSet => x
  end.

(** The life points of one player, and boards that agree on everything but one
    member. *)
Definition lp_of {F V} (who : bool) (b : board F V) : V N :=
  if who then snd (b_lp b) else fst (b_lp b).
Definition con_of (who : bool) : Z := if who then 1%Z else 0%Z.

Inductive member := MFrame | MChain | MTurn | MTurnController | MLp | MPhase | MBlocked.
Definition agree_but {F V} (ms : list member) (b b' : board F V) : Prop :=
  (~ In MFrame ms -> b_frame b' = b_frame b) /\
  (~ In MChain ms -> b_chain b' = b_chain b) /\
  (~ In MTurn ms -> b_turn b' = b_turn b) /\
  (~ In MTurnController ms -> b_turn_controller b' = b_turn_controller b) /\
  (~ In MLp ms -> b_lp b' = b_lp b) /\
  (~ In MPhase ms -> b_phase b' = b_phase b) /\
  (~ In MBlocked ms -> b_blocked b' = b_blocked b).

(** ** State events *)

(** How many cards each container holds according to a State event: the added
    places one each, then the resized piles. *)
Definition count_add (p : place) (k : cont -> nat) : cont -> nat :=
  match slot p with
  | Some (c, _) => fun x => if cont_eq_dec x c then S (k x) else k x
  | None => k
  end.
Definition count_resize (o : resize_op) (k : cont -> nat) : cont -> nat :=
  match slot (rz_place o) with
  | Some (c, _) => fun x => if cont_eq_dec x c then N.to_nat (rz_count o) else k x
  | None => k
  end.
Definition described (s : board_state) : cont -> nat :=
  fold_left (fun k o => count_resize o k) (bs_resize s)
    (fold_left (fun k p => count_add p k) (bs_add s) (fun _ => O)).

(** Which State events make sense: both players' life points; the cards listed
    so that each one's place is free and next to the cards before it; only
    piles resized. *)
Fixpoint adds_ok (l : list place) (k : cont -> nat) : Prop :=
  match l with
  | [] => True
  | p :: l' =>
      (exists c i, slot p = Some (c, i) /\ (i <= k c)%nat /\
         match c with CCard _ => k c = O | _ => True end) /\
      adds_ok l' (count_add p k)
  end.
Definition state_ok (s : board_state) : Prop :=
  (2 <= length (bs_lps s))%nat /\ adds_ok (bs_add s) (fun _ => O) /\
  Forall (fun o => exists r i, slot (rz_place o) = Some (CPile r, i)) (bs_resize s).

(** ** Undoing events *)

(** The frame operations an event consists of, in order. *)
Definition resize_acts (l : list resize_op) : list lact :=
  map (fun o => LResize (rz_place o) (rz_count o)) l.
Definition event_acts (e : event) : list lact :=
  match e with
  | EvBoard (BoardExchange x) =>
      resize_acts (bx_resize x) ++ map LRemove (bx_remove x) ++ map LAdd (bx_add x)
  | EvBoard (BoardState s) => LClear :: map LAdd (bs_add s) ++ resize_acts (bs_resize s)
  | EvCard _ (CardAdd l) => map LAdd l
  | EvCard _ (CardExchange l) => map (fun o => LSwap (po_a o) (po_b o)) l
  | EvCard _ (CardMove l) => map (fun o => LMove (po_a o) (po_b o)) l
  | EvCard _ (CardRemove l) => map LRemove l
  | EvCard _ (CardShuffle p c) => [LShuffle p c]
  | EvPile _ (PileSplice l) =>
      map (fun o => LSplice (sp_from o) (sp_count o) (sp_to o) (sp_reverse o)) l
  | EvPile _ (PileExchange l) => map (fun o => LPileSwap (po_a o) (po_b o)) l
  | _ => []
  end.

(** The operations with a working inverse: not a shuffle (its undo is not
    implemented); a resize that does not shrink the pile, or shrinks it to
    exactly half (see C20). *)
Definition act_undoable {C} (a : lact) (w : limbo C) : Prop :=
  match a with
  | LAdd _ | LRemove _ | LClear | LMove _ _ | LSwap _ _ | LSplice _ _ _ _ | LPileSwap _ _ => True
  | LResize p n => forall r i, slot p = Some (CPile r, i) ->
      let size := length (contents (CPile r) (lb_lay w)) in
      (size <= N.to_nat n \/ size = 2 * N.to_nat n)%nat
  | _ => False
  end.
Fixpoint acts_undoable {C} (c0 : C) (acts : list lact) (w : limbo C) : Prop :=
  match acts with
  | [] => True
  | a :: acts' =>
      act_undoable a w /\ forall w', lstep c0 a w = Ok w' -> acts_undoable c0 acts' w'
  end.
Definition event_undoable {C} (c0 : C) (e : event) (b : uboard C) : Prop :=
  acts_undoable c0 (event_acts e) (b_frame b).

(** ** Replays *)

(** Parsing a list of events, and doing so with events that can be undone. *)
Definition parse_all {C} (c0 : C) (es : list event) (b : uboard C) : outcome (uboard C) :=
  ofold (uparse c0) es b.
Fixpoint all_undoable {C} (c0 : C) (es : list event) (b : uboard C) : Prop :=
  match es with
  | [] => True
  | e :: es' => event_undoable c0 e b /\ forall b', uparse c0 e b = Ok b' -> all_undoable c0 es' b'
  end.

(** A viewer at position [pos] of the events [es] steps forward or backward;
    stepping past either end does nothing. *)
Inductive wmove := Forward | Backward.
Definition wstep {C} (c0 : C) (es : list event) (m : wmove) (s : nat * uboard C)
  : outcome (nat * uboard C) :=
  let (pos, b) := s in
  match m with
  | Forward =>
      match nth_error es pos with
      | Some e => let! b' := uparse c0 e b in Ok (S pos, b')
      | None => Ok s
      end
  | Backward =>
      match pos with
      | O => Ok s
      | S i =>
          match nth_error es i with
          | Some e => let! b' := uundo c0 e b in Ok (i, b')
          | None => Ok s
          end
      end
  end.
Definition walk {C} (c0 : C) (es : list event) (ms : list wmove) (s : nat * uboard C)
  : outcome (nat * uboard C) := ofold (wstep c0 es) ms s.
