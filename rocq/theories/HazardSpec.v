(** Specification vocabulary for calls with arguments that make no sense: which
    of them are stopped by an assertion and which are not. *)
From Verif Require Import Base Place Frame FrameSpec Limbo LimboSpec Msg Event EventSpec.

Set Implicit Arguments.
Local Open Scope N_scope.

(** The ten locations of the game board. *)
Definition board_locs : list N := [0x1; 0x2; 0x4; 0x8; 0x10; 0x20; 0x40; 0x100; 0x200; 0x400].

(** A place whose fields are of the right kind: the controller is not negative
    and the location is one of the board's.  The controller may be too large,
    the sequence and the material index may be anything. *)
Definition regular (p : place) : Prop := (0 <= p_con p)%Z /\ In (p_loc p) board_locs.

Definition regular_op (o : fop) : Prop :=
  match o with
  | OpAdd p | OpRemove p | OpResize p _ => regular p
  | OpMove a b | OpSwap a b | OpSplice a _ b _ | OpPileSwap a b => regular a /\ regular b
  | OpShuffle prev cur =>
      Forall regular prev /\ Forall (fun p => p_loc p = 0 \/ regular p) cur
  | OpClear => True
  end.

(** Stopped or done. *)
Definition orderly {A} (m : outcome A) : Prop := (exists a, m = Ok a) \/ m = Abort.

Definition occupied (p : place) (L : layout) : Prop :=
  exists pos, slot p = Some pos /\ occupant L pos <> None.

(** A swap of a material with something in a zone whose zone index is past the
    end of the materials. *)
Definition wild_swap (a b : place) (L : layout) : Prop :=
  occupied a L /\ occupied b L /\
  exists r i k j, slot a = Some (CMats r, i) /\ slot b = Some (k, j) /\
    (forall q, k <> CPile q) /\ (length (contents (CMats r) L) <= N.to_nat (p_seq a))%nat.

(** A splice of cards that exist to an index past the end of the target pile. *)
Definition wild_splice (from : place) (count : N) (to : place) (L : layout) : Prop :=
  exists r1 r2 s t, slot from = Some (CPile r1, s) /\ slot to = Some (CPile r2, t) /\
    (s + N.to_nat count <= length (contents (CPile r1) L))%nat /\
    (length (contents (CPile r2) L) - (if pref_eq_dec r1 r2 then N.to_nat count else 0) < t)%nat.

(** A shuffle of nothing, or with too few current places, or with a current
    place in a pile. *)
Definition wild_shuffle (prev cur : list place) : Prop :=
  prev = [] \/ (length cur < length prev)%nat \/
  Exists (fun p => assocN (p_loc p) pile_table <> None) (firstn (length prev) cur).

Definition wild (o : fop) (L : layout) : Prop :=
  match o with
  | OpSwap a b => wild_swap a b L
  | OpSplice a n b _ => wild_splice a n b L
  | OpShuffle prev cur => wild_shuffle prev cur
  | _ => False
  end.

(** ** Limbo frames *)

Definition regular_act (a : lact) : Prop :=
  match a with
  | LAdd p | LRemove p | LResize p _ | LUndoAdd p | LUndoRemove p | LUndoResize p _ => regular p
  | LMove a b | LSwap a b | LSplice a _ b _ | LPileSwap a b => regular a /\ regular b
  | LShuffle prev cur =>
      Forall regular prev /\ Forall (fun p => p_loc p = 0 \/ regular p) cur
  | LClear | LUndoClear | LUndoShuffle _ _ | LErase => True
  end.

(** In addition: shrinking a pile to more than half of its size (when it is
    recorded, or redone where a resize was recorded), and undoing with nothing
    to undo. *)
Definition wild_resize {C} (p : place) (count : N) (w : limbo C) : Prop :=
  exists r i, slot p = Some (CPile r, i) /\
    (at_end w \/ exists n s, nth_error (lb_ops w) (lb_op w) = Some (ResizeOp n s)) /\
    let size := length (contents (CPile r) (lb_lay w)) in
    (N.to_nat count < size < 2 * N.to_nat count)%nat.

Definition wild_act {C} (a : lact) (w : limbo C) : Prop :=
  match a with
  | LSwap a b => wild_swap a b (lb_lay w)
  | LSplice a n b _ => wild_splice a n b (lb_lay w)
  | LShuffle prev cur => wild_shuffle prev cur
  | LResize p n => wild_resize p n w
  | LUndoAdd p => lb_op w = O /\ occupied p (lb_lay w)
  | LUndoRemove _ | LUndoClear => lb_op w = O
  | LUndoResize p _ => lb_op w = O /\ exists r i, slot p = Some (CPile r, i)
  | _ => False
  end.

(** ** Events *)

(** One of the steps of a list meets a danger; those before it succeed. *)
Fixpoint trips {A St} (bad : A -> St -> Prop) (step : A -> St -> outcome St) (l : list A) (s : St)
  : Prop :=
  match l with
  | [] => False
  | a :: l' => bad a s \/ exists s', step a s = Ok s' /\ trips bad step l' s'
  end.

(** The same operations on the server's board. *)
Definition plain_act (a : lact) : fop :=
  match a with
  | LAdd p => OpAdd p
  | LRemove p => OpRemove p
  | LResize p n => OpResize p n
  | LMove a b => OpMove a b
  | LSwap a b => OpSwap a b
  | LShuffle prev cur => OpShuffle prev cur
  | LSplice a n b r => OpSplice a n b r
  | LPileSwap a b => OpPileSwap a b
  | _ => OpClear
  end.

(** The frame operations of the undoing of an event. *)
Definition undo_of (a : lact) : lact :=
  match a with
  | LAdd p => LUndoAdd p
  | LRemove p => LUndoRemove p
  | LResize p n => LUndoResize p n
  | LClear => LUndoClear
  | LMove a b => LMove b a
  | LSplice a n b r => LSplice b n a r
  | LShuffle prev cur => LUndoShuffle prev cur
  | a => a
  end.

Definition regular_event (e : event) : Prop :=
  Forall regular_act (event_acts e) /\
  match e with EvLp con _ => (- 2 ^ 31 <= con < 2 ^ 31)%Z | _ => True end.

(** The dangers besides those of the frame: a third player's life points, and a
    state without life points for both players. *)
Definition wild_values (e : event) : Prop :=
  match e with
  | EvLp con _ => con = 2%Z
  | EvBoard (BoardState s) => (length (bs_lps s) < 2)%nat
  | _ => False
  end.

Definition is_shuffle (e : event) : bool :=
  match e with EvCard _ (CardShuffle _ _) => true | _ => false end.

Section Cards.
Variable C : Type.
Variable c0 : C.

(** On the server's board also the removal from an empty chain. *)
Definition wild_event (e : event) (b : pboard C) : Prop :=
  wild_values e \/
  (match e with EvChainStack (ChainPop _) => b_chain b = [] | _ => False end) \/
  trips (fun a (f : frame C) => wild (plain_act a) (f_lay f)) (fun a => fstep c0 (plain_act a))
    (event_acts e) (b_frame b).

Definition wild_uevent (e : event) (b : uboard C) : Prop :=
  wild_values e \/ trips wild_act (lstep c0) (event_acts e) (b_frame b).

(** The frame part is undone first. *)
Definition wild_undo (e : event) (b : uboard C) : Prop :=
  (match e with EvLp con _ => con = 2%Z | _ => False end) \/
  trips wild_act (lstep c0) (rev (map undo_of (event_acts e))) (b_frame b).

End Cards.
