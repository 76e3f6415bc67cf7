(** Specification vocabulary for replays made of events and queries, on an
    undoable board with undoable cards. *)
From Verif Require Import Base Place Frame FrameSpec Limbo LimboSpec Msg Event EventSpec Query UQuery UQuerySpec.

Set Implicit Arguments.
Local Open Scope N_scope.

(** A recording: what the server sent, in order. *)
Inductive rstep := REvent (e : event) | RQuery (q : query).

(** Parsing one item; a query returns its hits. *)
Definition play (use : bool) (s : rstep) (b : uboard ucard) : outcome (N * uboard ucard) :=
  match s with
  | REvent e => let! b' := uparse ucard0 e b in Ok (0, b')
  | RQuery q => let! (hits, w) := uparse_query use q (b_frame b) in Ok (hits, set_frame w b)
  end.
(** Taking it back, a query with the hits it returned. *)
Definition unplay (s : rstep) (hits : N) (b : uboard ucard) : outcome (uboard ucard) :=
  match s with
  | REvent e => uundo ucard0 e b
  | RQuery q => on_frame (take_back_query q hits) b
  end.

(** Parsing a whole recording once. *)
Definition play_all (use : bool) (ss : list rstep) (b : uboard ucard) : outcome (uboard ucard) :=
  ofold (fun s b => let! (_, b') := play use s b in Ok b') ss b.

(** The events among them can be undone. *)
Fixpoint steps_undoable (use : bool) (ss : list rstep) (b : uboard ucard) : Prop :=
  match ss with
  | [] => True
  | s :: ss' =>
      match s with REvent e => event_undoable ucard0 e b | RQuery _ => True end /\
      forall hits b', play use s b = Ok (hits, b') -> steps_undoable use ss' b'
  end.

(** A viewer at position [pos], with the hits of the items before it, the
    latest first, steps forward or backward. *)
Definition rmove (use : bool) (ss : list rstep) (m : wmove) (s : nat * list N * uboard ucard)
  : outcome (nat * list N * uboard ucard) :=
  let '(pos, hs, b) := s in
  match m with
  | Forward =>
      match nth_error ss pos with
      | Some x => let! (hits, b') := play use x b in Ok (S pos, hits :: hs, b')
      | None => Ok s
      end
  | Backward =>
      match pos, hs with
      | S i, hits :: hs' =>
          match nth_error ss i with
          | Some x => let! b' := unplay x hits b in Ok (i, hs', b')
          | None => Ok s
          end
      | _, _ => Ok s
      end
  end.
Definition rwalk (use : bool) (ss : list rstep) (ms : list wmove) (s : nat * list N * uboard ucard)
  : outcome (nat * list N * uboard ucard) := ofold (rmove use ss) ms s.

(** ** The same recording on a plain board with plain cards *)
Definition pplay (use : bool) (s : rstep) (b : pboard card) : outcome (N * pboard card) :=
  match s with
  | REvent e => let! b' := pparse card0 e b in Ok (0, b')
  | RQuery q => let! (hits, f) := parse_query use q (b_frame b) in Ok (hits, set_frame f b)
  end.
Definition pplay_all (use : bool) (ss : list rstep) (b : pboard card) : outcome (pboard card) :=
  ofold (fun s b => let! (_, b') := pplay use s b in Ok b') ss b.

(** What a plain board shows, and the cards on it. *)
Definition plain_scene (b : pboard card) : scene :=
  mkScene (f_lay (b_frame b)) (b_chain b) (b_turn b) (b_turn_controller b) (b_lp b) (b_phase b)
    (b_blocked b).
Definition plain_card (b : pboard card) (id : cid) : option card := heap_get id (f_heap (b_frame b)).

(** When an undoable board accepts what a plain one does: chain links are not
    pushed or popped (undoable values do not support it), and a pile is grown or
    shrunk to at most half its size (see C20). *)
Definition plain_op (a : lact) : fop :=
  match a with
  | LAdd p => OpAdd p
  | LRemove p => OpRemove p
  | LResize p n => OpResize p n
  | LMove a b => OpMove a b
  | LSwap a b => OpSwap a b
  | LShuffle p c => OpShuffle p c
  | LSplice a n b r => OpSplice a n b r
  | LPileSwap a b => OpPileSwap a b
  | _ => OpClear  (* events contain no other operations *)
  end.
Fixpoint resizes_fit {C} (c0 : C) (acts : list lact) (f : frame C) : Prop :=
  match acts with
  | [] => True
  | a :: acts' =>
      match a with
      | LResize p n => forall r i, slot p = Some (CPile r, i) ->
          let size := length (contents (CPile r) (f_lay f)) in
          (size <= N.to_nat n \/ 2 * N.to_nat n <= size)%nat
      | _ => True
      end /\
      forall f', fstep c0 (plain_op a) f = Ok f' -> resizes_fit c0 acts' f'
  end.
Definition no_chain (e : event) : Prop :=
  match e with EvChainStack (ChainPush _) | EvChainStack (ChainPop _) => False | _ => True end.
Fixpoint steps_fit (use : bool) (ss : list rstep) (b : pboard card) : Prop :=
  match ss with
  | [] => True
  | s :: ss' =>
      match s with
      | REvent e => no_chain e /\ resizes_fit card0 (event_acts e) (b_frame b)
      | RQuery _ => True
      end /\
      forall hits b', pplay use s b = Ok (hits, b') -> steps_fit use ss' b'
  end.
