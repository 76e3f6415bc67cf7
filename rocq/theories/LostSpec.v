(** Specification vocabulary: which cards of an undoable frame can still be
    reached. *)
From Verif Require Import Base Place Frame FrameSpec Limbo LimboSpec Msg Event EventSpec Query UQuery UReplaySpec.

Set Implicit Arguments.

(** A card is within reach if it lies on the board or a remembered operation
    refers to it; a card that exists but is out of reach is lost: nothing shows
    it, brings it back or frees it. *)
Definition within_reach {C} (w : limbo C) (id : cid) : Prop :=
  (exists pos, occupant (lb_lay w) pos = Some (Some id)) \/
  exists o, In o (lb_ops w) /\ op_mentions o id.
Definition lost {C} (w : limbo C) (id : cid) : Prop := card_alive w id /\ ~ within_reach w id.

(** Events that let no card slip: piles grow, keep their size, or shrink to
    exactly half (see C20 for why the other sizes fail). *)
Definition act_keeps {C} (a : lact) (w : limbo C) : Prop :=
  match a with
  | LResize p n => forall r i, slot p = Some (CPile r, i) ->
      let size := length (contents (CPile r) (lb_lay w)) in
      (size <= N.to_nat n \/ size = 2 * N.to_nat n)%nat
  | _ => True
  end.
Fixpoint acts_keep {C} (c0 : C) (acts : list lact) (w : limbo C) : Prop :=
  match acts with
  | [] => True
  | a :: acts' => act_keeps a w /\ forall w', lstep c0 a w = Ok w' -> acts_keep c0 acts' w'
  end.
(** Over a whole recording, played once from the start. *)
Definition step_acts (s : rstep) : list lact := match s with REvent e => event_acts e | RQuery _ => [] end.
Definition all_keep {C} (c0 : C) (es : list event) : Prop := acts_keep c0 (flat_map event_acts es) limbo0.
Definition steps_keep (ss : list rstep) : Prop := acts_keep ucard0 (flat_map step_acts ss) limbo0.
