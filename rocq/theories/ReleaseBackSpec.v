(** Taking an event back without assertions: what the words of the claims are. *)
From Verif Require Import Base Place Msg Frame FrameSpec ReleaseFrameSpec.

Set Implicit Arguments.
Local Open Scope N_scope.

(** What an event that only moves cards asks of the frame, in order. *)
Definition moves_of (e : event) : option (list fop) :=
  match e with
  | EvCard _ (CardAdd l) => Some (map OpAdd l)
  | EvCard _ (CardRemove l) => Some (map OpRemove l)
  | EvCard _ (CardMove l) => Some (map (fun o => OpMove (po_a o) (po_b o)) l)
  | EvCard _ (CardExchange l) => Some (map (fun o => OpSwap (po_a o) (po_b o)) l)
  | EvPile _ (PileSplice l) =>
      Some (map (fun o => OpSplice (sp_from o) (sp_count o) (sp_to o) (sp_reverse o)) l)
  | EvPile _ (PileExchange l) => Some (map (fun o => OpPileSwap (po_a o) (po_b o)) l)
  | _ => None
  end.

(** No step of [ops] puts a card on a zone that holds one. *)
Fixpoint covers_none {C} (c0 : C) (ops : list fop) (f : frame C) : Prop :=
  match ops with
  | [] => True
  | o :: ops' =>
      (forall id, ~ buried o (f_lay f) id) /\
      forall f', rel_fstep c0 o f = Ok f' -> covers_none c0 ops' f'
  end.

(** Events that leave the cards where they are. *)
Definition no_cards (e : event) : Prop :=
  match e with
  | EvCard _ CardNotSet | EvPile _ (PileResize _) | EvPile _ PileNotSet | EvBoard BoardNotSet => True
  | EvCard _ _ | EvPile _ _ | EvBoard _ => False
  | _ => True
  end.
