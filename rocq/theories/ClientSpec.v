(** Specification vocabulary for what becomes of a client that is sent
    everything the server makes of the core's messages: whether it can follow,
    and if not, how that shows. *)
From Verif Require Import Base Place Frame FrameSpec Msg Event Encode CoreMsg EncodeSpec.

Set Implicit Arguments.
Local Open Scope N_scope.

(** The beginning and the end of a chain link. *)
Definition chain_msg (m : core_msg) : Prop :=
  match m with CmChaining _ _ | CmChainSolved _ => True | _ => False end.

(** A pile and the size it is about to have. *)
Definition tag_piles (c : ctx) (m : core_msg) : list (nat * nat) :=
  match m with
  | CmTagSwap con main extra _ hand _ _ =>
      match side_of_con (Z.of_N con) with
      | Some who =>
          [ (length (pile_now c who LDeck), N.to_nat main); (length (pile_now c who LExtra), N.to_nat extra);
            (length (pile_now c who LHand), N.to_nat hand) ]
      | None => []
      end
  | _ => []
  end.
(** Tag partners change and one of the new piles is smaller than the old one,
    but larger than half of it. *)
Definition bad_tag (c : ctx) (m : core_msg) : Prop :=
  Exists (fun x : nat * nat => (snd x < fst x < 2 * snd x)%nat) (tag_piles c m).

Inductive fate := Follows | Stops | Breaks.

(** What becomes of a client, given the messages the server has yet to see. *)
Inductive client_fate : ctx -> list core_msg -> fate -> Prop :=
| fate_end : forall c, client_fate c [] Follows
| fate_chain : forall c m ms, chain_msg m -> client_fate c (m :: ms) Stops
| fate_tag : forall c m ms, bad_tag c m -> client_fate c (m :: ms) Breaks
| fate_next : forall c m ms c' f, ~ chain_msg m -> ~ bad_tag c m -> feed c (ser m) = Ok c' ->
    client_fate c' ms f -> client_fate c (m :: ms) f.

(** How it shows. *)
Definition ends_as {A} (f : fate) (o : outcome A) : Prop :=
  match f with Follows => exists a, o = Ok a | Stops => o = Abort | Breaks => o = UB end.

(** A message a viewer can take back: not a shuffle of set cards, and no pile
    gets smaller, unless it is halved. *)
Definition reversible (c : ctx) (m : core_msg) : Prop :=
  match m with CmShuffleSetCard _ _ => False | _ => True end /\
  Forall (fun x : nat * nat => fst x <= snd x \/ fst x = 2 * snd x)%nat (tag_piles c m).
Fixpoint reversible_along (c : ctx) (ms : list core_msg) : Prop :=
  match ms with
  | [] => True
  | m :: ms' => reversible c m /\ forall c', feed c (ser m) = Ok c' -> reversible_along c' ms'
  end.
