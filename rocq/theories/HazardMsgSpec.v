(** Specification vocabulary for what the messages of the core can do to the
    server: the contexts it can have, and the messages that are dangerous for
    them. *)
From Verif Require Import Base Place Frame FrameSpec Msg Event Encode CoreMsg EncodeSpec HazardSpec.

Set Implicit Arguments.
Local Open Scope N_scope.

(** A context that was shown nothing but messages of the core. *)
Definition served (c : ctx) : Prop :=
  exists s ms, (s = ctx_value_init \/ s = ctx_default_init) /\ heard s c ms.

(** The dangers.  A win before a reason for it is known; the life points of a
    third player; the end of a chain link when there is none; a swap of the kind
    that misses; a shuffle of no set cards, or to a pile; a material of a card in
    a pile, not put straight on the field, when no card is known to have gone
    there; a swap of graveyard and deck with too few flags in the buffer, or with
    a card for a position behind the end of the extra deck. *)
Definition perilous (c : ctx) (m : core_msg) (rest : list N) : Prop :=
  match m with
  | CmWin _ _ => cx_mwr c = None
  | CmDamage con _ | CmRecover con _ | CmLpupdate con _ | CmPayLpcost con _ => con = 2
  | CmChainSolved _ => b_chain (cx_board c) = []
  | CmSwap a b => wild_swap (core_place (cc_loc a)) (core_place (cc_loc b)) (ctx_layout c)
  | CmShuffleSetCard _ l => l = [] \/ Exists (fun x : cloc * cloc => in_pile (core_place (snd x))) l
  | CmMove _ p q _ =>
      pile_material (core_place p) /\ ~ outside (core_place q) /\
      (in_pile (core_place q) <-> ~ as_material (core_place q)) /\
      forall z, ~ In (holder (core_place p), z) (cx_left c)
  | CmSwapGraveDeck con pos bits =>
      exists who, side_of_con (Z.of_N con) = Some who /\
        (8 * lenN (bits ++ rest) < lenN (pile_now c who LGrave) \/
         lenN (pile_now c who LExtra) < pos /\
         exists i, (i < length (pile_now c who LGrave))%nat /\ flag_at (bits ++ rest) i = true)
  | _ => False
  end.

(** Where the danger is certain to strike: not every shuffle to a pile gets that
    far, and the sizes of the piles must fit in 32 bits. *)
Definition fatal (c : ctx) (m : core_msg) (rest : list N) : Prop :=
  perilous c m rest /\
  match m with
  | CmShuffleSetCard _ l => l = []
  | CmSwapGraveDeck con _ _ =>
      forall who, side_of_con (Z.of_N con) = Some who ->
        lenN (pile_now c who LGrave) < 2 ^ 32 /\ lenN (pile_now c who LDeck) < 2 ^ 32
  | _ => True
  end.

(** No message of a stream is dangerous when its turn comes. *)
Fixpoint safe_along (c : ctx) (ms : list core_msg) : Prop :=
  match ms with
  | [] => True
  | m :: ms' => ~ perilous c m [] /\ forall c', feed c (ser m) = Ok c' -> safe_along c' ms'
  end.
