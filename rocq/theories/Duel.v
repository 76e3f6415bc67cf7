(** A duel as the core plays it, told by its messages: specification for what
    the board of an encoding context has to show.

    Every card has a name.  It lies in a pile, in a zone, or is attached as a
    material to another card; materials belong to the card that holds them and
    go where it goes.  Names are given in the order in which cards appear.

    The encoder supports only part of what could be announced.  What it needs
    is written here as conditions on the duel; a message that does not meet
    them has no successor ([None]).  See C81 and C82 for what happens there. *)
From Verif Require Import Base Place Frame FrameSpec Msg Event EventSpec Query QuerySpec Encode CoreMsg EncodeSpec.

Set Implicit Arguments.
Local Open Scope N_scope.

(** ** Cards *)

(** Where a card can be.  [UnderPile r i k] is the [k]th material of the card at
    index [i] of a pile, [UnderZone z k] that of the card in a zone. *)
Inductive spot :=
| Outside
| InPile (r : pref) (i : nat)
| InZone (z : zref)
| UnderPile (r : pref) (i k : nat)
| UnderZone (z : zref) (k : nat).

Definition spot_of (p : place) : option spot :=
  if p_loc p =? 0 then Some Outside else
  match side_of_con (p_con p), assocN (p_loc p) pile_table with
  | None, _ => None
  | Some w, Some l =>
      Some (if (p_oseq p <? 0)%Z then InPile (w, l) (N.to_nat (p_seq p))
            else UnderPile (w, l) (N.to_nat (p_seq p)) (Z.to_nat (p_oseq p)))
  | Some _, None =>
      match zone_named p with
      | Some z => Some (if (p_oseq p <? 0)%Z then InZone z else UnderZone z (Z.to_nat (p_oseq p)))
      | None => None
      end
  end.

Record cards := mkCards {
  k_pile : pref -> list cid;
  k_zone : zref -> option cid;
  k_under : cid -> list cid;          (* the materials a card holds *)
  k_field : cid -> field -> fval;     (* what has been told about a card *)
  k_next : cid                        (* the next name *)
}.

Definition set_at {A B} (dec : forall a b : A, {a = b} + {a <> b}) (a : A) (b : B) (f : A -> B) : A -> B :=
  fun x => if dec x a then b else f x.
Definition with_pile (r : pref) (l : list cid) (K : cards) : cards :=
  mkCards (set_at pref_eq_dec r l (k_pile K)) (k_zone K) (k_under K) (k_field K) (k_next K).
Definition with_zone (z : zref) (o : option cid) (K : cards) : cards :=
  mkCards (k_pile K) (set_at zref_eq_dec z o (k_zone K)) (k_under K) (k_field K) (k_next K).
Definition with_under (h : cid) (l : list cid) (K : cards) : cards :=
  mkCards (k_pile K) (k_zone K) (set_at N.eq_dec h l (k_under K)) (k_field K) (k_next K).
Definition with_piles (p : pref -> list cid) (K : cards) : cards :=
  mkCards p (k_zone K) (k_under K) (k_field K) (k_next K).

(** A card about which nothing is known. *)
Definition blank (x : field) : fval :=
  match x with
  | F_code | F_position | F_alias | F_type | F_xyz_rank | F_attribute | F_race | F_status
  | F_pend_l_scale | F_pend_r_scale | F_cover | F_link_rate | F_link_arrow => VN 0
  | F_level | F_atk | F_def | F_base_atk | F_base_def | F_owner => VZ 0
  | F_is_public | F_is_hidden => VB false
  | F_equipped_to => VP (mkPlace 0 0 0 0)
  | F_targets => VPs []
  | F_counters => VCs []
  end.
Definition new_card (K : cards) : cid * cards :=
  (k_next K,
   mkCards (k_pile K) (k_zone K) (k_under K)
           (set_at N.eq_dec (k_next K) blank (k_field K)) (k_next K + 1)).

Definition holder_of (s : spot) (K : cards) : option cid :=
  match s with
  | UnderPile r i _ => nth_error (k_pile K r) i
  | UnderZone z _ => k_zone K z
  | _ => None
  end.
Definition card_on (s : spot) (K : cards) : option cid :=
  match s with
  | Outside => None
  | InPile r i => nth_error (k_pile K r) i
  | InZone z => k_zone K z
  | UnderPile _ _ k | UnderZone _ k =>
      match holder_of s K with Some h => nth_error (k_under K h) k | None => None end
  end.

(** Taking the card away from a spot; putting a card on a spot. *)
Definition take_out (s : spot) (K : cards) : cards :=
  match s with
  | Outside => K
  | InPile r i => with_pile r (remove_nth i (k_pile K r)) K
  | InZone z => with_zone z None K
  | UnderPile _ _ k | UnderZone _ k =>
      match holder_of s K with
      | Some h => with_under h (remove_nth k (k_under K h)) K
      | None => K
      end
  end.
Definition put_in (s : spot) (x : cid) (K : cards) : option cards :=
  match s with
  | Outside => None
  | InPile r i =>
      if (i <=? length (k_pile K r))%nat
      then Some (with_pile r (insert_nth i x (k_pile K r)) K) else None
  | InZone z => match k_zone K z with None => Some (with_zone z (Some x) K) | Some _ => None end
  | UnderPile _ _ k | UnderZone _ k =>
      match holder_of s K with
      | Some h =>
          if (k <=? length (k_under K h))%nat
          then Some (with_under h (insert_nth k x (k_under K h)) K) else None
      | None => None
      end
  end.

(** ** What the encoder relies on *)
Definition is_none {A} (o : option A) : bool := match o with None => true | Some _ => false end.
Definition no_mats (x : cid) (K : cards) : bool := match k_under K x with [] => true | _ => false end.

Definition all_piles : list pref :=
  flat_map (fun w => [(w, LDeck); (w, LHand); (w, LGrave); (w, LBan); (w, LExtra)]) [false; true].
(** The cards in piles that still hold materials, with their positions: cards
    that left the field a moment ago. *)
Definition loaded (K : cards) : list (pref * nat * cid) :=
  flat_map (fun r => map (fun y : nat * cid => (r, fst y, snd y))
    (filter (fun y : nat * cid => negb (no_mats (snd y) K))
            (combine (seq 0 (length (k_pile K r))) (k_pile K r)))) all_piles.
Definition at_rest (K : cards) : bool := match loaded K with [] => true | _ => false end.
Lemma entry_eq_dec : forall a b : pref * nat * cid, {a = b} + {a <> b}.
Proof. decide equality; [apply N.eq_dec|]. decide equality; [apply Nat.eq_dec|apply pref_eq_dec]. Defined.
(** Cards in piles that hold materials stay where they are; [new] may be added. *)
Definition steady (new : list (pref * nat * cid)) (K K' : cards) : bool :=
  forallb (fun e => if in_dec entry_eq_dec e (new ++ loaded K) then true else false) (loaded K').

(** ** Moves *)

(** Materials taken from the very zone the card is summoned to: only the first
    one may be. *)
Definition from_zone (z : zref) (s : spot) : bool :=
  match s with UnderZone y _ => if zref_eq_dec y z then true else false | _ => false end.
Definition mats_fine (z : zref) (from : list spot) : bool := negb (existsb (from_zone z) (tl from)).

Definition guard {A} (b : bool) (o : option A) : option A := if b then o else None.
Definition obind_ {A B} (o : option A) (f : A -> option B) : option B :=
  match o with Some a => f a | None => None end.

(** The card at [p] goes to [q]; nothing is being summoned with materials. *)
Definition calm_move (p q : spot) (K : cards) : option cards :=
  match p, q with
  (* it is created *)
  | Outside, InPile _ _ | Outside, UnderZone _ _ =>
      let '(x, K1) := new_card K in
      obind_ (put_in q x K1) (fun K' => guard (steady [] K K') (Some K'))
  | Outside, InZone _ =>
      let '(x, K1) := new_card K in guard (at_rest K) (put_in q x K1)
  (* it ceases to exist *)
  | InPile _ _, Outside | InZone _, Outside | UnderZone _ _, Outside =>
      obind_ (card_on p K) (fun x =>
        let K' := take_out p K in
        guard (no_mats x K && steady [] K K') (Some K'))
  (* it leaves the field, possibly with materials *)
  | InZone _, InPile r i =>
      obind_ (card_on p K) (fun x =>
        obind_ (put_in q x (take_out p K)) (fun K' =>
          guard (steady [(r, i, x)] K K') (Some K')))
  (* it goes to a pile or becomes a material of a card on the field *)
  | InPile _ _, InPile _ _ | UnderPile _ _ _, InPile _ _ | UnderZone _ _, InPile _ _
  | InPile _ _, UnderZone _ _ | InZone _, UnderZone _ _
  | UnderPile _ _ _, UnderZone _ _ | UnderZone _ _, UnderZone _ _ =>
      obind_ (card_on p K) (fun x =>
        obind_ (put_in q x (take_out p K)) (fun K' =>
          guard (no_mats x K && steady [] K K') (Some K')))
  (* it is put on the field *)
  | InPile _ _, InZone z | InZone _, InZone z | UnderZone _ _, InZone z =>
      obind_ (card_on p K) (fun x =>
        guard (at_rest K && is_none (k_zone K z)) (put_in q x (take_out p K)))
  | _, _ => None
  end.

(** A card in a pile, [h], receives a material before it is summoned. *)
Definition attach (h : cid) (p : spot) (r : pref) (i k : nat) (K : cards) : option cards :=
  match p with
  | InPile _ _ | InZone _ | UnderZone _ _ =>
      obind_ (card_on p K) (fun x =>
        let K1 := take_out p K in
        match nth_error (k_pile K1 r) i with
        | Some h' =>
            guard ((h' =? h) && no_mats x K && (k =? length (k_under K1 h))%nat)
                  (Some (with_under h (k_under K1 h ++ [x]) K1))
        | None => None
        end)
  | _ => None
  end.

(** ** The duel *)
Record duel := mkDuel {
  d_cards : cards;
  d_doing : option (cid * list spot);  (* the card about to be summoned with
                                          materials, and where those came from *)
  d_lp : bool -> N;
  d_turn : N;
  d_player : Z;
  d_phase : N;
  d_chain : list chain;
  d_blocked : list place
}.
Definition with_cards (K : cards) (D : duel) : duel :=
  mkDuel K (d_doing D) (d_lp D) (d_turn D) (d_player D) (d_phase D) (d_chain D) (d_blocked D).
Definition with_doing (o : option (cid * list spot)) (D : duel) : duel :=
  mkDuel (d_cards D) o (d_lp D) (d_turn D) (d_player D) (d_phase D) (d_chain D) (d_blocked D).

Definition no_cards (next : cid) : cards :=
  mkCards (fun _ => []) (fun _ => None) (fun _ => []) (fun _ => blank) next.
(** Before anything happened. *)
Definition duel0 : duel := mkDuel (no_cards 0) None (fun _ => 0) 0 0%Z 0 [] [].

Definition duel_move (p q : spot) (D : duel) : option duel :=
  let K := d_cards D in
  match d_doing D with
  | None =>
      match p, q with
      | Outside, Outside => Some D
      | _, UnderPile r i k =>
          (* the first material of a card in a pile *)
          let K1 := take_out p K in
          obind_ (nth_error (k_pile K1 r) i) (fun h =>
            guard (at_rest K)
              (option_map (fun K' => with_doing (Some (h, [p])) (with_cards K' D)) (attach h p r i k K)))
      | _, _ => option_map (fun K' => with_cards K' D) (calm_move p q K)
      end
  | Some (h, from) =>
      match p, q with
      | Outside, Outside => Some D
      | _, UnderPile r i k =>
          option_map (fun K' => with_doing (Some (h, from ++ [p])) (with_cards K' D)) (attach h p r i k K)
      | InPile r i, InZone z =>
          (* it is summoned *)
          obind_ (card_on p K) (fun x =>
            guard ((x =? h) && mats_fine z from)
              (option_map (fun K' => with_doing None (with_cards K' D)) (put_in q x (take_out p K))))
      | _, _ => None
      end
  end.

(** Cards that nobody has seen, put on top of a pile. *)
Fixpoint deal (n : nat) (r : pref) (K : cards) : cards :=
  match n with
  | O => K
  | S n' => let '(x, K1) := new_card K in deal n' r (with_pile r (k_pile K1 r ++ [x]) K1)
  end.
Definition deal_side (w : bool) (s : cside) (K : cards) : cards :=
  deal (N.to_nat (sd_extra s)) (w, LExtra) (deal (N.to_nat (sd_ban s)) (w, LBan)
    (deal (N.to_nat (sd_grave s)) (w, LGrave) (deal (N.to_nat (sd_hand s)) (w, LHand)
      (deal (N.to_nat (sd_main s)) (w, LDeck) K)))).
(** New cards on these places, one after the other. *)
Fixpoint place_all (l : list place) (K : cards) : option cards :=
  match l with
  | [] => Some K
  | p :: l' =>
      obind_ (spot_of p) (fun s =>
        let '(x, K1) := new_card K in
        match s with
        | InZone _ | UnderZone _ _ => obind_ (put_in s x K1) (place_all l')
        | _ => None
        end)
  end.

(** Telling about the card on a place. *)
Definition tell (t : place * list qitem) (K : cards) : option cards :=
  obind_ (spot_of (fst t)) (fun s =>
    match s with
    | InPile _ _ | InZone _ | UnderZone _ _ =>
        option_map (fun x =>
          mkCards (k_pile K) (k_zone K) (k_under K)
            (set_at N.eq_dec x
               (fun f => match query_says f (snd t) with Some v => v | None => k_field K x f end)
               (k_field K)) (k_next K))
          (card_on s K)
    | _ => None
    end).
Fixpoint tell_all (l : list (place * list qitem)) (K : cards) : option cards :=
  match l with
  | [] => Some K
  | t :: l' => obind_ (tell t K) (tell_all l')
  end.

Definition who_of (con : N) : option bool :=
  match con with 0 => Some false | 1 => Some true | _ => None end.
Definition fits32 (n : nat) : bool := N.of_nat n <? 2 ^ 32.

(** The last [n] cards of the deck, the top one first, join the hand. *)
Definition draw (w : bool) (n : nat) (K : cards) : option cards :=
  let deck := k_pile K (w, LDeck) in
  let hand := k_pile K (w, LHand) in
  let left := (length deck - n)%nat in
  guard ((n <=? length deck)%nat && fits32 (length deck) && fits32 (length hand))
    (Some (with_pile (w, LHand) (hand ++ rev (skipn left deck))
            (with_pile (w, LDeck) (firstn left deck) K))).
(** The graveyard becomes the deck and the deck the graveyard; flagged cards of
    the graveyard go to the extra deck instead, at index [pos]. *)
Definition swap_grave_deck (w : bool) (pos : N) (bits : list N) (K : cards) : option cards :=
  let deck := k_pile K (w, LDeck) in
  let grave := k_pile K (w, LGrave) in
  let extra := k_pile K (w, LExtra) in
  let n := N.to_nat pos in
  guard ((lenN grave <=? 8 * lenN bits) && (pos <=? lenN extra) &&
         fits32 (length extra + length grave) && fits32 (length deck))
    (Some (with_pile (w, LExtra) (firstn n extra ++ pick (flag_at bits) 0 grave ++ skipn n extra)
            (with_pile (w, LDeck) (pick (fun i => negb (flag_at bits i)) 0 grave)
              (with_pile (w, LGrave) deck K)))).

(** The cards of two zones change places. *)
Definition exchange_zones (a b : zref) (K : cards) : cards :=
  with_zone a (k_zone K b) (with_zone b (k_zone K a) K).

(** A shuffle within a row of zones: [l] pairs old and new zones. *)
Fixpoint zones_of (l : list (cloc * cloc)) : option (list (zref * zref)) :=
  match l with
  | [] => Some []
  | (a, b) :: l' =>
      match spot_of (core_place a), spot_of (core_place b), zones_of l' with
      | Some (InZone x), Some (InZone y), Some m => Some ((x, y) :: m)
      | _, _, _ => None
      end
  end.
Fixpoint old_zone (z : zref) (m : list (zref * zref)) : option zref :=
  match m with
  | [] => None
  | (x, y) :: m' => if zref_eq_dec y z then Some x else old_zone z m'
  end.
Definition row_of (z : zref) : bool * zloc := fst z.
Lemma row_eq_dec : forall a b : bool * zloc, {a = b} + {a <> b}.
Proof. decide equality; [apply zloc_eq_dec|apply bool_dec]. Defined.
Fixpoint nodup_zones (l : list zref) : bool :=
  match l with
  | [] => true
  | z :: l' => (if in_dec zref_eq_dec z l' then false else true) && nodup_zones l'
  end.
Definition shuffle_fine (m : list (zref * zref)) (K : cards) : bool :=
  match m with
  | [] => false
  | (z0, _) :: _ =>
      nodup_zones (map fst m) && nodup_zones (map snd m) &&
      forallb (fun p : zref * zref =>
        negb (is_none (k_zone K (fst p))) &&
        (if in_dec zref_eq_dec (snd p) (map fst m) then true else false) &&
        (if row_eq_dec (row_of (fst p)) (row_of z0) then true else false)) m
  end.
Definition shuffle_zones (m : list (zref * zref)) (K : cards) : cards :=
  mkCards (k_pile K)
    (fun z => match old_zone z m with Some x => k_zone K x | None => k_zone K z end)
    (k_under K) (k_field K) (k_next K).

Definition set_lp_of (w : bool) (n : N) (D : duel) : duel :=
  mkDuel (d_cards D) (d_doing D) (fun x => if Bool.eqb x w then n else d_lp D x)
         (d_turn D) (d_player D) (d_phase D) (d_chain D) (d_blocked D).
Definition set_chain_of (l : list chain) (D : duel) : duel :=
  mkDuel (d_cards D) (d_doing D) (d_lp D) (d_turn D) (d_player D) (d_phase D) l (d_blocked D).

(** Rearranging cards while nothing is being summoned with materials. *)
Definition rearranged (o : cards -> option cards) (D : duel) : option duel :=
  guard (is_none (d_doing D))
    (obind_ (o (d_cards D)) (fun K' =>
       guard (steady [] (d_cards D) K') (Some (with_cards K' D)))).
Definition told (l : list (place * list qitem)) (D : duel) : option duel :=
  guard (is_none (d_doing D)) (option_map (fun K => with_cards K D) (tell_all l (d_cards D))).

Definition duel_step (m : core_msg) (D : duel) : option duel :=
  match m with
  | CmMove _ p q _ =>
      match spot_of (core_place p), spot_of (core_place q) with
      | Some a, Some b => duel_move a b D
      | _, _ => None
      end
  | CmStart _ lp0 lp1 md0 ed0 md1 ed1 =>
      (* of a new duel: see C82 *)
      guard (is_none (d_doing D) && (d_phase D =? 0) && (d_player D =? 0)%Z &&
             match d_blocked D with [] => true | _ => false end)
        (Some (mkDuel
          (deal (N.to_nat ed1) (true, LExtra) (deal (N.to_nat md1) (true, LDeck)
            (deal (N.to_nat ed0) (false, LExtra) (deal (N.to_nat md0) (false, LDeck)
              (no_cards (k_next (d_cards D)))))))
          None (fun w => if w : bool then lp1 else lp0) 0 0%Z 0 [] []))
  | CmReloadField _ s0 s1 links =>
      guard (is_none (d_doing D))
        (obind_ (place_all (side_places 0 s0 ++ side_places 1 s1) (no_cards (k_next (d_cards D)))) (fun K =>
           Some (mkDuel (deal_side true s1 (deal_side false s0 K)) None
             (fun w => if w : bool then sd_lp s1 else sd_lp s0)
             (d_turn D) (d_player D) (d_phase D) (map core_chain links) (d_blocked D))))
  | CmDraw con l => obind_ (who_of con) (fun w => rearranged (draw w (length l)) D)
  | CmReverseDeck =>
      rearranged (fun K =>
        guard (fits32 (length (k_pile K (false, LDeck))) && fits32 (length (k_pile K (true, LDeck))))
          (Some (with_pile (true, LDeck) (rev (k_pile K (true, LDeck)))
                  (with_pile (false, LDeck) (rev (k_pile K (false, LDeck))) K)))) D
  | CmSwapGraveDeck con pos bits => obind_ (who_of con) (fun w => rearranged (swap_grave_deck w pos bits) D)
  | CmSwap a b =>
      match spot_of (core_place (cc_loc a)), spot_of (core_place (cc_loc b)) with
      | Some (InZone x), Some (InZone y) =>
          rearranged (fun K =>
            guard (negb (is_none (k_zone K x)) && negb (is_none (k_zone K y)))
                  (Some (exchange_zones x y K))) D
      | _, _ => None
      end
  | CmShuffleSetCard _ l =>
      (* every card's new place is told *)
      obind_ (zones_of l) (fun m =>
        rearranged (fun K => guard (shuffle_fine m K) (Some (shuffle_zones m K))) D)
  | CmTagSwap _ _ _ _ _ _ _ => None  (* see C81 *)
  | CmUpdateData _ _ _ | CmUpdateCard _ _ =>
      obind_ (core_queries m) (fun l => told l D)
  | CmNewTurn con =>
      guard (d_turn D + 1 <? 2 ^ 32)
        (Some (mkDuel (d_cards D) (d_doing D) (d_lp D) (d_turn D + 1) (Z.of_N con) (d_phase D)
                      (d_chain D) (d_blocked D)))
  | CmNewPhase p =>
      Some (mkDuel (d_cards D) (d_doing D) (d_lp D) (d_turn D) (d_player D) p (d_chain D) (d_blocked D))
  | CmFieldDisabled mask =>
      Some (mkDuel (d_cards D) (d_doing D) (d_lp D) (d_turn D) (d_player D) (d_phase D) (d_chain D)
                   (clear_zones mask 0))
  | CmDamage con n | CmPayLpcost con n =>
      option_map (fun w => set_lp_of w (d_lp D w - n) D) (who_of con)
  | CmRecover con n =>
      obind_ (who_of con) (fun w => guard (d_lp D w + n <? 2 ^ 32) (Some (set_lp_of w (d_lp D w + n) D)))
  | CmLpupdate con n => option_map (fun w => set_lp_of w n D) (who_of con)
  | CmChaining k _ => Some (set_chain_of (d_chain D ++ [core_chain k]) D)
  | CmChainSolved _ =>
      match d_chain D with [] => None | l => Some (set_chain_of (removelast l) D) end
  | CmDeckTop con _ _ _ => option_map (fun _ => D) (who_of con)
  (* everything else tells nothing about the state *)
  | _ => Some D
  end.

Definition duel_run (ms : list core_msg) (D : duel) : option duel :=
  fold_left (fun o m => obind_ o (duel_step m)) ms (Some D).

(** ** What a board has to show *)
Definition mats_of (z : zref) (K : cards) : list cid :=
  match k_zone K z with Some h => k_under K h | None => [] end.
Record shows (D : duel) (c : ctx) : Prop := {
  sh_pile : forall r, contents (CPile r) (ctx_layout c) = map Some (k_pile (d_cards D) r);
  sh_zone : forall z, contents (CCard z) (ctx_layout c) =
    match k_zone (d_cards D) z with Some x => [Some x] | None => [] end;
  (* once nobody owes materials *)
  sh_mats : at_rest (d_cards D) = true ->
    forall z, contents (CMats z) (ctx_layout c) = map Some (mats_of z (d_cards D));
  sh_card : forall s x, card_on s (d_cards D) = Some x ->
    exists v, card_of (b_frame (cx_board c)) x = Some v /\
      forall f, card_field f v = k_field (d_cards D) x f;
  sh_lp : forall w, lp_of w (cx_board c) = d_lp D w;
  sh_turn : b_turn (cx_board c) = d_turn D;
  sh_player : b_turn_controller (cx_board c) = d_player D;
  sh_phase : b_phase (cx_board c) = d_phase D;
  sh_chain : b_chain (cx_board c) = d_chain D;
  sh_blocked : b_blocked (cx_board c) = d_blocked D
}.
