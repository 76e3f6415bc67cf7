(** C86: of the events that make no sense, which are stopped by an assertion. *)
From Verif Require Import Base BaseProofs Place Frame FrameSpec FrameProofs FrameInv FrameFacts
  Limbo LimboSpec LimboProofs Msg Event EventSpec EventProofs HazardSpec HazardProofs HazardLimbo
  HazardEvent EvalOrder ShuffleWild FrameLens.

Local Open Scope N_scope.

(** A frame with a monster with two materials, three cards in a deck and two
    cards in the back row. *)
Definition hz_ops : list fop :=
  [OpResize (mkPlace 0 1 0 (-1)) 3; OpAdd (mkPlace 0 4 2 (-1)); OpAdd (mkPlace 0 4 2 0);
   OpAdd (mkPlace 0 4 2 1); OpAdd (mkPlace 1 8 0 (-1)); OpAdd (mkPlace 1 8 3 (-1))].
Definition hz_frame : frame unit :=
  match frun tt hz_ops frame0 with Ok f => f | _ => frame0 end.
Lemma hz_reachable : reachable tt hz_frame.
Proof. exists hz_ops. vm_compute. reflexivity. Qed.

Definition hz_acts : list lact :=
  [LResize (mkPlace 0 1 0 (-1)) 3; LAdd (mkPlace 0 4 2 (-1)); LAdd (mkPlace 0 4 2 0);
   LAdd (mkPlace 0 4 2 1); LAdd (mkPlace 1 8 0 (-1)); LAdd (mkPlace 1 8 3 (-1))].
Definition hz_limbo : limbo unit :=
  match lrun tt hz_acts limbo0 with Ok f => f | _ => limbo0 end.
Lemma hz_lreachable : lreachable tt hz_limbo.
Proof. exists hz_acts. vm_compute. reflexivity. Qed.

Definition hz_pboard : pboard unit := set_frame hz_frame (pboard0 unit).
Definition hz_uboard : uboard unit := set_frame hz_limbo (uboard0 unit).

(** Whatever the arguments, as long as the places are regular, an operation on a
    frame succeeds or is stopped by an assertion.  Missing: the wild calls, see
    below, and irregular places. *)
Theorem C86_frame_partial : forall C (c0 : C) (f : frame C) o,
  reachable c0 f -> regular_op o -> ~ wild o (f_lay f) -> orderly (fstep c0 o f).
Proof. intros C c0 f o R. apply frame_orderly. apply (reachable_inv _ _ _ R). Qed.
Print Assumptions C86_frame_partial.

(** No wild call but a shuffle is ever stopped. *)
Theorem C86_frame_wild : forall C (c0 : C) (f : frame C) o,
  reachable c0 f -> regular_op o -> wild o (f_lay f) ->
  (forall prev cur, o <> OpShuffle prev cur) -> fstep c0 o f = UB.
Proof.
  intros C c0 f o R Ro W N. apply (@frame_ub _ c0 o f (reachable_inv _ _ _ R) Ro W).
  destruct o; auto. exact (N _ _ eq_refl).
Qed.
Print Assumptions C86_frame_wild.

(** Nor is a shuffle of the cards of one row with too few current places. *)
Theorem C86_shuffle_wild : forall C (c0 : C) (f : frame C) con loc zl lim prev cur,
  reachable c0 f -> assocN loc zone_table = Some (zl, lim) ->
  (forall p, In p prev -> p_con p = con /\ p_loc p = loc /\ occupied p (f_lay f)) ->
  (length cur < length prev <= 7)%nat ->
  (forall p, In p cur -> p_loc p = 0 \/ p_con p = con /\ p_loc p = loc /\ p_seq p < lim) ->
  fstep c0 (OpShuffle prev cur) f = UB.
Proof.
  intros C c0 f con loc zl lim prev cur R Hl Hp L Hc.
  pose proof (proj1 (inv_lay _ _ (reachable_inv _ _ _ R))) as Sh.
  cbn [fstep]. apply ub_lift. exact (@shuffle_short con loc zl lim prev cur _ Sh Hl Hp L Hc).
Qed.
Print Assumptions C86_shuffle_wild.

(** Stopped, done and neither. *)
Example C86_frame_ex :
  (exists o, regular_op o /\ ~ wild o (f_lay hz_frame) /\ fstep tt o hz_frame = Abort) /\
  (exists o f', regular_op o /\ ~ wild o (f_lay hz_frame) /\ fstep tt o hz_frame = Ok f' /\ f' <> hz_frame) /\
  (exists o, regular_op o /\ wild o (f_lay hz_frame) /\ fstep tt o hz_frame = UB).
Proof.
  split; [|split].
  - exists (OpMove (mkPlace 3 4 77 (-5)) (mkPlace 0 1 99 7)).
    split; [|split; [cbn; tauto|reflexivity]].
    cbn; unfold regular; cbn; intuition lia.
  - exists (OpSplice (mkPlace 0 1 1 (-1)) 2 (mkPlace 1 0x10 0 (-1)) true). eexists.
    split; [cbn; unfold regular; cbn; intuition lia|]. split; [|split; [vm_compute; reflexivity|vm_compute; discriminate]].
    intros [r1 [r2 [s [t [E1 [E2 [_ B]]]]]]]. vm_compute in E2. injection E2 as <- <-. lia.
  - exists (OpSplice (mkPlace 0 1 1 (-1)) 2 (mkPlace 1 0x10 5 (-1)) true).
    split; [cbn; unfold regular; cbn; intuition lia|]. split; [|vm_compute; reflexivity].
    do 4 eexists. split; [vm_compute; reflexivity|]. split; [vm_compute; reflexivity|]. split; vm_compute; lia.
Qed.
Example C86_shuffle_ex : exists prev cur,
  (forall p, In p prev -> p_con p = 1%Z /\ p_loc p = 8 /\ occupied p (f_lay hz_frame)) /\
  (length cur < length prev)%nat /\ cur <> [] /\ fstep tt (OpShuffle prev cur) hz_frame = UB.
Proof.
  exists [mkPlace 1 8 0 (-1); mkPlace 1 8 3 (-1)], [mkPlace 1 8 3 (-1)].
  split; [|split; [cbn; lia|split; [discriminate|vm_compute; reflexivity]]].
  intros p [<-|[<-|[]]]; (split; [reflexivity|split; [reflexivity|]]); eexists; (split; [vm_compute; reflexivity|vm_compute; discriminate]).
Qed.

(** For shuffles of any kind, on either frame: exactly those that get to a step
    whose current place is missing or in a pile are undefined. *)
Theorem C86_shuffle_iff : forall C (c0 : C) (f : frame C) (w : limbo C) prev cur,
  reachable c0 f -> lreachable c0 w -> regular_op (OpShuffle prev cur) ->
  (fstep c0 (OpShuffle prev cur) f = UB <-> shuffle_fatal prev cur (f_lay f)) /\
  (lstep c0 (LShuffle prev cur) w = UB <-> shuffle_fatal prev cur (lb_lay w)).
Proof.
  intros C c0 f w prev cur R Rw [Hp Hc].
  pose proof (proj1 (inv_lay _ _ (reachable_inv _ _ _ R))) as Sh.
  assert (Sw : shape (lb_lay w)).
  { destruct (lreachable_linv _ _ _ Rw) as [nx [h [L [P [F [-> O]]]]]].
    rewrite lb_lay_tape. exact (proj1 (to_lay _ _ _ _ _ _ O)). }
  split.
  - rewrite <- (@shuffle_ub prev cur _ Sh (ord_seqs Sh Hp) Hc). cbn [fstep]. unfold lift.
    destruct (card_shuffle prev cur (f_lay f)); cbn; split; congruence.
  - rewrite <- (@shuffle_ub prev cur _ Sw (ord_seqs Sw Hp) Hc). cbn [lstep]. unfold l_lift, lift. fold (lb_lay w).
    destruct (card_shuffle prev cur (lb_lay w)); cbn; split; congruence.
Qed.
Print Assumptions C86_shuffle_iff.

(** The second of two cards goes to a pile: undefined; but not if the first goes
    to a zone that does not exist, or the pile is of no player. *)
Example C86_shuffle_iff_ex :
  let back i := mkPlace 1 8 i (-1) in
  let both cur := OpShuffle [back 0; back 3] cur in
  (regular_op (both [back 3; mkPlace 0 1 0 (-1)]) /\
   shuffle_fatal [back 0; back 3] [back 3; mkPlace 0 1 0 (-1)] (f_lay hz_frame) /\
   fstep tt (both [back 3; mkPlace 0 1 0 (-1)]) hz_frame = UB) /\
  fstep tt (both [back 7; mkPlace 0 1 0 (-1)]) hz_frame = Abort /\
  fstep tt (both [back 3; mkPlace 2 1 0 (-1)]) hz_frame = Abort.
Proof.
  split; [split; [|split; [|vm_compute; reflexivity]]|split; vm_compute; reflexivity].
  - split; repeat constructor; try (right; split; cbn; lia || tauto); cbn; lia || tauto.
  - right. exists 1%nat. split; [cbn; lia|]. split; [split; [cbn; lia|discriminate]|].
    eexists. vm_compute. reflexivity.
Qed.

(** Not all calls with regular places are stopped or done: *)
Theorem C86_frame_refuted : exists (f : frame unit) sw sp sh,
  reachable tt f /\
  (exists a b, sw = OpSwap a b) /\ (exists a n b r, sp = OpSplice a n b r) /\
  (exists prev cur, sh = OpShuffle prev cur) /\
  Forall (fun o => regular_op o /\ ~ orderly (fstep tt o f)) [sw; sp; sh].
Proof.
  exists hz_frame, (OpSwap (mkPlace 0 4 2 0) (mkPlace 1 8 0 (-1))),
    (OpSplice (mkPlace 0 1 0 (-1)) 1 (mkPlace 0 1 3 (-1)) false), (OpShuffle [] []).
  split; [apply hz_reachable|]. split; [eauto|]. split; [eauto 6|]. split; [eauto|].
  assert (X : forall A (m : outcome A), m = UB -> ~ orderly m) by (intros A m -> [[x E]|E]; discriminate).
  repeat (apply Forall_cons; [split; [|apply X; vm_compute; reflexivity]|]); [| | |constructor];
    cbn; unfold regular; cbn; try (intuition lia). split; constructor.
Qed.
Print Assumptions C86_frame_refuted.

(** Where C++ leaves the order of evaluation open it makes no difference, as long
    as the places are regular. *)
Theorem C86_order : forall L,
  (forall a b, regular a -> regular b -> pile_swap_rl a b L = pile_swap a b L) /\
  (forall prev cur, Forall (fun p => p_loc p = 0 \/ regular p) cur ->
     card_shuffle_rl prev cur L = card_shuffle prev cur L).
Proof.
  intros L. split; [intros a b; apply pile_swap_order|].
  intros prev cur F. apply card_shuffle_order.
  revert F. apply Forall_impl. intros p [H|[H _]]; auto.
Qed.
Print Assumptions C86_order.

(** The orders differ for a swap of the piles of players -1 and 2. *)
Example C86_ex_order :
  pile_swap_rl (mkPlace (-1) 1 0 (-1)) (mkPlace 2 1 0 (-1)) layout0 = Abort /\
  pile_swap (mkPlace (-1) 1 0 (-1)) (mkPlace 2 1 0 (-1)) layout0 = UB /\
  pile_swap_rl (mkPlace 0 1 0 (-1)) (mkPlace 1 16 0 (-1)) (f_lay hz_frame) =
    pile_swap (mkPlace 0 1 0 (-1)) (mkPlace 1 16 0 (-1)) (f_lay hz_frame) /\
  exists L, pile_swap (mkPlace 0 1 0 (-1)) (mkPlace 1 16 0 (-1)) (f_lay hz_frame) = Ok L /\
    L <> f_lay hz_frame.
Proof.
  repeat (split; [vm_compute; reflexivity|]). eexists. split; [vm_compute; reflexivity|].
  vm_compute. discriminate.
Qed.

(** Nor are calls with irregular places: a negative player and no location. *)
Theorem C86_irregular_refuted : exists (f : frame unit) p q,
  reachable tt f /\ (p_con p < 0)%Z /\ In (p_loc p) board_locs /\ p_con q = 0%Z /\ p_loc q = 0 /\
  fstep tt (OpAdd p) f = UB /\ fstep tt (OpAdd q) f = UB /\
  fstep tt (OpRemove p) f = UB /\ fstep tt (OpRemove q) f = Abort.
Proof.
  exists hz_frame, (mkPlace (-1) 1 0 (-1)), (mkPlace 0 0 0 (-1)).
  split; [apply hz_reachable|]. repeat (split; [vm_compute; auto; reflexivity|]). vm_compute. reflexivity.
Qed.
Print Assumptions C86_irregular_refuted.

(** The same for a frame that can undo. *)
Theorem C86_limbo_partial : forall C (c0 : C) (w : limbo C) a,
  lreachable c0 w -> regular_act a -> ~ wild_act a w -> orderly (lstep c0 a w).
Proof. intros C c0 w a R. apply limbo_orderly. apply (lreachable_linv _ _ _ R). Qed.
Print Assumptions C86_limbo_partial.

Theorem C86_limbo_wild : forall C (c0 : C) (w : limbo C) a,
  lreachable c0 w -> regular_act a -> wild_act a w ->
  (forall prev cur, a <> LShuffle prev cur) -> lstep c0 a w = UB.
Proof.
  intros C c0 w a R Ra W N. apply (@limbo_ub _ c0 a w (lreachable_linv _ _ _ R) Ra W).
  destruct a; cbn; auto. exact (N _ _ eq_refl).
Qed.
Print Assumptions C86_limbo_wild.

Example C86_limbo_ex :
  (exists a, regular_act a /\ ~ wild_act a hz_limbo /\ lstep tt a hz_limbo = Abort) /\
  (exists a w', regular_act a /\ ~ wild_act a hz_limbo /\ lstep tt a hz_limbo = Ok w') /\
  (exists a, regular_act a /\ wild_act a hz_limbo /\ lstep tt a hz_limbo = UB).
Proof.
  split; [|split].
  - exists (LUndoAdd (mkPlace 1 8 2 (-1))).
    split; [cbn; unfold regular; cbn; intuition lia|]. split; [|vm_compute; reflexivity].
    intros [E _]. vm_compute in E. discriminate.
  - exists (LUndoAdd (mkPlace 1 8 3 (-1))). eexists.
    split; [cbn; unfold regular; cbn; intuition lia|]. split; [|vm_compute; reflexivity].
    intros [E _]. vm_compute in E. discriminate.
  - exists (LResize (mkPlace 0 1 0 (-1)) 2).
    split; [cbn; unfold regular; cbn; intuition lia|]. split; [|vm_compute; reflexivity].
    do 2 eexists. split; [vm_compute; reflexivity|]. split; [left; reflexivity|]. vm_compute. lia.
Qed.

(** What is not stopped only there: shrinking by a little, and undoing on a new
    frame. *)
Theorem C86_limbo_refuted : exists (w : limbo unit) shrink undo,
  lreachable tt w /\ regular_act shrink /\ lstep tt shrink w = UB /\
  (exists p n, shrink = LResize p n /\
     forall f, reachable tt f -> orderly (fstep tt (OpResize p n) f)) /\
  regular_act undo /\ lstep tt undo (limbo0 : limbo unit) = UB.
Proof.
  exists hz_limbo, (LResize (mkPlace 0 1 0 (-1)) 2), (LUndoRemove (mkPlace 0 4 2 (-1))).
  split; [apply hz_lreachable|]. split; [cbn; unfold regular; cbn; intuition lia|].
  split; [vm_compute; reflexivity|]. split; [|split; [cbn; unfold regular; cbn; intuition lia|vm_compute; reflexivity]].
  eexists. eexists. split; [reflexivity|]. intros f Rf. apply C86_frame_partial; auto.
  cbn; unfold regular; cbn; intuition lia.
Qed.
Print Assumptions C86_limbo_refuted.

(** Events on the server's board. *)
Theorem C86_event_partial : forall C (c0 : C) (b : pboard C) e,
  reachable c0 (b_frame b) -> regular_event e -> ~ wild_event c0 e b -> orderly (pparse c0 e b).
Proof. intros C c0 b e R. apply pparse_orderly. apply (reachable_inv _ _ _ R). Qed.
Print Assumptions C86_event_partial.

Theorem C86_event_wild : forall C (c0 : C) (b : pboard C) e,
  reachable c0 (b_frame b) -> regular_event e -> is_shuffle e = false ->
  wild_event c0 e b -> pparse c0 e b = UB.
Proof. intros C c0 b e R. apply pparse_ub. apply (reachable_inv _ _ _ R). Qed.
Print Assumptions C86_event_wild.

(** A whole duel of events of which none is wild when its turn comes. *)
Theorem C86_duel_partial : forall C (c0 : C) es, Forall regular_event es ->
  ~ trips (wild_event c0) (pparse c0) es (pboard0 C) ->
  orderly (ofold (pparse c0) es (pboard0 C)).
Proof.
  intros C c0 es R NT.
  apply (@trips_orderly _ _ (wild_event c0) (pparse c0)
    (fun b : pboard C => reachable c0 (b_frame b))) with (ok := regular_event); auto.
  - intros a s s' H1 H2. eapply pparse_reachable; eauto.
  - intros a s H1 H2 H3. apply C86_event_partial; auto.
  - exists []. reflexivity.
Qed.
Print Assumptions C86_duel_partial.

Example C86_duel_ex : exists e1 e2 e3 b, Forall regular_event [e1; e2; e3] /\
  ~ trips (wild_event tt) (pparse tt) [e1; e2; e3] (pboard0 unit) /\
  ofold (pparse tt) [e1; e2] (pboard0 unit) = Ok b /\
  ofold (pparse tt) [e1; e2; e3] (pboard0 unit) = Abort.
Proof.
  exists (EvCard 0 (CardAdd [mkPlace 0 4 2 (-1)])), (EvLp 1 (LpDamage 5)),
    (EvCard 0 (CardAdd [mkPlace 0 4 2 (-1)])). eexists.
  split; [repeat constructor; cbn; unfold regular; cbn; intuition lia|].
  split; [|split; vm_compute; reflexivity].
  assert (X : forall e b, is_shuffle e = false -> ~ wild_values e ->
    event_acts e = [] \/ event_acts e = [LAdd (mkPlace 0 4 2 (-1))] ->
    (forall n, e <> EvChainStack (ChainPop n)) -> ~ wild_event tt e b).
  { intros e b _ E1 E2 E3 [W|[W|W]]; [auto| |].
    - destruct e as [| | |[]| | | | | | | |]; auto. exact (E3 _ eq_refl).
    - destruct E2 as [E2|E2]; rewrite E2 in W; cbn in W; [auto|].
      destruct W as [[]|[s' [_ []]]]. }
  intros [W|[b1 [E1 [W|[b2 [E2 [W|[b3 [E3 []]]]]]]]]]; revert W; apply X; cbn; auto;
    discriminate.
Qed.

Example C86_event_ex :
  (exists e, regular_event e /\ ~ wild_event tt e hz_pboard /\ pparse tt e hz_pboard = Abort) /\
  (exists e b', regular_event e /\ ~ wild_event tt e hz_pboard /\ pparse tt e hz_pboard = Ok b') /\
  (exists e, regular_event e /\ is_shuffle e = false /\ wild_event tt e hz_pboard /\ wild_values e).
Proof.
  split; [|split].
  - exists (EvCard 0 (CardMove [mkPair (mkPlace 0 1 2 (-1)) (mkPlace 0 2 0 (-1));
                                mkPair (mkPlace 0 1 2 (-1)) (mkPlace 0 2 0 (-1))])).
    split; [split; [|exact Logic.I]; repeat constructor; cbn; unfold regular; cbn; intuition lia|].
    split; [|vm_compute; reflexivity].
    intros [[]|[[]|[[]|[s' [_ [[]|[s'' [_ []]]]]]]]].
  - exists (EvCard 0 (CardMove [mkPair (mkPlace 0 1 2 (-1)) (mkPlace 0 2 0 (-1));
                                mkPair (mkPlace 0 1 1 (-1)) (mkPlace 0 2 0 (-1))])). eexists.
    split; [split; [|exact Logic.I]; repeat constructor; cbn; unfold regular; cbn; intuition lia|].
    split; [|vm_compute; reflexivity].
    intros [[]|[[]|[[]|[s' [_ [[]|[s'' [_ []]]]]]]]].
  - exists (EvLp 2 (LpDamage 1)). split; [split; [constructor|lia]|].
    split; [reflexivity|]. split; [left|]; reflexivity.
Qed.

(** Besides the frame's: the third player's life points, a state without life
    points, and the end of a link of an empty chain. *)
Theorem C86_event_refuted : exists lp state pop,
  Forall regular_event [lp; state; pop] /\
  (exists t, lp = EvLp 2 t) /\ (exists s, state = EvBoard (BoardState s)) /\
  (exists n, pop = EvChainStack (ChainPop n)) /\
  Forall (fun e => pparse tt e (pboard0 unit) = UB) [lp; state; pop] /\
  Forall (fun e => uparse tt e (uboard0 unit) = UB) [lp; state] /\
  uparse tt pop (uboard0 unit) = Abort.
Proof.
  exists (EvLp 2 (LpPay 0)), (EvBoard (BoardState (mkBState field_shape0 0 [8000] [] [] []))),
    (EvChainStack (ChainPop false)).
  split; [repeat constructor; lia|]. split; [eauto|]. split; [eauto|]. split; [eauto|].
  split; [repeat constructor|]. split; [repeat constructor|]. reflexivity.
Qed.
Print Assumptions C86_event_refuted.

(** Events on a client's board. *)
Theorem C86_uevent_partial : forall C (c0 : C) (b : uboard C) e,
  board_reachable c0 b -> regular_event e -> ~ wild_uevent c0 e b -> orderly (uparse c0 e b).
Proof. intros C c0 b e R. apply uparse_orderly. apply (lreachable_linv _ _ _ R). Qed.
Print Assumptions C86_uevent_partial.

Theorem C86_uevent_wild : forall C (c0 : C) (b : uboard C) e,
  board_reachable c0 b -> regular_event e -> is_shuffle e = false ->
  wild_uevent c0 e b -> uparse c0 e b = UB.
Proof. intros C c0 b e R. apply uparse_ub. apply (lreachable_linv _ _ _ R). Qed.
Print Assumptions C86_uevent_wild.

(** Undoing events, also others than those parsed; here the dangers are exactly
    the wild ones. *)
Theorem C86_undo_partial : forall C (c0 : C) (b : uboard C) e,
  board_reachable c0 b -> regular_event e ->
  (~ wild_undo c0 e b -> orderly (uundo c0 e b)) /\ (wild_undo c0 e b -> uundo c0 e b = UB).
Proof.
  intros C c0 b e R Re. destruct (@uundo_iff _ c0 e b (lreachable_linv _ _ _ R) Re) as [A B]. auto.
Qed.
Print Assumptions C86_undo_partial.

Example C86_uevent_ex :
  (exists e, regular_event e /\ ~ wild_uevent tt e hz_uboard /\ uparse tt e hz_uboard = Abort) /\
  (exists e b', regular_event e /\ ~ wild_uevent tt e hz_uboard /\ uparse tt e hz_uboard = Ok b') /\
  (exists e, regular_event e /\ is_shuffle e = false /\ wild_uevent tt e hz_uboard) /\
  (exists e b', regular_event e /\ ~ wild_undo tt e hz_uboard /\ uundo tt e hz_uboard = Ok b') /\
  (exists e, regular_event e /\ ~ wild_undo tt e hz_uboard /\ uundo tt e hz_uboard = Abort) /\
  (exists e, regular_event e /\ wild_undo tt e hz_uboard).
Proof.
  split; [|split; [|split; [|split; [|split]]]].
  - exists (EvCard 0 (CardRemove [mkPlace 0 4 2 1; mkPlace 0 4 2 1])).
    split; [split; [|exact Logic.I]; repeat constructor; cbn; unfold regular; cbn; intuition lia|].
    split; [|vm_compute; reflexivity].
    intros [[]|[[]|[s' [_ [[]|[s'' [_ []]]]]]]].
  - exists (EvCard 0 (CardRemove [mkPlace 0 4 2 1; mkPlace 0 4 2 0])). eexists.
    split; [split; [|exact Logic.I]; repeat constructor; cbn; unfold regular; cbn; intuition lia|].
    split; [|vm_compute; reflexivity].
    intros [[]|[[]|[s' [_ [[]|[s'' [_ []]]]]]]].
  - exists (EvCard 0 (CardExchange [mkPair (mkPlace 0 4 2 0) (mkPlace 1 8 0 (-1))])).
    split; [split; [|exact Logic.I]; repeat constructor; cbn; unfold regular; cbn; intuition lia|].
    split; [reflexivity|]. right. left.
    split; [eexists; split; [vm_compute; reflexivity|vm_compute; discriminate]|].
    split; [eexists; split; [vm_compute; reflexivity|vm_compute; discriminate]|].
    do 4 eexists. split; [vm_compute; reflexivity|]. split; [vm_compute; reflexivity|].
    split; [discriminate|vm_compute; lia].
  - exists (EvCard 0 (CardAdd [mkPlace 1 8 0 (-1); mkPlace 1 8 3 (-1)])). eexists.
    split; [split; [|exact Logic.I]; repeat constructor; cbn; unfold regular; cbn; intuition lia|].
    split; [|vm_compute; reflexivity].
    intros [[]|[[E _]|[s' [H [[E _]|[s'' [_ []]]]]]]]; [vm_compute in E; discriminate|].
    vm_compute in H. injection H as <-. vm_compute in E. discriminate.
  - exists (EvCard 0 (CardAdd [mkPlace 1 8 0 (-1); mkPlace 1 8 1 (-1)])).
    split; [split; [|exact Logic.I]; repeat constructor; cbn; unfold regular; cbn; intuition lia|].
    split; [|vm_compute; reflexivity].
    intros [[]|[[E _]|[s' [H _]]]]; [vm_compute in E; discriminate|vm_compute in H; discriminate].
  - exists (EvLp 2 (LpPay 3)). split; [split; [constructor|lia]|]. left. reflexivity.
Qed.
