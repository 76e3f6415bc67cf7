(** C26-C32: events on a board, and undoing them. *)
From Verif Require Import Base BaseProofs Place Frame FrameSpec FrameProofs FrameInv FrameFacts
  Limbo LimboSpec Msg Event EventSpec EventProofs EventUndo.

Local Open Scope N_scope.

(** A board in the middle of a duel. *)
Definition ex_events : list event := [
  EvBoard (BoardState (mkBState field_shape0 0 [8000; 8000] []
    [mkPlace 0 4 1 (-1); mkPlace 0 4 1 0; mkPlace 0 4 3 (-1); mkPlace 1 8 2 (-1)]
    [mkResize (mkPlace 0 1 0 (-1)) 5; mkResize (mkPlace 1 1 0 (-1)) 5;
     mkResize (mkPlace 1 2 0 (-1)) 2]));
  EvNextTurn 1;
  EvNextPhase 4;
  EvCard 0 (CardMove [mkPair (mkPlace 0 1 4 (-1)) (mkPlace 0 2 0 (-1));
                      mkPair (mkPlace 0 4 3 (-1)) (mkPlace 0 16 0 (-1))]);
  EvLp 1 (LpDamage 300);
  EvLp 0 (LpPay 9000);
  EvPile 0 (PileSplice [mkSplice (mkPlace 1 1 1 (-1)) 2 (mkPlace 1 32 0 (-1)) true]);
  EvCard 0 (CardExchange [mkPair (mkPlace 0 4 1 (-1)) (mkPlace 1 8 2 (-1))]);
  EvBoard (BoardExchange (mkBExchange 1 [mkPlace 1 2 0 (-1)] [mkPlace 1 4 0 (-1)]
    [mkResize (mkPlace 1 1 0 (-1)) 7]));
  EvZoneBlock [mkPlace 0 4 0 (-1)];
  EvPile 0 (PileExchange [mkPair (mkPlace 0 1 0 (-1)) (mkPlace 0 16 0 (-1))]);
  EvCard 0 (CardRemove [mkPlace 0 4 1 (-1)]) ].
Definition ex_pboard : pboard unit :=
  match ofold (pparse tt) ex_events (pboard0 unit) with Ok b => b | _ => pboard0 unit end.
Lemma ex_pboard_ok : ofold (pparse tt) ex_events (pboard0 unit) = Ok ex_pboard.
Proof. vm_compute. reflexivity. Qed.
Definition ex_uboard : uboard unit :=
  match parse_all tt ex_events (uboard0 unit) with Ok b => b | _ => uboard0 unit end.

(** C26: on the server's board, an LP event changes one player's life points as
    the game says.  Missing: recovering past 2^32, see below. *)
Theorem C26_lp_partial : forall C (c0 : C) (b : pboard C) who t,
  (forall n, t = LpRecover n -> lp_of who b + n < 2 ^ 32) ->
  exists b', pparse c0 (EvLp (con_of who) t) b = Ok b' /\
    Z.of_N (lp_of who b') = lp_after t (Z.of_N (lp_of who b)) /\
    lp_of (negb who) b' = lp_of (negb who) b /\ agree_but [MLp] b b'.
Proof. apply lp_plain. Qed.
Print Assumptions C26_lp_partial.

(** The same on an undoable board showing its latest state. *)
Theorem C26_lp_undoable_partial : forall C (c0 : C) (b : uboard C) who t, board_live b ->
  (forall n, t = LpRecover n -> u_get (lp_of who b) + n < 2 ^ 32) ->
  exists b', uparse c0 (EvLp (con_of who) t) b = Ok b' /\
    Z.of_N (u_get (lp_of who b')) = lp_after t (Z.of_N (u_get (lp_of who b))) /\
    lp_of (negb who) b' = lp_of (negb who) b /\ agree_but [MLp] b b' /\ board_live b'.
Proof. apply lp_undoable. Qed.
Print Assumptions C26_lp_undoable_partial.

(** Recovering can make life points smaller: they are stored modulo 2^32. *)
Theorem C26_recover_refuted : exists (b b' : pboard unit) n,
  n < 2 ^ 32 /\ lp_of false b < 2 ^ 32 /\
  pparse tt (EvLp (con_of false) (LpRecover n)) b = Ok b' /\
  lp_of false b' < lp_of false b /\
  Z.of_N (lp_of false b') <> lp_after (LpRecover n) (Z.of_N (lp_of false b)).
Proof.
  exists (mkBoard plain frame0 [] 0 0%Z (4294967295, 0) 0 []). eexists. exists 1.
  split; [reflexivity|]. split; [reflexivity|]. split; [vm_compute; reflexivity|].
  split; [reflexivity|]. vm_compute. discriminate.
Qed.
Print Assumptions C26_recover_refuted.

Example C26_ex : b_lp ex_pboard = (0, 7700) /\
  (exists b', pparse tt (EvLp 1 (LpRecover 300)) ex_pboard = Ok b' /\ b_lp b' = (0, 8000)) /\
  board_live ex_uboard /\ u_get (lp_of true ex_uboard) = 7700.
Proof.
  split; [reflexivity|]. split; [eexists; split; vm_compute; reflexivity|].
  split; [|reflexivity]. unfold board_live, at_end. vm_compute. repeat split.
Qed.

(** C27 *)
Theorem C27_next_turn : forall C (c0 : C) (b : pboard C) con,
  exists b', pparse c0 (EvNextTurn con) b = Ok b' /\
    b_turn b' = (b_turn b + 1) mod 2 ^ 32 /\ b_turn_controller b' = con /\
    agree_but [MTurn; MTurnController] b b'.
Proof. intros. eexists. split; [reflexivity|]. split; [reflexivity|]. agree. Qed.
Print Assumptions C27_next_turn.

Theorem C27_next_phase : forall C (c0 : C) (b : pboard C) ph,
  exists b', pparse c0 (EvNextPhase ph) b = Ok b' /\ b_phase b' = ph /\ agree_but [MPhase] b b'.
Proof. intros. eexists. split; [reflexivity|]. split; [reflexivity|]. agree. Qed.
Print Assumptions C27_next_phase.

Theorem C27_zone_block : forall C (c0 : C) (b : pboard C) l,
  exists b', pparse c0 (EvZoneBlock l) b = Ok b' /\ b_blocked b' = l /\ agree_but [MBlocked] b b'.
Proof. intros. eexists. split; [reflexivity|]. split; [reflexivity|]. agree. Qed.
Print Assumptions C27_zone_block.

(** A pushed link is popped again; popping from an empty stack is undefined. *)
Theorem C27_chain_stack : forall C (c0 : C) (b : pboard C) c x,
  exists b', pparse c0 (EvChainStack (ChainPush c)) b = Ok b' /\
    b_chain b' = b_chain b ++ [c] /\ agree_but [MChain] b b' /\
    pparse c0 (EvChainStack (ChainPop x)) b' = Ok b.
Proof. apply chain_plain. Qed.
Print Assumptions C27_chain_stack.

Theorem C27_chain_pop : forall C (c0 : C) (b : pboard C) x,
  (b_chain b = [] /\ pparse c0 (EvChainStack (ChainPop x)) b = UB) \/
  exists b' c, pparse c0 (EvChainStack (ChainPop x)) b = Ok b' /\
    b_chain b = b_chain b' ++ [c] /\ agree_but [MChain] b b'.
Proof. apply chain_pop_plain. Qed.
Print Assumptions C27_chain_pop.

Theorem C27_no_effect : forall C (c0 : C) (b : pboard C) e,
  (exists w mr ft, e = EvFinish w mr ft) \/ (exists m, e = EvMeta m) \/ (exists r, e = EvResult r) ->
  pparse c0 e b = Ok b.
Proof. intros C c0 b e [[w [mr [ft ->]]]|[[m ->]|[r ->]]]; reflexivity. Qed.
Print Assumptions C27_no_effect.

(** The same, where supported, on an undoable board showing its latest state. *)
Theorem C27_undoable : forall C (c0 : C) (b : uboard C), board_live b ->
  (forall con, exists b', uparse c0 (EvNextTurn con) b = Ok b' /\
     u_get (b_turn b') = (u_get (b_turn b) + 1) mod 2 ^ 32 /\ u_get (b_turn_controller b') = con /\
     agree_but [MTurn; MTurnController] b b') /\
  (forall ph, exists b', uparse c0 (EvNextPhase ph) b = Ok b' /\ u_get (b_phase b') = ph /\
     agree_but [MPhase] b b') /\
  (forall l, exists b', uparse c0 (EvZoneBlock l) b = Ok b' /\ u_get (b_blocked b') = l /\
     agree_but [MBlocked] b b').
Proof. apply undoable_values. Qed.
Print Assumptions C27_undoable.

Example C27_ex : b_turn ex_pboard = 1 /\ b_phase ex_pboard = 4 /\
  b_blocked ex_pboard = [mkPlace 0 4 0 (-1)] /\ b_turn_controller ex_pboard = 1%Z.
Proof. vm_compute. auto. Qed.

(** C28: whatever the board was, it then is what the State event describes:
    the life points, the chain, as many cards in each pile, zone and overlay as
    described, all of them new; the members a State does not describe are kept. *)
Theorem C28_state : forall C (c0 : C) (b b' : pboard C) s, reachable c0 (b_frame b) ->
  pparse c0 (EvBoard (BoardState s)) b = Ok b' ->
  (exists l0 l1 l, bs_lps s = l0 :: l1 :: l /\ b_lp b' = (l0, l1)) /\
  b_chain b' = bs_chains s /\
  (forall k, length (contents k (f_lay (b_frame b'))) = described s k) /\
  (forall id c, In (id, c) (f_heap (b_frame b')) -> c = c0) /\
  ((0 <= bs_turn_counter s)%Z -> Z.of_N (b_turn b') = bs_turn_counter s) /\
  ((bs_turn_counter s < 0)%Z -> b_turn b' = b_turn b) /\
  agree_but [MLp; MChain; MFrame; MTurn] b b'.
Proof. apply state_plain. Qed.
Print Assumptions C28_state.

(** Whether it is accepted does not depend on the board either. *)
Theorem C28_state_accepted : forall C (c0 : C) (b : pboard C) s, reachable c0 (b_frame b) ->
  ((exists b', pparse c0 (EvBoard (BoardState s)) b = Ok b') <-> state_ok s).
Proof. intros C c0 b s R. apply reachable_inv in R. apply (state_run C c0 s b R). Qed.
Print Assumptions C28_state_accepted.

Example C28_ex : exists s, state_ok s /\ reachable tt (b_frame ex_pboard) /\
  described s (CPile (false, LDeck)) = 3%nat /\ described s (CMats (true, ZMonster, 2%nat)) = 2%nat /\
  length (contents (CPile (false, LDeck)) (f_lay (b_frame ex_pboard))) = 1%nat /\
  exists b', pparse tt (EvBoard (BoardState s)) ex_pboard = Ok b' /\
    length (contents (CPile (false, LDeck)) (f_lay (b_frame b'))) = 3%nat /\ b_turn b' = 1.
Proof.
  exists (mkBState field_shape0 (-1) [100; 200; 300] []
    [mkPlace 1 4 2 (-1); mkPlace 1 4 2 0; mkPlace 1 4 2 0; mkPlace 0 1 0 (-1)]
    [mkResize (mkPlace 0 1 0 (-1)) 3]).
  split.
  { split; [simpl; lia|]. split.
    - cbn [adds_ok bs_add]. repeat split; do 2 eexists;
        (split; [reflexivity|]); split; vm_compute; auto; repeat constructor.
    - repeat constructor. do 2 eexists. reflexivity. }
  split.
  { apply (pparse_all_reachable _ tt ex_events (pboard0 unit)); [exists []; reflexivity|apply ex_pboard_ok]. }
  split; [reflexivity|]. split; [reflexivity|]. split; [vm_compute; reflexivity|].
  eexists. split; [vm_compute; reflexivity|]. vm_compute. auto.
Qed.

(** C29 as stated fails: the controller 2 passes the assertion of the mutable
    accessor, and the constant one has no assertion. *)
Theorem C29_lp_controller_refuted : exists con, con <> 0%Z /\ con <> 1%Z /\
  lp_index con = UB /\ forall C (c0 : C) (b : pboard C) t, pparse c0 (EvLp con t) b = UB.
Proof. exists 2%Z. split; [discriminate|]. split; [discriminate|]. split; reflexivity. Qed.
Print Assumptions C29_lp_controller_refuted.
(** The const overload does not stop on any. *)
Theorem C29_lp_const_undefined : forall con, (- 2 ^ 31 <= con < 2 ^ 31)%Z ->
  con <> 0%Z -> con <> 1%Z -> lp_index_const con = UB.
Proof. apply lp_const_undefined. Qed.
Print Assumptions C29_lp_const_undefined.

(** Every other int stops on the assertion; missing is only 2. *)
Theorem C29_lp_controller_partial : forall con, (- 2 ^ 31 <= con < 2 ^ 31)%Z ->
  con <> 0%Z -> con <> 1%Z -> con <> 2%Z ->
  lp_index con = Abort /\ forall C (c0 : C) (b : pboard C) t, pparse c0 (EvLp con t) b = Abort.
Proof. apply lp_controller. Qed.
Print Assumptions C29_lp_controller_partial.

Example C29_ex : lp_index (-1) = Abort /\ lp_index 3 = Abort /\ lp_index 0 = Ok false /\
  lp_index 1 = Ok true.
Proof. repeat split. Qed.

(** C30: undoing an event right after parsing it restores what the board
    shows, at any point of any history.  Missing are the events with a frame
    operation that has no working inverse (see [act_undoable]): there the claim
    is false, see C30_stale_refuted. *)
Theorem C30_undo_parse_partial : forall C (c0 : C) (b b' : uboard C) e, board_reachable c0 b ->
  event_undoable c0 e b -> uparse c0 e b = Ok b' ->
  exists b'', uundo c0 e b' = Ok b'' /\ scene_of b'' = scene_of b /\
    forall id, content b id <> None -> content b'' id = content b id.
Proof. intros C c0 b b' e. apply undo_parse. Qed.
Print Assumptions C30_undo_parse_partial.

(** At the live end, where nothing remains to be redone, the claim holds for
    every event: whenever undo_parse_event returns, the board is restored.
    Missing are boards in the middle of their history. *)
Theorem C30_undo_live_partial : forall C (c0 : C) (b b' b'' : uboard C) e, board_reachable c0 b ->
  at_end (b_frame b) -> uparse c0 e b = Ok b' -> uundo c0 e b' = Ok b'' ->
  scene_of b'' = scene_of b /\ forall id, content b id <> None -> content b'' id = content b id.
Proof.
  intros C c0 b b' b'' e R En H U.
  destruct (undo_parse C c0 e b b' R (undone_event C c0 e b b' b'' R En H U) H) as [c [E G]].
  rewrite U in E. injection E as <-. exact G.
Qed.
Print Assumptions C30_undo_live_partial.

(** In the middle of a history it does not: parsing a shrinking resize where
    another resize was undone, undoing it brings back the cards of the other
    one. *)
Definition deck_to (n : N) : event :=
  EvBoard (BoardExchange (mkBExchange 0 [] [] [mkResize (mkPlace 0 1 0 (-1)) n])).
Theorem C30_stale_refuted : exists e (b b' b'' : uboard unit), board_reachable tt b /\
  uparse tt e b = Ok b' /\ uundo tt e b' = Ok b'' /\
  contents (CPile (false, LDeck)) (sn_layout (scene_of b)) = [Some 0; Some 1] /\
  contents (CPile (false, LDeck)) (sn_layout (scene_of b'')) = [Some 2; Some 3].
Proof.
  exists (deck_to 0).
  exists (match (let! x := uparse tt (deck_to 2) (uboard0 unit) in
                 let! y := uparse tt (deck_to 5) x in uundo tt (deck_to 5) y)
          with Ok b => b | _ => uboard0 unit end).
  do 2 eexists.
  split; [exists [LResize (mkPlace 0 1 0 (-1)) 2; LResize (mkPlace 0 1 0 (-1)) 5;
                  LUndoResize (mkPlace 0 1 0 (-1)) 5]; vm_compute; reflexivity|].
  split; [vm_compute; reflexivity|]. split; [vm_compute; reflexivity|]. split; reflexivity.
Qed.
Print Assumptions C30_stale_refuted.

(** The recorded replay [ex_events] can be undone from end to end. *)
Definition act_undoable_b (a : lact) (w : limbo unit) : bool :=
  match a with
  | LAdd _ | LRemove _ | LMove _ _ | LSplice _ _ _ _ | LPileSwap _ _ | LClear | LSwap _ _ => true
  | LResize p n =>
      match slot p with
      | Some (CPile r, _) => Nat.leb (length (contents (CPile r) (lb_lay w))) (N.to_nat n)
      | _ => true
      end
  | _ => false
  end.
Fixpoint acts_undoable_b (acts : list lact) (w : limbo unit) : bool :=
  match acts with
  | [] => true
  | a :: l => act_undoable_b a w &&
      match lstep tt a w with Ok w' => acts_undoable_b l w' | _ => true end
  end.
Fixpoint all_undoable_b (es : list event) (b : uboard unit) : bool :=
  match es with
  | [] => true
  | e :: l => acts_undoable_b (event_acts e) (b_frame b) &&
      match uparse tt e b with Ok b' => all_undoable_b l b' | _ => true end
  end.
Lemma act_undoable_true : forall a w, act_undoable_b a w = true -> act_undoable a w.
Proof.
  intros a w H. destruct a; simpl in *; auto; try discriminate.
  intros r i S. rewrite S in H. apply Nat.leb_le in H. left. exact H.
Qed.
Lemma acts_undoable_true : forall acts w, acts_undoable_b acts w = true -> acts_undoable tt acts w.
Proof.
  induction acts as [|a l IH]; intros w H; cbn [acts_undoable acts_undoable_b] in *; auto.
  apply andb_prop in H as [H1 H2]. split; [apply act_undoable_true; auto|].
  intros w' E. rewrite E in H2. auto.
Qed.
Lemma all_undoable_true : forall es b, all_undoable_b es b = true -> all_undoable tt es b.
Proof.
  induction es as [|e l IH]; intros b H; cbn [all_undoable all_undoable_b] in *; auto.
  apply andb_prop in H as [H1 H2]. split; [apply acts_undoable_true; auto|].
  intros b' E. rewrite E in H2. auto.
Qed.

Example C30_ex : exists b e b', board_reachable tt b /\ event_undoable tt e b /\
  uparse tt e b = Ok b' /\ scene_of b' <> scene_of b /\ uundo tt e b' <> Abort.
Proof.
  exists (uboard0 unit), (nth 0 ex_events EvNotSet). eexists.
  split; [exists []; reflexivity|]. split; [apply acts_undoable_true; vm_compute; reflexivity|].
  split; [vm_compute; reflexivity|]. split; vm_compute; discriminate.
Qed.

(** C31: walking through any recorded replay, the board shows what it showed
    when the events were first parsed up to the current position ... *)
Theorem C31_scrubbing : forall C (c0 : C) es (b0 bn : uboard C),
  board_reachable c0 b0 -> board_live b0 -> parse_all c0 es b0 = Ok bn ->
  forall ms i b, walk c0 es ms (0%nat, b0) = Ok (i, b) ->
    (i <= length es)%nat /\ exists bi, parse_all c0 (firstn i es) b0 = Ok bi /\
    scene_of b = scene_of bi /\ forall id, content bi id <> None -> content b id = content bi id.
Proof. intros C c0 es b0 bn R L E. apply (walked_scene C c0 es b0 R L bn E). Qed.
Print Assumptions C31_scrubbing.

(** ... so the path does not matter. *)
Theorem C31_path_independent : forall C (c0 : C) es (b0 bn : uboard C),
  board_reachable c0 b0 -> board_live b0 -> parse_all c0 es b0 = Ok bn ->
  forall ms1 ms2 i b1 b2, walk c0 es ms1 (0%nat, b0) = Ok (i, b1) ->
    walk c0 es ms2 (0%nat, b0) = Ok (i, b2) -> scene_of b1 = scene_of b2.
Proof.
  intros C c0 es b0 bn R L E ms1 ms2 i b1 b2 W1 W2.
  destruct (walked_scene C c0 es b0 R L bn E ms1 i b1 W1) as [_ [c1 [P1 [S1 _]]]].
  destruct (walked_scene C c0 es b0 R L bn E ms2 i b2 W2) as [_ [c2 [P2 [S2 _]]]].
  congruence.
Qed.
Print Assumptions C31_path_independent.

(** A walk gets through if the events have working inverses; those that do not
    are the subject of C32. *)
Theorem C31_no_step_fails : forall C (c0 : C) es (b0 bn : uboard C),
  board_reachable c0 b0 -> board_live b0 -> all_undoable c0 es b0 -> parse_all c0 es b0 = Ok bn ->
  forall ms, exists i b bi, walk c0 es ms (0%nat, b0) = Ok (i, b) /\ (i <= length es)%nat /\
    parse_all c0 (firstn i es) b0 = Ok bi /\ scene_of b = scene_of bi /\
    forall id, content bi id <> None -> content b id = content bi id.
Proof. intros C c0 es b0 bn R L U E. apply (walk_scene C c0 es b0 R L bn E U). Qed.
Print Assumptions C31_no_step_fails.

Example C31_ex : board_reachable tt (uboard0 unit) /\ board_live (uboard0 unit) /\
  all_undoable tt ex_events (uboard0 unit) /\ parse_all tt ex_events (uboard0 unit) = Ok ex_uboard /\
  (exists b, walk tt ex_events (repeat Forward 9 ++ repeat Backward 7 ++ repeat Forward 20 ++
     repeat Backward 3) (0%nat, uboard0 unit) = Ok (9%nat, b) /\
     sn_lp (scene_of b) = (0, 7700)).
Proof.
  split; [exists []; reflexivity|]. split; [repeat split; reflexivity|].
  split; [apply all_undoable_true; vm_compute; reflexivity|].
  split; [vm_compute; reflexivity|].
  eexists. split; vm_compute; reflexivity.
Qed.

(** Also with a shuffle in the recording, which a walk cannot go back over. *)
Example C31_shuffle_ex : exists bn b,
  parse_all tt (ex_events ++ [EvCard 0 (CardShuffle [mkPlace 1 4 0 (-1)] [mkPlace 1 4 2 (-1)]);
    EvNextPhase 8]) (uboard0 unit) = Ok bn /\
  walk tt (ex_events ++ [EvCard 0 (CardShuffle [mkPlace 1 4 0 (-1)] [mkPlace 1 4 2 (-1)]);
    EvNextPhase 8]) (repeat Forward 9 ++ repeat Backward 7 ++ repeat Forward 20 ++ [Backward])
    (0%nat, uboard0 unit) = Ok (S (length ex_events), b).
Proof. do 2 eexists. split; vm_compute; reflexivity. Qed.

(** C32 as stated fails: a shuffle is never undoable ... *)
Theorem C32_shuffle_never : forall C (c0 : C) (b : uboard C) reason prev cur,
  uundo c0 (EvCard reason (CardShuffle prev cur)) b = Abort.
Proof. reflexivity. Qed.
Print Assumptions C32_shuffle_never.
Theorem C32_every_event_refuted : exists e (b' : uboard unit),
  uparse tt e ex_uboard = Ok b' /\ uundo tt e b' = Abort.
Proof.
  exists (EvCard 0 (CardShuffle [mkPlace 1 4 0 (-1)] [mkPlace 1 4 2 (-1)])). eexists.
  split; vm_compute; reflexivity.
Qed.
Print Assumptions C32_every_event_refuted.

(** ... and neither is a resize that shrinks a pile, other than to half. *)
Theorem C32_shrink_refuted : exists e (b b' : uboard unit), board_reachable tt b /\
  at_end (b_frame b) /\ uparse tt e b = Ok b' /\ uundo tt e b' = Abort.
Proof.
  exists (deck_to 1).
  exists (match uparse tt (deck_to 5) (uboard0 unit) with Ok b => b | _ => uboard0 unit end).
  eexists. split; [exists [LResize (mkPlace 0 1 0 (-1)) 5]; vm_compute; reflexivity|].
  split; [reflexivity|]. split; vm_compute; reflexivity.
Qed.
Print Assumptions C32_shrink_refuted.

(** At the live end these are exactly the events that cannot be undone. *)
Theorem C32_undo_iff_partial : forall C (c0 : C) (b b' : uboard C) e, board_reachable c0 b ->
  at_end (b_frame b) -> uparse c0 e b = Ok b' ->
  ((exists b'', uundo c0 e b' = Ok b'') <-> event_undoable c0 e b).
Proof.
  intros C c0 b b' e R En H. split.
  - intros [b'' U]. exact (undone_event C c0 e b b' b'' R En H U).
  - intros U. destruct (undo_parse C c0 e b b' R U H) as [b'' [E _]]. eauto.
Qed.
Print Assumptions C32_undo_iff_partial.

(** Everything else can be undone at any point of the history; missing are
    exactly the operations of the refutations above (see [act_undoable]). *)
Theorem C32_undo_partial : forall C (c0 : C) (b b' : uboard C) e, board_reachable c0 b ->
  event_undoable c0 e b -> uparse c0 e b = Ok b' -> exists b'', uundo c0 e b' = Ok b''.
Proof.
  intros C c0 b b' e R U H. destruct (undo_parse C c0 e b b' R U H) as [b'' [E _]]. eauto.
Qed.
Print Assumptions C32_undo_partial.

(** In particular all events without frame operations. *)
Theorem C32_values_partial : forall C (c0 : C) (b b' : uboard C) e, board_reachable c0 b ->
  event_acts e = [] -> uparse c0 e b = Ok b' ->
  exists b'', uundo c0 e b' = Ok b'' /\ scene_of b'' = scene_of b.
Proof.
  intros C c0 b b' e R E H.
  destruct (undo_parse C c0 e b b' R) as [b'' [X [Y _]]]; eauto.
  unfold event_undoable. rewrite E. exact I.
Qed.
Print Assumptions C32_values_partial.

Example C32_ex : event_acts (EvNextTurn 1) = [] /\ event_acts (EvLp 0 (LpDamage 100)) = [] /\
  exists b', uparse tt (EvLp 0 (LpDamage 100)) ex_uboard = Ok b'.
Proof. split; [reflexivity|]. split; [reflexivity|]. eexists. vm_compute. reflexivity. Qed.
