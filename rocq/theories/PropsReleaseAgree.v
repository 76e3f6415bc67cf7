(** C113: a board with a history and one without, both built without assertions. *)
From Verif Require Import Base Place Frame FrameSpec FrameLens Limbo LimboSpec Msg Event EventSpec UReplaySpec
  Release ReleaseFrameSpec ReleaseAgreeSpec ReleaseAgreeProofs.

Local Open Scope N_scope.

(** Given the same events they show the same, the chain aside.  The board with a
    history shows the chain of the last snapshot, and its cards are alive. *)
Theorem C113_same : forall A B (a0 : A) (b0 : B) es u p,
  ofold (rel_uparse a0) es (uboard0 A) = Ok u -> ofold (rel_pparse b0) es (pboard0 B) = Ok p ->
  alike u p /\ sn_chain (scene_of u) = snapshot_chain es /\
  forall pos id, occupant (sn_layout (scene_of u)) pos = Some (Some id) -> heap_get id (f_heap (lb_frame (b_frame u))) <> None.
Proof.
  intros A B a0 b0 es u p U P. destruct (@run_agree A B a0 b0 es _ _ _ _ (bagree0 A B) P U) as [S K].
  split; [apply bagree_alike; exact S|]. split; [exact K|]. intros pos id. exact (@bagree_live A B u p pos id S).
Qed.
Print Assumptions C113_same.

(** Of the events the board without a history goes through, the other one goes
    through exactly those that grow piles or shrink them to at most half. *)
Theorem C113_accepted_iff : forall A B (a0 : A) (b0 : B) es p, ofold (rel_pparse b0) es (pboard0 B) = Ok p ->
  ((exists u, ofold (rel_uparse a0) es (uboard0 A) = Ok u) <-> halving_all b0 es (pboard0 B)).
Proof. intros A B a0 b0 es p P. symmetry. exact (@run_follows A B a0 b0 es _ _ _ (bagree0 A B) P). Qed.
Print Assumptions C113_accepted_iff.

(** Events that assertions would stop: a card added where one is, a chain link
    pushed.  Then life points, and a pile shrunk to half. *)
Definition ex_link : chain := mkChain (mkPlace 0 4 1 (-1)) (mkPlace 0 4 1 (-1)) effect0.
Definition ex_snap (k : list chain) : event :=
  EvBoard (BoardState (mkBState field_shape0 3 [8000; 7000] k [mkPlace 0 4 1 (-1)] [mkResize (mkPlace 0 1 0 (-1)) 4])).
Definition ex_shrink (n : N) : event := EvBoard (BoardExchange (mkBExchange 0 [] [] [mkResize (mkPlace 0 1 0 (-1)) n])).
Definition ex_events : list event :=
  [ ex_snap [ex_link]; EvCard 0 (CardAdd [mkPlace 0 4 1 (-1)]); EvChainStack (ChainPush ex_link);
    EvLp 1 (LpDamage 500); ex_shrink 2 ].
Example C113_ex : exists u p, ofold (rel_uparse tt) ex_events (uboard0 unit) = Ok u /\
  ofold (rel_pparse tt) ex_events (pboard0 unit) = Ok p /\ b_lp p = (8000, 6500) /\
  length (sn_chain (scene_of u)) = 1%nat /\ length (b_chain p) = 2%nat /\
  occupant (f_lay (b_frame p)) (CCard (false, ZMonster, 1%nat), 0%nat) = Some (Some 5) /\
  pparse tt (nth 1 ex_events EvNotSet) p = Abort.
Proof.
  do 2 eexists. split; [vm_compute; reflexivity|]. split; [vm_compute; reflexivity|]. repeat split.
Qed.

(** A shrink from four to three, which writes past a buffer on one board and
    goes through on the other. *)
Example C113_half_ex : (exists p, ofold (rel_pparse tt) [ex_snap []; ex_shrink 3] (pboard0 unit) = Ok p) /\
  ~ halving_all tt [ex_snap []; ex_shrink 3] (pboard0 unit) /\
  ofold (rel_uparse tt) [ex_snap []; ex_shrink 3] (uboard0 unit) = UB.
Proof.
  split; [eexists; vm_compute; reflexivity|].
  assert (U : ofold (rel_uparse tt) [ex_snap []; ex_shrink 3] (uboard0 unit) = UB) by (vm_compute; reflexivity).
  split; [|exact U]. intros H. destruct (ofold (rel_pparse tt) [ex_snap []; ex_shrink 3] (pboard0 unit)) as [p| | |] eqn:P; try (vm_compute in P; discriminate P).
  apply (C113_accepted_iff _ _ tt tt _ _ P) in H. destruct H as [u E]. rewrite U in E. discriminate E.
Qed.

(** The board with a history is the only one to survive a snapshot when a null
    pointer is in a hand (C111). *)
Definition ex_hole : list event :=
  [ EvCard 0 (CardAdd [mkPlace 0 2 0 (-1)]); EvCard 0 (CardExchange [mkPair (mkPlace 0 2 0 (-1)) (mkPlace 1 4 3 (-1))]); ex_snap [] ].
Example C113_hole_ex : ofold (rel_pparse tt) ex_hole (pboard0 unit) = UB /\
  exists u, ofold (rel_uparse tt) ex_hole (uboard0 unit) = Ok u /\ sn_turn (scene_of u) = 3.
Proof. split; [vm_compute; reflexivity|]. eexists. split; [vm_compute; reflexivity|reflexivity]. Qed.
