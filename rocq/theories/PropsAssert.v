(** C115: what the assertions of the board ask for. *)
From Verif Require Import Base Place Frame FrameSpec FrameInv HazardSpec Release ReleaseFrameSpec AssertSpec AssertProofs.

Local Open Scope N_scope.

(** An operation that goes through without assertions goes through with them, to
    the same end, if and only if what is asked for is the case ... *)
Theorem C115_asked : forall C (c0 : C) o f f', reachable c0 f -> rel_fstep c0 o f = Ok f' ->
  (fstep c0 o f = Ok f' <-> asked o (f_lay f)).
Proof. intros C c0 o f f' R H. eapply step_back; eassumption. Qed.
Print Assumptions C115_asked.

(** ... and so do operations in a row. *)
Theorem C115_runs : forall C (c0 : C) ops f, rel_frun c0 ops frame0 = Ok f ->
  (frun c0 ops frame0 = Ok f <-> asked_run c0 ops frame0).
Proof. intros C c0 ops f H. apply run_back; [exists []; reflexivity|exact H]. Qed.
Print Assumptions C115_runs.

(** If it is not the case, an assertion stops the operation.  Excepted are
    shuffles of nothing and of places that make no sense. *)
Theorem C115_stopped : forall C (c0 : C) o f f', reachable c0 f -> rel_fstep c0 o f = Ok f' ->
  (forall prev cur, o = OpShuffle prev cur -> prev <> [] /\ Forall regular prev) ->
  ~ asked o (f_lay f) -> fstep c0 o f = Abort.
Proof. intros C c0 o f f' R H S N. eapply step_stopped; eassumption. Qed.
Print Assumptions C115_stopped.

(** What does not go through without assertions is undefined there, and does not
    go through with them either. *)
Theorem C115_else : forall C (c0 : C) o (f : frame C), (forall f', rel_fstep c0 o f <> Ok f') ->
  rel_fstep c0 o f = UB /\ forall f', fstep c0 o f <> Ok f'.
Proof.
  intros C c0 o f H. destruct (step_loose c0 o f) as [[f' E]|E]; [destruct (H f' E)|]. split; [exact E|].
  intros f' X. apply (H f'). apply keeps_fstep. exact X.
Qed.
Print Assumptions C115_else.

(** A card in the deck, one in a zone with a material, one in a zone without. *)
Definition ex_board : list fop :=
  [ OpAdd (mkPlace 0 1 0 (-1)); OpAdd (mkPlace 0 4 1 (-1)); OpAdd (mkPlace 0 4 1 0); OpAdd (mkPlace 0 4 3 (-1)) ].

(** Going through both ways: the card in the deck to an empty zone, the zone's
    card with its material to an empty zone. *)
Example C115_asked_ex : exists f f1 f2, frun tt ex_board frame0 = Ok f /\
  let o1 := OpMove (mkPlace 0 1 0 (-1)) (mkPlace 0 4 2 (-1)) in
  let o2 := OpMove (mkPlace 0 4 1 (-1)) (mkPlace 1 4 2 (-1)) in
  rel_fstep tt o1 f = Ok f1 /\ asked o1 (f_lay f) /\ fstep tt o1 f = Ok f1 /\
  rel_fstep tt o2 f = Ok f2 /\ asked o2 (f_lay f) /\ fstep tt o2 f = Ok f2.
Proof.
  do 3 eexists. split; [vm_compute; reflexivity|]. cbv zeta. split; [vm_compute; reflexivity|]. split.
  { cbn [asked]. split; [vm_compute; reflexivity|]. split; [vm_compute; intros; congruence|]. split; reflexivity. }
  split; [vm_compute; reflexivity|]. split; [vm_compute; reflexivity|]. split; [|vm_compute; reflexivity].
  cbn [asked]. split; [vm_compute; intros; congruence|]. split; [vm_compute; intros; congruence|]. split; reflexivity.
Qed.

(** Stopped, and going through without assertions: the card in the deck moved to
    where a card is, a new card put there, the card in the deck exchanged with one
    that has a material, a card exchanged with an empty zone, and shuffled with
    one. *)
Example C115_stopped_ex : exists f, frun tt ex_board frame0 = Ok f /\
  (forall o, In o [ OpMove (mkPlace 0 1 0 (-1)) (mkPlace 0 4 3 (-1));
     OpAdd (mkPlace 0 4 3 (-1)); OpSwap (mkPlace 0 1 0 (-1)) (mkPlace 0 4 1 (-1));
     OpSwap (mkPlace 0 4 3 (-1)) (mkPlace 0 4 5 (-1));
     OpShuffle [mkPlace 0 4 3 (-1); mkPlace 0 4 5 (-1)] [mkPlace 0 4 5 (-1); mkPlace 0 4 3 (-1)] ] ->
   fstep tt o f = Abort /\ exists f', rel_fstep tt o f = Ok f').
Proof.
  eexists. split; [vm_compute; reflexivity|]. intros o H.
  repeat (destruct H as [<-|H]; [split; [vm_compute; reflexivity|eexists; vm_compute; reflexivity]|]). destruct H.
Qed.

(** The exception: shuffling nothing is undefined with assertions, for the first
    of the places is looked at, and does nothing without. *)
Example C115_nothing_ex : forall f : frame unit, fstep tt (OpShuffle [] []) f = UB /\ rel_fstep tt (OpShuffle [] []) f = Ok f.
Proof. intros [n h L]. split; reflexivity. Qed.

(** Not going through: the second card of a deck of one is removed. *)
Example C115_else_ex : exists f, frun tt ex_board frame0 = Ok f /\
  rel_fstep tt (OpRemove (mkPlace 0 1 1 (-1))) f = UB /\ fstep tt (OpRemove (mkPlace 0 1 1 (-1))) f = Abort.
Proof. eexists. split; [vm_compute; reflexivity|]. split; vm_compute; reflexivity. Qed.
