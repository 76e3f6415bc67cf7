(** C30, exactly, at the live end of the history. *)
From Verif Require Import Base BaseProofs Place Frame FrameSpec FrameProofs FrameInv FrameFacts
  Limbo LimboSpec Msg Event EventSpec EventProofs EventUndo PropsBoard.

Local Open Scope N_scope.

(** An event parsed at the live end can be taken back exactly when it does not
    shuffle cards and resizes no pile to less than its size other than half;
    the other resizes that get through stop the undo. *)
Theorem C30_undo_iff_partial : forall C (c0 : C) (b b' : uboard C) e, board_reachable c0 b ->
  at_end (b_frame b) -> uparse c0 e b = Ok b' ->
  ((exists b'', uundo c0 e b' = Ok b'' /\ scene_of b'' = scene_of b /\
     forall id, content b id <> None -> content b'' id = content b id) <-> event_undoable c0 e b) /\
  ((exists b'', uundo c0 e b' = Ok b'') <-> event_undoable c0 e b).
Proof.
  intros C c0 b b' e R A H. split; split.
  - intros (b'' & U & _). exact (undone_event C c0 e b b' b'' R A H U).
  - intros V. exact (C30_undo_parse_partial C c0 b b' e R V H).
  - intros (b'' & U). exact (undone_event C c0 e b b' b'' R A H U).
  - intros V. destruct (C30_undo_parse_partial C c0 b b' e R V H) as (b'' & U & _). now exists b''.
Qed.
Print Assumptions C30_undo_iff_partial.

(** A deck of four cards cut to two comes back; cut to one it does not. *)
Example C30_undo_iff_ex : exists b b1 b2 b3, uparse tt (deck_to 4) (uboard0 unit) = Ok b /\
  board_reachable tt b /\ at_end (b_frame b) /\
  uparse tt (deck_to 2) b = Ok b1 /\ uundo tt (deck_to 2) b1 = Ok b2 /\
  contents (CPile (false, LDeck)) (sn_layout (scene_of b2)) = map Some [0; 1; 2; 3] /\
  uparse tt (deck_to 1) b = Ok b3 /\ uundo tt (deck_to 1) b3 = Abort.
Proof.
  do 4 eexists. split; [vm_compute; reflexivity|].
  split; [exists [LResize (mkPlace 0 1 0 (-1)) 4]; vm_compute; reflexivity|].
  do 5 (split; [vm_compute; reflexivity|]). vm_compute. reflexivity.
Qed.
