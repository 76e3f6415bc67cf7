(** C108-C109: the code built without assertions. *)
From Verif Require Import Base Place Msg Frame Limbo Event Query Decode DecodeSpec DecodeProofs
  Release ReleaseSpec ReleaseProofs.

Local Open Scope N_scope.

(** ** C108: assertions only check *)

(** Any events that go through with assertions leave the same board without. *)
Theorem C108_board : forall C (c0 : C) es b b',
  ofold (pparse c0) es b = Ok b' -> ofold (rel_pparse c0) es b = Ok b'.
Proof. intros C c0 es b. apply keeps_ofold. intros e x. apply keeps_pparse. Qed.
Print Assumptions C108_board.

(** So do events done and undone on an undoable board ... *)
Theorem C108_undo : forall C (c0 : C) l b b',
  do_run (uparse c0) (uundo c0) l b = Ok b' -> do_run (rel_uparse c0) (rel_uundo c0) l b = Ok b'.
Proof.
  intros C c0 l b. unfold do_run. apply keeps_ofold. intros [e|e] x; [apply keeps_uparse|apply keeps_uundo].
Qed.
Print Assumptions C108_undo.

(** ... queries ... *)
Theorem C108_query : forall u q f r, parse_query u q f = Ok r -> rel_parse_query u q f = Ok r.
Proof. intros u q f. apply keeps_parse_query. Qed.
Print Assumptions C108_query.

(** ... and answers. *)
Theorem C108_answer : forall rq a out bs,
  decode_one_answer rq a out = Ok bs -> rel_decode_one_answer rq a out = Ok bs.
Proof. intros rq a out. apply keeps_decode. Qed.
Print Assumptions C108_answer.

Definition ex_release : list event :=
  [ EvBoard (BoardExchange (mkBExchange 0 [] [mkPlace 1 4 2 (-1)] [mkResize (mkPlace 0 1 0 (-1)) 3]));
    EvCard 0 (CardMove [mkPair (mkPlace 0 1 2 (-1)) (mkPlace 0 4 1 (-1))]);
    EvCard 0 (CardExchange [mkPair (mkPlace 0 4 1 (-1)) (mkPlace 1 4 2 (-1))]);
    EvPile 0 (PileSplice [mkSplice (mkPlace 0 1 0 (-1)) 2 (mkPlace 1 2 0 (-1)) true]);
    EvLp 1 (LpRecover 8000) ].

Example C108_board_ex : exists b, ofold (pparse tt) ex_release (pboard0 unit) = Ok b /\
  length (f_heap (b_frame b)) = 4%nat /\ b_lp b = (0, 8000).
Proof. eexists. split; [vm_compute; reflexivity|]. split; reflexivity. Qed.

Example C108_undo_ex : exists b,
  do_run (uparse tt) (uundo tt) (map Do ex_release ++ map Undo (rev ex_release) ++ map Do ex_release) (uboard0 unit) = Ok b /\
  length (lb_ops (b_frame b)) = 2%nat.
Proof. eexists. split; [vm_compute; reflexivity|reflexivity]. Qed.

(** What the assertions hold back.  A card added on top of another one: the
    one underneath is still allocated but nowhere on the board. *)
Definition ex_onto : list event :=
  [ EvCard 0 (CardAdd [mkPlace 0 4 1 (-1)]); EvCard 0 (CardAdd [mkPlace 0 4 1 (-1)]) ].
Example C108_onto_ex : ofold (pparse tt) ex_onto (pboard0 unit) = Abort /\
  exists b, ofold (rel_pparse tt) ex_onto (pboard0 unit) = Ok b /\
    map fst (f_heap (b_frame b)) = [1; 0] /\
    get_zone (false, ZMonster, 1%nat) (f_lay (b_frame b)) = Some (mkZone (Some 1) []).
Proof. split; [reflexivity|]. eexists. split; [vm_compute; reflexivity|]. split; reflexivity. Qed.

(** Pushing on the chain of an undoable board is not implemented: with
    assertions the board stops, without them it does nothing. *)
Theorem C108_chain : forall C (c0 : C) c b,
  uparse c0 (EvChainStack (ChainPush c)) b = Abort /\ rel_uparse c0 (EvChainStack (ChainPush c)) b = Ok b.
Proof. intros C c0 c b. split; [reflexivity|]. destruct b. reflexivity. Qed.
Print Assumptions C108_chain.

(** ** C109: answers without assertions *)

(** No answer stops the decoder; the only undefined one is an empty selection
    where cards are selected one by one. *)
Theorem C109_answers : forall rq a out,
  let undefined := a = AnCard (AcIndexes []) /\ exists f c mn mx s d, rq = RqCard (ScRecursive f c mn mx s d) in
  (undefined -> rel_decode_one_answer rq a out = UB) /\
  (~ undefined -> exists bs, rel_decode_one_answer rq a out = Ok bs).
Proof.
  intros rq a out undefined. split.
  - intros [-> (f & c & mn & mx & s & d & ->)]. apply rel_no_card_run.
  - intros U. destruct a as [|n|c|n|l|n|i|n|n|n|h|c|b|l|s];
      try match goal with |- exists bs, rel_decode_one_answer rq ?x out = Ok bs =>
        destruct (fits_run rq x out (fun F : False => F)) as [bs E]; exists bs; apply keeps_decode; exact E end.
    + destruct c as [| | |l]; [eexists; reflexivity|eexists; apply response_run|eexists; apply response_run|].
      assert (D : (exists f c mn mx s d, rq = RqCard (ScRecursive f c mn mx s d)) \/
                  forall f c mn mx s d, rq <> RqCard (ScRecursive f c mn mx s d)).
      { destruct rq as [| |[]| | | | | | | | | | | |]; try (right; congruence). left. do 6 eexists. reflexivity. }
      destruct D as [(f & c & mn & mx & s & d & ->)|D]; [|eexists; apply rel_cards_run; exact D].
      destruct l as [|i l]; [exfalso; apply U; split; [reflexivity|do 6 eexists; reflexivity]|].
      eexists. apply keeps_decode, one_card_run.
    + apply rel_idle_run.
Qed.
Print Assumptions C109_answers.

(** What is sent for a selection of cards does not depend on whether cards had
    been asked for. *)
Theorem C109_selection : forall rq l out, (forall f c mn mx s d, rq <> RqCard (ScRecursive f c mn mx s d)) ->
  lenN l < 2 ^ 31 -> Forall (fun i => i < 2 ^ 16) l ->
  exists bs, rel_decode_one_answer rq (AnCard (AcIndexes l)) out = Ok bs /\ core_cards bs = Some (Chosen l).
Proof.
  intros rq l out R N F. eexists. split; [apply rel_cards_run; exact R|]. apply core_cards_run; assumption.
Qed.
Print Assumptions C109_selection.

Example C109_ex :
  decode_one_answer RqNotSet (AnCard (AcIndexes [4])) [7] = Abort /\
  rel_decode_one_answer RqNotSet (AnCard (AcIndexes [4])) [7] = Ok [1; 0; 0; 0; 1; 0; 0; 0; 4; 0] /\
  rel_decode_one_answer (RqCard (ScUniqueRange false 1 3 [])) (AnCard (AcIndexes [])) [7] = Ok [1; 0; 0; 0; 0; 0; 0; 0] /\
  rel_decode_one_answer (RqCard (ScRecursive true true 1 3 [] [])) (AnCard (AcIndexes [])) [7] = UB.
Proof. repeat split. Qed.
