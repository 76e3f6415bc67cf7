(** C92: undoable values are independent of each other unless one is a copy. *)
From Verif Require Import Base Limbo UNode UNodeSpec UNodeProofs.

(** A program that builds, reads, writes, undoes, moves and destroys undoable
    values, assigns one to another, by value or by moving, and copies none, reads what it would if every value had its own
    history, and is stopped where it would be.  This is what allows Limbo.v to
    use a list split in two for the list and its iterator. *)
Theorem C92_without_copies_partial : forall T (d : T) l,
  Forall (@no_copy T) l -> program (wish d) l (@cells0 T) <> UB ->
  reads (program (deed d) l mem0) = reads (program (wish d) l (@cells0 T)).
Proof.
  intros T d l H N.
  pose proof (@program_agrees T d l mem0 (@cells0 T) H (@minv0 T) (@agree0 T) N) as P.
  destruct (program (wish d) l (@cells0 T)) as [(vs, s)| | |]; [|now rewrite P|congruence|destruct P].
  destruct P as (m & -> & _). reflexivity.
Qed.
Print Assumptions C92_without_copies_partial.

Definition C92_prog : list (uop nat) :=
  [UNew _ 0; USet 0 7; UNew _ 1; USet 1 8; USet 0 9; UUndo _ 0; UMove _ 0 2; UGet _ 2; USet 2 5; UGet _ 2;
   UKill _ 0; UUndo _ 2; UUndo _ 2; UGet _ 2; UGet _ 1;
   UNew _ 3; UAssign _ 3 1; USet 1 6; UGet _ 3; UMoveTo _ 3 1; UGet _ 1; UUndo _ 1; UGet _ 1].
Example C92_without_copies_ex : Forall (@no_copy nat) C92_prog /\
  reads (program (wish 0) C92_prog (@cells0 nat)) = Ok [7; 9; 0; 8; 8; 8; 0] /\
  reads (program (wish 0) (C92_prog ++ [UUndo _ 2]) (@cells0 nat)) = Abort.
Proof. split; [repeat constructor|]. split; reflexivity. Qed.

(** The copy constructor and the copy assignment duplicate the list, but the
    duplicate's iterator stays in the original.  So, as long as neither object is
    moved, replaced or destroyed: the copy shows for ever what the original
    showed when it was copied, writing or undoing the copy is undefined, and once
    the original is destroyed so is reading it. *)
Theorem C92_copies_alias_partial : forall T (d : T) before vs s a b u o after rs m,
  Forall (@no_copy T) before -> program (wish d) before (@cells0 T) = Ok (vs, s) ->
  s a = Live u -> copies a b s o ->
  Forall (fun o => spares a o /\ spares b o) after ->
  let p := before ++ o :: after in
  program (deed d) p mem0 = Ok (rs, m) ->
  reads (program (deed d) (p ++ [UGet _ b]) mem0) = Ok (rs ++ [u_get u]) /\
  (forall v, program (deed d) (p ++ [USet b v]) mem0 = UB) /\
  program (deed d) (p ++ [UUndo _ b]) mem0 = UB /\
  program (deed d) (p ++ [UKill _ a; UGet _ b]) mem0 = UB.
Proof.
  intros T d before vs s a b u o after rs m H Hb Ha Hf Hs p E.
  pose proof (@program_agrees T d before mem0 (@cells0 T) H (@minv0 T) (@agree0 T)) as P.
  rewrite Hb in P. destruct P as (m0 & E0 & A0 & I0); [discriminate|].
  destruct (@copies_alias T d m0 s a b u o I0 A0 Ha Hf) as (m1 & E1 & A1 & I1).
  assert (Al : aliased a b (u_cur u) m /\ minv m).
  { unfold p in E. rewrite program_app, E0 in E. cbn [obind program] in E. rewrite E1 in E. cbn [obind] in E.
    destruct (program (deed d) after m1) as [(v2, m2)| | |] eqn:E2; cbn [obind] in E; try discriminate.
    injection E as _ <-. eapply aliased_run; eauto. }
  destruct Al as (A & I).
  rewrite !program_app, E. cbn [obind program deed].
  rewrite (aliased_get A), (aliased_undo A I). cbn [obind].
  split; [reflexivity|]. split; [|split; [reflexivity|]].
  - intro v. rewrite program_app, E. cbn [obind program deed]. now rewrite (aliased_set v A I).
  - destruct (n_kill a m) as [m'| | |] eqn:K; cbn [obind].
    + now rewrite (aliased_dangles A K).
    + exfalso. revert K. unfold n_kill, object. now destruct (me_objs m a).
    + reflexivity.
    + exfalso. revert K. unfold n_kill, object. now destruct (me_objs m a).
Qed.
Print Assumptions C92_copies_alias_partial.

Example C92_copies_alias_ex : exists vs s u,
  program (wish 0) [UNew _ 0; USet 0 7; UNew _ 1; USet 1 4] (@cells0 nat) = Ok (vs, s) /\ s 0 = Live u /\
  copies 0 1 s (UCopyTo _ 0 1) /\ copies 0 5 s (UCopy _ 0 5) /\
  Forall (fun o => spares 0 o /\ spares 1 o) [USet 0 9; UNew _ 2; UAssign _ 2 0; UCopy _ 0 3; UKill _ 2; UGet _ 0] /\
  reads (program (deed 0) ([UNew _ 0; USet 0 7; UNew _ 1; USet 1 4] ++ UCopyTo _ 0 1 ::
    [USet 0 9; UNew _ 2; UAssign _ 2 0; UCopy _ 0 3; UKill _ 2; UGet _ 0]) mem0) = Ok [9].
Proof.
  eexists _, _, _. split; [reflexivity|]. split; [reflexivity|]. split; [right; split; [reflexivity|]; split; discriminate|].
  split; [left; split; reflexivity|].
  split; [repeat (constructor; [cbn; split; auto|]); constructor|reflexivity].
Qed.

(** So with copies the values are not independent: a program every step of
    which is fine for independent values is undefined. *)
Theorem C92_copies_independent_refuted : exists T (d : T) l,
  reads (program (wish d) l (@cells0 T)) <> UB /\ program (deed d) l mem0 = UB.
Proof. exists nat, 0, [UNew _ 0; UCopy _ 0 1; USet 1 3]. split; [discriminate|reflexivity]. Qed.
Print Assumptions C92_copies_independent_refuted.
