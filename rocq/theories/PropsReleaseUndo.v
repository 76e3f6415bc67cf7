(** C108 for everything a viewer does with an undoable board. *)
From Verif Require Import Base Place Msg Frame Limbo Event Query UQuery FlipSpec
  Release ReleaseSpec ReleaseProofs ReleaseUndo.

Local Open Scope N_scope.

(** The calls of FlipSpec.v, without assertions. *)
Definition rel_ucall_run (x : ucall) (b : uboard ucard) : outcome (uboard ucard) :=
  match x with
  | UParse e => rel_uparse ucard0 e b
  | UUndo e => rel_uundo ucard0 e b
  | UQuery u q => let! (_, w) := rel_uparse_query u q (b_frame b) in Ok (set_frame w b)
  | UErase => on_frame (@rel_l_erase_history ucard) b
  end.

Lemma keeps_erase : forall C (w : limbo C), keeps (l_erase_history w) (rel_l_erase_history w).
Proof.
  intros C w. unfold l_erase_history, rel_l_erase_history. destruct (Nat.eqb _ _); [apply keeps_refl|].
  apply keeps_assert. intros L. apply Nat.leb_le in L. apply keeps_assert. intros _.
  replace (lb_op w - length (lb_ops w))%nat with O by lia. cbn [repeat]. rewrite app_nil_r. apply keeps_refl.
Qed.
Lemma keeps_uparse_query : forall u q w, keeps (uparse_query u q w) (rel_uparse_query u q w).
Proof.
  intros u q w. unfold uparse_query, rel_uparse_query. apply keeps_drop. intros h _. apply keeps_assert. intros _.
  apply keeps_bind; [apply keeps_card_at_place|]. intros id _. apply keeps_refl.
Qed.

(** Events, undone events, queries and forgotten histories that go through with
    assertions leave the same board without. *)
Theorem C108_viewer : forall l b b', ofold ucall_run l b = Ok b' -> ofold rel_ucall_run l b = Ok b'.
Proof.
  intros l b. apply keeps_ofold. intros [e|e|u q|] x; cbn [ucall_run rel_ucall_run].
  - apply keeps_uparse.
  - apply keeps_uundo.
  - apply keeps_bind; [apply keeps_uparse_query|]. intros [h w] _. apply keeps_refl.
  - unfold on_frame. apply keeps_bind; [apply keeps_erase|]. intros w _. apply keeps_refl.
Qed.
Print Assumptions C108_viewer.

Example C108_viewer_ex :
  let add := EvCard 0 (CardAdd [mkPlace 0 4 1 (-1)]) in
  let clear := EvCard 0 (CardRemove [mkPlace 0 4 1 (-1)]) in
  exists b, ofold ucall_run [UParse add; UParse clear; UUndo clear; UErase; UParse clear; UUndo clear] (uboard0 ucard) = Ok b /\
    lb_op (b_frame b) = 1%nat /\ length (lb_ops (b_frame b)) = 2%nat.
Proof. eexists. split; [vm_compute; reflexivity|]. split; reflexivity. Qed.
