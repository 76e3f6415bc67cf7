(** C89: clients following the server. *)
From Verif Require Import Base BaseProofs Place Frame FrameSpec Limbo LimboSpec Msg Event EventSpec Query QuerySpec
  UQuery UQuerySpec UReplaySpec UReplay BoardAgree UReplayAgree PropsUQuery PropsAgree.
From Verif Require Import Encode CoreMsg EncodeSpec DuelReplaySpec ClientSpec ClientProofs.

Local Open Scope N_scope.

Definition new_ctx (s : ctx) : Prop := s = ctx_value_init \/ s = ctx_default_init.
Lemma new_sim : forall s, new_ctx s -> UReplayAgree.bsim (uboard0 ucard) (cx_board s).
Proof. intros s [->| ->]; exact (bsim0 ucard card UReplayAgree.shows). Qed.

(** A client is sent everything the server made of a stream of core messages.
    It follows, stops at the first chain link, or runs into undefined behaviour
    at the first change of tag partners of the bad kind, whichever comes first. *)
Theorem C89_fate_partial : forall s ms rs, new_ctx s -> Forall core_ok ms -> recording ms s = Ok rs ->
  (exists f, client_fate s ms f) /\
  forall f use, client_fate s ms f -> ends_as f (play_all use (concat rs) (uboard0 ucard)).
Proof.
  intros s ms rs N K R. split; [exact (fate_total ms s rs R)|].
  intros f use F. exact (client_runs use ms s rs _ f K R (new_sim s N) F).
Qed.
Print Assumptions C89_fate_partial.

(** As long as it follows, it shows the server's board and cards after the same
    messages, also when stepping back and forth. *)
Theorem C89_view : forall s ms rs use bn, new_ctx s -> Forall core_ok ms -> recording ms s = Ok rs ->
  play_all use (concat rs) (uboard0 ucard) = Ok bn ->
  forall walk i hs b k, rwalk use (concat rs) walk (0%nat, [], uboard0 ucard) = Ok (i, hs, b) ->
    i = length (concat (firstn k rs)) ->
    exists c, feed_all s (firstn k ms) = Ok c /\ scene_of b = plain_scene (cx_board c) /\
      forall pos id, occupant (ctx_layout c) pos = Some (Some id) ->
        exists v, content b id = Some v /\ plain_card (cx_board c) id = Some (shown v).
Proof.
  intros s ms rs use bn N K R Hn walk i hs b k W ->.
  destruct (C79_scrubbing_viewer use _ _ Hn walk _ hs b W) as (bp & _ & Pp & Sc & Ca).
  destruct (proj2 (server_runs ms s rs R) k) as (c & Fc & Pc). exists c. split; [exact Fc|].
  assert (F : firstn (length (concat (firstn k rs))) (concat rs) = concat (firstn k rs)).
  { rewrite <- (firstn_skipn k rs) at 2. rewrite concat_app, firstn_app, firstn_all, Nat.sub_diag. cbn [firstn].
    apply app_nil_r. }
  assert (B : cx_board s = pboard0 card) by (destruct N as [->| ->]; reflexivity).
  specialize (Pc use). rewrite B in Pc. rewrite F, Pc in Pp. injection Pp as <-.
  split; [now symmetry|]. intros pos id O. apply (Ca pos id). rewrite <- Sc. exact O.
Qed.
Print Assumptions C89_view.

(** A client that follows can step anywhere if the messages can be taken back. *)
Theorem C89_scrub_partial : forall s ms rs use, new_ctx s -> Forall core_ok ms -> recording ms s = Ok rs ->
  client_fate s ms Follows -> reversible_along s ms ->
  forall walk, exists i hs b, rwalk use (concat rs) walk (0%nat, [], uboard0 ucard) = Ok (i, hs, b).
Proof.
  intros s ms rs use N K R F Rv walk.
  destruct (client_runs use ms s rs _ _ K R (new_sim s N) F) as [bn Hn].
  exact (C78_no_step_fails use _ _ Hn (reversible_runs use ms s rs _ K R (new_sim s N) F Rv) walk).
Qed.
Print Assumptions C89_scrub_partial.

(** The others cannot be taken back by a client that has just been sent them:
    each is a single event, whose undoing fails. *)
Theorem C89_stuck_partial : forall s ms m rs st use c b b', new_ctx s -> Forall core_ok (ms ++ [m]) ->
  recording ms s = Ok rs -> feed_all s ms = Ok c -> recording [m] c = Ok [st] ->
  play_all use (concat rs) (uboard0 ucard) = Ok b -> play_all use st b = Ok b' -> ~ reversible c m ->
  exists e, st = [REvent e] /\ forall b'', uundo ucard0 e b' <> Ok b''.
Proof.
  intros s ms m rs st use c b b' N K R F Rm H H' Nr. apply Forall_app in K as [K Km].
  apply Forall_cons_iff in Km as [Km _].
  destruct (proj2 (server_runs ms s rs R) (length ms)) as (c' & Fc & Pc). rewrite firstn_all in Fc.
  rewrite F in Fc. injection Fc as <-. rewrite <- (proj1 (server_runs ms s rs R)), firstn_all in Pc.
  destruct (play_all_sim use _ _ _ _ (new_sim s N) H) as [p [Pp B]]. rewrite (Pc use) in Pp. injection Pp as <-.
  destruct (recording_cons _ _ _ _ Rm) as (r & c1 & c2 & rs' & E & Fo & _ & R' & X). injection X as -> _.
  exact (stuck use c m r c1 c2 b b' Km E Fo B H' Nr).
Qed.
Print Assumptions C89_stuck_partial.

(** ** What is wrong *)
Ltac okc := repeat match goal with
  | |- _ /\ _ => split
  | |- Forall _ _ => constructor
  | |- cloc_ok _ => constructor
  | |- _ => progress cbn
  end; try reflexivity; try discriminate; try tauto; try lia.

(** Tag partners with decks of five and four cards: the server goes on, the
    client's behaviour is undefined. *)
Definition tag_to (n : N) : core_msg := CmTagSwap 0 n 0 0 0 0 [].
Definition tag_duel (n : N) : list core_msg := [CmStart 0 8000 8000 5 0 5 0; tag_to n].
Theorem C89_tag_refuted : exists ms rs, Forall core_ok ms /\ recording ms ctx_value_init = Ok rs /\
  forall use, play_all use (concat rs) (uboard0 ucard) = UB.
Proof.
  exists (tag_duel 4). eexists. split; [okc|]. split; [vm_compute; reflexivity|].
  intros []; vm_compute; reflexivity.
Qed.
Print Assumptions C89_tag_refuted.

(** The three fates, and a change to two cards that can be followed but not
    taken back. *)
Example C89_ex_fates : Forall core_ok (tag_duel 4) /\
  client_fate ctx_value_init (tag_duel 4) Breaks /\ client_fate ctx_value_init (tag_duel 6) Follows /\
  client_fate ctx_value_init (tag_duel 2) Follows /\
  client_fate ctx_value_init [CmStart 0 8000 8000 5 0 5 0; CmChainSolved 1; tag_to 4] Stops.
Proof.
  split; [okc|].
  assert (T : forall n, ~ bad_tag (match feed ctx_value_init (ser (CmStart 0 8000 8000 5 0 5 0)) with Ok c => c | _ => ctx_value_init end) (tag_to n) ->
    (exists c', feed (match feed ctx_value_init (ser (CmStart 0 8000 8000 5 0 5 0)) with Ok c => c | _ => ctx_value_init end) (ser (tag_to n)) = Ok c') ->
    client_fate ctx_value_init (tag_duel n) Follows).
  { intros n B [c' E]. eapply fate_next; [intros []|intros X; inversion X|vm_compute; reflexivity|].
    eapply fate_next; [intros []|exact B|exact E|constructor]. }
  split; [|split; [|split]].
  - eapply fate_next; [intros []|intros X; inversion X|vm_compute; reflexivity|].
    apply fate_tag. left. vm_compute. split; repeat constructor.
  - apply T; [|eexists; vm_compute; reflexivity]. intros X. vm_compute in X.
    repeat match goal with H : Exists _ _ |- _ => inversion H; clear H; subst end; cbn in *; lia.
  - apply T; [|eexists; vm_compute; reflexivity]. intros X. vm_compute in X.
    repeat match goal with H : Exists _ _ |- _ => inversion H; clear H; subst end; cbn in *; lia.
  - eapply fate_next; [intros []|intros X; inversion X|vm_compute; reflexivity|]. apply fate_chain. exact Logic.I.
Qed.
Example C89_ex_stuck : exists rs st c b b', recording (firstn 1 (tag_duel 2)) ctx_value_init = Ok rs /\
  feed_all ctx_value_init (firstn 1 (tag_duel 2)) = Ok c /\ recording [tag_to 2] c = Ok [st] /\
  play_all true (concat rs) (uboard0 ucard) = Ok b /\ play_all true st b = Ok b' /\ ~ reversible c (tag_to 2) /\
  reversible c (tag_to 6) /\ length (concat (rs ++ [st])) = 2%nat /\
  contents (CPile (false, LDeck)) (sn_layout (scene_of b')) = [Some 0; Some 1].
Proof.
  do 5 eexists. split; [vm_compute; reflexivity|]. split; [vm_compute; reflexivity|]. split; [vm_compute; reflexivity|].
  split; [vm_compute; reflexivity|]. split; [vm_compute; reflexivity|].
  split; [|split; [|split; vm_compute; reflexivity]].
  - intros [_ F]. vm_compute in F. inversion F; subst. lia.
  - split; [exact Logic.I|]. vm_compute. repeat constructor; cbn; lia.
Qed.
