(** The room without assertions: like the room with them, except that a host
    who enters again when all seats are taken becomes a spectator too. *)
From Verif Require Import Base Room RoomSpec RoomProofs RoomInv RoomTotal ReleaseSpec ReleaseRoom ReleaseRoomSpec.

Set Implicit Arguments.
Local Open Scope N_scope.

Lemma rel_act_cases : forall v r a, sane v r ->
  rel_act v a r = act v a r \/
  (a = Enter (rm_host r) /\ configuring r /\ full r 0 /\ full r 1 /\ act v a r = Abort /\
   rel_act v a r = Ok (host_watches r, (rm_host r, description v r) ::
     broadcast (host_watches r) (EvSpectators (u32 (lenN (rm_spectators (host_watches r))))))).
Proof.
  intros v r a S. destruct a as [c|c s]; cbn [rel_act act].
  - unfold rel_enter, enter. destruct (rm_state r) eqn:C; auto. unfold rel_enter_conf, enter_conf.
    destruct (find_empty_sane v r S) as [(E & F0 & F1)|(t & p & E & NT & F)]; rewrite E; cbn [obind]; [|auto].
    destruct (N.eqb_spec (rm_host r) c) as [<-|D]; cbn [negb assert_ obind]; [right|left; reflexivity].
    repeat (split; [assumption || reflexivity|]). rewrite send_all_broadcast. reflexivity.
  - left. unfold rel_visit, visit. destruct (rm_state r) eqn:C; auto. destruct s as [|s|s]; auto.
    destruct s; cbn [rel_signal_conf signal_conf]; auto. unfold rel_start_dueling, start_dueling.
    destruct (negb (c =? rm_host r)); auto. destruct (negb (can_start r)); auto.
    unfold rel_enter_deciding, enter_deciding. cbn [set_state rm_state state_index]. rewrite C. reflexivity.
Qed.

Lemma rel_construct_run : forall v host o, rel_construct v host o = construct v host o.
Proof.
  intros v host o. unfold rel_construct, construct, rel_enter_configuring, enter_configuring.
  cbn [rm_state set_state state_index N.eqb negb assert_ obind]. unfold rel_enter, enter. cbn [rm_state set_state].
  unfold rel_enter_conf, enter_conf.
  destruct (find_empty _) as [[[t p]|]| | |] eqn:E; cbn [obind]; try reflexivity.
  - unfold set_slot. destruct (t =? 0); reflexivity.
  - exfalso. unfold find_empty, max_of in E. destruct (clamped o) as (m0 & m1 & M & B0 & B1).
    cbn -[scan_team clamp_options repeat] in E. rewrite M in E. change (Pos.to_nat 1) with 1%nat in E.
    cbn -[scan_team clamp_options repeat] in E. rewrite !scan_three in E by assumption. cbn in E. discriminate.
Qed.

Lemma rel_sane_watch : forall v r, sane v r -> sane v (host_watches r).
Proof.
  intros v r S. destruct S as [A B C D E F G H I]. split; try assumption.
  unfold host_watches. cbn [set_spectators rm_spectators]. unfold set_insert.
  destruct (existsb (N.eqb (rm_host r)) (rm_spectators r)) eqn:X; [exact G|].
  apply NoDup_rev in G. rewrite <- (rev_involutive (rm_spectators r)).
  replace (rev (rev (rm_spectators r)) ++ [rm_host r]) with (rev (rm_host r :: rev (rm_spectators r))) by reflexivity.
  apply NoDup_rev. constructor; [|exact G]. rewrite <- in_rev. intros K. apply Bool.not_true_iff_false in X. apply X.
  apply existsb_exists. exists (rm_host r). split; [exact K|apply N.eqb_refl].
Qed.

Lemma rel_act_sane : forall v r a r' o, sane v r -> rel_act v a r = Ok (r', o) ->
  sane v r' /\ rm_options r' = rm_options r /\ rm_host r' = rm_host r.
Proof.
  intros v r a r' o S H. destruct (rel_act_cases a S) as [E|(_ & _ & _ & _ & _ & E)]; rewrite E in H.
  - apply act_step in H; [|exact S]. split; [eapply sane_step; eauto|]. eapply step_fixed; eauto.
  - assert (r' = host_watches r) by congruence. subst r'. split; [apply rel_sane_watch; exact S|]. split; reflexivity.
Qed.

Lemma rel_session_sane : forall v host o l r out, rel_session v host o l = Ok (r, out) ->
  sane v r /\ rm_options r = clamp_options o /\ rm_host r = host.
Proof.
  intros v host o l r out H. unfold rel_session in H. rewrite rel_construct_run, construct_run in H. cbn [obind] in H.
  assert (K : forall l r0 out0, sane v r0 -> rel_play v l r0 out0 = Ok (r, out) ->
    sane v r /\ rm_options r = rm_options r0 /\ rm_host r = rm_host r0).
  { clear. induction l as [|a l IH]; intros r0 out0 S H; cbn [rel_play] in H.
    - assert (r = r0) by congruence. subst. auto.
    - destruct (rel_act v a r0) as [[r1 o1]| | |] eqn:E; try discriminate. cbn [obind] in H.
      destruct (rel_act_sane a S E) as (S1 & O1 & H1). destruct (IH _ _ S1 H) as (A & B & D). rewrite B, D. auto. }
  exact (K l _ _ (first_sane v host o) H).
Qed.

Lemma keeps_session : forall v host o l, keeps (session v host o l) (rel_session v host o l).
Proof.
  intros v host o l x. unfold session, rel_session. rewrite rel_construct_run, construct_run. cbn [obind].
  generalize (first_sent v host o). pose proof (first_sane v host o) as S. revert S. generalize (first_room host o).
  induction l as [|a l IH]; intros r S out H; cbn [play rel_play] in *; [exact H|].
  destruct (act v a r) as [[r1 o1]| | |] eqn:E; try discriminate. cbn [obind] in H.
  destruct (rel_act_cases a S) as [R|(_ & _ & _ & _ & A & _)]; [|congruence]. rewrite R, E. cbn [obind].
  apply IH; [|exact H]. apply act_step in E; [|exact S]. eapply sane_step; eauto.
Qed.

Lemma rel_play_total : forall v l r out, sane v r ->
  op_ftdm (rm_options r) <> FTDM_INT_MIN -> op_ftdm (rm_options r) <> FTDM_INT_MAX ->
  (op_ftdm (rm_options r) = FTDM_DICE -> exists k, (k < ev_fuel v)%nat /\ ~ tie (throw (ev_rng v) k)) ->
  exists r' out', rel_play v l r out = Ok (r', out').
Proof.
  intros v. induction l as [|a l IH]; intros r out S M1 M2 Dc; cbn [rel_play]; [eauto|].
  assert (K : exists r' o, rel_act v a r = Ok (r', o)).
  { destruct (rel_act_cases a S) as [R|(_ & _ & _ & _ & _ & R)]; [|eauto].
    destruct (act_total v r a S) as [(r' & o & E)|[(-> & C & F0 & F1 & E)|(_ & _ & _ & [([X|X] & _)|(X & All & _)])]]; try contradiction.
    - rewrite R. eauto.
    - exfalso. cbn [rel_act act] in *. unfold rel_enter, enter in *. rewrite C in *. unfold rel_enter_conf, enter_conf in *.
      destruct (find_empty_sane v r S) as [(Q & _)|(t & p & Q & _)]; rewrite Q in R, E; cbn [obind] in R, E; [|discriminate].
      rewrite E in R. discriminate.
    - destruct (Dc X) as (k & L & T). destruct (T (All k L)). }
  destruct K as (r' & o & E). rewrite E. cbn [obind]. destruct (rel_act_sane a S E) as (S1 & O1 & _).
  apply IH; rewrite ?O1; auto.
Qed.
