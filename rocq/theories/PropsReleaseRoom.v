(** C108 and C110: the room built without assertions. *)
From Verif Require Import Base Room RoomSpec RoomProofs RoomInv RoomTotal PropsRoom
  ReleaseSpec ReleaseRoom ReleaseRoomSpec ReleaseRoomProofs.

Local Open Scope N_scope.

(** A history that goes through with assertions goes the same way without. *)
Theorem C108_room : forall v host o l r out, session v host o l = Ok (r, out) -> rel_session v host o l = Ok (r, out).
Proof. intros v host o l r out. apply keeps_session. Qed.
Print Assumptions C108_room.

Example C108_room_ex : exists r out, session ex_env 1 (ex_options [] 0) ex_history = Ok (r, out) /\ length out = 27%nat.
Proof. do 2 eexists. split; [vm_compute; reflexivity|reflexivity]. Qed.

(** ** C110: nothing stops the room without assertions *)

(** Compare C71: here the host may enter again. *)
Theorem C110_total : forall v host o l,
  op_ftdm o <> (-2147483648)%Z -> op_ftdm o <> 2147483647%Z ->
  (op_ftdm o = 2%Z -> exists k, (k < ev_fuel v)%nat /\ ~ tie (throw (ev_rng v) k)) ->
  exists r out, rel_session v host o l = Ok (r, out).
Proof.
  intros v host o l M1 M2 D. unfold rel_session. rewrite rel_construct_run, construct_run. cbn [obind].
  apply rel_play_total; auto. apply first_sane.
Qed.
Print Assumptions C110_total.

(** The host who enters again when every seat is taken becomes a spectator and
    keeps the seat: what everybody is told, the host is told once per seat and
    once as a spectator. *)
Theorem C110_host : forall v host o l r out, rel_session v host o l = Ok (r, out) ->
  configuring r -> full r 0 -> full r 1 ->
  exists r' es, rel_act v (Enter host) r =
    Ok (r', (host, es) :: map (fun c => (c, EvSpectators (u32 (lenN (rm_spectators r'))))) (occupants r')) /\
    rm_team0 r' = rm_team0 r /\ rm_team1 r' = rm_team1 r /\ rm_host r' = host /\ sits r' 0 0 host /\ watches r' host /\
    (forall c, watches r' c <-> c = host \/ watches r c) /\ NoDup (rm_spectators r').
Proof.
  intros v host o l r out H C F0 F1. destruct (rel_session_sane _ _ _ _ H) as (S & _ & Hh).
  destruct (rel_act_cases (Enter host) S) as [E|(_ & _ & _ & _ & _ & E)].
  - exfalso. cbn [rel_act act] in E. destruct (enter_run v r host S C) as [(_ & _ & _ & K)|[(_ & _ & K & _)|(t & p & NT & _)]].
    + rewrite K in E. unfold rel_enter in E. rewrite C in E. unfold rel_enter_conf in E.
      destruct (find_empty_sane v r S) as [(Q & _)|(t & p & Q & _)]; rewrite Q in E; discriminate.
    + congruence.
    + destruct NT as (T & N & _). assert (O : t = 0 \/ t = 1) by lia. destruct O as [-> | ->]; auto.
  - rewrite E, Hh. exists (host_watches r), (description v r). split; [reflexivity|].
    pose proof (rel_sane_watch S) as S'. do 2 (split; [reflexivity|]). split; [exact Hh|].
    assert (W : forall c, watches (host_watches r) c <-> c = host \/ watches r c).
    { intros c. unfold watches, host_watches. cbn [set_spectators rm_spectators]. rewrite Hh. unfold set_insert.
      destruct (existsb (N.eqb host) (rm_spectators r)) eqn:X.
      - apply existsb_exists in X. destruct X as (y & I & Q). apply N.eqb_eq in Q. subst y. split; [auto|intros [->|]; auto].
      - rewrite in_app_iff. cbn [In]. intuition congruence. }
    split; [rewrite <- Hh; apply (sn_host v _ S')|]. split; [apply W; auto|]. split; [exact W|]. apply (sn_watch v _ S').
Qed.
Print Assumptions C110_host.

(** What C60 and C61 say of the room still holds. *)
Theorem C110_kept : forall v host o l r out, rel_session v host o l = Ok (r, out) ->
  rm_options r = clamp_options o /\ rm_host r = host /\ sits r 0 0 host /\ NoDup (rm_spectators r) /\
  (forall t, t < 2 -> 1 <= limit r t <= 3) /\
  (forall t p c, sits r t p c -> t < 2 /\ p < limit r t).
Proof.
  intros v host o l r out H. destruct (rel_session_sane _ _ _ _ H) as (S & O & Hh).
  split; [exact O|]. split; [exact Hh|]. split; [rewrite <- Hh; apply (sn_host v r S)|]. split; [apply (sn_watch v r S)|].
  destruct (sane_limit v r S) as (m0 & m1 & A & B & _ & _ & C & D).
  split.
  - intros t T. assert (Q : t = 0 \/ t = 1) by lia. destruct Q as [-> | ->]; lia.
  - intros t p c Q. split.
    + destruct Q as (s & Q & _). unfold place in Q. destruct (seats_cases r t) as [[-> _]|[[-> _]|[_ K]]]; try lia.
      rewrite K in Q. destruct (N.to_nat p); discriminate.
    + eapply sits_limit; eauto.
Qed.
Print Assumptions C110_kept.

(** The host hears about a duelist getting ready twice. *)
Definition ex_again : list action :=
  [Enter 2; Enter 1; Signal 2 (SgConf (CsUpdateDeck ex_deck)); Signal 2 (SgConf (CsReady true))].
Example C110_ex : session ex_env 1 (ex_options [] 0) ex_again = Abort /\
  exists r out, rel_session ex_env 1 (ex_options [] 0) ex_again = Ok (r, out) /\
    rm_spectators r = [1] /\ sits r 0 0 1 /\ configuring r /\
    length (filter (fun e => match e with EvConf (CeUpdateDuelist _) => true | _ => false end) (heard 1 out)) = 2%nat /\
    length (filter (fun e => match e with EvConf (CeUpdateDuelist _) => true | _ => false end) (heard 2 out)) = 1%nat.
Proof.
  split; [reflexivity|]. do 2 eexists. split; [vm_compute; reflexivity|]. split; [reflexivity|].
  split; [eexists; split; reflexivity|]. repeat split.
Qed.
