(** The loose room behaves like that of Room.v. *)
From Coq Require Import Permutation.
From Verif Require Import Base Room RoomSpec RoomProofs RoomInv RoomAlikeSpec RoomAlike RoomLoose RoomLooseSpec.

Set Implicit Arguments.
Local Open Scope N_scope.

Section Loose.
Variable spot : N -> list N -> list N.
Hypothesis K : keeps_set spot.
Variable nm : user -> user.

(** Two environments whose users look the same through [nm]. *)
Definition near (v v' : env) : Prop :=
  (forall c, nm (ev_user v' c) = nm (ev_user v c)) /\ ev_check v' = ev_check v /\ ev_rng v' = ev_rng v /\ ev_fuel v' = ev_fuel v.

Definition said (o o' : sent) : Prop := forall c, map (dub nm) (heard c o) = map (dub nm) (heard c o').
Definition close (x y : room * sent) : Prop := same_room (fst x) (fst y) /\ said (snd x) (snd y).

Lemma said_app : forall a a' b b', said a a' -> said b b' -> said (a ++ b) (a' ++ b').
Proof. intros a a' b b' A B c. rewrite !heard_app, !map_app, (A c), (B c). reflexivity. Qed.
Lemma said_refl : forall a, said a a.
Proof. now intros a c. Qed.
Lemma said_one : forall c e e' o o', dub nm e = dub nm e' -> said o o' -> said ((c, e) :: o) ((c, e') :: o').
Proof. intros c e e' o o' E H d. specialize (H d). unfold heard in *. cbn. destruct (c =? d); cbn; congruence. Qed.

Lemma said_each : forall l l' e e', dub nm e = dub nm e' -> Permutation l l' ->
  said (map (fun c => (c, e)) l) (map (fun c => (c, e')) l').
Proof.
  intros l l' e e' E P c.
  assert (Q : forall l e, map (dub nm) (heard c (map (fun c => (c, e)) l)) =
    map (fun _ => dub nm e) (filter (fun d => d =? c) l)).
  { intros k f. unfold heard. induction k as [|d k IH]; cbn; [reflexivity|]. destruct (d =? c); cbn; now rewrite IH. }
  rewrite !Q, E. clear Q E.
  assert (F : forall (a : event) (x y : list N), length x = length y -> map (fun _ => a) x = map (fun _ => a) y).
  { intros a x. induction x as [|i x IH]; intros [|j y] L; cbn in *; try discriminate; [reflexivity|].
    f_equal. apply IH. congruence. }
  apply F, Permutation_length. clear F.
  induction P; cbn; auto.
  - destruct (x =? c); auto.
  - destruct (x =? c), (y =? c); auto. apply perm_swap.
  - now transitivity (filter (fun d => d =? c) l').
Qed.
Lemma said_team : forall l e e', dub nm e = dub nm e' -> said (send_team l e) (send_team l e').
Proof. intros l e e' E. induction l as [|s l IH]; cbn; [apply said_refl|]. destruct (sl_client s); auto. now apply said_one. Qed.
Lemma said_all : forall r r' e e', same_room r r' -> dub nm e = dub nm e' -> said (send_all r e) (send_all r' e').
Proof.
  intros r r' e e' [P E] F. unfold send_all, send_spectators. rewrite E. cbn.
  repeat apply said_app; auto using said_team, said_each.
Qed.

Lemma sr_fields : forall r r', same_room r r' ->
  rm_drawn r' = rm_drawn r /\ rm_options r' = rm_options r /\ rm_host r' = rm_host r /\
  rm_team0 r' = rm_team0 r /\ rm_team1 r' = rm_team1 r /\ rm_state r' = rm_state r.
Proof. intros r r' [_ E]. rewrite E. cbn. repeat split. Qed.
Lemma sr_state : forall r r' s, same_room r r' -> same_room (set_state s r) (set_state s r').
Proof. intros r r' s [P E]. split; [exact P|]. rewrite E. reflexivity. Qed.
Lemma sr_drawn : forall r r' n, same_room r r' -> same_room (set_drawn n r) (set_drawn n r').
Proof. intros r r' s [P E]. split; [exact P|]. rewrite E. reflexivity. Qed.
Lemma sr_slot : forall r r' t p f, same_room r r' -> same_room (set_slot t p f r) (set_slot t p f r').
Proof.
  intros r r' t p f [P E]. rewrite E. unfold set_slot. cbn. destruct (t =? 0); (split; [exact P|reflexivity]).
Qed.
Lemma sr_insert : forall r r' c, same_room r r' ->
  same_room (set_spectators (set_insert c (rm_spectators r)) r) (set_spectators (l_insert spot c (rm_spectators r')) r').
Proof.
  intros r r' c [P E]. split; [|rewrite E; reflexivity]. cbn. unfold set_insert, l_insert.
  assert (Q : existsb (N.eqb c) (rm_spectators r') = existsb (N.eqb c) (rm_spectators r)).
  { apply eq_iff_eq_true. rewrite !existsb_exists. split; intros (x & X & Y); exists x; split; auto;
      [apply (Permutation_in _ (Permutation_sym P))|apply (Permutation_in _ P)]; exact X. }
  rewrite Q. destruct (existsb _ (rm_spectators r)) eqn:X; [exact P|].
  apply perm_trans with (c :: rm_spectators r'); [rewrite Permutation_app_comm; cbn; now constructor|].
  apply Permutation_sym, K. intro I. assert (existsb (N.eqb c) (rm_spectators r') = true); [|congruence].
  apply existsb_exists. exists c. split; [exact I|apply N.eqb_refl].
Qed.
Lemma sr_len : forall r r', same_room r r' -> lenN (rm_spectators r') = lenN (rm_spectators r).
Proof. intros r r' [P _]. unfold lenN. now rewrite (Permutation_length P). Qed.

Lemma sr_find_empty : forall r r', same_room r r' -> find_empty r' = find_empty r.
Proof.
  intros r r' H. apply sr_fields in H as (D & O & H & T0 & T1 & T). unfold find_empty, max_of. now rewrite O, T0, T1.
Qed.
Lemma sr_find_peer : forall c r r', same_room r r' -> find_peer c r' = find_peer c r.
Proof.
  intros c r r' H. apply sr_fields in H as (D & O & H & T0 & T1 & T). unfold find_peer, max_of. now rewrite O, T0, T1.
Qed.
Lemma sr_leader : forall r r' t, same_room r r' -> get_team_leader r' t = get_team_leader r t.
Proof. intros r r' t H. apply sr_fields in H as (D & O & H & T0 & T1 & T). unfold get_team_leader. now rewrite T0, T1. Qed.

Lemma near_duelists : forall v v' host t l pos, near v v' ->
  map (dub_duelist nm) (team_duelists v host t pos l) = map (dub_duelist nm) (team_duelists v' host t pos l).
Proof.
  intros v v' host t l pos [U _]. revert pos. induction l as [|s l IH]; intros pos; cbn; [reflexivity|].
  destruct (sl_client s) as [c|]; [|apply IH]. cbn. rewrite IH. unfold dub_duelist. cbn. now rewrite U.
Qed.

Lemma close_ok : forall r r' o o', same_room r r' -> said o o' -> end_alike close (Ok (r, o)) (Ok (r', o')).
Proof. now split. Qed.

Lemma enter_l : forall v v' c r r', near v v' -> same_room r r' ->
  end_alike close (enter v c r) (l_enter spot v' c r').
Proof.
  intros v v' c r r' V H. pose proof (sr_fields H) as (D & O & Ho & T0 & T1 & T).
  unfold enter, l_enter. rewrite T. destruct (rm_state r); [exact I| |now apply close_ok].
  unfold enter_conf, l_enter_conf. rewrite (sr_find_empty H), O, Ho, (sr_len H).
  assert (Q : forall n, dub nm (EvConf (CeEntering (Some (rm_options r)) (all_duelists v r) n)) =
    dub nm (EvConf (CeEntering (Some (rm_options r)) (all_duelists v' r') n))).
  { intros n. cbn. unfold all_duelists. rewrite T0, T1, Ho, !map_app.
    rewrite <- !(near_duelists _ _ _ _ V). reflexivity. }
  destruct (find_empty r) as [[[t p]|]| | |]; cbn [obind]; try exact I.
  - apply close_ok; [now apply sr_slot|]. apply said_one; [apply Q|]. apply said_all; [now apply sr_slot|].
    destruct V as [U _]. cbn. unfold dub_duelist. cbn. now rewrite U.
  - destruct (negb _); cbn [assert_ obind]; [|exact I]. apply close_ok; [now apply sr_insert|].
    apply said_one; [apply Q|]. rewrite (sr_len (sr_insert c H)). apply said_all; [now apply sr_insert|reflexivity].
Qed.

Lemma deciding_l : forall v v' r r', near v v' -> same_room r r' ->
  end_alike close (on_enter_deciding v r) (on_enter_deciding v' r').
Proof.
  intros v v' r r' (_ & _ & G & F) H. pose proof (sr_fields H) as (D & O & Ho & T0 & T1 & T).
  unfold on_enter_deciding. rewrite D, O, Ho, G, F.
  assert (A : said (send_all r (EvFirst FeEntering)) (send_all r' (EvFirst FeEntering))) by now apply said_all.
  destruct (_ =? FTDM_HOST_CHOOSES)%Z.
  { apply close_ok; [now apply sr_state|]. apply said_app; [exact A|apply said_refl]. }
  destruct (_ =? FTDM_RPS)%Z; [now apply close_ok|].
  destruct (_ =? FTDM_DICE)%Z.
  { destruct (roll_dice _ _ _) as [[[l x] n]| | |]; cbn [obind]; try exact I.
    rewrite (sr_leader _ (sr_drawn n H)). destruct (get_team_leader _ _) as [c| | |]; cbn [obind send_choose]; try exact I.
    apply close_ok; [now apply sr_state, sr_drawn|]. apply said_app; [|apply said_refl].
    apply said_app; [exact A|]. apply said_all; [now apply sr_drawn|reflexivity]. }
  destruct (_ =? FTDM_COIN)%Z.
  { rewrite (sr_leader _ (sr_drawn (S (rm_drawn r)) H)).
    destruct (get_team_leader _ _) as [c| | |]; cbn [obind send_choose]; try exact I.
    apply close_ok; [now apply sr_state, sr_drawn|]. apply said_app; [|apply said_refl].
    apply said_app; [exact A|]. apply said_all; [now apply sr_drawn|reflexivity]. }
  destruct (_ || _); [exact I|]. now apply close_ok.
Qed.

Lemma visit_l : forall v v' c s r r', near v v' -> same_room r r' ->
  end_alike close (visit v c s r) (visit v' c s r').
Proof.
  intros v v' c s r r' V H. pose proof (sr_fields H) as (D & O & Ho & T0 & T1 & T).
  unfold visit. rewrite T. pose proof said_refl as R.
  destruct (rm_state r) eqn:TS, s as [|[|d|b|b]|[|t]]; cbn [signal_conf signal_first]; try (now apply close_ok).
  - unfold update_deck. rewrite (sr_find_peer c H), O. destruct V as (_ & -> & _).
    destruct (find_peer c r) as [[[t p]|]| | |]; cbn [obind]; try exact I; [|now apply close_ok].
    destruct (ev_check _ _ _) as [[] err]; (apply close_ok; [now apply sr_slot|apply R]).
  - unfold ready_status. rewrite (sr_find_peer c H), Ho.
    destruct (find_peer c r) as [[[t p]|]| | |]; cbn [obind]; try exact I; [|now apply close_ok].
    unfold slot_at. rewrite T0, T1. destruct (nth_error _ _) as [x|]; cbn [or_ub obind]; [|exact I].
    destruct (Bool.eqb b (sl_ready x)); [now apply close_ok|]. destruct (b && negb (sl_valid x)); [now apply close_ok|].
    apply close_ok; [now apply sr_slot|]. apply said_all; [now apply sr_slot|].
    destruct V as [U _]. cbn. unfold dub_duelist. cbn. now rewrite U.
  - unfold start_dueling, can_start. rewrite Ho, T0, T1.
    destruct (negb (c =? rm_host r)); [now apply close_ok|].
    destruct (negb _); [now apply close_ok|].
    unfold enter_deciding. rewrite T, TS. cbn [set_state rm_state].
    destruct (negb _); cbn [assert_ obind]; [|exact I]. apply deciding_l; [exact V|]. now apply sr_state.
  - rewrite O, Ho. destruct (_ || _); [now apply close_ok|]. destruct (1 <? t); [now apply close_ok|].
    apply close_ok; [exact H|]. now apply said_all.
Qed.

Variable v : env.
Variable users : nat -> N -> user.
Hypothesis U : forall k c, nm (users k c) = nm (ev_user v c).
Lemma near_at : forall k, near v (at_call users v k).
Proof. intros k. unfold near, at_call. cbn. repeat split; auto. Qed.

Lemma play_l : forall l k r r' out out', same_room r r' -> said out out' ->
  end_alike close (play v l r out) (l_play spot users v k l r' out').
Proof.
  induction l as [|a l IH]; intros k r r' out out' H O; cbn [play l_play]; [now apply close_ok|].
  assert (X : end_alike close (act v a r) (l_act spot (at_call users v k) a r')).
  { destruct a; cbn; [apply enter_l|apply visit_l]; auto using near_at. }
  destruct (act v a r) as [[s os]| | |], (l_act _ _ _ _) as [[s' os']| | |]; cbn in X |- *; try contradiction; auto.
  destruct X as [X Y]. apply IH; auto. now apply said_app.
Qed.

Lemma session_l : forall host o l, end_alike close (session v host o l) (l_session spot users v host o l).
Proof.
  intros host o l. unfold session, l_session.
  assert (X : end_alike close (construct v host o) (l_construct spot (at_call users v 0) host o)).
  { unfold construct, l_construct. destruct (enter_configuring _) as [[r out]| | |]; cbn [obind]; try exact I.
    assert (R : same_room r r) by (split; [reflexivity|now destruct r]).
    pose proof (enter_l host (near_at 0) R) as X.
    destruct (enter v host r) as [[s os]| | |], (l_enter _ _ _ _) as [[s' os']| | |]; cbn in X |- *; try contradiction; auto.
    destruct X as [X Y]. cbn [fst snd] in X, Y. pose proof (sr_fields X) as (_ & _ & _ & _ & _ & T). rewrite T.
    destruct (negb _); cbn; [|exact I]. split; [exact X|]. cbn. apply said_app; [apply said_refl|exact Y]. }
  destruct (construct v host o) as [[s os]| | |], (l_construct _ _ _ _) as [[s' os']| | |]; cbn in X |- *; try contradiction; auto.
  destruct X as [X Y]. now apply play_l.
Qed.
End Loose.
