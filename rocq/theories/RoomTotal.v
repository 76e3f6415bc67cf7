(** When the room stops, and who is asked. *)
From Verif Require Import Base BaseProofs Room RoomSpec RoomProofs RoomInv.

Local Open Scope N_scope.

Lemma act_total : forall v r a, sane v r ->
  (exists r' o, act v a r = Ok (r', o)) \/
  (a = Enter (rm_host r) /\ configuring r /\ full r 0 /\ full r 1 /\ act v a r = Abort) \/
  (configuring r /\ all_ready r /\ (exists b, a = Signal (rm_host r) (SgConf (CsStart b))) /\
    (((op_ftdm (rm_options r) = FTDM_INT_MIN \/ op_ftdm (rm_options r) = FTDM_INT_MAX) /\ act v a r = UB) \/
     (op_ftdm (rm_options r) = FTDM_DICE /\ (forall k, (k < ev_fuel v)%nat -> tie (throw (ev_rng v) k)) /\ act v a r = Diverge))).
Proof.
  intros v r a S. destruct a as [c|c s]; cbn [act].
  - destruct (sn_state v r S) as [[C _]|[d D]].
    + destruct (enter_run v r c S C) as [(F0 & F1 & -> & E)|[(_ & _ & _ & E)|(t & p & _ & _ & E)]]; cbn zeta in E; rewrite E; eauto 8.
    + left. unfold enter. rewrite D. eauto.
  - unfold visit. destruct (rm_state r) as [| |d] eqn:ST; [left; eauto| |].
    + destruct s as [|s|s]; [left; eauto| |left; eauto]. destruct s as [|d|b|b]; cbn [signal_conf].
      * left; eauto.
      * left. unfold update_deck. destruct (find_peer_sane v r c S) as [[E _]|(t & p & E & T & Q)]; rewrite E; cbn [obind]; eauto.
        destruct (ev_check _ _ _) as [[] err]; eauto.
      * left. unfold ready_status. destruct (find_peer_sane v r c S) as [[E _]|(t & p & E & T & (s & A & B))]; rewrite E; cbn [obind]; eauto.
        rewrite slot_at_place, A by exact T. cbn [or_ub obind]. destruct (Bool.eqb _ _); eauto. destruct (b && _); eauto.
      * unfold start_dueling. destruct (N.eqb_spec c (rm_host r)) as [->|D]; cbn [negb]; [|left; eauto].
        destruct (can_start r) eqn:X; cbn [negb]; [|left; eauto]. apply can_start_spec in X.
        destruct (deciding_run v r ST (sane_drawn v r S ST) X) as (A1 & A2 & A3 & A4 & A5).
        destruct (Z.eq_dec (op_ftdm (rm_options r)) FTDM_HOST_CHOOSES) as [E|N1]; [left; rewrite (A1 E); eauto|].
        destruct (Z.eq_dec (op_ftdm (rm_options r)) FTDM_DICE) as [E|N2].
        { destruct (A2 E) as [(k & w & c & n & _ & _ & _ & _ & _ & Q)|(Q & All)]; rewrite Q; [left; eauto|]. right; right. eauto 10. }
        destruct (Z.eq_dec (op_ftdm (rm_options r)) FTDM_COIN) as [E|N3].
        { destruct (A3 E) as (c & _ & Q). left. rewrite Q. eauto. }
        destruct (Z.eq_dec (op_ftdm (rm_options r)) FTDM_INT_MIN) as [E|N4]; [right; right; rewrite A4 by auto; eauto 10|].
        destruct (Z.eq_dec (op_ftdm (rm_options r)) FTDM_INT_MAX) as [E|N5]; [right; right; rewrite A4 by auto; eauto 10|].
        left. rewrite A5 by assumption. eauto.
    + left. destruct s as [|s|s]; eauto. destruct s as [|t]; cbn [signal_first]; eauto.
      destruct (_ || _); eauto. destruct (1 <? t); eauto.
Qed.

Lemma play_total : forall v l r out, sane v r ->
  ~ In (rm_host r) (entrants l) ->
  op_ftdm (rm_options r) <> FTDM_INT_MIN -> op_ftdm (rm_options r) <> FTDM_INT_MAX ->
  (op_ftdm (rm_options r) = FTDM_DICE -> exists k, (k < ev_fuel v)%nat /\ ~ tie (throw (ev_rng v) k)) ->
  exists r' out', play v l r out = Ok (r', out').
Proof.
  intros v. induction l as [|a l IH]; intros r out S H M1 M2 Dc; cbn [play]; [eauto|].
  destruct (act_total v r a S) as [(r' & o & E)|[(-> & _)|(_ & _ & _ & [([X|X] & _)|(X & All & _)])]]; try contradiction.
  - rewrite E. cbn [obind]. apply act_step in E; [|exact S]. destruct (step_fixed _ _ _ _ _ S E) as [E1 E2].
    apply IH; rewrite ?E1, ?E2; auto; [eapply sane_step; eauto|]. intros I. apply H. change (a :: l) with ([a] ++ l).
    rewrite entrants_app. apply in_app_iff. auto.
  - destruct H. left. reflexivity.
  - destruct (Dc X) as (k & L & T). destruct (T (All k L)).
Qed.

(** ** Who is asked to decide *)

Lemma first_not_asked : forall r e c, In (c, EvFirst (FeDecide true)) (broadcast r e) -> e = EvFirst (FeDecide true).
Proof. intros r e c I. unfold broadcast in I. apply in_map_iff in I. destruct I as (x & E & _). congruence. Qed.

Lemma start_asked : forall v r r' o, configuring r -> rm_drawn r = 0%nat -> all_ready r ->
  enter_deciding v r = Ok (r', o) ->
  exists d, rm_state r' = Deciding d /\ forall c, In (c, EvFirst (FeDecide true)) o <-> d = Some c.
Proof.
  intros v r r' o C D R H. destruct (deciding_run v r C D R) as (A1 & A2 & A3 & A4 & A5).
  assert (One : forall x c : N, In (c, EvFirst (FeDecide true)) [(x, EvFirst (FeDecide true))] <-> Some x = Some c).
  { intros x c. simpl. split; [intros [E|[]]; congruence|]. intros E. left. congruence. }
  assert (No : forall f c, f <> FeDecide true -> ~ In (c, EvFirst (FeDecide true)) (broadcast r (EvFirst f))).
  { intros f c N I. apply first_not_asked in I. congruence. }
  destruct (Z.eq_dec (op_ftdm (rm_options r)) FTDM_HOST_CHOOSES) as [E|N1].
  { rewrite (A1 E) in H. inversion H; subst. eexists. split; [reflexivity|]. intros c. rewrite in_app_iff, One.
    split; [intros [I|I]; [edestruct No; eauto; discriminate|exact I]|auto]. }
  destruct (Z.eq_dec (op_ftdm (rm_options r)) FTDM_DICE) as [E|N2].
  { destruct (A2 E) as [(k & w & x & n & _ & _ & _ & _ & _ & Q)|(Q & _)]; rewrite Q in H; [|discriminate].
    inversion H; subst. eexists. split; [reflexivity|]. intros c. rewrite !in_app_iff, One.
    split; [intros [[I|I]|I]; [edestruct No; eauto; discriminate|edestruct No; eauto; discriminate|exact I]|auto]. }
  destruct (Z.eq_dec (op_ftdm (rm_options r)) FTDM_COIN) as [E|N3].
  { destruct (A3 E) as (x & _ & Q). rewrite Q in H.
    inversion H; subst. eexists. split; [reflexivity|]. intros c. rewrite !in_app_iff, One.
    split; [intros [[I|I]|I]; [edestruct No; eauto; discriminate|edestruct No; eauto; discriminate|exact I]|auto]. }
  destruct (Z.eq_dec (op_ftdm (rm_options r)) FTDM_INT_MIN) as [E|N4]; [rewrite A4 in H by auto; discriminate|].
  destruct (Z.eq_dec (op_ftdm (rm_options r)) FTDM_INT_MAX) as [E|N5]; [rewrite A4 in H by auto; discriminate|].
  rewrite A5 in H by assumption. inversion H; subst. eexists. split; [reflexivity|]. intros c.
  split; [intros I; edestruct No; eauto; discriminate|discriminate].
Qed.

Lemma session_asked : forall v host o l r out, session v host o l = Ok (r, out) ->
  forall c, In (c, EvFirst (FeDecide true)) out <-> rm_state r = Deciding (Some c).
Proof.
  intros v host o l r out H.
  destruct (session_inv v host o (fun r out _ => forall c, In (c, EvFirst (FeDecide true)) out <-> rm_state r = Deciding (Some c)))
    with (3 := H) as [_ K]; [| |exact K].
  - intros c. split; [intros [I|[I|[]]]; congruence|discriminate].
  - intros r0 out0 done a r' s S IH St c. rewrite in_app_iff.
    assert (Q : (forall c, ~ In (c, EvFirst (FeDecide true)) s) -> rm_state r' = rm_state r0 ->
      In (c, EvFirst (FeDecide true)) out0 \/ In (c, EvFirst (FeDecide true)) s <-> rm_state r' = Deciding (Some c)).
    { intros N E. rewrite E, <- IH. split; [intros [I|I]; [exact I|destruct (N c I)]|auto]. }
    assert (St' : forall t p f, rm_state (set_slot t p f r0) = rm_state r0).
    { intros t p f. destruct (set_slot_rest r0 t p f) as (_ & _ & X & _). exact X. }
    destruct St as [a|c' t p C NT F|c' C F0 F1 Hh|c' d t p C T Sq K|c' d t p C T Sq K|c' b t p s C T A B R V|b r' s C AR E|t D M L];
      try (apply Q; [|first [reflexivity|apply St']]; intros x I; cbn [In] in I;
           repeat match type of I with
                  | _ \/ _ => destruct I as [I|I]; [unfold description in I; congruence|]
                  end; first [destruct I; fail|apply first_not_asked in I; discriminate I]).
    destruct (start_asked v r0 r' s C (sane_drawn v r0 S C) AR E) as (d & E1 & E2).
    rewrite E1, E2, IH. unfold configuring in C. rewrite C. split; [intros [X|X]; congruence|]. intros X. right. congruence.
Qed.

(** ** What steps preserve *)

Lemma step_sits : forall v r a r' o, sane v r -> step v r a r' o -> forall t p c, sits r t p c -> sits r' t p c.
Proof.
  intros v r a r' o S St t0 p0 c0 (s0 & A0 & B0).
  assert (K : forall t p f, t = 0 \/ t = 1 -> (forall s, place r t p = Some s -> sl_client s <> None -> sl_client (f s) = sl_client s) ->
    sits (set_slot t p f r) t0 p0 c0).
  { intros t p f T K. unfold sits. rewrite set_slot_place by exact T.
    destruct (N.eqb_spec t t0) as [->|]; [|eauto]. destruct (N.eqb_spec p p0) as [->|]; [|eauto].
    cbn [andb]. rewrite A0. exists (f s0). split; [reflexivity|]. rewrite K by (auto; congruence). exact B0. }
  destruct St as [a|c' t p C NT F|c' C F0 F1 Hh|c' d t p C T Sq Ck|c' d t p C T Sq Ck|c' b t p s C T A B R V|b r' s C AR E|t D M L].
  - exists s0. auto.
  - apply K; [destruct NT; lia|]. intros s A N. destruct F as (_ & (s' & F & G) & _). congruence.
  - exists s0. auto.
  - apply K; auto.
  - apply K; auto.
  - apply K; auto.
  - destruct (start_run v r r' s C (sane_drawn v r S C) AR E) as [(d & n & ->) _]. exists s0. auto.
  - exists s0. auto.
Qed.

Lemma step_watches : forall v r a r' o, sane v r -> step v r a r' o -> forall c, watches r c -> watches r' c.
Proof.
  intros v r a r' o S St c W. unfold watches in *.
  assert (K : forall t p f, rm_spectators (set_slot t p f r) = rm_spectators r).
  { intros t p f. destruct (set_slot_rest r t p f) as (_ & _ & _ & X & _). exact X. }
  destruct St as [a|c' t p C NT F|c' C F0 F1 Hh|c' d t p C T Sq Ck|c' d t p C T Sq Ck|c' b t p s C T A B R V|b r' s C AR E|t D M L];
    rewrite ?K; auto.
  - cbn. unfold set_insert. destruct (existsb _ _); [exact W|]. apply in_app_iff. auto.
  - destruct (start_run v r r' s C (sane_drawn v r S C) AR E) as [(d & n & ->) _]. exact W.
Qed.

Lemma leads_sits : forall r t c, leads r t c -> exists p, sits r t p c.
Proof. intros r t c (p & A & _). eauto. Qed.

Lemma step_recipients : forall v r a r' o, sane v r -> step v r a r' o -> forall c e, In (c, e) o -> present r' c.
Proof.
  intros v r a r' o S St c0 e0 I.
  assert (BC : forall r e, In (c0, e0) (broadcast r e) -> present r c0).
  { intros r0 e H. unfold broadcast in H. apply in_map_iff in H. destruct H as (x & E & J). apply in_occupants. congruence. }
  assert (St' := St).
  destruct St as [a|c t p C NT F|c C F0 F1 Hh|c d t p C T Sq Ck|c d t p C T Sq Ck|c b t p s C T A B R V|b r' s C AR E|t D M L].
  - destruct I.
  - destruct I as [I|I]; [|eapply BC; eauto]. injection I as <- <-. left. exists t, p. destruct F as (_ & (s & A & B) & _).
    exists (set_client c s). rewrite set_slot_place by (destruct NT; lia). rewrite !N.eqb_refl. cbn [andb]. rewrite A. auto.
  - destruct I as [I|I]; [|eapply BC; eauto]. injection I as <- <-. right. unfold watches. cbn. unfold set_insert.
    destruct (existsb (N.eqb c) (rm_spectators r)) eqn:X; [|apply in_app_iff; right; left; reflexivity].
    apply existsb_exists in X. destruct X as (x & X1 & X2). apply N.eqb_eq in X2. congruence.
  - destruct I as [I|[]]. injection I as <- <-. left. exists t, p. eapply step_sits; eauto.
  - destruct I as [I|[]]. injection I as <- <-. left. exists t, p. eapply step_sits; eauto.
  - eapply BC; eauto.
  - assert (P : present r c0).
    { assert (Hs : sits r 0 0 (rm_host r)) by apply (sn_host v r S).
      destruct (deciding_run v r C (sane_drawn v r S C) AR) as (A1 & A2 & A3 & A4 & A5).
      destruct (Z.eq_dec (op_ftdm (rm_options r)) FTDM_HOST_CHOOSES) as [M|N1].
      { rewrite (A1 M) in E. inversion E; subst. apply in_app_iff in I. destruct I as [I|[I|[]]]; [eapply BC; eauto|].
        injection I as <- <-. left. eauto. }
      destruct (Z.eq_dec (op_ftdm (rm_options r)) FTDM_DICE) as [M|N2].
      { destruct (A2 M) as [(k & w & c & n & _ & _ & _ & _ & Ld & Q)|(Q & _)]; rewrite Q in E; [|discriminate].
        inversion E; subst. rewrite !in_app_iff in I. destruct I as [[I|I]|[I|[]]]; [eapply BC; eauto|eapply BC; eauto|].
        injection I as <- <-. left. destruct (leads_sits _ _ _ Ld) as (p & L). eauto. }
      destruct (Z.eq_dec (op_ftdm (rm_options r)) FTDM_COIN) as [M|N3].
      { destruct (A3 M) as (c & Ld & Q). rewrite Q in E.
        inversion E; subst. rewrite !in_app_iff in I. destruct I as [[I|I]|[I|[]]]; [eapply BC; eauto|eapply BC; eauto|].
        injection I as <- <-. left. destruct (leads_sits _ _ _ Ld) as (p & L). eauto. }
      destruct (Z.eq_dec (op_ftdm (rm_options r)) FTDM_INT_MIN) as [M|N4]; [rewrite A4 in E by auto; discriminate|].
      destruct (Z.eq_dec (op_ftdm (rm_options r)) FTDM_INT_MAX) as [M|N5]; [rewrite A4 in E by auto; discriminate|].
      rewrite A5 in E by assumption. inversion E; subst. eapply BC; eauto. }
    destruct P as [(t & p & P)|P]; [left; exists t, p; eapply step_sits; eauto|right; eapply step_watches; eauto].
  - eapply BC; eauto.
Qed.
