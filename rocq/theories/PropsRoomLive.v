(** Property C85: rooms whose clients cooperate get to the duel. *)
From Verif Require Import Base BaseProofs Room RoomSpec RoomProofs RoomInv RoomTotal RoomLive PropsRoom.

Local Open Scope N_scope.

(** ** C85: cooperation suffices *)

(** Whatever the order in which everything happens.  Missing: clients that enter
    twice, see below, and the first turn methods of C71. *)
Theorem C85_starts_partial : forall v host o l b,
  NoDup (host :: entrants l) -> entrants l <> [] ->
  (forall a, In a l -> helpful v o a) ->
  prepared host l -> (forall l1 c l2, l = l1 ++ Enter c :: l2 -> prepared c l2) ->
  op_ftdm o <> (-2147483648)%Z -> op_ftdm o <> 2147483647%Z ->
  (op_ftdm o = 2%Z -> exists k, (k < ev_fuel v)%nat /\ ~ tie (throw (ev_rng v) k)) ->
  exists r out, session v host o (l ++ [Signal host (start_signal b)]) = Ok (r, out) /\ deciding r.
Proof.
  intros v host o l b ND Ne H P En M1 M2 Dc.
  assert (Nh : ~ In host (entrants l)) by (inversion ND; assumption).
  destruct (C71_total_partial v host o l Nh M1 M2 Dc) as (r & out & E).
  destruct (C71_total_partial v host o (l ++ [Signal host (start_signal b)])) as (r' & out' & E'); auto.
  { rewrite entrants_app, in_app_iff. intros [X|X]; [auto|destruct X]. }
  exists r', out'. split; [exact E'|].
  pose proof (session_sane _ _ _ _ _ _ E) as S. pose proof (session_sane _ _ _ _ _ _ E') as S'.
  destruct (session_fixed _ _ _ _ _ _ E) as [Ho Hh]. destruct (session_nodup _ _ _ _ _ _ E ND) as [Nd _].
  assert (O : once r).
  { intros t p t' p' c Q Q'. destruct (N.eq_dec t t') as [->|D1]; [destruct (N.eq_dec p p') as [->|D2]; [auto|]|];
      exfalso; apply (nodup_once r c Nd); left; do 4 eexists; (split; [|split; [exact Q|exact Q']]); congruence. }
  assert (A : exists s, act v (Signal host (start_signal b)) r = Ok (r', s)).
  { unfold session in E, E'. rewrite construct_run in E, E'. cbn [obind] in E, E'. rewrite play_app, E in E'. cbn [obind play] in E'.
    destruct (act v _ r) as [[r1 s]| | |]; cbn [obind] in E'; try discriminate. inversion E'; subst. eauto. }
  destruct A as [s A]. destruct (sn_state v r' S') as [[C' _]|D]; [exfalso|exact D].
  assert (K : ~ configuring r \/ (on_track r [] /\ opposed r)).
  { unfold session in E. rewrite construct_run in E. cbn [obind] in E.
    eapply (track_play v l (first_room host o)); [apply first_sane|reflexivity| | | |right; exact Ne|exact E|exact O].
    - intros t p q c Pl Cl. right. apply prepared_prepares. replace c with host; [exact P|].
      unfold place in Pl. destruct (seats_cases (first_room host o) t) as [[_ X]|[[_ X]|[_ X]]]; rewrite X in Pl;
        destruct (N.to_nat p) as [|[|[|[|n]]]]; cbn in Pl; try discriminate; injection Pl as <-; cbn in Cl; congruence.
    - intros a I. apply (H a I).
    - intros l1 c l2 X. apply prepared_prepares. eapply En. exact X. }
  destruct (sn_state v r S) as [[C _]|[d D]].
  - destruct K as [K|[K Op]]; [contradiction|].
    assert (R : all_ready r).
    { split.
      - intros t T. assert (X : t = 0 \/ t = 1) by lia. destruct X as [-> | ->]; [|exact Op].
        exists 0, (rm_host r). apply (sn_host v r S).
      - intros t p q c Pl Cl. destruct (K t p q c Pl Cl) as [[V [R|R]]|R]; [auto|destruct R|destruct R]. }
    apply (C65_start v host o l r out _ r' s E C A); [eauto|exact C'].
  - apply (C65_left v host o l r out _ r' s E) in A; [auto|]. unfold configuring. rewrite D. discriminate.
Qed.
Print Assumptions C85_starts_partial.

(** The signals of three clients interleaved; the last one enters when the others are already ready. *)
Definition C85_l : list action :=
  [Signal 1 (SgConf (CsUpdateDeck ex_deck)); Enter 2; Signal 2 (SgConf (CsUpdateDeck ex_deck)); Signal 1 (SgConf (CsReady true));
   Signal 2 (SgConf (CsReady true)); Enter 3; Signal 1 (start_signal true); Signal 3 (SgConf (CsUpdateDeck ex_deck));
   Signal 3 (SgConf (CsReady true))].
Example C85_ex : NoDup (1 :: entrants C85_l) /\ (forall a, In a C85_l -> helpful ex_env (ex_options [2; 1] FTDM_DICE) a) /\
  prepared 1 C85_l /\ (forall l1 c l2, C85_l = l1 ++ Enter c :: l2 -> prepared c l2) /\
  (exists k, (k < ev_fuel ex_env)%nat /\ ~ tie (throw (ev_rng ex_env) k)) /\
  exists r out, session ex_env 1 (ex_options [2; 1] FTDM_DICE) C85_l = Ok (r, out) /\ configuring r /\ sits r 0 1 3.
Proof.
  split; [vm_compute; repeat constructor; simpl; intuition discriminate|].
  split. { intros a I. cbn in I. repeat destruct I as [<-|I]; vm_compute; auto. destruct I. }
  split. { exists [], ex_deck, [Enter 2; Signal 2 (SgConf (CsUpdateDeck ex_deck))]. eexists. reflexivity. }
  split.
  { intros l1 c l2 E. unfold C85_l in E.
    do 1 (destruct l1 as [|? l1]; [discriminate E|]; injection E as _ E).
    destruct l1 as [|? l1].
    { injection E as <- <-. exists [], ex_deck, [Signal 1 (SgConf (CsReady true))]. eexists. reflexivity. }
    injection E as _ E. do 3 (destruct l1 as [|? l1]; [discriminate E|]; injection E as _ E).
    destruct l1 as [|? l1].
    { injection E as <- <-. exists [Signal 1 (start_signal true)], ex_deck, []. eexists. reflexivity. }
    injection E as _ E. do 3 (destruct l1 as [|? l1]; [discriminate E|]; injection E as _ E). destruct l1; discriminate E. }
  split. { exists 1%nat. split; [vm_compute; lia|]. vm_compute. discriminate. }
  do 2 eexists. split; [vm_compute; reflexivity|]. split; [reflexivity|]. eexists. split; reflexivity.
Qed.

(** Signals go to the first seat of a client: a later one without a deck keeps
    the room from starting whatever anybody does. *)
Theorem C85_stuck : forall v host o l r out c t p s t0 p0, session v host o l = Ok (r, out) -> configuring r ->
  place r t p = Some s -> sl_client s = Some c -> sl_valid s = false -> sits r t0 p0 c -> before t0 p0 t p ->
  forall l' r' out', session v host o (l ++ l') = Ok (r', out') -> configuring r'.
Proof.
  intros v host o l r out c t p s t0 p0 E C A B V Q Bf l' r' out' E'. pose proof (session_sane _ _ _ _ _ _ E) as S.
  unfold session in E, E'. rewrite construct_run in E, E'. cbn [obind] in E, E'. rewrite play_app, E in E'. cbn [obind] in E'.
  eapply (orphan_play v l' r out r' out' c t p S C); [|exact E']. split; [eauto|]. eauto.
Qed.
Print Assumptions C85_stuck.

(** In particular once the host has entered again. *)
Theorem C85_host : forall v host o l r out t p, session v host o l = Ok (r, out) ->
  sits r t p host -> (t, p) <> (0, 0) ->
  forall l' r' out', session v host o (l ++ l') = Ok (r', out') -> configuring r'.
Proof.
  intros v host o l r out t p E (s & A & B) D. pose proof (session_sane _ _ _ _ _ _ E) as S.
  destruct (session_fixed _ _ _ _ _ _ E) as [_ Hh].
  assert (P : host_plain r).
  { unfold session in E. rewrite construct_run in E. cbn [obind] in E.
    eapply (host_plain_play v l); [apply first_sane| |exact E]. intros t' p' q Pl Cl N. unfold place in Pl. cbn in Cl.
    destruct (seats_cases (first_room host o) t') as [[_ X]|[[_ X]|[_ X]]]; rewrite X in Pl;
      destruct (N.to_nat p') as [|[|[|[|n]]]]; cbn in Pl; try discriminate; injection Pl as <-; reflexivity. }
  assert (V : sl_valid s = false) by (apply (P t p s A); [rewrite Hh; exact B|exact D]).
  assert (Q0 : sits r 0 0 host) by (rewrite <- Hh; apply (sn_host v r S)).
  assert (Bf : before 0 0 t p).
  { destruct (N.eq_dec t 0) as [->|T]; [right; split; [reflexivity|]|left; lia]. destruct (N.eq_dec p 0) as [->|]; [congruence|lia]. }
  assert (C : configuring r).
  { destruct (sn_state v r S) as [[C _]|G]; [exact C|exfalso]. pose proof (session_started _ _ _ _ _ _ E G) as [_ R].
    destruct (R t p s host A B). congruence. }
  intros l' r' out' E'. eapply (C85_stuck v host o l r out host t p s 0 0); eauto.
Qed.
Print Assumptions C85_host.

(** Everybody cooperates and every deck is accepted, yet the room never starts. *)
Theorem C85_starts_refuted : exists v host o l, (exists r out, session v host o l = Ok (r, out)) /\
  (forall a, In a l -> helpful v o a) /\
  prepared host l /\ (forall l1 c l2, l = l1 ++ Enter c :: l2 -> prepared c l2) /\ op_ftdm o = 0%Z /\
  forall l' r out, session v host o (l ++ l') = Ok (r, out) -> ~ deciding r.
Proof.
  exists ex_env, 1, (ex_options [] 0), (Enter 1 :: prepare 1).
  split; [do 2 eexists; vm_compute; reflexivity|].
  split. { intros a I. cbn in I. repeat destruct I as [<-|I]; vm_compute; auto. destruct I. }
  split. { exists [Enter 1], ex_deck, [], []. reflexivity. }
  split.
  { intros l1 c l2 E. destruct l1 as [|? l1].
    - injection E as <- <-. exists [], ex_deck, [], []. reflexivity.
    - do 3 (destruct l1 as [|? l1]; [discriminate E|]). discriminate E. }
  split; [reflexivity|]. intros l' r out E G.
  destruct (session ex_env 1 (ex_options [] 0) (Enter 1 :: prepare 1)) as [[r0 out0]| | |] eqn:E0; try (vm_compute in E0; discriminate).
  assert (Q : sits r0 1 0 1).
  { vm_compute in E0. injection E0 as <- _. eexists. split; reflexivity. }
  pose proof (C85_host _ _ _ _ _ _ 1 0 E0 Q ltac:(discriminate) l' r out E) as C. exact (not_both _ C G).
Qed.
Print Assumptions C85_starts_refuted.

(** Not every client that sits twice blocks the room: this one ends up playing against itself. *)
Theorem C85_self_refuted : exists v host o l r out c, session v host o l = Ok (r, out) /\ deciding r /\
  sits r 0 1 c /\ sits r 1 0 c.
Proof.
  exists ex_env, 1, (ex_options [2; 1] 0), (prepare 1 ++ Enter 2 :: prepare 2 ++ Enter 2 :: prepare 2 ++ [Signal 1 (start_signal true)]).
  do 2 eexists. exists 2. split; [vm_compute; reflexivity|]. split; [eexists; reflexivity|]. split; eexists; split; reflexivity.
Qed.
Print Assumptions C85_self_refuted.
