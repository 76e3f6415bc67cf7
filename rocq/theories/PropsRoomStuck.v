(** C85, exactly: which rooms can still be started. *)
From Verif Require Import Base BaseProofs Room RoomSpec RoomProofs RoomInv RoomTotal RoomLive PropsRoom
  RoomStuckSpec RoomStuck.

Local Open Scope N_scope.

(** A room being configured can be brought to the decision about the first turn
    exactly when every seat but the first one of its client is ready and has a
    deck.  It takes a deck the validator accepts and a first turn method that
    works (C71). *)
Theorem C85_can_start_iff_partial : forall v host o l r out d,
  session v host o l = Ok (r, out) -> configuring r -> fst (ev_check v (house_list o) d) = true ->
  op_ftdm o <> (-2147483648)%Z -> op_ftdm o <> 2147483647%Z ->
  (op_ftdm o = 2%Z -> exists k, (k < ev_fuel v)%nat /\ ~ tie (throw (ev_rng v) k)) ->
  ((exists l' r' out', session v host o (l ++ l') = Ok (r', out') /\ deciding r') <-> settled r).
Proof.
  intros v host o l r out d E C K M1 M2 Dc. pose proof (session_sane _ _ _ _ _ _ E) as S.
  destruct (session_fixed _ _ _ _ _ _ E) as [Ho Hh].
  assert (App : forall l', session v host o (l ++ l') = play v l' r out).
  { intros l'. unfold session in *. rewrite construct_run in *. cbn [obind] in *. now rewrite play_app, E. }
  split.
  - intros (l' & r' & out' & E' & [x D]) t p s c t0 p0 A B Q Bf. rewrite App in E'.
    destruct (sl_valid s) eqn:V, (sl_ready s) eqn:R; [split; assumption| | |]; exfalso;
      (assert (X : configuring r') by
        (eapply (later_play v l' r out r' out' t p s c t0 p0); eauto; intros [Y Z]; congruence);
       unfold configuring in X; congruence).
  - intros St. destruct (settled_ready v d r out S C St) as (l1 & r1 & out1 & P1 & S1 & C1 & R1 & _).
    { rewrite Ho. exact K. }
    assert (E1 : session v host o (l ++ l1) = Ok (r1, out1)) by (rewrite App; exact P1).
    destruct (session_fixed _ _ _ _ _ _ E1) as [Ho1 Hh1].
    destruct (act_total v r1 (Signal host (start_signal true)) S1) as [(r2 & o2 & A)|[(X & _)|(_ & _ & _ & [([X|X] & _)|(X & T & _)])]].
    + exists (l1 ++ [Signal host (start_signal true)]), r2, (out1 ++ o2).
      assert (E2 : session v host o (l ++ l1 ++ [Signal host (start_signal true)]) = Ok (r2, out1 ++ o2)).
      { rewrite App, play_app, P1. cbn [obind play]. rewrite A. reflexivity. }
      split; [exact E2|]. destruct (sn_state v r2 (session_sane _ _ _ _ _ _ E2)) as [[C2 _]|D]; [exfalso|exact D].
      apply (C65_start v host o (l ++ l1) r1 out1 _ r2 o2 E1 C1 A); [eauto|exact C2].
    + discriminate X.
    + exfalso. apply M1. rewrite Ho1 in X. exact X.
    + exfalso. apply M2. rewrite Ho1 in X. exact X.
    + exfalso. rewrite Ho1 in X. destruct (Dc X) as (k & L & N). exact (N (T k L)).
Qed.
Print Assumptions C85_can_start_iff_partial.

(** A client that entered twice, and now sits first where it came last: its
    other seat was made ready in time, or not. *)
Example C85_can_start_iff_ex : exists r out r' out',
  session ex_env 1 (ex_options [2; 1] 0) (Enter 2 :: prepare 2 ++ [Enter 2]) = Ok (r, out) /\ configuring r /\
  sits r 1 0 2 /\ sits r 0 1 2 /\ (exists s, place r 1 0 = Some s /\ good s) /\
  (exists r2 out2, session ex_env 1 (ex_options [2; 1] 0)
     ((Enter 2 :: prepare 2 ++ [Enter 2]) ++ prepare 1 ++ prepare 2 ++ [Signal 1 (start_signal true)]) = Ok (r2, out2) /\
     deciding r2) /\
  session ex_env 1 (ex_options [2; 1] 0) [Enter 2; Enter 2] = Ok (r', out') /\ configuring r' /\ ~ settled r' /\
  fst (ev_check ex_env (house_list (ex_options [2; 1] 0)) ex_deck) = true.
Proof.
  do 4 eexists. split; [vm_compute; reflexivity|]. split; [reflexivity|].
  split; [eexists; split; reflexivity|]. split; [eexists; split; reflexivity|].
  split; [eexists; split; [reflexivity|split; reflexivity]|].
  split; [do 2 eexists; split; [vm_compute; reflexivity|eexists; reflexivity]|].
  split; [vm_compute; reflexivity|]. split; [reflexivity|]. split; [|vm_compute; reflexivity].
  intros H. destruct (H 1 0 _ 2 0 1 eq_refl eq_refl) as [V _]; [eexists; split; reflexivity|left; lia|discriminate V].
Qed.

(** C71, exactly: while the host does not enter again, no history stops the room
    just when the first turn method is one that works, provided there is a deck
    to play with. *)
Definition method_works (v : env) (o : options) : Prop :=
  op_ftdm o <> (-2147483648)%Z /\ op_ftdm o <> 2147483647%Z /\
  (op_ftdm o = 2%Z -> exists k, (k < ev_fuel v)%nat /\ ~ tie (throw (ev_rng v) k)).

Lemma some_throw : forall rng n, (exists k, (k < n)%nat /\ ~ tie (throw rng k)) \/ (forall k, (k < n)%nat -> tie (throw rng k)).
Proof.
  intros rng. induction n as [|n [(k & L & T)|IH]]; [right; intros k L; lia|left; exists k; split; [lia|exact T]|].
  destruct (N.eq_dec (fst (throw rng n)) (snd (throw rng n))) as [T|T].
  - right. intros k L. destruct (Nat.eq_dec k n) as [->|]; [exact T|]. apply IH. lia.
  - left. exists n. split; [lia|exact T].
Qed.

Theorem C71_method_iff_partial : forall v host o d, fst (ev_check v (house_list o) d) = true ->
  ((forall l, ~ In host (entrants l) -> exists r out, session v host o l = Ok (r, out)) <-> method_works v o).
Proof.
  intros v host o d K. split.
  - intros H. destruct (H []) as (r & out & E); [intros []|]. pose proof (session_sane _ _ _ _ _ _ E) as S.
    destruct (session_fixed _ _ _ _ _ _ E) as [Ho Hh].
    assert (E0 := E). unfold session in E0. rewrite construct_run in E0. cbn [obind play] in E0. injection E0 as Er Eo.
    assert (C : configuring r) by (subst r; reflexivity).
    assert (One : forall t p c, sits r t p c -> t = 0 /\ p = 0).
    { intros t p c (s & P & Cl). subst r. unfold place in P.
      destruct (seats_cases (first_room host o) t) as [[T X]|[[T X]|[T X]]]; rewrite X in P;
        destruct (N.to_nat p) as [|[|[|[|n]]]] eqn:Np; cbn in P; try discriminate; injection P as <-; try discriminate Cl.
      split; [exact T|lia]. }
    assert (St : settled r).
    { intros t p s c t0 p0 A B Q Bf. destruct (One t p c) as [-> ->]; [exists s; auto|].
      destruct (One _ _ _ Q) as [-> ->]. exfalso. exact (before_irrefl _ _ Bf). }
    destruct (settled_ready v d r out S C St) as (l1 & r1 & out1 & P1 & S1 & C1 & R1 & Nh).
    { rewrite Ho. exact K. }
    assert (E1 : session v host o l1 = Ok (r1, out1)).
    { unfold session in *. rewrite construct_run in *. cbn [obind play] in *. injection E as -> ->. exact P1. }
    destruct (H (l1 ++ [Signal host (start_signal true)])) as (r2 & out2 & E2).
    { rewrite entrants_app, app_nil_r. rewrite <- Hh. exact Nh. }
    assert (A : exists x, act v (Signal host (start_signal true)) r1 = Ok x).
    { unfold session in E1, E2. rewrite construct_run in E1, E2. cbn [obind] in E1, E2. rewrite play_app, E1 in E2. cbn [obind play] in E2.
      destruct (act v _ r1) as [x| | |]; try discriminate. eauto. }
    destruct A as [x A]. destruct (C71_stops_partial v host o l1 r1 out1 (Signal host (start_signal true)) E1) as (_ & U & D).
    rewrite A in U, D. split; [|split].
    + intros X. destruct U as [_ U]. discriminate U. split; [eauto|]. auto.
    + intros X. destruct U as [_ U]. discriminate U. split; [eauto|]. auto.
    + intros X. destruct (some_throw (ev_rng v) (ev_fuel v)) as [T|T]; [exact T|].
      destruct D as [_ D]. discriminate D. split; [eauto|]. auto.
  - intros (M1 & M2 & M3) l Nh. exact (C71_total_partial v host o l Nh M1 M2 M3).
Qed.
Print Assumptions C71_method_iff_partial.

Example C71_method_iff_ex : fst (ev_check ex_env (house_list (ex_options [] 2)) ex_deck) = true /\
  method_works ex_env (ex_options [] 2) /\
  ~ method_works (mkEnv (ev_user ex_env) (ev_check ex_env) (fun _ => 4) 9) (ex_options [] 2).
Proof.
  split; [vm_compute; reflexivity|]. split.
  - split; [discriminate|]. split; [discriminate|]. intros _. exists 1%nat. split; [vm_compute; lia|vm_compute; discriminate].
  - intros (_ & _ & H). destruct (H eq_refl) as (k & _ & T). apply T. reflexivity.
Qed.
