(** Properties C60-C74: the room. *)
From Verif Require Import Base BaseProofs Room RoomSpec RoomProofs RoomInv RoomMirror RoomTotal.

Local Open Scope N_scope.

(** ** Rooms for the examples *)

Definition ex_error : deck_error := mkDeckError None None (Some [7]) None None.
(** Decks of at least one main card are fine; the random numbers are 0, 6, 1, 2, 2, 2, ... *)
Definition ex_env : env :=
  mkEnv (fun c => mkUser [c] [65 + c]) (fun _ d => (negb (lenN (dk_main d) =? 0), ex_error))
    (fun n => match n with O => 0 | 1%nat => 6 | 2%nat => 1 | _ => 2 end) 5.
Definition ex_deck : deck := mkDeck [89631139] [] [] [] [] [] [].
Definition ex_options (m : list N) (ftdm : Z) : options := mkOptions m None BanNotSet ftdm.
Definition prepare (c : N) : list action :=
  [Signal c (SgConf (CsUpdateDeck ex_deck)); Signal c (SgConf (CsReady true))].

(** ** C60: options are clamped *)

Definition sizes (o o' : options) : Prop :=
  length (op_max o') = 2%nat /\
  (forall i, (i < 2)%nat -> nth i (op_max o') 0 = N.min 3 (N.max 1 (nth i (op_max o) 1))) /\
  op_limits o' = op_limits o /\ op_banlist o' = op_banlist o /\ op_ftdm o' = op_ftdm o.

Lemma clamp_minmax : forall x, clamp x = N.min 3 (N.max 1 x).
Proof. intros x. unfold clamp. destruct (N.ltb_spec x 1); [lia|]. destruct (N.ltb_spec 3 x); lia. Qed.

Lemma clamp_sizes : forall o, sizes o (clamp_options o).
Proof.
  intros o. unfold sizes, clamp_options, resize_max. cbn [op_max op_limits op_banlist op_ftdm].
  repeat split; destruct (op_max o) as [|a [|b l]]; try reflexivity;
    intros [|[|i]] H; cbn; try lia; rewrite ?clamp_minmax; reflexivity.
Qed.

Theorem C60_options : forall v host o, exists r o',
  construct v host o =
    Ok (r, [(host, EvConf (CeEntering (Some o') [] 0));
            (host, EvConf (CeDuelistEnters (mkDuelist 0 0 (ev_user v host) true false)))]) /\
  sizes o o' /\ rm_options r = o' /\ sits r 0 0 host /\ occupants r = [host] /\ configuring r.
Proof.
  intros v host o. exists (first_room host o), (clamp_options o). split; [apply construct_run|].
  split; [apply clamp_sizes|]. split; [reflexivity|]. split; [eexists; split; reflexivity|]. split; reflexivity.
Qed.
Print Assumptions C60_options.

Theorem C60_kept : forall v host o l r out, session v host o l = Ok (r, out) ->
  sizes o (rm_options r) /\ (forall t, t < 2 -> 1 <= limit r t <= 3) /\ rm_host r = host /\ sits r 0 0 host.
Proof.
  intros v host o l r out H. destruct (session_fixed _ _ _ _ _ _ H) as [A B]. rewrite A. split; [apply clamp_sizes|].
  pose proof (session_sane _ _ _ _ _ _ H) as S. destruct (sane_limit v r S) as (m0 & m1 & L0 & L1 & _ & _ & B0 & B1).
  split; [|split; [exact B|rewrite <- B; apply (sn_host v r S)]].
  intros t T. assert (O : t = 0 \/ t = 1) by lia. destruct O as [-> | ->]; lia.
Qed.
Print Assumptions C60_kept.

Example C60_ex : exists r out, session ex_env 5 (ex_options [99] 0) [Enter 6] = Ok (r, out) /\
  op_max (rm_options r) = [3; 1] /\ length out = 5%nat.
Proof. eexists _, _. vm_compute. repeat split. Qed.

(** ** C61: positions stay below the limits *)

Theorem C61_seats : forall v host o l r out t p c, session v host o l = Ok (r, out) ->
  sits r t p c -> t < 2 /\ p < limit r t /\ limit r t <= 3.
Proof.
  intros v host o l r out t p c H Q. pose proof (session_sane _ _ _ _ _ _ H) as S.
  split; [destruct (sits_team r t p c Q); lia|]. split; [eapply sits_limit; eauto|].
  destruct (sane_limit v r S) as (m0 & m1 & L0 & L1 & _ & _ & B0 & B1).
  destruct (sits_team r t p c Q) as [-> | ->]; lia.
Qed.
Print Assumptions C61_seats.

Example C61_ex : exists r out, session ex_env 1 (ex_options [2; 3] 0) (map Enter [2; 3; 4; 5; 6]) = Ok (r, out) /\
  sits r 0 1 3 /\ sits r 1 2 5 /\ watches r 6.
Proof.
  eexists _, _. split; [vm_compute; reflexivity|].
  split; [eexists; split; vm_compute; reflexivity|]. split; [eexists; split; vm_compute; reflexivity|]. left. reflexivity.
Qed.

(** ** C62: teams are filled evenly *)

Theorem C62_even : forall v host o l r out c, session v host o l = Ok (r, out) -> configuring r ->
  (exists t p r' s, next_team r t /\ free r t p /\ enter v c r = Ok (r', s) /\ sits r' t p c /\ same_but r r' t p) \/
  (full r 0 /\ full r 1 /\ c <> host /\ exists r' s, enter v c r = Ok (r', s) /\
     (forall x, watches r' x <-> x = c \/ watches r x) /\ (forall t p, place r' t p = place r t p)) \/
  (full r 0 /\ full r 1 /\ c = host /\ enter v c r = Abort).
Proof.
  intros v host o l r out c H C. pose proof (session_sane _ _ _ _ _ _ H) as S.
  destruct (session_fixed _ _ _ _ _ _ H) as [_ Hh].
  destruct (enter_run v r c S C) as [(F0 & F1 & D & E)|[(F0 & F1 & D & E)|(t & p & NT & F & E)]]; cbn zeta in E; rewrite Hh in *.
  - right; right. auto.
  - right; left. repeat (split; [assumption|]). do 2 eexists. split; [exact E|]. split; [|reflexivity].
    intros x. unfold watches. cbn. unfold set_insert. destruct (existsb (N.eqb c) (rm_spectators r)) eqn:X.
    + apply existsb_exists in X. destruct X as (y & Y & Z). apply N.eqb_eq in Z. subst y.
      split; [auto|]. intros [-> |I]; assumption.
    + rewrite in_app_iff. simpl. split; [intros [I|[I|[]]]; auto|]. intros [I|I]; auto.
  - left. assert (T : t = 0 \/ t = 1) by (destruct NT; lia). exists t, p. do 2 eexists. repeat (split; [eassumption|]).
    split; [|apply set_slot_same_but; exact T]. destruct F as (_ & (s & A & B) & _). exists (set_client c s).
    rewrite set_slot_place, !N.eqb_refl by exact T. cbn [andb]. rewrite A. split; reflexivity.
Qed.
Print Assumptions C62_even.

(** Two teams of two: 1 and 3 against 2 and 4; 5 watches. *)
Example C62_ex : exists r out, session ex_env 1 (ex_options [2; 2] 0) (map Enter [2; 3; 4; 5]) = Ok (r, out) /\
  occupants r = [1; 3; 2; 4; 5] /\ full r 0 /\ full r 1.
Proof.
  eexists _, _. split; [vm_compute; reflexivity|]. split; [reflexivity|].
  split; intros p L; (assert (K : p = 0 \/ p = 1) by (change (p < 2) in L; lia));
    destruct K as [-> | ->]; eexists; eexists; split; reflexivity.
Qed.
(** An uneven room: the second team is full after one client. *)
Example C62_ex2 : exists r out, session ex_env 1 (ex_options [3; 1] 0) (map Enter [2; 3]) = Ok (r, out) /\
  next_team r 0 /\ free r 0 2.
Proof.
  eexists _, _. split; [vm_compute; reflexivity|]. split.
  - split; [lia|]. split.
    + intros F. destruct (F 2 ltac:(vm_compute; reflexivity)) as (c & s & A & B). vm_compute in A. injection A as <-. discriminate.
    + left. intros p L. assert (K : p = 0) by (change (p < 1) in L; lia). subst p. eexists; eexists; split; reflexivity.
  - split; [vm_compute; reflexivity|]. split; [eexists; split; reflexivity|].
    intros q L. assert (K : q = 0 \/ q = 1) by lia. destruct K as [-> | ->]; eexists; eexists; split; reflexivity.
Qed.

(** ** C63: one place per client *)

(** [c] is at two places at once. *)
Definition twice (r : room) (c : N) : Prop :=
  (exists t p t' p', (t, p) <> (t', p') /\ sits r t p c /\ sits r t' p' c) \/
  ((exists t p, sits r t p c) /\ watches r c).

Lemma sitters_twice : forall l n m s s' c, NoDup (sitters l) -> nth_error l n = Some s -> nth_error l m = Some s' ->
  sl_client s = Some c -> sl_client s' = Some c -> n = m.
Proof.
  induction l as [|z l IH]; intros [|n] [|m] s s' c N A B C D; try discriminate; try reflexivity.
  - exfalso. injection A as ->. unfold sitters in N. simpl in N. rewrite C in N. simpl in N. inversion N; subst.
    apply H1. change (In c (sitters l)). apply in_sitters. eauto.
  - exfalso. injection B as ->. unfold sitters in N. simpl in N. rewrite D in N. simpl in N. inversion N; subst.
    apply H1. change (In c (sitters l)). apply in_sitters. eauto.
  - f_equal. eapply IH; eauto. unfold sitters in N. simpl in N. destruct (sl_client z); [inversion N; assumption|exact N].
Qed.

Lemma nodup_once : forall r c, NoDup (occupants r) -> ~ twice r c.
Proof.
  intros r c N. unfold occupants in N.
  assert (D : forall A (l l' : list A) x, NoDup (l ++ l') -> In x l -> In x l' -> False).
  { induction l as [|a l IH]; intros l' x H I J; [destruct I|]. inversion H; subst. destruct I as [->|I].
    - apply H2. apply in_app_iff. auto.
    - eapply IH; eauto. }
  assert (R : forall A (l l' : list A), NoDup (l ++ l') -> NoDup l').
  { induction l as [|a l IH]; intros l' H; [exact H|]. inversion H; auto. }
  assert (N0 := NoDup_left _ _ _ N). assert (N1 := R _ _ _ N). assert (N2 := NoDup_left _ _ _ N1).
  intros [(t & p & t' & p' & E & (s & A & B) & (s' & A' & B'))|((t & p & (s & A & B)) & W)]; unfold place in *.
  - assert (I : In c (sitters (seats r t))) by (apply in_sitters; eauto).
    assert (I' : In c (sitters (seats r t'))) by (apply in_sitters; eauto).
    destruct (seats_cases r t) as [[T F]|[[T F]|[_ F]]], (seats_cases r t') as [[T' F']|[[T' F']|[_ F']]]; rewrite F, F' in *;
      try (destruct (N.to_nat p); discriminate); try (destruct (N.to_nat p'); discriminate).
    + apply E. subst. f_equal. apply N2Nat.inj. eapply sitters_twice with (l := rm_team0 r); eauto.
    + eapply D; [exact N|exact I|]. apply in_app_iff. auto.
    + eapply D; [exact N|exact I'|]. apply in_app_iff. auto.
    + apply E. subst. f_equal. apply N2Nat.inj. eapply sitters_twice with (l := rm_team1 r); eauto.
  - assert (I : In c (sitters (seats r t))) by (apply in_sitters; eauto).
    destruct (seats_cases r t) as [[T F]|[[T F]|[_ F]]]; rewrite F in *; [| |destruct I].
    + eapply D; [exact N|exact I|]. apply in_app_iff. auto.
    + eapply D; [exact N1|exact I|exact W].
Qed.

(** Missing: a client may enter a second time, see below. *)
Theorem C63_once_partial : forall v host o l r out c, session v host o l = Ok (r, out) ->
  NoDup (host :: entrants l) -> ~ twice r c /\ (present r c -> c = host \/ In c (entrants l)).
Proof.
  intros v host o l r out c H N. destruct (session_nodup _ _ _ _ _ _ H N) as [A B].
  split; [apply nodup_once; exact A|]. intros P. apply in_occupants in P. destruct (B c P); auto.
Qed.
Print Assumptions C63_once_partial.

Theorem C63_once_refuted : exists v host o l r out c, session v host o l = Ok (r, out) /\ c = host /\ twice r c.
Proof.
  exists ex_env, 1, (ex_options [] 0), [Enter 1]. do 3 eexists. split; [vm_compute; reflexivity|]. split; [reflexivity|].
  left. exists 0, 0, 1, 0. split; [discriminate|]. split; eexists; split; reflexivity.
Qed.
Print Assumptions C63_once_refuted.

(** A duelist may also be a spectator of its own duel. *)
Theorem C63_watching_refuted : exists v host o l r out c, session v host o l = Ok (r, out) /\
  (exists t p, sits r t p c) /\ watches r c.
Proof.
  exists ex_env, 1, (ex_options [] 0), [Enter 2; Enter 2]. do 3 eexists. split; [vm_compute; reflexivity|].
  split; [exists 1, 0; eexists; split; reflexivity|]. left. reflexivity.
Qed.
Print Assumptions C63_watching_refuted.

Example C63_ex : NoDup (1 :: entrants (map Enter [2; 3; 4; 5])) /\
  exists r out, session ex_env 1 (ex_options [2; 2] 0) (map Enter [2; 3; 4; 5]) = Ok (r, out) /\ present r 5.
Proof.
  split; [vm_compute; repeat constructor; simpl; intuition discriminate|].
  eexists _, _. split; [vm_compute; reflexivity|]. right. left. reflexivity.
Qed.

(** ** C64: ready means a valid deck *)

Definition ready_valid (r : room) : Prop := forall t p s, place r t p = Some s -> sl_ready s = true -> sl_valid s = true.

(** Nobody who is ready hands in a deck that the validator rejects. *)
Fixpoint calm (v : env) (l : list action) (r : room) : Prop :=
  match l with
  | [] => True
  | a :: l' =>
      match a with
      | Signal c (SgConf (CsUpdateDeck d)) =>
          fst (ev_check v (house_list (rm_options r)) d) = true \/
          forall t p s, place r t p = Some s -> sl_client s = Some c -> sl_ready s = false
      | _ => True
      end /\ forall r' o, act v a r = Ok (r', o) -> calm v l' r'
  end.

Lemma set_slot_ready_valid : forall r t p f, t = 0 \/ t = 1 -> ready_valid r ->
  (forall s, place r t p = Some s -> sl_ready (f s) = true -> sl_valid (f s) = true) -> ready_valid (set_slot t p f r).
Proof.
  intros r t p f T R K t' p' s H. rewrite set_slot_place in H by exact T.
  destruct ((t =? t') && (p =? p')); [|apply (R t' p'); exact H].
  destruct (place r t p) as [s0|]; [|discriminate]. injection H as <-. auto.
Qed.

Lemma calm_ready_valid : forall v l r out r' out', sane v r -> ready_valid r -> calm v l r ->
  play v l r out = Ok (r', out') -> ready_valid r'.
Proof.
  intros v. induction l as [|a l IH]; intros r out r' out' S R C E; cbn [play] in E.
  - inversion E; subst. exact R.
  - destruct C as [C1 C2]. destruct (act v a r) as [[r1 o]| | |] eqn:A; cbn [obind] in E; try discriminate.
    specialize (C2 r1 o eq_refl). apply act_step in A; [|exact S].
    eapply IH; [eapply sane_step; eauto| |exact C2|exact E]. clear - A R C1 S.
    destruct A as [a|c t p C NT F|c C F0 F1 H|c d t p C T Q K|c d t p C T Q K|c b t p s C T A B Rd V|b r' o C AR E|t D M L].
    + exact R.
    + apply set_slot_ready_valid; [destruct NT; lia|exact R|]. intros s A. cbn. apply (R t p s A).
    + exact R.
    + apply set_slot_ready_valid; [exact T|exact R|]. reflexivity.
    + apply set_slot_ready_valid; [exact T|exact R|]. intros s A X. cbn in X. exfalso.
      change (house_list (rm_options r)) with (banlist_id (rm_options r)) in C1.
      destruct C1 as [C1|C1]; [congruence|]. destruct Q as (s' & F & G). assert (s' = s) by congruence. subst s'.
      rewrite (C1 t p s A G) in X. discriminate.
    + apply set_slot_ready_valid; [exact T|exact R|]. intros s' A' X. assert (s' = s) by congruence. subst s'. cbn in *. auto.
    + destruct (start_run v r r' o C (sane_drawn v r S C) AR E) as [(d & n & ->) _]. exact R.
    + exact R.
Qed.

(** Missing: a ready client whose new deck is rejected stays ready, see below. *)
Theorem C64_ready_partial : forall v host o l r out, session v host o l = Ok (r, out) ->
  (forall r0 o0, construct v host o = Ok (r0, o0) -> calm v l r0) -> ready_valid r.
Proof.
  intros v host o l r out H C. unfold session in H. rewrite construct_run in H. cbn [obind] in H.
  apply (calm_ready_valid v l _ _ _ _ (first_sane v host o)) in H; [exact H| |].
  - intros t p s A X. unfold place in A. exfalso. clear - A X.
    destruct (seats_cases (first_room host o) t) as [[_ E]|[[_ E]|[_ E]]]; rewrite E in A;
      destruct (N.to_nat p) as [|[|[|[|n]]]]; cbn in A; try discriminate; injection A as <-; discriminate.
  - apply (C _ _ (construct_run v host o)).
Qed.
Print Assumptions C64_ready_partial.

(** Whatever the history, nobody becomes ready without a valid deck. *)
Theorem C64_gate_partial : forall v host o l r out a r' s t p q q',
  session v host o l = Ok (r, out) -> act v a r = Ok (r', s) ->
  place r t p = Some q -> place r' t p = Some q' -> sl_ready q = false -> sl_ready q' = true ->
  sl_valid q = true /\ sl_valid q' = true /\ exists c, sl_client q = Some c /\ a = Signal c (SgConf (CsReady true)).
Proof.
  intros v host o l r out a r' s t p q q' H E A A' R R'. pose proof (session_sane _ _ _ _ _ _ H) as S.
  apply act_step in E; [|exact S].
  assert (K : forall t0 p0 f, t0 = 0 \/ t0 = 1 -> r' = set_slot t0 p0 f r -> t0 = t /\ p0 = p /\ q' = f q).
  { intros t0 p0 f T ->. rewrite set_slot_place in A' by exact T.
    destruct (N.eqb_spec t0 t) as [->|]; [|cbn in A'; congruence].
    destruct (N.eqb_spec p0 p) as [->|]; [|cbn in A'; congruence]. cbn [andb] in A'. rewrite A in A'. cbn in A'.
    split; [reflexivity|]. split; [reflexivity|]. congruence. }
  destruct E as [a|c t0 p0 C NT F|c C F0 F1 Hh|c d t0 p0 C T Q Kk|c d t0 p0 C T Q Kk|c b t0 p0 s0 C T B0 B Rd V|b r' o' C AR E|t0 D M L].
  - congruence.
  - destruct (K t0 p0 _ ltac:(destruct NT; lia) eq_refl) as (_ & _ & ->). cbn in R'. congruence.
  - assert (q' = q) by (unfold place in *; unfold seats in *; destruct t as [|[]]; cbn in A'; congruence). congruence.
  - destruct (K t0 p0 _ T eq_refl) as (_ & _ & ->). cbn in R'. congruence.
  - destruct (K t0 p0 _ T eq_refl) as (_ & _ & ->). cbn in R'. congruence.
  - destruct (K t0 p0 _ T eq_refl) as (-> & -> & ->). cbn in R'. subst b. assert (s0 = q) by congruence. subst s0.
    split; [auto|]. split; [cbn; auto|]. eauto.
  - destruct (start_run v r r' o' C (sane_drawn v r S C) AR E) as [(d & n & ->) _]. assert (q' = q) by (unfold place in *; unfold seats in *; destruct t as [|[]]; cbn in A'; congruence). congruence.
  - congruence.
Qed.
Print Assumptions C64_gate_partial.

Theorem C64_ready_refuted : exists v host o l r out, session v host o l = Ok (r, out) /\ ~ ready_valid r.
Proof.
  exists ex_env, 1, (ex_options [] 0), (prepare 1 ++ [Signal 1 (SgConf (CsUpdateDeck deck0))]).
  do 2 eexists. split; [vm_compute; reflexivity|]. intros H.
  specialize (H 0 0 _ eq_refl eq_refl). discriminate.
Qed.
Print Assumptions C64_ready_refuted.

Example C64_ex : exists r out, session ex_env 1 (ex_options [] 0) (prepare 1) = Ok (r, out) /\
  (forall r0 o0, construct ex_env 1 (ex_options [] 0) = Ok (r0, o0) -> calm ex_env (prepare 1) r0) /\
  exists s, place r 0 0 = Some s /\ sl_ready s = true.
Proof.
  eexists _, _. split; [vm_compute; reflexivity|]. split; [|eexists; split; reflexivity].
  intros r0 o0 H. split; [left; reflexivity|]. intros r' o _. split; [exact I|]. intros; exact I.
Qed.

(** ** C65: starting *)

Definition start_signal (b : bool) : signal := SgConf (CsStart b).

Theorem C65_start : forall v host o l r out a r' s, session v host o l = Ok (r, out) -> configuring r ->
  act v a r = Ok (r', s) ->
  (~ configuring r' <-> (exists b, a = Signal host (start_signal b)) /\ all_ready r).
Proof.
  intros v host o l r out a r' s H C E. pose proof (session_sane _ _ _ _ _ _ H) as S.
  destruct (session_fixed _ _ _ _ _ _ H) as [_ Hh]. split.
  - intros N. apply act_step in E; [|exact S].
    assert (K : forall t p f, configuring (set_slot t p f r)).
    { intros t p f. unfold configuring. destruct (set_slot_rest r t p f) as (_ & _ & X & _). rewrite X. exact C. }
    destruct E as [a|c t p C' NT F|c C' F0 F1 D|c d t p C' T Q Kk|c d t p C' T Q Kk|c b t p q C' T A B R V|b r' o' C' AR E|t D M L];
      try (destruct (N (K _ _ _)); fail); try (destruct (N C); fail).
    rewrite Hh. split; [exists b; reflexivity|exact AR].
  - intros [[b ->] R]. cbn [act start_signal] in E. unfold visit in E. unfold start_signal, configuring in *.
    rewrite C in E. cbn [signal_conf] in E. unfold start_dueling in E. rewrite Hh, N.eqb_refl in E. cbn [negb] in E.
    apply can_start_spec in R. rewrite R in E. cbn [negb] in E. apply can_start_spec in R.
    destruct (start_run v r r' s C (sane_drawn v r S C) R E) as [(d & n & ->) _]. discriminate.
Qed.
Print Assumptions C65_start.

(** Once left, the state is not entered again. *)
Theorem C65_left : forall v host o l r out a r' s, session v host o l = Ok (r, out) -> ~ configuring r ->
  act v a r = Ok (r', s) -> ~ configuring r'.
Proof.
  intros v host o l r out a r' s H C E. pose proof (session_sane _ _ _ _ _ _ H) as S. apply act_step in E; [|exact S].
  destruct E; try contradiction; exact C.
Qed.
Print Assumptions C65_left.

Definition duel_ready : list action := Enter 2 :: prepare 1 ++ prepare 2.

Example C65_ex : exists r out r' s, session ex_env 1 (ex_options [] 0) duel_ready = Ok (r, out) /\ configuring r /\
  all_ready r /\ act ex_env (Signal 1 (start_signal true)) r = Ok (r', s) /\ deciding r'.
Proof.
  do 4 eexists. split; [vm_compute; reflexivity|]. split; [reflexivity|].
  split; [apply can_start_spec; reflexivity|]. split; [vm_compute; reflexivity|]. eexists; reflexivity.
Qed.

(** ** C66: mirrors *)

Theorem C66_mirror : forall v host o l r out c, session v host o l = Ok (r, out) -> present r c ->
  let m := mirror_of c out in
  (forall d, In d (fst m) <-> describes v r d) /\ NoDup (fst m) /\ snd m = lenN (rm_spectators r) mod 2 ^ 32 /\
  NoDup (rm_spectators r).
Proof.
  intros v host o l r out c H P. destruct (session_mirror _ _ _ _ _ _ H c P) as (A & B & C).
  split; [exact A|]. split; [exact B|]. split; [exact C|]. apply (sn_watch v r (session_sane _ _ _ _ _ _ H)).
Qed.
Print Assumptions C66_mirror.

(** Everybody in the room has been told the options, and nothing else about them. *)
Theorem C66_options : forall v host o l r out, session v host o l = Ok (r, out) ->
  (forall c o' d n, In (c, EvConf (CeEntering (Some o') d n)) out -> o' = rm_options r) /\
  (forall c, present r c -> exists d n, In (c, EvConf (CeEntering (Some (rm_options r)) d n)) out).
Proof.
  intros v host o l r out H.
  destruct (session_inv v host o (fun r out _ =>
    (forall c o' d n, In (c, EvConf (CeEntering (Some o') d n)) out -> o' = rm_options r) /\
    (forall c, In c (occupants r) -> exists d n, In (c, EvConf (CeEntering (Some (rm_options r)) d n)) out)))
    with (3 := H) as [_ [K1 K2]].
  - split.
    + intros c o' d n [I|[I|[]]]; [|congruence]. injection I as _ I _ _. symmetry. exact I.
    + intros c [<- |[]]. exists [], 0. left. reflexivity.
  - intros r0 out0 done a r' s S [IH1 IH2] St. destruct (step_fixed _ _ _ _ _ S St) as [Eo _]. rewrite Eo.
    assert (B : forall r e c o' d n, In (c, EvConf (CeEntering (Some o') d n)) (broadcast r e) -> e = EvConf (CeEntering (Some o') d n)).
    { intros r1 e c o' d n I. unfold broadcast in I. apply in_map_iff in I. destruct I as (x & I & _). congruence. }
    split.
    + intros c o' d n I. apply in_app_iff in I. destruct I as [I|I]; [eapply IH1; exact I|]. clear IH1 IH2 H.
      destruct St as [a|c' t p C NT F|c' C F0 F1 Hh|c' d' t p C T Q K|c' d' t p C T Q K|c' b t p q C T A G R V|b r' s C AR E|t D M L].
      * destruct I.
      * destruct I as [I|I]; [unfold description in I; congruence|apply B in I; discriminate].
      * destruct I as [I|I]; [unfold description in I; congruence|apply B in I; discriminate].
      * destruct I as [I|[]]; congruence.
      * destruct I as [I|[]]; congruence.
      * apply B in I; discriminate.
      * exfalso. pose proof (deciding_run v r0 C (sane_drawn v r0 S C) AR) as (A1 & A2 & A3 & A4 & A5).
        assert (X : forall out c0, In (c, EvConf (CeEntering (Some o') d n)) (out ++ [(c0, EvFirst (FeDecide true))]) ->
          In (c, EvConf (CeEntering (Some o') d n)) out).
        { intros y c0 J. apply in_app_iff in J. destruct J as [J|[J|[]]]; [exact J|congruence]. }
        destruct (Z.eq_dec (op_ftdm (rm_options r0)) FTDM_HOST_CHOOSES) as [W|N1].
        { rewrite (A1 W) in E. injection E as _ <-. apply X, B in I. discriminate. }
        destruct (Z.eq_dec (op_ftdm (rm_options r0)) FTDM_DICE) as [W|N2].
        { destruct (A2 W) as [(k & w & c0 & m & _ & _ & _ & _ & _ & Q)|(Q & _)]; rewrite Q in E; [|discriminate].
          injection E as _ <-. apply X, in_app_iff in I. destruct I as [I|I]; apply B in I; discriminate. }
        destruct (Z.eq_dec (op_ftdm (rm_options r0)) FTDM_COIN) as [W|N3].
        { destruct (A3 W) as (c0 & _ & Q). cbn zeta in Q. rewrite Q in E.
          injection E as _ <-. apply X, in_app_iff in I. destruct I as [I|I]; apply B in I; discriminate. }
        destruct (Z.eq_dec (op_ftdm (rm_options r0)) FTDM_INT_MIN) as [W|N4]; [rewrite A4 in E by auto; discriminate|].
        destruct (Z.eq_dec (op_ftdm (rm_options r0)) FTDM_INT_MAX) as [W|N5]; [rewrite A4 in E by auto; discriminate|].
        rewrite A5 in E by assumption. injection E as _ <-. apply B in I. discriminate.
      * apply B in I; discriminate.
    + intros c I.
      assert (N : In c (occupants r0) \/ In (c, description v r0) s).
      { clear IH1 IH2 H Eo.
        assert (X : forall t p f, t = 0 \/ t = 1 -> (forall q, place r0 t p = Some q -> sl_client (f q) = sl_client q) ->
          In c (occupants (set_slot t p f r0)) -> In c (occupants r0)).
        { intros t p f T K J. apply in_occupants in J. apply in_occupants. destruct J as [(t' & p' & (q & A & G))|W].
          - left. exists t', p'. rewrite set_slot_place in A by exact T. destruct ((t =? t') && (p =? p')) eqn:Z; [|exists q; auto].
            apply andb_true_iff in Z. destruct Z as [Z1 Z2]. apply N.eqb_eq in Z1, Z2. subst t' p'.
            destruct (place r0 t p) as [q0|] eqn:P0; [|discriminate]. injection A as <-. exists q0. split; [exact P0|]. rewrite <- K; auto.
          - right. unfold watches in *. destruct (set_slot_rest r0 t p f) as (_ & _ & _ & Y & _). rewrite <- Y. exact W. }
        destruct St as [a|c' t p C NT F|c' C F0 F1 Hh|c' d' t p C T Q K|c' d' t p C T Q K|c' b t p q C T A G R V|b r' s C AR E|t D M L]; auto.
        - assert (T : t = 0 \/ t = 1) by (destruct NT; lia).
          apply in_occupants in I. destruct I as [(t' & p' & (q & A & G))|W].
          + rewrite set_slot_place in A by exact T. destruct ((t =? t') && (p =? p')) eqn:Z.
            * destruct (place r0 t p); [|discriminate]. injection A as <-. injection G as <-. right. left. reflexivity.
            * left. apply in_occupants. left. exists t', p', q. auto.
          + left. apply in_occupants. right. unfold watches in *. destruct (set_slot_rest r0 t p (set_client c')) as (_ & _ & _ & Y & _). rewrite <- Y. exact W.
        - apply in_occupants in I. destruct I as [W|W].
          + left. apply in_occupants. left. exact W.
          + unfold watches in W. cbn in W. unfold set_insert in W. destruct (existsb _ _).
            * left. apply in_occupants. right. exact W.
            * apply in_app_iff in W. destruct W as [W|[<- |[]]]; [left; apply in_occupants; right; exact W|right; left; reflexivity].
        - left. revert I. apply X; auto.
        - left. revert I. apply X; auto.
        - left. revert I. apply X; auto.
        - left. destruct (start_run v r0 r' s C (sane_drawn v r0 S C) AR E) as [(d & n & ->) _]. exact I. }
      destruct N as [N|N].
      * destruct (IH2 c N) as (d & n & J). exists d, n. apply in_app_iff. auto.
      * do 2 eexists. apply in_app_iff. right. exact N.
  - split; [exact K1|]. intros c P. apply K2. apply in_occupants. exact P.
Qed.
Print Assumptions C66_options.

Definition ex_history : list action :=
  [Enter 2; Enter 3] ++ prepare 2 ++ [Enter 4; Signal 2 (SgConf (CsReady false))] ++ prepare 1.
Example C66_ex : exists r out, session ex_env 1 (ex_options [] 0) ex_history = Ok (r, out) /\ present r 3 /\
  mirror_of 3 out = ([mkDuelist 0 0 (mkUser [1] [66]) true true; mkDuelist 1 0 (mkUser [2] [67]) false false], 2).
Proof. do 2 eexists. split; [vm_compute; reflexivity|]. split; [right; left; reflexivity|]. vm_compute. reflexivity. Qed.

(** ** C67: deck verdicts *)

Theorem C67_deck : forall v host o l r out c d, session v host o l = Ok (r, out) -> configuring r ->
  (exists t p, sits r t p c) ->
  let verdict := ev_check v (house_list o) d in
  exists t p s r', place r t p = Some s /\ sl_client s = Some c /\
    visit v c (SgConf (CsUpdateDeck d)) r =
      Ok (r', [(c, EvConf (CeDeckStatus (if fst verdict then None else Some (snd verdict))))]) /\
    place r' t p = Some (mkSlot (fst verdict) (sl_ready s) (Some c) (if fst verdict then d else deck0)) /\
    same_but r r' t p.
Proof.
  intros v host o l r out c d H C (t0 & p0 & Q) verdict. pose proof (session_sane _ _ _ _ _ _ H) as S.
  destruct (session_fixed _ _ _ _ _ _ H) as [Ho _].
  assert (B : banlist_id (rm_options r) = house_list o) by (rewrite Ho; reflexivity).
  unfold visit. unfold configuring in C. rewrite C. cbn [signal_conf]. unfold update_deck.
  destruct (find_peer_sane v r c S) as [[_ E]|(t & p & E & T & (s & A & K))]; [destruct (E t0 p0 Q)|].
  rewrite E. cbn [obind]. rewrite B. fold verdict. destruct verdict as [ok err]. cbn [fst snd].
  exists t, p, s. destruct ok.
  - exists (set_slot t p (set_deck true d) r). repeat (split; [assumption || reflexivity|]).
    split; [|apply set_slot_same_but; exact T]. rewrite set_slot_place, !N.eqb_refl by exact T. cbn [andb]. rewrite A.
    cbn [option_map]. unfold set_deck. rewrite K. reflexivity.
  - exists (set_slot t p (set_deck false deck0) r). repeat (split; [assumption || reflexivity|]).
    split; [|apply set_slot_same_but; exact T]. rewrite set_slot_place, !N.eqb_refl by exact T. cbn [andb]. rewrite A.
    cbn [option_map]. unfold set_deck. rewrite K. reflexivity.
Qed.
Print Assumptions C67_deck.

Example C67_ex : exists r out r', session ex_env 1 (ex_options [] 0) [Enter 2] = Ok (r, out) /\ configuring r /\ sits r 1 0 2 /\
  visit ex_env 2 (SgConf (CsUpdateDeck deck0)) r = Ok (r', [(2, EvConf (CeDeckStatus (Some ex_error)))]).
Proof.
  do 3 eexists. split; [vm_compute; reflexivity|]. split; [reflexivity|]. split; [eexists; split; reflexivity|]. vm_compute. reflexivity.
Qed.

(** ** C68: signals that do not belong *)

(** A signal which must have no effect. *)
Definition out_of_place (r : room) (c : N) (s : signal) : Prop :=
  match s with
  | SgNotSet | SgConf CsNotSet | SgFirst FsNotSet => True
  | SgConf (CsUpdateDeck _) | SgConf (CsReady _) => deciding r \/ forall t p, ~ sits r t p c
  | SgConf (CsStart _) => deciding r \/ c <> rm_host r
  | SgFirst (FsTeam t) => configuring r \/ c <> rm_host r \/ 2 <= t
  end.

Theorem C68_ignored : forall v host o l r out c s, session v host o l = Ok (r, out) ->
  out_of_place r c s -> visit v c s r = Ok (r, []).
Proof.
  intros v host o l r out c s H O. pose proof (session_sane _ _ _ _ _ _ H) as S.
  unfold visit. destruct (rm_state r) as [| |x] eqn:ST; [reflexivity| |].
  - assert (ND : ~ deciding r) by (apply not_both; exact ST).
    destruct s as [|s|s]; [reflexivity| |reflexivity]. destruct s as [|d|b|b]; cbn [signal_conf out_of_place] in *; [reflexivity| | |].
    + destruct O as [O|O]; [contradiction|]. unfold update_deck.
      destruct (find_peer_sane v r c S) as [[E _]|(t & p & _ & _ & Q)]; [rewrite E; reflexivity|destruct (O t p Q)].
    + destruct O as [O|O]; [contradiction|]. unfold ready_status.
      destruct (find_peer_sane v r c S) as [[E _]|(t & p & _ & _ & Q)]; [rewrite E; reflexivity|destruct (O t p Q)].
    + destruct O as [O|O]; [contradiction|]. unfold start_dueling. apply N.eqb_neq in O. rewrite O. reflexivity.
  - destruct s as [|s|s]; [reflexivity|reflexivity|]. destruct s as [|t]; cbn [signal_first out_of_place] in *; [reflexivity|].
    destruct O as [O|[O|O]].
    + unfold configuring in O. congruence.
    + apply N.eqb_neq in O. rewrite O, orb_true_r. reflexivity.
    + destruct (_ || _); [reflexivity|]. replace (1 <? t) with true by (symmetry; apply N.ltb_lt; lia). reflexivity.
Qed.
Print Assumptions C68_ignored.

Theorem C68_late_entry : forall v r c, deciding r -> enter v c r = Ok (r, []).
Proof. intros v r c [d D]. unfold enter. rewrite D. reflexivity. Qed.
Print Assumptions C68_late_entry.

Example C68_ex : exists r out, session ex_env 1 (ex_options [] 0) (duel_ready ++ [Enter 3]) = Ok (r, out) /\
  out_of_place r 3 (SgConf (CsReady true)) /\ out_of_place r 2 (start_signal true) /\ out_of_place r 1 (SgFirst (FsTeam 0)).
Proof.
  do 2 eexists. split; [vm_compute; reflexivity|]. cbn [out_of_place start_signal]. split; [right|split; [right; discriminate|left; reflexivity]].
  intros t p (s & A & B). unfold place in A. match type of A with nth_error (seats ?r _) _ = _ => destruct (seats_cases r t) as [[_ E]|[[_ E]|[_ E]]] end;
    rewrite E in A; destruct (N.to_nat p) as [|[|[|[|n]]]]; cbn in A; try discriminate; injection A as <-; discriminate.
Qed.

(** ** C69: dice and coin *)

(** The methods by their numbers in room.proto:31-41: 0 the host, 1 rock-paper-
    scissors, 2 dice, 3 coin. *)

(** What a completed series of dice throws looks like. *)
Definition honest_dice (rolls : list (N * N)) (winner : N) : Prop :=
  Forall (fun x => 1 <= fst x <= 6 /\ 1 <= snd x <= 6) rolls /\
  exists ties last, rolls = ties ++ [last] /\ Forall tie ties /\ ~ tie last /\
    ((winner = 0 /\ snd last < fst last) \/ (winner = 1 /\ fst last < snd last)).

Lemma throw_bounds : forall rng i, 1 <= fst (throw rng i) <= 6 /\ 1 <= snd (throw rng i) <= 6.
Proof.
  intros rng i. unfold throw. cbn [fst snd].
  pose proof (N.mod_lt (rng (2 * i)%nat) 6 ltac:(lia)). pose proof (N.mod_lt (rng (2 * i + 1)%nat) 6 ltac:(lia)).
  revert H H0. generalize (rng (2 * i)%nat mod 6) (rng (2 * i + 1)%nat mod 6). intros a b. lia.
Qed.

Theorem C69_dice : forall v host o l r out b, session v host o l = Ok (r, out) -> configuring r -> all_ready r ->
  op_ftdm o = 2%Z ->
  (forall r' s, visit v host (start_signal b) r = Ok (r', s) ->
     exists rolls winner leader, honest_dice rolls winner /\ leads r winner leader /\
       (forall i x, nth_error rolls i = Some x -> x = throw (ev_rng v) i) /\
       rm_state r' = Deciding (Some leader) /\
       s = broadcast r (EvFirst FeEntering) ++ broadcast r (EvFirst (FeResult winner (HowDice rolls))) ++
           [(leader, EvFirst (FeDecide true))]) /\
  ((exists r' s, visit v host (start_signal b) r = Ok (r', s)) <-> exists k, (k < ev_fuel v)%nat /\ ~ tie (throw (ev_rng v) k)).
Proof.
  intros v host o l r out b H C R M. pose proof (session_sane _ _ _ _ _ _ H) as Sn.
  destruct (session_fixed _ _ _ _ _ _ H) as [Ho Hh].
  assert (E : visit v host (start_signal b) r = enter_deciding v r).
  { unfold visit, start_signal. unfold configuring in C. rewrite C. cbn [signal_conf]. unfold start_dueling.
    rewrite Hh, N.eqb_refl. apply can_start_spec in R. rewrite R. reflexivity. }
  rewrite E. destruct (deciding_run v r C (sane_drawn v r Sn C) R) as (_ & A & _).
  rewrite Ho in A. destruct (A M) as [(k & w & c & n & K & T & NT & W & Ld & Q)|(Q & All)]; clear A.
  - split; [|split; [eauto|intros _; rewrite Q; eauto]]. intros r' s X. rewrite Q in X. inversion X; subst. clear X.
    eexists (map (throw (ev_rng v)) (seq 0 (S k))), _, c. split; [|split; [exact Ld|split; [|split; [reflexivity|rewrite <- app_assoc; reflexivity]]]].
    + split.
      * apply Forall_forall. intros x I. apply in_map_iff in I. destruct I as (j & <- & _). apply throw_bounds.
      * exists (map (throw (ev_rng v)) (seq 0 k)), (throw (ev_rng v) k). rewrite seq_S, map_app. split; [reflexivity|].
        split; [|split; [exact NT|]].
        { apply Forall_forall. intros x I. apply in_map_iff in I. destruct I as (j & <- & J). apply T. apply in_seq in J. lia. }
        { unfold tie in NT. destruct (N.ltb_spec (fst (throw (ev_rng v) k)) (snd (throw (ev_rng v) k))); [right|left]; split; auto; lia. }
    + intros i x I. rewrite nth_error_map in I.
      destruct (nth_error (seq 0 (S k)) i) as [j|] eqn:J; [|discriminate]. injection I as <-. f_equal.
      assert (L : (i < length (seq 0 (S k)))%nat) by (apply nth_error_Some; congruence). rewrite seq_length in L.
      rewrite (nth_error_nth' _ 0%nat) in J by (rewrite seq_length; exact L). rewrite seq_nth in J by exact L. cbn in J. congruence.
  - split; [intros r' s X; rewrite Q in X; discriminate|]. split; [intros (r' & s & X); rewrite Q in X; discriminate|].
    intros (k & L & NT). destruct (NT (All k L)).
Qed.
Print Assumptions C69_dice.

Theorem C69_coin : forall v host o l r out b, session v host o l = Ok (r, out) -> configuring r -> all_ready r ->
  op_ftdm o = 3%Z ->
  exists side leader r', (side = 0 \/ side = 1) /\ (side = 1 <-> N.odd (ev_rng v 0%nat) = true) /\ leads r side leader /\
    rm_state r' = Deciding (Some leader) /\
    visit v host (start_signal b) r = Ok (r',
      broadcast r (EvFirst FeEntering) ++ broadcast r (EvFirst (FeResult side (HowCoin side))) ++
      [(leader, EvFirst (FeDecide true))]).
Proof.
  intros v host o l r out b H C R M. pose proof (session_sane _ _ _ _ _ _ H) as S.
  destruct (session_fixed _ _ _ _ _ _ H) as [Ho Hh].
  assert (E : visit v host (start_signal b) r = enter_deciding v r).
  { unfold visit, start_signal. unfold configuring in C. rewrite C. cbn [signal_conf]. unfold start_dueling.
    rewrite Hh, N.eqb_refl. apply can_start_spec in R. rewrite R. reflexivity. }
  rewrite E. destruct (deciding_run v r C (sane_drawn v r S C) R) as (_ & _ & A & _).
  rewrite Ho in A. destruct (A M) as (c & Ld & Q). cbn zeta in *. rewrite Q.
  exists (ev_rng v 0%nat mod 2), c. eexists.
  assert (P : ev_rng v 0%nat mod 2 = N.b2n (N.odd (ev_rng v 0%nat))).
  { rewrite <- N.bit0_odd, N.bit0_mod. reflexivity. }
  split; [rewrite P; destruct (N.odd _); auto|]. split; [rewrite P; destruct (N.odd _); cbn; split; congruence|].
  split; [exact Ld|]. split; [|rewrite <- app_assoc; reflexivity]. reflexivity.
Qed.
Print Assumptions C69_coin.

(** The other methods ask the host, or (rock-paper-scissors) nobody. *)
Theorem C69_others : forall v host o l r out b, session v host o l = Ok (r, out) -> configuring r -> all_ready r ->
  (op_ftdm o = 0%Z -> exists r', rm_state r' = Deciding (Some host) /\
     visit v host (start_signal b) r =
       Ok (r', broadcast r (EvFirst FeEntering) ++ [(host, EvFirst (FeDecide true))])) /\
  (op_ftdm o = 1%Z -> exists r', rm_state r' = Deciding None /\
     visit v host (start_signal b) r = Ok (r', broadcast r (EvFirst FeEntering))).
Proof.
  intros v host o l r out b H C R. pose proof (session_sane _ _ _ _ _ _ H) as S.
  destruct (session_fixed _ _ _ _ _ _ H) as [Ho Hh].
  assert (E : visit v host (start_signal b) r = enter_deciding v r).
  { unfold visit, start_signal. unfold configuring in C. rewrite C. cbn [signal_conf]. unfold start_dueling.
    rewrite Hh, N.eqb_refl. apply can_start_spec in R. rewrite R. reflexivity. }
  rewrite E. destruct (deciding_run v r C (sane_drawn v r S C) R) as (A & _ & _ & _ & B). rewrite Ho, Hh in *. split; intros M.
  - eexists. split; [|apply A; exact M]. reflexivity.
  - cbn [clamp_options op_ftdm] in B. rewrite M in B. eexists. split; [|apply B; discriminate]. reflexivity.
Qed.
Print Assumptions C69_others.

(** A tie, then 2 against 3: the second team wins and its leader is asked. *)
Example C69_ex : exists r out r' s, session ex_env 1 (ex_options [] FTDM_DICE) (duel_ready ++ [Enter 3]) = Ok (r, out) /\
  configuring r /\ all_ready r /\ visit ex_env 1 (start_signal true) r = Ok (r', s) /\
  heard 3 s = [EvFirst FeEntering; EvFirst (FeResult 1 (HowDice [(1, 1); (2, 3)]))] /\
  In (2, EvFirst (FeDecide true)) s.
Proof.
  do 4 eexists. split; [vm_compute; reflexivity|]. split; [reflexivity|]. split; [apply can_start_spec; reflexivity|].
  split; [vm_compute; reflexivity|]. split; [vm_compute; reflexivity|]. vm_compute. tauto.
Qed.

(** ** C70: the asked client decides *)

Definition asked (out : sent) (c : N) : Prop := In (c, EvFirst (FeDecide true)) out.

(** Missing: clients asked after dice or a coin are not listened to, see below. *)
Theorem C70_decide_partial : forall v host o l r out c t, session v host o l = Ok (r, out) -> deciding r ->
  (op_ftdm o = 0%Z -> asked out c -> t < 2 ->
     visit v c (SgFirst (FsTeam t)) r = Ok (r, broadcast r (EvFirst (FeResult t HowNotSet)))) /\
  (~ asked out c -> visit v c (SgFirst (FsTeam t)) r = Ok (r, [])) /\
  (2 <= t -> visit v c (SgFirst (FsTeam t)) r = Ok (r, [])).
Proof.
  intros v host o l r out c t H [d D]. destruct (session_fixed _ _ _ _ _ _ H) as [Ho Hh].
  pose proof (session_asked _ _ _ _ _ _ H) as K. unfold asked. rewrite K.
  unfold visit. rewrite D. cbn [signal_first]. rewrite Ho, Hh. cbn [clamp_options op_ftdm].
  assert (W : op_ftdm o = FTDM_HOST_CHOOSES -> d = Some host).
  { intros M. assert (I : rm_state r = Deciding d -> op_ftdm (rm_options r) = FTDM_HOST_CHOOSES -> d = Some (rm_host r)).
    { clear - H. revert d. destruct (session_inv v host o (fun r _ _ => forall d, rm_state r = Deciding d ->
        op_ftdm (rm_options r) = FTDM_HOST_CHOOSES -> d = Some (rm_host r))) with (3 := H) as [_ K]; [| |exact K].
      - discriminate.
      - intros r0 out0 done a r' s S IH St d E M.
        assert (X : forall t p f, rm_state (set_slot t p f r0) = rm_state r0).
        { intros t p f. destruct (set_slot_rest r0 t p f) as (_ & _ & X & _). exact X. }
        unfold configuring in *. destruct St; try (rewrite X in E; congruence); try (cbn in E; congruence); try (apply IH; assumption).
        destruct (deciding_run v r0 H0 (sane_drawn v r0 S H0) H1) as (A & _).
        destruct (start_run v r0 r' o0 H0 (sane_drawn v r0 S H0) H1 H2) as [(d' & n & F) _].
        assert (G : op_ftdm (rm_options r0) = FTDM_HOST_CHOOSES) by (rewrite F in M; exact M).
        rewrite (A G) in H2. injection H2 as K _. rewrite <- K in *. cbn in E |- *. congruence. }
    rewrite <- Hh. apply I; [exact D|]. rewrite Ho. exact M. }
  split; [|split].
  - intros M A T. rewrite M. assert (c = host) by (specialize (W M); congruence). subst c.
    rewrite N.eqb_refl. cbn. replace (1 <? t) with false by (symmetry; apply N.ltb_ge; lia).
    rewrite send_all_broadcast. reflexivity.
  - intros N. destruct (Z.eqb_spec (op_ftdm o) FTDM_HOST_CHOOSES) as [M|M]; cbn [negb orb]; [|reflexivity].
    destruct (N.eqb_spec c host) as [->|]; cbn [negb]; [|reflexivity]. destruct N. rewrite (W M). reflexivity.
  - intros T. destruct (_ || _); [reflexivity|]. replace (1 <? t) with true by (symmetry; apply N.ltb_lt; lia). reflexivity.
Qed.
Print Assumptions C70_decide_partial.

(** With dice and coin, somebody is asked and then ignored. *)
Theorem C70_decide_refuted : exists v host o l r out c, session v host o l = Ok (r, out) /\ deciding r /\ asked out c /\
  forall t, visit v c (SgFirst (FsTeam t)) r = Ok (r, []).
Proof.
  exists ex_env, 1, (ex_options [] FTDM_COIN), (duel_ready ++ [Signal 1 (start_signal true)]).
  do 2 eexists. exists 1. split; [vm_compute; reflexivity|]. split; [eexists; reflexivity|]. split; [vm_compute; tauto|].
  intros t. reflexivity.
Qed.
Print Assumptions C70_decide_refuted.

Theorem C70_ignored : forall v host o l r out c t, session v host o l = Ok (r, out) ->
  op_ftdm o <> 0%Z -> visit v c (SgFirst (FsTeam t)) r = Ok (r, []).
Proof.
  intros v host o l r out c t H M. destruct (session_fixed _ _ _ _ _ _ H) as [Ho _].
  unfold visit. destruct (rm_state r); try reflexivity. cbn [signal_first]. rewrite Ho. cbn [clamp_options op_ftdm].
  apply Z.eqb_neq in M. change FTDM_HOST_CHOOSES with 0%Z. rewrite M. reflexivity.
Qed.
Print Assumptions C70_ignored.

Example C70_ex : exists r out, session ex_env 1 (ex_options [] 0) (duel_ready ++ [Signal 1 (start_signal true)]) = Ok (r, out) /\
  deciding r /\ asked out 1 /\ ~ asked out 2 /\
  visit ex_env 1 (SgFirst (FsTeam 1)) r = Ok (r, broadcast r (EvFirst (FeResult 1 HowNotSet))).
Proof.
  do 2 eexists. split; [vm_compute; reflexivity|]. split; [eexists; reflexivity|]. split; [vm_compute; tauto|].
  split; [|reflexivity]. intros I. cbn in I. repeat (destruct I as [I|I]; [discriminate|]). exact I.
Qed.

(** ** C71: the room never stops *)

(** Missing: the three ways below.  2147483647 and its negative counterpart are
    the sentinels that protoc adds to the enumeration. *)
Theorem C71_total_partial : forall v host o l,
  ~ In host (entrants l) -> op_ftdm o <> (-2147483648)%Z -> op_ftdm o <> 2147483647%Z ->
  (op_ftdm o = 2%Z -> exists k, (k < ev_fuel v)%nat /\ ~ tie (throw (ev_rng v) k)) ->
  exists r out, session v host o l = Ok (r, out).
Proof.
  intros v host o l H M1 M2 D. unfold session. rewrite construct_run. cbn [obind].
  apply play_total; auto. apply first_sane.
Qed.
Print Assumptions C71_total_partial.

(** Exactly when a single call stops. *)
Theorem C71_stops_partial : forall v host o l r out a, session v host o l = Ok (r, out) ->
  (act v a r = Abort <-> a = Enter host /\ configuring r /\ full r 0 /\ full r 1) /\
  (act v a r = UB <-> (exists b, a = Signal host (start_signal b)) /\ configuring r /\ all_ready r /\
     (op_ftdm o = (-2147483648)%Z \/ op_ftdm o = 2147483647%Z)) /\
  (act v a r = Diverge <-> (exists b, a = Signal host (start_signal b)) /\ configuring r /\ all_ready r /\
     op_ftdm o = 2%Z /\ forall k, (k < ev_fuel v)%nat -> tie (throw (ev_rng v) k)).
Proof.
  intros v host o l r out a H. pose proof (session_sane _ _ _ _ _ _ H) as S.
  destruct (session_fixed _ _ _ _ _ _ H) as [Ho Hh].
  assert (Cl : forall x y, act v a r = Ok (x, y) -> act v a r <> Abort /\ act v a r <> UB /\ act v a r <> Diverge).
  { intros x y E. rewrite E. repeat split; discriminate. }
  assert (St : forall b, configuring r -> all_ready r -> act v (Signal host (start_signal b)) r = enter_deciding v r).
  { intros b C R. cbn [act start_signal]. unfold visit, start_signal, configuring in *. rewrite C. cbn [signal_conf]. unfold start_dueling.
    rewrite Hh, N.eqb_refl. apply can_start_spec in R. rewrite R. reflexivity. }
  assert (Fo : op_ftdm (rm_options r) = op_ftdm o) by (rewrite Ho; reflexivity).
  split; [|split]; split.
  - intros E. destruct (act_total v r a S) as [(x & y & K)|[(A & C & F0 & F1 & _)|(_ & _ & _ & [(_ & K)|(_ & _ & K)])]]; try congruence.
    rewrite <- Hh. auto.
  - intros (-> & C & F0 & F1). cbn [act]. destruct (enter_run v r host S C) as [(_ & _ & _ & K)|[(_ & _ & K & _)|(t & p & NT & _)]]; [exact K|congruence|].
    exfalso. destruct NT as (T & N & _). assert (O : t = 0 \/ t = 1) by lia. destruct O as [-> | ->]; auto.
  - intros E. destruct (act_total v r a S) as [(x & y & K)|[(_ & _ & _ & _ & K)|(C & R & A & [(M & _)|(_ & _ & K)])]]; try congruence.
    rewrite <- Hh, <- Fo. auto.
  - intros ([b ->] & C & R & M). rewrite St by assumption. rewrite <- Fo in M.
    destruct (deciding_run v r C (sane_drawn v r S C) R) as (_ & _ & _ & A & _). apply A. exact M.
  - intros E. destruct (act_total v r a S) as [(x & y & K)|[(_ & _ & _ & _ & K)|(C & R & A & [(_ & K)|(M & All & _)])]]; try congruence.
    rewrite <- Hh, <- Fo. auto.
  - intros ([b ->] & C & R & M & All). rewrite St by assumption. rewrite <- Fo in M.
    destruct (deciding_run v r C (sane_drawn v r S C) R) as (_ & A & _).
    destruct (A M) as [(k & w & c & n & L & _ & NT & _)|(Q & _)]; [destruct (NT (All k L))|exact Q].
Qed.
Print Assumptions C71_stops_partial.

(** The host entering again when all seats are taken. *)
Theorem C71_total_refuted : exists v host o l, session v host o l = Abort.
Proof. exists ex_env, 1, (ex_options [] 0), [Enter 2; Enter 1]. reflexivity. Qed.
Print Assumptions C71_total_refuted.
(** A sentinel of the enumeration as the first turn method. *)
Theorem C71_sentinel_refuted : exists v host o l, session v host o l = UB.
Proof. exists ex_env, 1, (ex_options [] FTDM_INT_MAX), (duel_ready ++ [Signal 1 (start_signal true)]). vm_compute. reflexivity. Qed.
Print Assumptions C71_sentinel_refuted.
(** Dice that always tie: no bound on the number of throws is enough. *)
Theorem C71_dice_refuted : exists v host o l, forall fuel,
  session (mkEnv (ev_user v) (ev_check v) (ev_rng v) fuel) host o l = Diverge.
Proof.
  exists (mkEnv (ev_user ex_env) (ev_check ex_env) (fun _ => 4) 0), 1, (ex_options [] FTDM_DICE), (duel_ready ++ [Signal 1 (start_signal true)]).
  intros fuel. cbn [ev_user ev_check ev_rng].
  set (v := mkEnv (ev_user ex_env) (ev_check ex_env) (fun _ => 4) fuel).
  assert (K : exists r out, session v 1 (ex_options [] FTDM_DICE) duel_ready = Ok (r, out) /\ configuring r /\ all_ready r).
  { do 2 eexists. split; [vm_compute; reflexivity|]. split; [reflexivity|]. apply can_start_spec. reflexivity. }
  destruct K as (r & out & E & C & R).
  assert (A : forall l1 l2 r out, play v (l1 ++ l2) r out = (let! (r', out') := play v l1 r out in play v l2 r' out')).
  { induction l1 as [|a l1 IH]; intros l2 r0 out0; [reflexivity|]. cbn [app play]. destruct (act v a r0) as [[r1 o1]| | |]; cbn [obind]; auto. }
  unfold session in *. destruct (construct v 1 (ex_options [] FTDM_DICE)) as [[r0 o0]| | |] eqn:Cn; try discriminate.
  cbn [obind] in *. rewrite A, E. cbn [obind play].
  assert (D : act v (Signal 1 (start_signal true)) r = Diverge); [|rewrite D; reflexivity].
  apply (C71_stops_partial v 1 (ex_options [] FTDM_DICE) duel_ready r out).
  - unfold session. rewrite Cn. exact E.
  - split; [eauto|]. split; [exact C|]. split; [exact R|]. split; [reflexivity|]. intros k _. reflexivity.
Qed.
Print Assumptions C71_dice_refuted.

Example C71_ex : ~ In 1 (entrants ex_history) /\
  (exists k, (k < ev_fuel ex_env)%nat /\ ~ tie (throw (ev_rng ex_env) k)) /\ length ex_history = 8%nat.
Proof.
  split; [cbn; intuition discriminate|]. split; [|reflexivity]. exists 1%nat. split; [repeat constructor|]. unfold tie. vm_compute. discriminate.
Qed.

(** ** C72: events reach exactly the clients in the room *)

Theorem C72_recipients : forall v host o l r out a r' s, session v host o l = Ok (r, out) -> act v a r = Ok (r', s) ->
  forall c e, In (c, e) s -> present r' c.
Proof.
  intros v host o l r out a r' s H E. pose proof (session_sane _ _ _ _ _ _ H) as S. apply act_step in E; [|exact S].
  eapply step_recipients; eauto.
Qed.
Print Assumptions C72_recipients.

Example C72_ex : exists r out r' s, session ex_env 1 (ex_options [] 0) [Enter 2] = Ok (r, out) /\
  act ex_env (Enter 3) r = Ok (r', s) /\ map fst s = [3; 1; 2; 3].
Proof. do 4 eexists. split; [vm_compute; reflexivity|]. split; vm_compute; reflexivity. Qed.

(** ** C73: nobody loses their place *)

Theorem C73_stays : forall v host o l r out a r' s, session v host o l = Ok (r, out) -> act v a r = Ok (r', s) ->
  (forall t p c, sits r t p c -> sits r' t p c) /\ (forall c, watches r c -> watches r' c).
Proof.
  intros v host o l r out a r' s H E. pose proof (session_sane _ _ _ _ _ _ H) as S. apply act_step in E; [|exact S].
  split; [eapply step_sits; eauto|eapply step_watches; eauto].
Qed.
Print Assumptions C73_stays.

Example C73_ex : exists r out r' s, session ex_env 1 (ex_options [] 0) (duel_ready ++ [Enter 3]) = Ok (r, out) /\
  act ex_env (Signal 1 (start_signal false)) r = Ok (r', s) /\ sits r' 1 0 2 /\ watches r' 3.
Proof.
  do 4 eexists. split; [vm_compute; reflexivity|]. split; [vm_compute; reflexivity|]. split; [eexists; split; reflexivity|]. left. reflexivity.
Qed.

(** ** C74: duels start with decks the validator accepted *)

Lemma session_started : forall v host o l r out, session v host o l = Ok (r, out) -> deciding r -> all_ready r.
Proof.
  intros v host o l r out H. destruct (session_inv v host o (fun r _ _ => deciding r -> all_ready r)) with (3 := H) as [_ K]; [| |exact K].
  - intros [d D]. discriminate.
  - intros r0 out0 done a r' s S IH St D.
    assert (X : forall t p f, deciding (set_slot t p f r0) -> deciding r0).
    { intros t p f [d E]. destruct (set_slot_rest r0 t p f) as (_ & _ & X & _). exists d. congruence. }
    destruct St; try (apply X in D; auto; exfalso; destruct D; unfold configuring in *; congruence); auto.
    destruct (start_run v r0 r' o0 H0 (sane_drawn v r0 S H0) H1 H2) as [(d' & n & ->) _]. exact H1.
Qed.

Theorem C74_decks : forall v host o l r out, session v host o l = Ok (r, out) -> deciding r ->
  (forall t, t < 2 -> exists p c, sits r t p c) /\
  (forall t p s c, place r t p = Some s -> sl_client s = Some c ->
     sl_ready s = true /\ sl_valid s = true /\ fst (ev_check v (house_list o) (sl_deck s)) = true).
Proof.
  intros v host o l r out H D. pose proof (session_sane _ _ _ _ _ _ H) as S.
  destruct (session_fixed _ _ _ _ _ _ H) as [Ho _]. destruct (session_started _ _ _ _ _ _ H D) as [A B].
  split; [exact A|]. intros t p s c P C. destruct (B t p s c P C) as [V R]. split; [exact R|]. split; [exact V|].
  pose proof (sn_deck v r S t p s P) as K. rewrite V, Ho in K. exact K.
Qed.
Print Assumptions C74_decks.

Example C74_ex : exists r out s, session ex_env 1 (ex_options [] 0) (duel_ready ++ [Signal 1 (start_signal true)]) = Ok (r, out) /\
  deciding r /\ place r 1 0 = Some s /\ sl_deck s = ex_deck.
Proof. do 3 eexists. split; [vm_compute; reflexivity|]. split; [eexists; reflexivity|]. split; reflexivity. Qed.

(** ** C75: ready signals *)

Theorem C75_ready : forall v host o l r out c b, session v host o l = Ok (r, out) -> configuring r ->
  (exists t p, sits r t p c) ->
  exists t p s r', place r t p = Some s /\ sl_client s = Some c /\
    place r' t p = Some (mkSlot (sl_valid s) (b && (sl_valid s || sl_ready s)) (Some c) (sl_deck s)) /\ same_but r r' t p /\
    visit v c (SgConf (CsReady b)) r =
      Ok (r', if Bool.eqb (b && (sl_valid s || sl_ready s)) (sl_ready s) then []
              else broadcast r (EvConf (CeUpdateDuelist (mkDuelist t p (ev_user v c) (c =? host) b)))).
Proof.
  intros v host o l r out c b H C (t0 & p0 & Q). pose proof (session_sane _ _ _ _ _ _ H) as S.
  destruct (session_fixed _ _ _ _ _ _ H) as [_ Hh].
  unfold visit. unfold configuring in C. rewrite C. cbn [signal_conf]. unfold ready_status.
  destruct (find_peer_sane v r c S) as [[_ E]|(t & p & E & T & (s & A & K))]; [destruct (E t0 p0 Q)|].
  rewrite E. cbn [obind]. rewrite slot_at_place, A by exact T. cbn [or_ub obind]. exists t, p, s.
  assert (Same : same_but r r t p) by (repeat split; reflexivity).
  assert (Oc : occupants (set_slot t p (set_ready b) r) = occupants r).
  { apply sitters_set_slot. reflexivity. }
  destruct (Bool.eqb b (sl_ready s)) eqn:B; [|destruct (b && negb (sl_valid s)) eqn:G].
  - apply Bool.eqb_prop in B. subst b. exists r. split; [exact A|]. split; [exact K|].
    replace (sl_ready s && (sl_valid s || sl_ready s)) with (sl_ready s) by (destruct (sl_ready s), (sl_valid s); reflexivity).
    split; [rewrite <- K; destruct s; exact A|]. split; [exact Same|]. rewrite Bool.eqb_reflx. reflexivity.
  - exists r. split; [exact A|]. split; [exact K|]. destruct b, (sl_valid s) eqn:V, (sl_ready s) eqn:R; try discriminate. cbn.
    split; [rewrite <- K; destruct s; cbn in *; subst; exact A|]. split; [exact Same|]. reflexivity.
  - exists (set_slot t p (set_ready b) r). split; [exact A|]. split; [exact K|].
    replace (b && (sl_valid s || sl_ready s)) with b by (destruct b, (sl_valid s), (sl_ready s); try discriminate; reflexivity).
    rewrite set_slot_place, !N.eqb_refl by exact T. cbn [andb]. rewrite A. cbn [option_map]. split; [rewrite <- K; reflexivity|].
    split; [apply set_slot_same_but; exact T|]. rewrite B, send_all_broadcast, Hh, (N.eqb_sym host). unfold broadcast. rewrite Oc. reflexivity.
Qed.
Print Assumptions C75_ready.

(** Withdrawing works even after the deck was rejected. *)
Example C75_ex : exists r out r', session ex_env 1 (ex_options [] 0) (Enter 2 :: prepare 1 ++ [Signal 1 (SgConf (CsUpdateDeck deck0))]) = Ok (r, out) /\
  configuring r /\ sits r 0 0 1 /\
  visit ex_env 1 (SgConf (CsReady false)) r =
    Ok (r', broadcast r (EvConf (CeUpdateDuelist (mkDuelist 0 0 (mkUser [1] [66]) true false)))).
Proof. do 3 eexists. split; [vm_compute; reflexivity|]. split; [reflexivity|]. split; [eexists; split; reflexivity|]. vm_compute. reflexivity. Qed.
