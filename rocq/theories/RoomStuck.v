(** Which rooms can still be started. *)
From Verif Require Import Base BaseProofs Room RoomSpec RoomProofs RoomInv RoomTotal RoomLive RoomStuckSpec.

Local Open Scope N_scope.

(** ** A later seat that is not good stays so *)

Lemma later_step : forall v r a r' o t p s c t0 p0, sane v r -> configuring r -> act v a r = Ok (r', o) ->
  place r t p = Some s -> sl_client s = Some c -> sits r t0 p0 c -> before t0 p0 t p -> ~ good s ->
  configuring r' /\ place r' t p = Some s /\ sits r' t0 p0 c.
Proof.
  intros v r a r' o t p s c t0 p0 S C E A B Q Bf V. pose proof (act_step _ _ _ _ _ S E) as St.
  assert (NR : ~ all_ready r) by (intros [_ R]; apply V; exact (R _ _ _ _ A B)).
  assert (Q' : sits r' t0 p0 c) by (eapply step_sits; eauto).
  enough (K : configuring r' /\ place r' t p = Some s) by tauto.
  assert (Cs : forall t1 p1 f, configuring (set_slot t1 p1 f r)).
  { intros t1 p1 f. unfold configuring. destruct (set_slot_rest r t1 p1 f) as (_ & _ & X & _). rewrite X. exact C. }
  assert (Far : forall t1 p1 f, (t1 = 0 \/ t1 = 1) -> (t1, p1) <> (t, p) -> place (set_slot t1 p1 f r) t p = Some s).
  { intros t1 p1 f T D. rewrite set_slot_place by exact T. destruct (N.eqb_spec t1 t) as [->|]; [|exact A].
    destruct (N.eqb_spec p1 p) as [->|]; [congruence|exact A]. }
  assert (Fd : forall c1 t1 p1, find_peer c1 r = Ok (Some (t1, p1)) -> sits r t1 p1 c1 -> (t1, p1) <> (t, p)).
  { intros c1 t1 p1 K Q1 X. injection X as -> ->. destruct Q1 as (s1 & X1 & X2). assert (c1 = c) by congruence. subst c1.
    destruct (find_peer_first _ _ _ _ _ S K _ _ Q) as [[-> ->]|K1].
    - exact (before_irrefl _ _ Bf).
    - exact (before_irrefl _ _ (before_trans _ _ _ _ _ _ K1 Bf)). }
  destruct a as [c1|c1 sg]; cbn [act] in E.
  - destruct (enter_run v r c1 S C) as [(_ & _ & _ & K)|[(_ & _ & _ & K)|(t1 & p1 & NT & F & K)]]; cbn zeta in K; rewrite K in E;
      inversion E; subst.
    + split; [exact C|exact A].
    + split; [apply Cs|]. apply Far; [destruct NT; lia|]. destruct F as (_ & (s' & F1 & F2) & _). intros X.
      injection X as -> ->. congruence.
  - unfold visit in E. unfold configuring in C. rewrite C in E.
    destruct sg as [|sg|sg]; try (inversion E; subst; split; [exact C|exact A]).
    destruct sg as [|d|b|b]; cbn [signal_conf] in E.
    + inversion E; subst. split; [exact C|exact A].
    + unfold update_deck in E. destruct (find_peer_sane v r c1 S) as [[K _]|(t1 & p1 & K & T & Q1)]; rewrite K in E; cbn [obind] in E.
      { inversion E; subst. split; [exact C|exact A]. }
      assert (D := Fd _ _ _ K Q1).
      destruct (ev_check _ _ _) as [[] err]; inversion E; subst; (split; [apply Cs|apply Far; assumption]).
    + unfold ready_status in E. destruct (find_peer_sane v r c1 S) as [[K _]|(t1 & p1 & K & T & Q1)]; rewrite K in E; cbn [obind] in E.
      { inversion E; subst. split; [exact C|exact A]. }
      assert (D := Fd _ _ _ K Q1).
      destruct Q1 as (s1 & X1 & X2). rewrite slot_at_place, X1 in E by exact T. cbn [or_ub obind] in E.
      destruct (Bool.eqb b (sl_ready s1)); [inversion E; subst; split; [exact C|exact A]|].
      destruct (b && negb (sl_valid s1)); inversion E; subst; (split; [first [exact C|apply Cs]|first [exact A|apply Far; assumption]]).
    + unfold start_dueling in E. destruct (negb (c1 =? rm_host r)); [inversion E; subst; split; [exact C|exact A]|].
      destruct (can_start r) eqn:X; cbn [negb] in E; [apply can_start_spec in X; contradiction|].
      inversion E; subst. split; [exact C|exact A].
Qed.

Lemma later_play : forall v l r out r' out' t p s c t0 p0, sane v r -> configuring r ->
  place r t p = Some s -> sl_client s = Some c -> sits r t0 p0 c -> before t0 p0 t p -> ~ good s ->
  play v l r out = Ok (r', out') -> configuring r'.
Proof.
  intros v. induction l as [|a l IH]; intros r out r' out' t p s c t0 p0 S C A B Q Bf V E; cbn [play] in E; [inversion E; subst; exact C|].
  destruct (act v a r) as [[r1 o]| | |] eqn:Ac; cbn [obind] in E; try discriminate.
  destruct (later_step _ _ _ _ _ _ _ _ _ _ _ S C Ac A B Q Bf V) as (C1 & A1 & Q1). apply act_step in Ac; [|exact S].
  eapply (IH r1 _ r' out' t p s c t0 p0); eauto. eapply sane_step; eauto.
Qed.

(** ** Making the first seats good *)

Record betters (r r' : room) : Prop := {
  bt_options : rm_options r' = rm_options r;
  bt_host : rm_host r' = rm_host r;
  bt_state : rm_state r' = rm_state r;
  bt_some : forall t p s, place r t p = Some s ->
    exists s', place r' t p = Some s' /\ sl_client s' = sl_client s /\ (good s -> good s');
  bt_none : forall t p, place r t p = None -> place r' t p = None }.

Lemma betters_refl : forall r, betters r r.
Proof. intros r. constructor; eauto. Qed.
Lemma betters_trans : forall r1 r2 r3, betters r1 r2 -> betters r2 r3 -> betters r1 r3.
Proof.
  intros r1 r2 r3 [A1 A2 A3 A4 A5] [B1 B2 B3 B4 B5]. constructor; try congruence.
  - intros t p s P. destruct (A4 _ _ _ P) as (s2 & P2 & C2 & G2). destruct (B4 _ _ _ P2) as (s3 & P3 & C3 & G3).
    exists s3. split; [exact P3|]. split; [congruence|auto].
  - intros t p P. auto.
Qed.
Lemma betters_sits : forall r r', betters r r' -> forall t p c, sits r t p c <-> sits r' t p c.
Proof.
  intros r r' B t p c. split.
  - intros (s & P & C). destruct (bt_some _ _ B _ _ _ P) as (s' & P' & C' & _). exists s'. split; [exact P'|congruence].
  - intros (s' & P' & C'). destruct (place r t p) as [s|] eqn:P.
    + destruct (bt_some _ _ B _ _ _ P) as (s2 & P2 & C2 & _). exists s. split; [exact P|congruence].
    + rewrite (bt_none _ _ B _ _ P) in P'. discriminate.
Qed.
Lemma betters_slot : forall r t p f, t = 0 \/ t = 1 -> (forall s, sl_client (f s) = sl_client s) ->
  (forall s, good s -> good (f s)) -> betters r (set_slot t p f r).
Proof.
  intros r t p f T Fc Fg. destruct (set_slot_rest r t p f) as (A & B & C & _).
  constructor; try assumption.
  - intros t' p' s P. rewrite set_slot_place by exact T.
    destruct (N.eqb_spec t t') as [->|]; [destruct (N.eqb_spec p p') as [->|]|]; cbn [andb]; eauto.
    rewrite P. cbn [option_map]. eauto.
  - intros t' p' P. rewrite set_slot_place by exact T.
    destruct (N.eqb_spec t t') as [->|]; [destruct (N.eqb_spec p p') as [->|]|]; cbn [andb]; auto.
    rewrite P. reflexivity.
Qed.

Definition first_seat (r : room) (c t p : N) : Prop := sits r t p c /\
  forall t' p', sits r t' p' c -> (t' = t /\ p' = p) \/ before t p t' p'.
Lemma first_found : forall v r c t p, sane v r -> first_seat r c t p -> find_peer c r = Ok (Some (t, p)) /\ (t = 0 \/ t = 1).
Proof.
  intros v r c t p S [Q F]. destruct (find_peer_sane v r c S) as [[_ K]|(t1 & p1 & K & T & Q1)]; [destruct (K _ _ Q)|].
  destruct (find_peer_first _ _ _ _ _ S K _ _ Q) as [[-> ->]|B1]; [auto|].
  destruct (F _ _ Q1) as [[-> ->]|B2]; [auto|]. exfalso. exact (before_irrefl _ _ (before_trans _ _ _ _ _ _ B1 B2)).
Qed.
Lemma first_kept : forall r r' c t p, betters r r' -> first_seat r c t p -> first_seat r' c t p.
Proof.
  intros r r' c t p B [Q F]. pose proof (betters_sits _ _ B) as K. split; [now apply K|].
  intros t' p' X. apply F. now apply K.
Qed.

Definition settle (d : deck) (c : N) : list action :=
  [Signal c (SgConf (CsUpdateDeck d)); Signal c (SgConf (CsReady true))].

Lemma settle_one : forall v r out d c, sane v r -> configuring r -> fst (ev_check v (house_list (rm_options r)) d) = true ->
  exists r' out', play v (settle d c) r out = Ok (r', out') /\ sane v r' /\ betters r r' /\
    forall t p, first_seat r c t p -> exists s', place r' t p = Some s' /\ good s'.
Proof.
  intros v r out d c S C K. change (house_list (rm_options r)) with (banlist_id (rm_options r)) in K.
  assert (A1 : exists r1 o1, act v (Signal c (SgConf (CsUpdateDeck d))) r = Ok (r1, o1) /\ betters r r1 /\
    forall t p, first_seat r c t p -> exists s, place r1 t p = Some s /\ sl_valid s = true).
  { cbn [act]. unfold visit. unfold configuring in C. rewrite C. cbn [signal_conf]. unfold update_deck.
    destruct (find_peer_sane v r c S) as [[F No]|(t1 & p1 & F & T & Q)]; rewrite F; cbn [obind].
    - do 2 eexists. split; [reflexivity|]. split; [apply betters_refl|]. intros t p [X _]. destruct (No _ _ X).
    - destruct (ev_check v (banlist_id (rm_options r)) d) as [ok err]. cbn [fst] in K. subst ok.
      do 2 eexists. split; [reflexivity|]. split.
      + apply betters_slot; [exact T|reflexivity|]. intros s [_ G]. split; [reflexivity|exact G].
      + intros t p Fs. destruct (first_found _ _ _ _ _ S Fs) as [F2 _]. assert (t = t1 /\ p = p1) as [-> ->] by (split; congruence).
        destruct Q as (s & P & _). rewrite set_slot_place, !N.eqb_refl by exact T. cbn [andb]. rewrite P.
        cbn [option_map]. eexists. split; reflexivity. }
  destruct A1 as (r1 & o1 & A1 & B1 & V1). assert (S1 : sane v r1) by (eapply sane_step; [exact S|eapply act_step; eauto]).
  assert (A2 : exists r2 o2, act v (Signal c (SgConf (CsReady true))) r1 = Ok (r2, o2) /\ betters r1 r2 /\
    forall t p, first_seat r c t p -> exists s, place r2 t p = Some s /\ good s).
  { cbn [act]. unfold visit. rewrite (bt_state _ _ B1). unfold configuring in C. rewrite C. cbn [signal_conf]. unfold ready_status.
    destruct (find_peer_sane v r1 c S1) as [[F No]|(t1 & p1 & F & T & Q)]; rewrite F; cbn [obind].
    - do 2 eexists. split; [reflexivity|]. split; [apply betters_refl|]. intros t p X.
      destruct (first_kept _ _ _ _ _ B1 X) as [Y _]. destruct (No _ _ Y).
    - assert (Same : forall t p, first_seat r c t p -> t = t1 /\ p = p1).
      { intros t p X. destruct (first_found _ _ _ _ _ S1 (first_kept _ _ _ _ _ B1 X)) as [Y _]. split; congruence. }
      destruct Q as (s & P & Cl). rewrite slot_at_place, P by exact T. cbn [or_ub obind].
      destruct (sl_ready s) eqn:R; cbn [Bool.eqb andb].
      + do 2 eexists. split; [reflexivity|]. split; [apply betters_refl|]. intros t p X.
        destruct (Same _ _ X) as [-> ->]. destruct (V1 _ _ X) as (s' & P' & V'). exists s'. split; [exact P'|].
        split; [exact V'|congruence].
      + destruct (sl_valid s) eqn:V; cbn [negb].
        * do 2 eexists. split; [reflexivity|]. split.
          { apply betters_slot; [exact T|reflexivity|]. intros x [G _]. split; [exact G|reflexivity]. }
          intros t p X. destruct (Same _ _ X) as [-> ->]. rewrite set_slot_place, !N.eqb_refl by exact T. cbn [andb].
          rewrite P. cbn [option_map]. eexists. split; [reflexivity|]. split; [exact V|reflexivity].
        * do 2 eexists. split; [reflexivity|]. split; [apply betters_refl|]. intros t p X.
          destruct (Same _ _ X) as [-> ->]. destruct (V1 _ _ X) as (s' & P' & V'). congruence. }
  destruct A2 as (r2 & o2 & A2 & B2 & G2). exists r2, ((out ++ o1) ++ o2). split.
  { unfold settle. cbn [play]. rewrite A1. cbn [obind]. rewrite A2. reflexivity. }
  split; [eapply sane_step; [exact S1|eapply act_step; eauto]|]. split; [eapply betters_trans; eassumption|exact G2].
Qed.

Lemma settle_all : forall v d cs r out, sane v r -> configuring r -> fst (ev_check v (house_list (rm_options r)) d) = true ->
  exists r' out', play v (flat_map (settle d) cs) r out = Ok (r', out') /\ sane v r' /\ betters r r' /\
    forall c t p, In c cs -> first_seat r c t p -> exists s', place r' t p = Some s' /\ good s'.
Proof.
  intros v d. induction cs as [|c cs IH]; intros r out S C K.
  - exists r, out. split; [reflexivity|]. split; [exact S|]. split; [apply betters_refl|]. intros ? ? ? [].
  - destruct (settle_one v r out d c S C K) as (r1 & out1 & P1 & S1 & B1 & G1).
    destruct (IH r1 out1 S1) as (r2 & out2 & P2 & S2 & B2 & G2).
    { unfold configuring. rewrite (bt_state _ _ B1). exact C. }
    { rewrite (bt_options _ _ B1). exact K. }
    exists r2, out2. cbn [flat_map]. rewrite play_app, P1. cbn [obind]. split; [exact P2|]. split; [exact S2|].
    split; [eapply betters_trans; eassumption|]. intros c' t p [<-|J] F.
    + destruct (G1 _ _ F) as (s & P & G). destruct (bt_some _ _ B2 _ _ _ P) as (s' & P' & _ & G'). eauto.
    + apply (G2 c' t p J). eapply first_kept; eassumption.
Qed.

Lemma settled_good : forall v d r out, sane v r -> configuring r -> settled r ->
  fst (ev_check v (house_list (rm_options r)) d) = true ->
  exists r' out', play v (flat_map (settle d) (occupants r)) r out = Ok (r', out') /\ sane v r' /\ betters r r' /\
    forall t p s c, place r' t p = Some s -> sl_client s = Some c -> good s.
Proof.
  intros v d r out S C St K. destruct (settle_all v d (occupants r) r out S C K) as (r' & out' & P & S' & B & G).
  exists r', out'. split; [exact P|]. split; [exact S'|]. split; [exact B|]. intros t p s' c P' C'.
  assert (Q : sits r t p c) by (apply (betters_sits _ _ B); exists s'; auto).
  destruct (find_peer_sane v r c S) as [[_ No]|(t1 & p1 & F & T & Q1)]; [destruct (No _ _ Q)|].
  assert (Fs : first_seat r c t1 p1).
  { split; [exact Q1|]. intros t' p' X. exact (find_peer_first _ _ _ _ _ S F _ _ X). }
  destruct (find_peer_first _ _ _ _ _ S F _ _ Q) as [[-> ->]|Bf].
  - destruct (G c t1 p1) as (s2 & P2 & G2); [|exact Fs|congruence]. apply in_occupants. left. eauto.
  - destruct Q as (s & Ps & Cs). assert (Gs := St _ _ _ _ _ _ Ps Cs Q1 Bf).
    destruct (bt_some _ _ B _ _ _ Ps) as (s2 & P2 & _ & G2). assert (s2 = s') by congruence. subst s2. auto.
Qed.

(** ** Somebody to play against *)

Lemma fresh_client : forall l : list N, exists c, ~ In c l.
Proof.
  intros l. exists (fold_right N.max 0 l + 1). intros J.
  assert (H : forall x, In x l -> x <= fold_right N.max 0 l).
  { clear J. induction l as [|a l IH]; intros x J; [destruct J|]. cbn [fold_right]. destruct J as [<-|J]; [lia|]. specialize (IH x J). lia. }
  specialize (H _ J). lia.
Qed.

Lemma oppose : forall v r out, sane v r -> configuring r -> settled r ->
  exists l r' out', play v l r out = Ok (r', out') /\ sane v r' /\ configuring r' /\ settled r' /\
    rm_options r' = rm_options r /\ ~ In (rm_host r) (entrants l) /\ exists p c, sits r' 1 p c.
Proof.
  intros v r out S C St. destruct (sitters (rm_team1 r)) as [|c0 cs] eqn:E.
  - destruct (fresh_client (occupants r)) as [c Fr].
    assert (Nc : forall t p, ~ sits r t p c).
    { intros t p X. apply Fr. apply in_occupants. left. eauto. }
    assert (No : forall p c', ~ sits r 1 p c').
    { intros p c' (s & P & Cl). assert (X : In c' (sitters (rm_team1 r))); [|rewrite E in X; destruct X].
      apply in_sitters. exists (N.to_nat p), s. auto. }
    assert (Nf : ~ full r 1).
    { intros F. destruct (sane_limit v r S) as (m0 & m1 & _ & L1 & _ & _ & _ & B1).
      destruct (F 0) as [c' X]; [lia|]. exact (No _ _ X). }
    assert (D1 : duelists r 1 = 0) by (unfold duelists; cbn [seats]; now rewrite E).
    assert (D0 : 0 < duelists r 0).
    { destruct (sn_host v r S) as (s & P & Cl). assert (X : In (rm_host r) (sitters (rm_team0 r))).
      { apply in_sitters. exists 0%nat, s. auto. }
      unfold duelists, lenN. cbn [seats]. destruct (sitters (rm_team0 r)); [destruct X|cbn [length]; lia]. }
    destruct (enter_run v r c S C) as [(_ & F1 & _)|[(_ & F1 & _)|(t & p & NT & F & En)]]; [contradiction|contradiction|].
    cbn zeta in En. assert (T : t = 1).
    { destruct NT as (T2 & _ & [X|[X|[X Y]]]); assert (Z : t = 0 \/ t = 1) by lia; destruct Z as [-> | ->]; try reflexivity;
        exfalso; change (1 - 0) with 1 in *; try contradiction; lia. }
    subst t. exists [Enter c]. do 2 eexists. cbn [play act]. rewrite En. cbn [obind]. split; [reflexivity|].
    split. { eapply sane_step; [exact S|]. eapply (act_step v r (Enter c)); [exact S|exact En]. }
    destruct (set_slot_rest r 1 p (set_client c)) as (X1 & _ & X2 & _).
    split; [unfold configuring; rewrite X2; exact C|].
    destruct F as (_ & (s0 & P0 & C0) & _).
    assert (Pl : forall t' p' s' c', place (set_slot 1 p (set_client c) r) t' p' = Some s' -> sl_client s' = Some c' ->
      (t' = 1 /\ p' = p /\ c' = c) \/ (place r t' p' = Some s' /\ c' <> c)).
    { intros t' p' s' c' Q Cl. rewrite set_slot_place in Q by now right.
      assert (Old : place r t' p' = Some s' -> place r t' p' = Some s' /\ c' <> c).
      { intros H. split; [exact H|]. intros ->. apply (Nc t' p'). exists s'. auto. }
      destruct (N.eqb_spec 1 t') as [<-|]; [destruct (N.eqb_spec p p') as [<-|]|]; cbn [andb] in Q; auto.
      rewrite P0 in Q. cbn [option_map] in Q. injection Q as <-. cbn in Cl. left. repeat split. congruence. }
    split.
    { intros t' p' s' c' t0 p0 Q Cl (s1 & Q1 & Cl1) Bf.
      destruct (Pl _ _ _ _ Q Cl) as [(-> & -> & ->)|[Q2 D2]], (Pl _ _ _ _ Q1 Cl1) as [(-> & -> & X)|[Q3 D3]];
        try congruence; [exfalso; exact (before_irrefl _ _ Bf)|].
      eapply St; [exact Q2|exact Cl| |exact Bf]. exists s1. auto. }
    split; [exact X1|]. split.
    { intros J. cbn in J. destruct J as [J|[]]. apply (Nc 0 0). rewrite J. exact (sn_host v r S). }
    exists p, c. exists (set_client c s0). split; [|reflexivity].
    rewrite set_slot_place, !N.eqb_refl by now right. cbn [andb]. rewrite P0. reflexivity.
  - exists [], r, out. split; [reflexivity|]. repeat (split; [assumption || reflexivity|]). split; [intros []|].
    assert (X : In c0 (sitters (rm_team1 r))) by (rewrite E; now left). apply in_sitters in X.
    destruct X as (n & s & P & Cl). exists (N.of_nat n), c0, s. unfold place. cbn [seats]. rewrite Nat2N.id. auto.
Qed.

Lemma settle_entrants : forall d cs, entrants (flat_map (settle d) cs) = [].
Proof. intros d. induction cs as [|c cs IH]; [reflexivity|]. exact IH. Qed.

Lemma settled_ready : forall v d r out, sane v r -> configuring r -> settled r ->
  fst (ev_check v (house_list (rm_options r)) d) = true ->
  exists l r' out', play v l r out = Ok (r', out') /\ sane v r' /\ configuring r' /\ all_ready r' /\
    ~ In (rm_host r) (entrants l).
Proof.
  intros v d r out S C St K. destruct (oppose v r out S C St) as (l1 & r1 & out1 & P1 & S1 & C1 & St1 & O1 & Nh & p & c & Q).
  destruct (settled_good v d r1 out1 S1 C1 St1) as (r2 & out2 & P2 & S2 & B & G); [rewrite O1; exact K|].
  exists (l1 ++ flat_map (settle d) (occupants r1)), r2, out2. rewrite play_app, P1. cbn [obind].
  split; [exact P2|]. split; [exact S2|]. split; [unfold configuring; rewrite (bt_state _ _ B); exact C1|]. split; [split|].
  - intros t T. assert (Z : t = 0 \/ t = 1) by lia. destruct Z as [-> | ->].
    + exists 0, (rm_host r2). apply (sn_host v r2 S2).
    + exists p, c. now apply (betters_sits _ _ B).
  - intros t p' s c' P Cl. exact (G _ _ _ _ P Cl).
  - unfold entrants. rewrite flat_map_app. fold (entrants l1). fold (entrants (flat_map (settle d) (occupants r1))).
    rewrite settle_entrants, app_nil_r. exact Nh.
Qed.
