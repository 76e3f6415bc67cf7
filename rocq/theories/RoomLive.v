(** Rooms whose clients cooperate, and rooms that are stuck. *)
From Verif Require Import Base BaseProofs Room RoomSpec RoomProofs RoomInv RoomTotal.

Local Open Scope N_scope.

(** ** Which seat is found *)

Lemma scan_peer_first : forall c l pos max q, scan_peer c l pos max = Some q ->
  forall i s, pos <= i -> i < q -> nth_error l (N.to_nat (i - pos)) = Some s -> sl_client s <> Some c.
Proof.
  intros c. induction l as [|s l IH]; intros pos max q H i s' I J K; simpl in H; [discriminate|].
  destruct (match sl_client s with Some c' => c' =? c | None => false end) eqn:E.
  - injection H as <-. lia.
  - destruct (N.eqb_spec (pos + 1) max) as [M|M]; [discriminate|].
    destruct (N.eq_dec i pos) as [->|D].
    + rewrite N.sub_diag in K. injection K as <-. intros X. rewrite X, N.eqb_refl in E. discriminate.
    + replace (N.to_nat (i - pos)) with (S (N.to_nat (i - (pos + 1)))) in K by lia.
      eapply IH; [exact H| |exact J|exact K]. lia.
Qed.

Lemma find_peer_first : forall v r c t p, sane v r -> find_peer c r = Ok (Some (t, p)) ->
  forall t' p', sits r t' p' c -> (t' = t /\ p' = p) \/ before t p t' p'.
Proof.
  intros v r c t p S H t' p' Q. destruct (sane_limit v r S) as (m0 & m1 & L0 & L1 & M0 & M1 & B0 & B1).
  unfold find_peer in H. rewrite M0 in H. cbn [obind] in H.
  pose proof (scan_peer_run c (rm_team0 r) 0 m0 ltac:(lia)) as R0.
  pose proof (sits_team _ _ _ _ Q) as T. pose proof (sits_limit _ _ _ _ _ S Q) as Lt. destruct Q as (s & A & B).
  destruct (scan_peer c (rm_team0 r) 0 m0) as [q|] eqn:E0.
  - injection H as <- <-. destruct T as [-> | ->]; [|right; left; lia].
    destruct (N.lt_trichotomy p' q) as [X|[X|X]]; [exfalso|left; auto|right; right; auto].
    apply (scan_peer_first _ _ _ _ _ E0 p' s); auto; [lia|]. rewrite N.sub_0_r. exact A.
  - rewrite M1 in H. cbn [obind] in H. destruct T as [-> | ->].
    + exfalso. apply (R0 p' s); [lia|rewrite <- L0; exact Lt|rewrite N.sub_0_r; exact A|exact B].
    + destruct (scan_peer c (rm_team1 r) 0 m1) as [q|] eqn:E1; [|discriminate]. injection H as <- <-.
      destruct (N.lt_trichotomy p' q) as [X|[X|X]]; [exfalso|left; auto|right; right; auto].
      apply (scan_peer_first _ _ _ _ _ E1 p' s); auto; [lia|]. rewrite N.sub_0_r. exact A.
Qed.

(** Every seat has one client. *)
Definition once (r : room) : Prop := forall t p t' p' c, sits r t p c -> sits r t' p' c -> t = t' /\ p = p'.

Lemma find_peer_once : forall v r c t p, sane v r -> once r -> sits r t p c -> find_peer c r = Ok (Some (t, p)).
Proof.
  intros v r c t p S O Q. destruct (find_peer_sane v r c S) as [[_ E]|(t' & p' & E & _ & Q')].
  - destruct (E t p Q).
  - destruct (O _ _ _ _ _ Q Q') as [-> ->]. exact E.
Qed.

(** ** Cooperation *)

Definition will_ready (c : N) (l : list action) : Prop := In (Signal c (SgConf (CsReady true))) l.
Fixpoint prepares (c : N) (l : list action) : Prop :=
  match l with
  | [] => False
  | a :: l' => ((exists d, a = Signal c (SgConf (CsUpdateDeck d))) /\ will_ready c l') \/ prepares c l'
  end.

Lemma prepared_prepares : forall c l, prepared c l -> prepares c l.
Proof.
  intros c l (l1 & d & l2 & l3 & ->). induction l1 as [|a l1 IH]; cbn [app prepares].
  - left. split; [eauto|]. unfold will_ready. apply in_app_iff. right. left. reflexivity.
  - right. exact IH.
Qed.

(** What is still to come suffices to get the seat ready. *)
Definition fits (s : slot) (c : N) (l : list action) : Prop :=
  (sl_valid s = true /\ (sl_ready s = true \/ will_ready c l)) \/ prepares c l.
Definition on_track (r : room) (l : list action) : Prop :=
  forall t p s c, place r t p = Some s -> sl_client s = Some c -> fits s c l.

Lemma fits_skip : forall s c a l, fits s c (a :: l) ->
  (forall d, a <> Signal c (SgConf (CsUpdateDeck d))) -> a <> Signal c (SgConf (CsReady true)) -> fits s c l.
Proof.
  intros s c a l [[V [R|R]]|P] D N.
  - left. auto.
  - destruct R as [R|R]; [congruence|]. left. auto.
  - destruct P as [[[d E] _]|P]; [destruct (D d E)|]. right. exact P.
Qed.

Lemma track_set : forall r l t p f, t = 0 \/ t = 1 -> on_track r l ->
  (forall s c, place r t p = Some s -> sl_client (f s) = Some c -> fits (f s) c l) -> on_track (set_slot t p f r) l.
Proof.
  intros r l t p f T J K t' p' s c A B. rewrite set_slot_place in A by exact T.
  destruct ((t =? t') && (p =? p')); [|eapply J; eauto].
  destruct (place r t p) as [s0|]; [|discriminate]. injection A as <-. eapply K; eauto.
Qed.

Lemma same_seats_track : forall r r' l, rm_team0 r' = rm_team0 r -> rm_team1 r' = rm_team1 r -> on_track r l -> on_track r' l.
Proof.
  intros r r' l A B J t p s c. unfold on_track, place, seats in *. rewrite A, B. apply J.
Qed.

Lemma track_step : forall v r a l r' o, sane v r -> once r -> configuring r -> on_track r (a :: l) ->
  helpful v (rm_options r) a -> (forall c, a = Enter c -> prepares c l) ->
  act v a r = Ok (r', o) -> configuring r' -> on_track r' l.
Proof.
  intros v r a l r' o S O C J H En E C'.
  assert (Skip : (forall c d, a <> Signal c (SgConf (CsUpdateDeck d))) -> (forall c, a <> Signal c (SgConf (CsReady true))) -> on_track r l).
  { intros X Y t p s c A B. eapply fits_skip; [eapply J; eauto|apply X|apply Y]. }
  destruct a as [c|c s]; cbn [act] in E.
  - assert (J0 : on_track r l) by (apply Skip; intros; discriminate). specialize (En c eq_refl).
    destruct (enter_run v r c S C) as [(_ & _ & _ & K)|[(_ & _ & _ & K)|(t & p & NT & F & K)]]; cbn zeta in K; rewrite K in E;
      inversion E; subst.
    + eapply same_seats_track; [| |exact J0]; reflexivity.
    + apply track_set; [destruct NT; lia|exact J0|]. intros s c' A B. cbn in B. injection B as <-. right. exact En.
  - unfold visit in E. unfold configuring in C. rewrite C in E.
    destruct s as [|s|s]; try (inversion E; subst; apply Skip; intros; discriminate).
    destruct s as [|d|b|b]; cbn [signal_conf helpful] in *.
    + inversion E; subst. apply Skip; intros; discriminate.
    + unfold update_deck in E. destruct (find_peer_sane v r c S) as [[K No]|(t & p & K & T & Q)]; rewrite K in E; cbn [obind] in E.
      * inversion E; subst. intros t p s c' A B. destruct (N.eq_dec c' c) as [->|D]; [destruct (No t p); exists s; auto|].
        eapply fits_skip; [eapply J; eauto|intros; congruence|discriminate].
      * change (banlist_id (rm_options r)) with (house_list (rm_options r)) in E.
        destruct (ev_check v (house_list (rm_options r)) d) as [ok err] eqn:Ck. cbn [fst] in H. subst ok.
        inversion E; subst. intros t' p' s c' A B. rewrite set_slot_place in A by exact T.
        destruct ((t =? t') && (p =? p')) eqn:Sm.
        { apply andb_true_iff in Sm. destruct Sm as [S1 S2]. apply N.eqb_eq in S1, S2. subst t' p'.
          destruct Q as (s0 & Q1 & Q2). rewrite Q1 in A. injection A as <-. cbn in B. assert (c' = c) by congruence. subst c'.
          destruct (J _ _ _ _ Q1 Q2) as [[V [R|R]]|P].
          - left. split; [reflexivity|]. left. exact R.
          - destruct R as [R|R]; [discriminate|]. left. split; [reflexivity|]. right. exact R.
          - destruct P as [[_ W]|P]; [|right; exact P]. left. split; [reflexivity|]. right. exact W. }
        { destruct (N.eq_dec c' c) as [->|D].
          - assert (Q' : sits r t' p' c) by (exists s; auto). destruct (O _ _ _ _ _ Q Q') as [-> ->].
            rewrite !N.eqb_refl in Sm. discriminate.
          - eapply fits_skip; [eapply J; eauto|intros; congruence|discriminate]. }
    + subst b. unfold ready_status in E. destruct (find_peer_sane v r c S) as [[K No]|(t & p & K & T & Q)]; rewrite K in E; cbn [obind] in E.
      * inversion E; subst. intros t p s c' A B. destruct (N.eq_dec c' c) as [->|D]; [destruct (No t p); exists s; auto|].
        eapply fits_skip; [eapply J; eauto|intros; discriminate|congruence].
      * destruct Q as (s0 & Q1 & Q2). rewrite slot_at_place, Q1 in E by exact T. cbn [or_ub obind] in E.
        assert (Oth : forall t' p' s c', place r t' p' = Some s -> sl_client s = Some c' -> (t, p) <> (t', p') -> fits s c' l).
        { intros t' p' s c' A B D. eapply fits_skip; [eapply J; eauto|intros; discriminate|].
          intros X. injection X as <-. apply D. destruct (O t p t' p' c) as [-> ->]; [exists s0; auto|exists s; auto|reflexivity]. }
        assert (Own : (sl_valid s0 = true /\ (sl_ready s0 = true \/ True)) \/ prepares c l).
        { destruct (J _ _ _ _ Q1 Q2) as [[V [R|R]]|P]; auto. destruct P as [[[d X] _]|P]; [discriminate|auto]. }
        assert (Dec : forall t' p', (t, p) = (t', p') \/ (t, p) <> (t', p')).
        { intros t' p'. destruct (N.eq_dec t t'), (N.eq_dec p p'); subst; auto; right; congruence. }
        destruct (sl_ready s0) eqn:Rd; cbn [Bool.eqb] in E.
        { inversion E; subst. intros t' p' s c' A B. destruct (Dec t' p') as [X|X]; [|eapply Oth; eauto].
          injection X as <- <-. assert (s0 = s) by congruence. subst s0. assert (c' = c) by congruence. subst c'.
          destruct Own as [[V _]|P]; [left; auto|right; exact P]. }
        cbn [andb] in E. destruct (sl_valid s0) eqn:Vd; cbn [negb] in E.
        { inversion E; subst. intros t' p' s c' A B. rewrite set_slot_place in A by exact T.
          destruct (Dec t' p') as [X|X].
          - injection X as <- <-. rewrite !N.eqb_refl in A. cbn [andb] in A. rewrite Q1 in A. injection A as <-. cbn in B.
            left. cbn. auto.
          - replace ((t =? t') && (p =? p')) with false in A; [eapply Oth; eauto|].
            symmetry. apply andb_false_iff. destruct (N.eqb_spec t t'), (N.eqb_spec p p'); subst; auto. congruence. }
        { inversion E; subst. intros t' p' s c' A B. destruct (Dec t' p') as [X|X]; [|eapply Oth; eauto].
          injection X as <- <-. assert (s0 = s) by congruence. subst s0. assert (c' = c) by congruence. subst c'.
          destruct Own as [[V _]|P]; [discriminate|right; exact P]. }
    + assert (J0 : on_track r l) by (apply Skip; intros; discriminate).
      unfold start_dueling in E. destruct (negb (c =? rm_host r)); [inversion E; subst; exact J0|].
      destruct (can_start r) eqn:X; cbn [negb] in E; [|inversion E; subst; exact J0].
      apply can_start_spec in X. destruct (start_run v r r' o C (sane_drawn v r S C) X E) as [(d & n & ->) _]. discriminate.
Qed.

(** Once somebody else has entered, the second team has a member. *)
Definition opposed (r : room) : Prop := exists p c, sits r 1 p c.

Lemma occupied_team : forall r t, t = 0 \/ t = 1 -> 0 < duelists r t -> exists p c, sits r t p c.
Proof.
  intros r t T D. unfold duelists in D.
  assert (X : sitters (seats r t) <> []) by (intros E; rewrite E in D; vm_compute in D; discriminate).
  apply sitters_some in X. destruct X as (n & s & c & A & B). exists (N.of_nat n), c, s. unfold place. rewrite Nat2N.id. auto.
Qed.

Lemma team_occupied : forall r t p c, sits r t p c -> 0 < duelists r t.
Proof.
  intros r t p c (s & A & B). unfold duelists. assert (X : sitters (seats r t) <> []).
  { apply sitters_some. unfold place in A. eauto. }
  destruct (sitters (seats r t)); [congruence|]. unfold lenN. cbn [length]. lia.
Qed.

Lemma enter_opposed : forall v r c r' o, sane v r -> configuring r -> act v (Enter c) r = Ok (r', o) -> opposed r'.
Proof.
  intros v r c r' o S C E. cbn [act] in E. destruct (sane_limit v r S) as (m0 & m1 & L0 & L1 & _ & _ & B0 & B1).
  pose proof (team_occupied _ _ _ _ (sn_host v r S)) as H0.
  destruct (enter_run v r c S C) as [(_ & _ & _ & K)|[(_ & F1 & _ & K)|(t & p & NT & F & K)]]; cbn zeta in K; rewrite K in E; inversion E; subst.
  - destruct (F1 0 ltac:(lia)) as (x & Q). exists 0, x. exact Q.
  - destruct NT as (T & _ & NT). assert (O : t = 0 \/ t = 1) by lia. destruct O as [-> | ->].
    + assert (X : opposed r).
      { destruct NT as [NT|NT]; [destruct (NT 0 ltac:(change (1 - 0) with 1; lia)) as (x & Q); exists 0, x; exact Q|].
        apply occupied_team; [auto|]. change (1 - 0) with 1 in NT. lia. }
      destruct X as (q & x & s & A & B). exists q, x, s. rewrite set_slot_place by auto. auto.
    + destruct F as (_ & (s & A & B) & _). exists p, c, (set_client c s). rewrite set_slot_place, !N.eqb_refl by auto.
      cbn [andb]. rewrite A. split; reflexivity.
Qed.

Lemma step_opposed : forall v r a r' o, sane v r -> step v r a r' o -> opposed r -> opposed r'.
Proof. intros v r a r' o S St (p & c & Q). exists p, c. eapply step_sits; eauto. Qed.

Lemma left_for_good : forall v r a r' o, sane v r -> step v r a r' o -> ~ configuring r -> ~ configuring r'.
Proof. intros v r a r' o S St N. destruct St; try contradiction; exact N. Qed.

Lemma play_app : forall v l1 l2 r out, play v (l1 ++ l2) r out = (let! (r', out') := play v l1 r out in play v l2 r' out').
Proof.
  intros v. induction l1 as [|a l1 IH]; intros l2 r out; [reflexivity|]. cbn [app play].
  destruct (act v a r) as [[r1 o1]| | |]; cbn [obind]; auto.
Qed.

Lemma once_step : forall v r a r' o, sane v r -> step v r a r' o -> once r' -> once r.
Proof.
  intros v r a r' o S St O t p t' p' c Q Q'. apply (O t p t' p' c); eapply step_sits; eauto.
Qed.

Lemma once_play : forall v l r out r' out', sane v r -> play v l r out = Ok (r', out') -> once r' -> once r.
Proof.
  intros v. induction l as [|a l IH]; intros r out r' out' S E O; cbn [play] in E.
  - inversion E; subst. exact O.
  - destruct (act v a r) as [[r1 o]| | |] eqn:A; cbn [obind] in E; try discriminate. apply act_step in A; [|exact S].
    eapply once_step; eauto. eapply IH; [eapply sane_step; eauto|exact E|exact O].
Qed.

Lemma left_play : forall v l r out r' out', sane v r -> ~ configuring r -> play v l r out = Ok (r', out') -> ~ configuring r'.
Proof.
  intros v. induction l as [|a l IH]; intros r out r' out' S N E; cbn [play] in E; [inversion E; subst; exact N|].
  destruct (act v a r) as [[r1 o]| | |] eqn:A; cbn [obind] in E; try discriminate. apply act_step in A; [|exact S].
  eapply IH; [eapply sane_step; eauto| |exact E]. eapply left_for_good; eauto.
Qed.

Lemma track_play : forall v l r out r' out', sane v r -> configuring r -> on_track r l ->
  (forall a, In a l -> helpful v (rm_options r) a) ->
  (forall l1 c l2, l = l1 ++ Enter c :: l2 -> prepares c l2) ->
  (opposed r \/ entrants l <> []) ->
  play v l r out = Ok (r', out') -> once r' ->
  ~ configuring r' \/ (on_track r' [] /\ opposed r').
Proof.
  intros v. induction l as [|a l IH]; intros r out r' out' S C J H En Op E O.
  - cbn [play] in E. inversion E; subst. right. split; [exact J|]. destruct Op as [Op|Op]; [exact Op|destruct (Op eq_refl)].
  - pose proof (once_play _ _ _ _ _ _ S E O) as Or. cbn [play] in E.
    destruct (act v a r) as [[r1 o]| | |] eqn:A; cbn [obind] in E; try discriminate.
    pose proof (act_step _ _ _ _ _ S A) as St. pose proof (sane_step _ _ _ _ _ S St) as S1.
    destruct (sn_state v r1 S1) as [[C1 _]|D1].
    + eapply IH; [exact S1|exact C1| | | | |exact E|exact O].
      * apply (track_step v r a l r1 o S Or C J (H a (or_introl eq_refl))); [|exact A|exact C1]. intros c ->. apply (En [] c l). reflexivity.
      * destruct (step_fixed _ _ _ _ _ S St) as [-> _]. intros x I. apply H. right. exact I.
      * intros l1 c l2 ->. apply (En (a :: l1) c l2). reflexivity.
      * destruct Op as [Op|Op]; [left; exact (step_opposed _ _ _ _ _ S St Op)|].
        destruct a as [c|c s]; [left; exact (enter_opposed _ _ _ _ _ S C A)|right; exact Op].
    + left. eapply left_play; [exact S1| |exact E]. intros X. exact (not_both _ X D1).
Qed.

(** ** Stuck rooms *)

(** A later seat of a client, without a deck. *)
Definition orphan (r : room) (c t p : N) : Prop :=
  (exists s, place r t p = Some s /\ sl_client s = Some c /\ sl_valid s = false) /\
  exists t0 p0, before t0 p0 t p /\ sits r t0 p0 c.

Lemma before_irrefl : forall t p, ~ before t p t p.
Proof. intros t p [H|[_ H]]; lia. Qed.
Lemma before_trans : forall t p t' p' t'' p'', before t p t' p' -> before t' p' t'' p'' -> before t p t'' p''.
Proof. unfold before. intros. lia. Qed.

Lemma found_elsewhere : forall v r c t p t1 p1, sane v r -> orphan r c t p -> find_peer c r = Ok (Some (t1, p1)) -> before t1 p1 t p.
Proof.
  intros v r c t p t1 p1 S (_ & t0 & p0 & B & Q) E. destruct (find_peer_first v r c t1 p1 S E t0 p0 Q) as [[-> ->]|K]; [exact B|].
  eapply before_trans; eauto.
Qed.

Lemma orphan_step : forall v r a r' o c t p, sane v r -> configuring r -> orphan r c t p -> act v a r = Ok (r', o) ->
  configuring r' /\ orphan r' c t p.
Proof.
  intros v r a r' o c t p S C Or E. pose proof (act_step _ _ _ _ _ S E) as St.
  pose proof Or as Or0. destruct Or as ((s & A & B & V) & t0 & p0 & Bf & Q).
  assert (NR : ~ all_ready r) by (intros [_ R]; destruct (R _ _ _ _ A B); congruence).
  assert (Q' : sits r' t0 p0 c) by (eapply step_sits; eauto).
  assert (Kp : place r' t p = Some s -> orphan r' c t p).
  { intros P. split; [exists s; auto|]. exists t0, p0. auto. }
  assert (Cs : forall t1 p1 f, configuring (set_slot t1 p1 f r)).
  { intros t1 p1 f. unfold configuring. destruct (set_slot_rest r t1 p1 f) as (_ & _ & X & _). rewrite X. exact C. }
  assert (Far : forall t1 p1 f, (t1 = 0 \/ t1 = 1) -> (t1, p1) <> (t, p) -> place (set_slot t1 p1 f r) t p = Some s).
  { intros t1 p1 f T D. rewrite set_slot_place by exact T. destruct (N.eqb_spec t1 t) as [->|]; [|exact A].
    destruct (N.eqb_spec p1 p) as [->|]; [congruence|exact A]. }
  destruct a as [c1|c1 sg]; cbn [act] in E.
  - destruct (enter_run v r c1 S C) as [(_ & _ & _ & K)|[(_ & _ & _ & K)|(t1 & p1 & NT & F & K)]]; cbn zeta in K; rewrite K in E;
      inversion E; subst.
    + split; [exact C|]. apply Kp. exact A.
    + split; [apply Cs|]. apply Kp. apply Far; [destruct NT; lia|]. destruct F as (_ & (s' & F1 & F2) & _). intros X.
      injection X as -> ->. congruence.
  - unfold visit in E. unfold configuring in C. rewrite C in E.
    destruct sg as [|sg|sg]; try (inversion E; subst; split; [exact C|apply Kp; exact A]).
    destruct sg as [|d|b|b]; cbn [signal_conf] in E.
    + inversion E; subst. split; [exact C|apply Kp; exact A].
    + unfold update_deck in E. destruct (find_peer_sane v r c1 S) as [[K _]|(t1 & p1 & K & T & Q1)]; rewrite K in E; cbn [obind] in E.
      { inversion E; subst. split; [exact C|apply Kp; exact A]. }
      assert (D : (t1, p1) <> (t, p)).
      { intros X. injection X as -> ->. destruct Q1 as (s1 & X1 & X2). assert (c1 = c) by congruence. subst c1.
        exact (before_irrefl _ _ (found_elsewhere _ _ _ _ _ _ _ S Or0 K)). }
      destruct (ev_check _ _ _) as [[] err]; inversion E; subst; (split; [apply Cs|apply Kp; apply Far; assumption]).
    + unfold ready_status in E. destruct (find_peer_sane v r c1 S) as [[K _]|(t1 & p1 & K & T & Q1)]; rewrite K in E; cbn [obind] in E.
      { inversion E; subst. split; [exact C|apply Kp; exact A]. }
      assert (D : (t1, p1) <> (t, p)).
      { intros X. injection X as -> ->. destruct Q1 as (s1 & X1 & X2). assert (c1 = c) by congruence. subst c1.
        exact (before_irrefl _ _ (found_elsewhere _ _ _ _ _ _ _ S Or0 K)). }
      destruct Q1 as (s1 & X1 & X2). rewrite slot_at_place, X1 in E by exact T. cbn [or_ub obind] in E.
      destruct (Bool.eqb b (sl_ready s1)); [inversion E; subst; split; [exact C|apply Kp; exact A]|].
      destruct (b && negb (sl_valid s1)); inversion E; subst; (split; [first [exact C|apply Cs]|apply Kp; first [exact A|apply Far; assumption]]).
    + unfold start_dueling in E. destruct (negb (c1 =? rm_host r)); [inversion E; subst; split; [exact C|apply Kp; exact A]|].
      destruct (can_start r) eqn:X; cbn [negb] in E; [apply can_start_spec in X; contradiction|].
      inversion E; subst. split; [exact C|apply Kp; exact A].
Qed.

Lemma orphan_play : forall v l r out r' out' c t p, sane v r -> configuring r -> orphan r c t p ->
  play v l r out = Ok (r', out') -> configuring r'.
Proof.
  intros v. induction l as [|a l IH]; intros r out r' out' c t p S C O E; cbn [play] in E; [inversion E; subst; exact C|].
  destruct (act v a r) as [[r1 o]| | |] eqn:A; cbn [obind] in E; try discriminate.
  destruct (orphan_step _ _ _ _ _ _ _ _ S C O A) as [C1 O1]. apply act_step in A; [|exact S].
  eapply IH; [eapply sane_step; eauto|exact C1|exact O1|exact E].
Qed.

(** The host's first seat is the very first one: no other seat of it ever gets a deck. *)
Definition host_plain (r : room) : Prop :=
  forall t p s, place r t p = Some s -> sl_client s = Some (rm_host r) -> (t, p) <> (0, 0) -> sl_valid s = false.

Lemma host_found : forall v r, sane v r -> find_peer (rm_host r) r = Ok (Some (0, 0)).
Proof.
  intros v r S. pose proof (sn_host v r S) as Q. destruct (find_peer_sane v r (rm_host r) S) as [[_ E]|(t & p & E & T & Q')].
  - destruct (E 0 0 Q).
  - destruct (find_peer_first v r _ t p S E 0 0 Q) as [[<- <-]|[K|[_ K]]]; [exact E|lia|lia].
Qed.

Lemma host_plain_act : forall v r a r' o, sane v r -> host_plain r -> act v a r = Ok (r', o) -> host_plain r'.
Proof.
  intros v r a r' o S P E. pose proof (act_step _ _ _ _ _ S E) as St. destruct (step_fixed _ _ _ _ _ S St) as [_ Hh].
  unfold host_plain. rewrite Hh.
  assert (Set_ : forall t p f, t = 0 \/ t = 1 -> (forall s, place r t p = Some s -> (t, p) <> (0, 0) ->
      sl_client (f s) = Some (rm_host r) -> sl_valid (f s) = false) ->
    forall t' p' s, place (set_slot t p f r) t' p' = Some s -> sl_client s = Some (rm_host r) -> (t', p') <> (0, 0) -> sl_valid s = false).
  { intros t p f T K t' p' s A B D. rewrite set_slot_place in A by exact T.
    destruct (N.eqb_spec t t') as [->|]; [|apply (P t' p'); assumption].
    destruct (N.eqb_spec p p') as [->|]; [|apply (P t' p'); assumption].
    cbn [andb] in A. destruct (place r t' p') as [s0|] eqn:F; [|discriminate]. injection A as <-. apply (K s0); auto. }
  destruct a as [c|c sg]; cbn [act] in E.
  - unfold enter in E. destruct (rm_state r) eqn:St0; [discriminate| |inversion E; subst; exact P].
    change (rm_state r = Configuring) with (configuring r) in St0.
    destruct (enter_run v r c S St0) as [(_ & _ & _ & K)|[(_ & _ & _ & K)|(t & p & NT & F & K)]]; cbn zeta in K; unfold enter in K; unfold configuring in St0; rewrite St0 in K; rewrite K in E;
      inversion E; subst.
    + exact P.
    + apply Set_; [destruct NT; lia|]. intros s A D B. destruct F as (_ & (s' & F1 & F2) & _). cbn.
      assert (s' = s) by congruence. subst s'. rewrite (sn_empty v r S _ _ _ A F2). reflexivity.
  - unfold visit in E. destruct (rm_state r) eqn:St0; [inversion E; subst; exact P| |].
    + destruct sg as [|sg|sg]; try (inversion E; subst; exact P).
      destruct sg as [|d|b|b]; cbn [signal_conf] in E.
      * inversion E; subst; exact P.
      * unfold update_deck in E. destruct (find_peer_sane v r c S) as [[K _]|(t & p & K & T & Q)]; rewrite K in E; cbn [obind] in E; [inversion E; subst; exact P|].
        assert (Ne : forall s f, (forall x, sl_client (f x) = sl_client x) -> place r t p = Some s -> (t, p) <> (0, 0) -> sl_client (f s) = Some (rm_host r) -> False).
        { intros s f Fc A D B. rewrite Fc in B. destruct Q as (s' & Q1 & Q2). assert (c = rm_host r) by congruence. subst c.
          rewrite (host_found v r S) in K. injection K as <- <-. congruence. }
        destruct (ev_check _ _ _) as [[] err]; inversion E; subst; (apply Set_; [exact T|]); intros s A D B; [|reflexivity].
        exfalso. apply (Ne s (set_deck true d)); auto.
      * unfold ready_status in E. destruct (find_peer_sane v r c S) as [[K _]|(t & p & K & T & Q)]; rewrite K in E; cbn [obind] in E; [inversion E; subst; exact P|].
        destruct Q as (s0 & Q1 & Q2). rewrite slot_at_place, Q1 in E by exact T. cbn [or_ub obind] in E.
        destruct (Bool.eqb b (sl_ready s0)); [inversion E; subst; exact P|]. destruct (b && negb (sl_valid s0)); inversion E; subst; [exact P|].
        apply Set_; [exact T|]. intros s A D B. cbn in *. eapply P; eauto.
      * unfold start_dueling in E. destruct (negb (c =? rm_host r)); [inversion E; subst; exact P|].
        destruct (can_start r) eqn:X; cbn [negb] in E; [|inversion E; subst; exact P]. apply can_start_spec in X.
        destruct (start_run v r r' o St0 (sane_drawn v r S St0) X E) as [(d & n & ->) _]. exact P.
    + destruct sg as [|sg|sg]; try (inversion E; subst; exact P). destruct sg as [|t]; cbn [signal_first] in E; [inversion E; subst; exact P|].
      destruct (_ || _); [inversion E; subst; exact P|]. destruct (1 <? t); inversion E; subst; exact P.
Qed.

Lemma host_plain_play : forall v l r out r' out', sane v r -> host_plain r -> play v l r out = Ok (r', out') -> host_plain r'.
Proof.
  intros v. induction l as [|a l IH]; intros r out r' out' S P E; cbn [play] in E; [inversion E; subst; exact P|].
  destruct (act v a r) as [[r1 o]| | |] eqn:A; cbn [obind] in E; try discriminate.
  pose proof (host_plain_act _ _ _ _ _ S P A) as P1. apply act_step in A; [|exact S]. eapply IH; [eapply sane_step; eauto|exact P1|exact E].
Qed.
