(** The room under decks with another verdict of clients that are never ready. *)
From Verif Require Import Base Room RoomSpec RoomProofs RoomInv RoomAlikeSpec RoomAlike.

Set Implicit Arguments.
Local Open Scope N_scope.

Section Hush.
Variable w : N -> Prop.

Inductive hush : slot -> slot -> Prop :=
| hu_same : forall s, (forall c, w c -> sl_client s = Some c -> sl_ready s = false) -> hush s s
| hu_deck : forall s s' c, w c -> sl_client s = Some c -> sl_client s' = Some c ->
    sl_ready s = false -> sl_ready s' = false -> hush s s'.

Record hushed (r r' : room) : Prop := {
  hs_drawn : rm_drawn r' = rm_drawn r;
  hs_options : rm_options r' = rm_options r;
  hs_host : rm_host r' = rm_host r;
  hs_team0 : Forall2 hush (rm_team0 r) (rm_team0 r');
  hs_team1 : Forall2 hush (rm_team1 r) (rm_team1 r');
  hs_spectators : rm_spectators r' = rm_spectators r;
  hs_state : rm_state r' = rm_state r }.

Lemma hush_face : forall s s', hush s s' -> sl_client s' = sl_client s /\ sl_ready s' = sl_ready s.
Proof. intros s s' [t H|t t' c W A B C D]; split; congruence. Qed.

Lemma hush_send : forall l l' e, Forall2 hush l l' -> send_team l' e = send_team l e.
Proof.
  intros l l' e H. induction H as [|s s' l l' A _ IH]; cbn; [reflexivity|].
  destruct (hush_face A) as [-> _]. rewrite IH. reflexivity.
Qed.
Lemma hush_send_all : forall r r' e, hushed r r' -> send_all r' e = send_all r e.
Proof.
  intros r r' e [D O H T0 T1 S T]. unfold send_all, send_spectators.
  rewrite (hush_send e T0), (hush_send e T1), S. reflexivity.
Qed.
Lemma hush_leader : forall l l', Forall2 hush l l' -> team_leader l' = team_leader l.
Proof.
  intros l l' H. induction H as [|s s' l l' A _ IH]; cbn; [reflexivity|].
  destruct (hush_face A) as [-> _]. rewrite IH. reflexivity.
Qed.
Lemma hush_get_leader : forall r r' t, hushed r r' -> get_team_leader r' t = get_team_leader r t.
Proof.
  intros r r' t [D O H T0 T1 S T]. unfold get_team_leader.
  destruct (t =? 0); [rewrite (hush_leader T0)|rewrite (hush_leader T1)]; reflexivity.
Qed.
Lemma hush_scan : forall l l' pos max n e, Forall2 hush l l' -> scan_team l' pos max n e = scan_team l pos max n e.
Proof.
  intros l l' pos max n e H. revert pos n e. induction H as [|s s' l l' A _ IH]; intros; cbn; [reflexivity|].
  destruct (hush_face A) as [-> _]. destruct (sl_client s); rewrite IH; reflexivity.
Qed.
Lemma hush_find_empty : forall r r', hushed r r' -> find_empty r' = find_empty r.
Proof.
  intros r r' [D O H T0 T1 S T]. unfold find_empty, max_of. rewrite O.
  destruct (or_ub (nth_error (op_max (rm_options r)) (N.to_nat 0))) as [m0| | |]; cbn [obind]; try reflexivity.
  destruct (or_ub (nth_error (op_max (rm_options r)) (N.to_nat 1))) as [m1| | |]; cbn [obind]; try reflexivity.
  rewrite (hush_scan _ _ _ _ T0), (hush_scan _ _ _ _ T1). reflexivity.
Qed.
Lemma hush_duelists : forall v l l' host t pos, Forall2 hush l l' ->
  team_duelists v host t pos l' = team_duelists v host t pos l.
Proof.
  intros v l l' host t pos H. revert pos. induction H as [|s s' l l' A _ IH]; intros; cbn; [reflexivity|].
  destruct (hush_face A) as [-> ->]. rewrite !IH. reflexivity.
Qed.
Lemma hush_all_duelists : forall v r r', hushed r r' -> all_duelists v r' = all_duelists v r.
Proof.
  intros v r r' [D O H T0 T1 S T]. unfold all_duelists. rewrite H.
  rewrite (hush_duelists _ _ _ _ T0), (hush_duelists _ _ _ _ T1). reflexivity.
Qed.
Lemma hush_scan_peer : forall c l l' pos max, Forall2 hush l l' -> scan_peer c l' pos max = scan_peer c l pos max.
Proof.
  intros c l l' pos max H. revert pos. induction H as [|s s' l l' A _ IH]; intros; cbn; [reflexivity|].
  destruct (hush_face A) as [-> _]. rewrite IH. reflexivity.
Qed.
Lemma hush_find_peer : forall c r r', hushed r r' -> find_peer c r' = find_peer c r.
Proof.
  intros c r r' [D O H T0 T1 S T]. unfold find_peer, max_of. rewrite O.
  destruct (or_ub (nth_error (op_max (rm_options r)) (N.to_nat 0))) as [m0| | |]; cbn [obind]; try reflexivity.
  rewrite (hush_scan_peer _ _ _ T0). destruct (scan_peer c (rm_team0 r) 0 m0); [reflexivity|].
  destruct (or_ub (nth_error (op_max (rm_options r)) (N.to_nat 1))) as [m1| | |]; cbn [obind]; try reflexivity.
  rewrite (hush_scan_peer _ _ _ T1). reflexivity.
Qed.

Lemma hush_can : forall l l' b, Forall2 hush l l' -> team_can_start l' b = team_can_start l b.
Proof.
  intros l l' b H. revert b. induction H as [|s s' l l' A _ IH]; intros; cbn; [reflexivity|].
  destruct A as [s K|s s' c W A B C D].
  - destruct (sl_client s); rewrite ?IH; reflexivity.
  - rewrite A, B, C, D, !orb_true_r. reflexivity.
Qed.
Lemma hush_can_start : forall r r', hushed r r' -> can_start r' = can_start r.
Proof.
  intros r r' [D O H T0 T1 S T]. unfold can_start. rewrite (hush_can _ T0), (hush_can _ T1). reflexivity.
Qed.

Lemma hush_nth : forall l l' i, Forall2 hush l l' ->
  match nth_error l i, nth_error l' i with Some s, Some s' => hush s s' | None, None => True | _, _ => False end.
Proof. intros l l' i H. revert i. induction H as [|s s' l l' A _ IH]; intros [|i]; cbn; auto. apply IH. Qed.
Lemma hush_upd : forall l l' i s s', Forall2 hush l l' -> hush s s' -> Forall2 hush (upd i s l) (upd i s' l').
Proof. intros l l' i s s' H K. revert i. induction H as [|x x' l l' A B IH]; intros [|i]; cbn; constructor; auto. Qed.

Lemma hush_set_slot : forall t p f g r r', hushed r r' ->
  (forall s s', slot_at r t p = Some s -> slot_at r' t p = Some s' -> hush s s' -> hush (f s) (g s')) ->
  hushed (set_slot t p f r) (set_slot t p g r').
Proof.
  intros t p f g r r' [D O H T0 T1 S T] K. unfold set_slot, slot_at in *. destruct (t =? 0).
  - split; auto; cbn. pose proof (hush_nth (N.to_nat p) T0) as X.
    destruct (nth_error (rm_team0 r) (N.to_nat p)), (nth_error (rm_team0 r') (N.to_nat p)); try contradiction; auto.
    apply hush_upd; auto.
  - split; auto; cbn. pose proof (hush_nth (N.to_nat p) T1) as X.
    destruct (nth_error (rm_team1 r) (N.to_nat p)), (nth_error (rm_team1 r') (N.to_nat p)); try contradiction; auto.
    apply hush_upd; auto.
Qed.
Lemma hush_slot_at : forall r r' t p, hushed r r' ->
  match slot_at r t p, slot_at r' t p with Some s, Some s' => hush s s' | None, None => True | _, _ => False end.
Proof. intros r r' t p [D O H T0 T1 S T]. unfold slot_at. destruct (t =? 0); apply hush_nth; assumption. Qed.

(** What those outside [w] were sent. *)
Definition quiet (x y : room * sent) : Prop :=
  hushed (fst x) (fst y) /\ forall c, ~ w c -> heard c (snd x) = heard c (snd y).

Lemma quiet_ok : forall r r' o o', hushed r r' -> o' = o -> quiet (r, o) (r', o').
Proof. intros r r' o o' H ->. split; auto. Qed.

Lemma hushed_state : forall r r' s, hushed r r' -> hushed (set_state s r) (set_state s r').
Proof. intros r r' s [D O H T0 T1 S T]. split; auto. Qed.
Lemma hushed_drawn : forall r r' n, hushed r r' -> hushed (set_drawn n r) (set_drawn n r').
Proof. intros r r' s [D O H T0 T1 S T]. split; auto. Qed.
Lemma hushed_spectators : forall r r' n, hushed r r' -> hushed (set_spectators n r) (set_spectators n r').
Proof. intros r r' s [D O H T0 T1 S T]. split; auto. Qed.

Lemma hush_on_enter : forall v r r', hushed r r' ->
  end_alike quiet (on_enter_deciding v r) (on_enter_deciding v r').
Proof.
  intros v r r' H. unfold on_enter_deciding. rewrite (hush_send_all _ H), (hs_options H), (hs_host H), (hs_drawn H).
  destruct (_ =? FTDM_HOST_CHOOSES)%Z; [apply quiet_ok; [apply hushed_state, H|reflexivity]|].
  destruct (_ =? FTDM_RPS)%Z; [apply quiet_ok; [exact H|reflexivity]|].
  destruct (_ =? FTDM_DICE)%Z.
  { destruct (roll_dice _ _ _) as [[[l x] n]| | |]; cbn [obind]; try exact I.
    rewrite (hush_send_all _ (hushed_drawn n H)), (hush_get_leader _ (hushed_drawn n H)).
    destruct (get_team_leader _ _) as [c| | |]; cbn [obind send_choose]; try exact I.
    apply quiet_ok; [|reflexivity]. apply hushed_state, hushed_drawn, H. }
  destruct (_ =? FTDM_COIN)%Z.
  { rewrite (hush_send_all _ (hushed_drawn (S (rm_drawn r)) H)), (hush_get_leader _ (hushed_drawn (S (rm_drawn r)) H)).
    destruct (get_team_leader _ _) as [c| | |]; cbn [obind send_choose]; try exact I.
    apply quiet_ok; [|reflexivity]. apply hushed_state, hushed_drawn, H. }
  destruct (_ || _); [exact I|]. apply quiet_ok; [exact H|reflexivity].
Qed.

Lemma hush_enter : forall v c r r', sane v r -> hushed r r' -> end_alike quiet (enter v c r) (enter v c r').
Proof.
  intros v c r r' S H. unfold enter. rewrite (hs_state H). destruct (rm_state r); [exact I| |now apply quiet_ok].
  unfold enter_conf. rewrite (hush_all_duelists v H), (hush_find_empty H), (hs_options H), (hs_host H), (hs_spectators H).
  destruct (find_empty_sane v r S) as [(E & _)|(t & p & E & NT & (_ & (s & P & N) & _))]; rewrite E; cbn [obind].
  - destruct (negb _); cbn [assert_ obind]; [|exact I].
    pose proof (hushed_spectators (set_insert c (rm_spectators r)) H) as H'.
    rewrite (hush_send_all _ H'). apply quiet_ok; [exact H'|reflexivity].
  - assert (H' : hushed (set_slot t p (set_client c) r) (set_slot t p (set_client c) r')).
    { apply hush_set_slot; [exact H|]. intros x x' X X' K.
      assert (T : t = 0 \/ t = 1) by (destruct NT; lia).
      rewrite (slot_at_place _ _ _ T) in X.
      assert (x = s) by congruence. subst x. clear X.
      destruct K as [y Y|y y' d W A B C D]; [|congruence].
      apply (sn_empty v r S) with (2 := N) in P. subst y. apply hu_same. reflexivity. }
    rewrite (hush_send_all _ H'). apply quiet_ok; [exact H'|reflexivity].
Qed.

Lemma hush_visit : forall v c s r r', sane v r -> hushed r r' -> (w c -> s <> SgConf (CsReady true)) ->
  end_alike quiet (visit v c s r) (visit v c s r').
Proof.
  intros v c s r r' S H K. unfold visit. rewrite (hs_state H).
  destruct (rm_state r), s as [|[|d|b|b]|[|t]]; cbn [signal_conf signal_first]; try (now apply quiet_ok).
  - unfold update_deck. rewrite (hush_find_peer c H), (hs_options H).
    destruct (find_peer c r) as [[[t p]|]| | |]; cbn [obind]; try exact I; [|now apply quiet_ok].
    assert (X : forall ok d, hushed (set_slot t p (set_deck ok d) r) (set_slot t p (set_deck ok d) r')).
    { intros ok d0. apply hush_set_slot; [exact H|]. intros x x' _ _ [y Y|y y' e W A B C D].
      - apply hu_same. exact Y.
      - now apply hu_deck with (c := e). }
    destruct (ev_check _ _ _) as [[] err]; (apply quiet_ok; [apply X|reflexivity]).
  - unfold ready_status. rewrite (hush_find_peer c H).
    destruct (find_peer_sane v r c S) as [(E & _)|(t & p & E & T & (x & P & N))]; rewrite E; cbn [obind];
      [now apply quiet_ok|].
    rewrite (hs_host H). pose proof (hush_slot_at t p H) as X.
    rewrite (slot_at_place r _ _ T), P in *. destruct (slot_at r' t p) as [x'|]; [|contradiction].
    cbn [or_ub obind]. destruct X as [y Y|y y' e W A B C D].
    + destruct (Bool.eqb b (sl_ready y)); [now apply quiet_ok|]. destruct (b && negb (sl_valid y)) eqn:Q; [now apply quiet_ok|].
      assert (H' : hushed (set_slot t p (set_ready b) r) (set_slot t p (set_ready b) r')).
      { apply hush_set_slot; [exact H|]. intros z z' Z _ L.
        rewrite (slot_at_place r _ _ T), P in Z. injection Z as <-.
        destruct L as [z L|z z' e W A B C D].
        - apply hu_same. intros d D0 D1. cbn in *. assert (d = c) by congruence. subst d.
          destruct b; [exfalso; now apply K|reflexivity].
        - assert (e = c) by congruence. subst e. destruct b; [exfalso; now apply K|].
          now apply hu_deck with (c := c). }
      rewrite (hush_send_all _ H'). apply quiet_ok; [exact H'|reflexivity].
    + assert (e = c) by congruence. subst e. destruct b; [exfalso; now apply K|].
      rewrite C, D. cbn. now apply quiet_ok.
  - unfold start_dueling. rewrite (hs_host H), (hush_can_start H).
    destruct (negb (c =? rm_host r)); [now apply quiet_ok|]. destruct (negb (can_start r)); [now apply quiet_ok|].
    unfold enter_deciding. rewrite (hs_state H). cbn [set_state rm_state].
    destruct (negb _); cbn [assert_ obind]; [|exact I]. apply hush_on_enter, hushed_state, H.
  - rewrite (hs_options H), (hs_host H). destruct (_ || _); [now apply quiet_ok|].
    destruct (1 <? t); [now apply quiet_ok|]. rewrite (hush_send_all _ H). now apply quiet_ok.
Qed.

Lemma hush_act : forall v a a' r r', sane v r -> hushed r r' -> any_deck w a a' ->
  end_alike quiet (act v a r) (act v a' r').
Proof.
  intros v a a' r r' S H [b K|c d d' W].
  - destruct b as [c|c s]; cbn; [now apply hush_enter|]. apply hush_visit; auto.
    intros W E. apply (K c W). now rewrite E.
  - cbn. unfold visit. rewrite (hs_state H). destruct (rm_state r); cbn [signal_conf]; try (now apply quiet_ok).
    unfold update_deck. rewrite (hush_find_peer c H), (hs_options H).
    destruct (find_peer_sane v r c S) as [(E & _)|(t & p & E & T & (x & P & N))]; rewrite E; cbn [obind];
      [now apply quiet_ok|].
    assert (X : forall ok d ok' d', hushed (set_slot t p (set_deck ok d) r) (set_slot t p (set_deck ok' d') r')).
    { intros ok e ok' e'. apply hush_set_slot; [exact H|]. intros y y' Y _ L.
      rewrite (slot_at_place r _ _ T), P in Y. injection Y as <-.
      destruct L as [z L|z z' f F A B C D].
      - now apply hu_deck with (c := c); auto; apply (L c).
      - now apply hu_deck with (c := f). }
    assert (Y : forall e e', quiet (fst e, [(c, snd e)]) (fst e', [(c, snd e')]) <-> hushed (fst e) (fst e')).
    { intros e e'. split; [now intros []|]. intros Z. split; [exact Z|]. intros c' M. cbn.
      destruct (N.eqb_spec c c') as [->|]; [contradiction|reflexivity]. }
    destruct (ev_check v _ d) as [[] err], (ev_check v _ d') as [[] err'];
      match goal with |- end_alike _ (Ok (?p, [(_, ?q)])) (Ok (?p', [(_, ?q')])) => apply (Y (p, q) (p', q')) end; apply X.
Qed.

Lemma hush_play : forall v l l' r r' out out', Forall2 (any_deck w) l l' -> sane v r -> hushed r r' ->
  (forall c, ~ w c -> heard c out = heard c out') -> end_alike quiet (play v l r out) (play v l' r' out').
Proof.
  intros v l l' r r' out out' F. revert r r' out out'.
  induction F as [|a a' l l' A _ IH]; intros r r' out out' S H O; cbn [play]; [now split|].
  pose proof (hush_act S H A) as X.
  destruct (act v a r) as [[s os]| | |] eqn:Q, (act v a' r') as [[s' os']| | |]; cbn in X |- *; try contradiction; auto.
  destruct X as [X Y]. apply IH; auto.
  - apply (sane_step v r a s os S). now apply act_step.
  - intros c C. rewrite !heard_app, (O c C). specialize (Y c C). cbn [snd] in Y. rewrite Y. reflexivity.
Qed.

Lemma hush_session : forall v host o l l', Forall2 (any_deck w) l l' ->
  end_alike quiet (session v host o l) (session v host o l').
Proof.
  intros v host o l l' H. unfold session. rewrite construct_run. cbn [obind].
  apply hush_play; auto; [apply first_sane|].
  split; auto; unfold first_room; cbn; repeat constructor; discriminate.
Qed.
End Hush.
