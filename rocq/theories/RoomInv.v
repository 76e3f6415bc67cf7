(** Invariants of rooms over all histories. *)
From Verif Require Import Base BaseProofs Room RoomSpec RoomProofs.

Local Open Scope N_scope.

(** ** Steps keep the room sane *)

Lemma set_slot_limit : forall r t p f t', limit (set_slot t p f r) t' = limit r t'.
Proof. intros. unfold limit. destruct (set_slot_rest r t p f) as (-> & _). reflexivity. Qed.

Lemma sane_set_slot : forall v r t p f, sane v r -> t = 0 \/ t = 1 ->
  (forall s, place r t p = Some s ->
     p < limit r t /\ sl_client (f s) <> None /\ (sl_client s = Some (rm_host r) -> sl_client (f s) = Some (rm_host r)) /\
     if sl_valid (f s) then fst (ev_check v (banlist_id (rm_options r)) (sl_deck (f s))) = true else sl_deck (f s) = deck0) ->
  sane v (set_slot t p f r).
Proof.
  intros v r t p f S T K. destruct (set_slot_rest r t p f) as (A & B & C & D & E & L0 & L1).
  assert (P : forall t' p' s', place (set_slot t p f r) t' p' = Some s' ->
    (t' = t /\ p' = p /\ exists s, place r t p = Some s /\ s' = f s) \/ place r t' p' = Some s').
  { intros t' p' s' H. rewrite set_slot_place in H by exact T.
    destruct (N.eqb_spec t t') as [<-|]; [|auto]. destruct (N.eqb_spec p p') as [<-|]; [|auto].
    left. cbn [andb] in H. destruct (place r t p) as [s|]; [|discriminate]. injection H as <-. eauto. }
  constructor.
  - rewrite L0. apply (sn_len0 v r S).
  - rewrite L1. apply (sn_len1 v r S).
  - rewrite A. apply (sn_max v r S).
  - intros t' p' s' H L. rewrite set_slot_limit in L. destruct (P _ _ _ H) as [(-> & -> & s & F & G)|F].
    + destruct (K s F) as [M _]. lia.
    + eapply (sn_beyond v r S); eauto.
  - intros t' p' s' H N. destruct (P _ _ _ H) as [(-> & -> & s & F & ->)|F].
    + destruct (K s F) as (_ & M & _). congruence.
    + eapply (sn_empty v r S); eauto.
  - intros t' p' s' H. rewrite A. destruct (P _ _ _ H) as [(-> & -> & s & F & ->)|F].
    + destruct (K s F) as (_ & _ & _ & M). exact M.
    + eapply (sn_deck v r S); eauto.
  - rewrite D. apply (sn_watch v r S).
  - rewrite B. destruct (sn_host v r S) as (s & F & G). unfold sits. rewrite set_slot_place by exact T.
    destruct (N.eqb_spec t 0) as [->|]; [|eauto]. destruct (N.eqb_spec p 0) as [->|]; [|eauto].
    cbn [andb]. rewrite F. cbn [option_map]. exists (f s). split; [reflexivity|]. apply (K s F). exact G.
  - unfold configuring, deciding. rewrite C, E. apply (sn_state v r S).
Qed.

Lemma sits_limit : forall v r t p c, sane v r -> sits r t p c -> p < limit r t.
Proof.
  intros v r t p c S (s & A & B). destruct (N.le_gt_cases (limit r t) p) as [G|G]; [|exact G].
  rewrite (sn_beyond v r S t p s A G) in B. discriminate.
Qed.

Lemma start_run : forall v r r' o, configuring r -> rm_drawn r = 0%nat -> all_ready r ->
  enter_deciding v r = Ok (r', o) ->
  (exists d n, r' = set_state (Deciding d) (set_drawn n r)) /\
  (forall c e, In (c, e) o -> exists f, e = EvFirst f).
Proof.
  intros v r r' o C D R H. destruct (deciding_run v r C D R) as (A1 & A2 & A3 & A4 & A5).
  assert (BC : forall f c e, In (c, e) (broadcast r (EvFirst f)) -> exists f, e = EvFirst f).
  { intros f c e I. unfold broadcast in I. apply in_map_iff in I. destruct I as (x & E & _). injection E as _ <-. eauto. }
  destruct (Z.eq_dec (op_ftdm (rm_options r)) FTDM_HOST_CHOOSES) as [E|N1].
  { rewrite (A1 E) in H. inversion H; subst. split; [eauto|]. intros c e I. apply in_app_iff in I.
    destruct I as [I|[I|[]]]; [eapply BC; eauto|]. injection I as _ <-. eauto. }
  destruct (Z.eq_dec (op_ftdm (rm_options r)) FTDM_DICE) as [E|N2].
  { destruct (A2 E) as [(k & w & c & n & _ & _ & _ & _ & _ & Q)|(Q & _)]; rewrite Q in H; [|discriminate].
    inversion H; subst. split; [eauto|]. intros c' e I. rewrite !in_app_iff in I.
    destruct I as [[I|I]|[I|[]]]; [eapply BC; eauto|eapply BC; eauto|]. injection I as _ <-. eauto. }
  destruct (Z.eq_dec (op_ftdm (rm_options r)) FTDM_COIN) as [E|N3].
  { destruct (A3 E) as (c & _ & Q). rewrite Q in H.
    inversion H; subst. split; [eauto|]. intros c' e I. rewrite !in_app_iff in I.
    destruct I as [[I|I]|[I|[]]]; [eapply BC; eauto|eapply BC; eauto|]. injection I as _ <-. eauto. }
  destruct (Z.eq_dec (op_ftdm (rm_options r)) FTDM_INT_MIN) as [E|N4]; [rewrite A4 in H by auto; discriminate|].
  destruct (Z.eq_dec (op_ftdm (rm_options r)) FTDM_INT_MAX) as [E|N5]; [rewrite A4 in H by auto; discriminate|].
  rewrite A5 in H by assumption. inversion H; subst. split.
  - exists None, (rm_drawn r). destruct r; reflexivity.
  - intros c e I. eapply BC; eauto.
Qed.

Lemma not_both : forall r, configuring r -> ~ deciding r.
Proof. intros r C [d D]. unfold configuring in C. congruence. Qed.

Lemma sane_drawn : forall v r, sane v r -> configuring r -> rm_drawn r = 0%nat.
Proof. intros v r S C. destruct (sn_state v r S) as [[_ D]|D]; [exact D|destruct (not_both r C D)]. Qed.

Lemma sane_step : forall v r a r' o, sane v r -> step v r a r' o -> sane v r'.
Proof.
  intros v r a r' o S St. destruct St as [a|c t p C NT F|c C F0 F1 H|c d t p C T Q K|c d t p C T Q K|c b t p s C T A B R V|b r' o C AR E|t D M L].
  - exact S.
  - destruct NT as [T _]. apply sane_set_slot; [exact S|lia|]. intros s A. destruct F as (L & (s' & F & G) & _).
    assert (s' = s) by congruence. subst s'. split; [exact L|]. cbn. split; [discriminate|]. split; [congruence|].
    apply (sn_deck v r S t p s A).
  - destruct S as [S1 S2 S3 S4 S5 S6 S7 S8 S9]. constructor; auto. cbn. unfold set_insert.
    destruct (existsb (N.eqb c) (rm_spectators r)) eqn:X; [exact S7|].
    apply NoDup_rev in S7. rewrite <- (rev_involutive (rm_spectators r)).
    replace (rev (rev (rm_spectators r)) ++ [c]) with (rev (c :: rev (rm_spectators r))) by reflexivity.
    apply NoDup_rev. constructor; [|exact S7]. rewrite <- in_rev. intros I.
    assert (Y : existsb (N.eqb c) (rm_spectators r) = true); [|congruence].
    apply existsb_exists. exists c. split; [exact I|apply N.eqb_refl].
  - apply sane_set_slot; [exact S|exact T|]. intros s A. destruct Q as (s' & F & G).
    assert (s' = s) by congruence. subst s'. split; [eapply sits_limit; eauto; exists s; eauto|].
    cbn. split; [congruence|]. split; [congruence|]. exact K.
  - apply sane_set_slot; [exact S|exact T|]. intros s A. destruct Q as (s' & F & G).
    assert (s' = s) by congruence. subst s'. split; [eapply sits_limit; eauto; exists s; eauto|].
    cbn. split; [congruence|]. split; [congruence|]. reflexivity.
  - apply sane_set_slot; [exact S|exact T|]. intros s' A'. assert (s' = s) by congruence. subst s'.
    split; [eapply sits_limit; eauto; exists s; eauto|]. cbn. split; [congruence|]. split; [congruence|].
    apply (sn_deck v r S t p s A).
  - destruct (start_run v r r' o C (sane_drawn v r S C) AR E) as [(d & n & ->) _].
    destruct S as [S1 S2 S3 S4 S5 S6 S7 S8 S9]. constructor; auto. right. exists d. reflexivity.
  - exact S.
Qed.

(** ** Construction *)

Definition first_room (host : N) (o : options) : room :=
  mkRoom 0 (clamp_options o) host (set_client host slot0 :: repeat slot0 2) (repeat slot0 3) [] Configuring.
Definition first_sent (v : env) (host : N) (o : options) : sent :=
  [(host, EvConf (CeEntering (Some (clamp_options o)) [] 0));
   (host, EvConf (CeDuelistEnters (mkDuelist 0 0 (ev_user v host) true false)))].

Lemma clamp_bounds : forall x, 1 <= clamp x <= 3.
Proof. intros x. unfold clamp. destruct (N.ltb_spec x 1); [lia|]. destruct (N.ltb_spec 3 x); lia. Qed.

Lemma clamped : forall o, exists m0 m1, op_max (clamp_options o) = [m0; m1] /\ 1 <= m0 <= 3 /\ 1 <= m1 <= 3.
Proof.
  intros o. unfold clamp_options, resize_max. cbn [op_max].
  destruct (op_max o) as [|a [|b l]]; do 2 eexists; (split; [reflexivity|]); split; apply clamp_bounds.
Qed.

Lemma scan_three : forall m, 1 <= m <= 3 -> scan_team (repeat slot0 3) 0 m 0 None = (0, Some 0).
Proof.
  intros m H. assert (K : m = 1 \/ m = 2 \/ m = 3) by lia. destruct K as [-> | [-> | ->]]; reflexivity.
Qed.

Lemma construct_run : forall v host o, construct v host o = Ok (first_room host o, first_sent v host o).
Proof.
  intros v host o. unfold construct, enter_configuring, enter, enter_conf, find_empty, max_of.
  destruct (clamped o) as (m0 & m1 & E & B0 & B1).
  cbn -[scan_team clamp_options repeat]. rewrite E. change (Pos.to_nat 1) with 1%nat.
  cbn -[scan_team clamp_options repeat].
  rewrite !scan_three by assumption. cbn -[clamp_options]. rewrite N.eqb_refl. reflexivity.
Qed.

Lemma first_sane : forall v host o, sane v (first_room host o).
Proof.
  intros v host o. destruct (clamped o) as (m0 & m1 & E & B0 & B1).
  assert (P : forall t p s, place (first_room host o) t p = Some s -> (t = 0 /\ p = 0 /\ s = set_client host slot0) \/ s = slot0).
  { intros t p s H. unfold place in H. destruct (seats_cases (first_room host o) t) as [[-> A]|[[-> A]|[_ A]]]; rewrite A in H.
    - destruct (N.to_nat p) as [|[|[|n]]] eqn:F; cbn in H; try (injection H as <-; auto).
      + left. split; [reflexivity|]. split; [lia|reflexivity].
      + destruct n; discriminate.
    - destruct (N.to_nat p) as [|[|[|n]]] eqn:F; cbn in H; try (injection H as <-; auto). destruct n; discriminate.
    - destruct (N.to_nat p); discriminate. }
  constructor; try reflexivity.
  - exists m0, m1. auto.
  - intros t p s H L. destruct (P _ _ _ H) as [(-> & -> & _)|A]; [|exact A]. unfold limit in L.
    cbn [first_room rm_options] in L. rewrite E in L. cbn in L. lia.
  - intros t p s H N. destruct (P _ _ _ H) as [(_ & _ & ->)|A]; [discriminate|exact A].
  - intros t p s H. destruct (P _ _ _ H) as [(_ & _ & ->)| ->]; reflexivity.
  - constructor.
  - exists (set_client host slot0). split; reflexivity.
  - left. split; reflexivity.
Qed.

(** ** Histories *)

Lemma play_inv : forall v (P : room -> sent -> list action -> Prop),
  (forall r out done a r' o, sane v r -> P r out done -> step v r a r' o -> P r' (out ++ o) (done ++ [a])) ->
  forall l r out done r' out', sane v r -> P r out done -> play v l r out = Ok (r', out') ->
  sane v r' /\ P r' out' (done ++ l).
Proof.
  intros v P K. induction l as [|a l IH]; intros r out done r' out' S H E.
  - simpl in E. inversion E; subst. rewrite app_nil_r. auto.
  - cbn [play] in E. destruct (act v a r) as [[r1 o]| | |] eqn:A; cbn [obind] in E; try discriminate.
    apply act_step in A; [|exact S]. replace (done ++ a :: l) with ((done ++ [a]) ++ l) by (rewrite <- app_assoc; reflexivity).
    eapply IH; [eapply sane_step; eauto| |exact E]. eapply K; eauto.
Qed.

Lemma session_inv : forall v host o (P : room -> sent -> list action -> Prop),
  P (first_room host o) (first_sent v host o) [] ->
  (forall r out done a r' s, sane v r -> P r out done -> step v r a r' s -> P r' (out ++ s) (done ++ [a])) ->
  forall l r out, session v host o l = Ok (r, out) -> sane v r /\ P r out l.
Proof.
  intros v host o P P0 K l r out H. unfold session in H. rewrite construct_run in H. cbn [obind] in H.
  apply (play_inv v P K l _ _ [] _ _ (first_sane v host o) P0 H).
Qed.

Lemma session_sane : forall v host o l r out, session v host o l = Ok (r, out) -> sane v r.
Proof.
  intros v host o l r out H. apply (session_inv v host o (fun _ _ _ => True) I (fun _ _ _ _ _ _ _ _ _ => I) l r out H).
Qed.

(** Options and host do not change. *)
Lemma step_fixed : forall v r a r' o, sane v r -> step v r a r' o -> rm_options r' = rm_options r /\ rm_host r' = rm_host r.
Proof.
  intros v r a r' o S St.
  assert (K : forall t p f, rm_options (set_slot t p f r) = rm_options r /\ rm_host (set_slot t p f r) = rm_host r).
  { intros t p f. destruct (set_slot_rest r t p f) as (A & B & _). auto. }
  destruct St; auto.
  destruct (start_run v r r' o H (sane_drawn v r S H) H0 H1) as [(d & n & ->) _]. auto.
Qed.

Lemma session_fixed : forall v host o l r out, session v host o l = Ok (r, out) ->
  rm_options r = clamp_options o /\ rm_host r = host.
Proof.
  intros v host o l r out H.
  destruct (session_inv v host o (fun r _ _ => rm_options r = clamp_options o /\ rm_host r = host)) with (3 := H)
    as [_ K]; try exact K.
  - split; reflexivity.
  - intros r0 out0 done a r' s S [A B] St. destruct (step_fixed _ _ _ _ _ S St) as [C D]. rewrite C, D. auto.
Qed.

(** ** Nobody twice *)

Lemma occupants_seat : forall v r t p c, sane v r -> t = 0 \/ t = 1 -> free r t p ->
  exists x y, occupants r = x ++ y /\ occupants (set_slot t p (set_client c) r) = x ++ c :: y.
Proof.
  intros v r t p c S T (L & (s & A & B) & _).
  assert (K : forall l, nth_error l (N.to_nat p) = Some s -> exists x y,
     sitters l = x ++ y /\ sitters (upd (N.to_nat p) (set_client c s) l) = x ++ c :: y).
  { generalize (N.to_nat p) as n. clear - B. intros n l. revert n. induction l as [|z l IH]; intros [|n] H; try discriminate.
    - injection H as ->. exists [], (sitters l). unfold sitters. simpl. rewrite B. auto.
    - destruct (IH n H) as (x & y & C & D). unfold sitters in *. simpl. rewrite C, D.
      exists ((match sl_client z with Some c0 => [c0] | None => [] end) ++ x), y. rewrite <- !app_assoc. auto. }
  unfold place in A. unfold occupants, set_slot. destruct T as [-> | ->]; cbn [seats] in A; cbn [N.eqb Pos.eqb rm_team0 rm_team1 rm_spectators];
    rewrite A; destruct (K _ A) as (x & y & C & D); rewrite C, D.
  - exists x, (y ++ sitters (rm_team1 r) ++ rm_spectators r). rewrite <- !app_assoc. auto.
  - exists (sitters (rm_team0 r) ++ x), (y ++ rm_spectators r). rewrite <- !app_assoc. auto.
Qed.

Lemma sitters_set_slot : forall r t p f, (forall s, sl_client (f s) = sl_client s) ->
  occupants (set_slot t p f r) = occupants r.
Proof.
  intros r t p f K.
  assert (U : forall l n s, nth_error l n = Some s -> sitters (upd n (f s) l) = sitters l).
  { induction l as [|z l IH]; intros [|n] s H; try discriminate; unfold sitters in *; simpl.
    - injection H as ->. rewrite K. reflexivity.
    - rewrite (IH n s H). reflexivity. }
  unfold occupants, set_slot. destruct (t =? 0); cbn [rm_team0 rm_team1 rm_spectators];
    destruct (nth_error _ _) eqn:E; try rewrite (U _ _ _ E); reflexivity.
Qed.

(** Who is in the room after a step. *)
Lemma step_occupants : forall v r a r' o, sane v r -> step v r a r' o ->
  occupants r' = occupants r \/
  (exists c x y, a = Enter c /\ occupants r = x ++ y /\ occupants r' = x ++ c :: y).
Proof.
  intros v r a r' o S St. destruct St as [a|c t p C NT F|c C F0 F1 H|c d t p C T Q K|c d t p C T Q K|c b t p s C T A B R V|b r' o C AR E|t D M L].
  - left. reflexivity.
  - right. destruct NT as [T _]. destruct (occupants_seat v r t p c S ltac:(lia) F) as (x & y & A & B). eauto 8.
  - unfold set_insert. destruct (existsb (N.eqb c) (rm_spectators r)); [left; reflexivity|]. right.
    exists c, (occupants r), []. rewrite app_nil_r. split; [reflexivity|]. split; [reflexivity|].
    unfold occupants. cbn. rewrite <- !app_assoc. reflexivity.
  - left. apply sitters_set_slot. reflexivity.
  - left. apply sitters_set_slot. reflexivity.
  - left. apply sitters_set_slot. reflexivity.
  - left. destruct (start_run v r r' o C (sane_drawn v r S C) AR E) as [(d & n & ->) _]. reflexivity.
  - left. reflexivity.
Qed.

Lemma entrants_app : forall l1 l2, entrants (l1 ++ l2) = entrants l1 ++ entrants l2.
Proof. intros. unfold entrants. apply flat_map_app. Qed.

Lemma NoDup_left : forall A (l l' : list A), NoDup (l ++ l') -> NoDup l.
Proof.
  induction l as [|a l IH]; intros l' H; [constructor|]. inversion H; subst. constructor; [|eapply IH; eauto].
  intros I. apply H2. apply in_app_iff. auto.
Qed.

Lemma session_nodup : forall v host o l r out, session v host o l = Ok (r, out) ->
  NoDup (host :: entrants l) -> NoDup (occupants r) /\ incl (occupants r) (host :: entrants l).
Proof.
  intros v host o l r out H.
  destruct (session_inv v host o (fun r _ done => NoDup (host :: entrants done) ->
     NoDup (occupants r) /\ incl (occupants r) (host :: entrants done))) with (3 := H) as [_ K]; try exact K.
  - intros _. split; [|intros x I; exact I]. constructor; [intros []|constructor].
  - intros r0 out0 done a r' s S IH St N. rewrite entrants_app in *.
    assert (N0 : NoDup (host :: entrants done)).
    { rewrite app_comm_cons in N. apply NoDup_left in N. exact N. }
    destruct (IH N0) as [A B]. destruct (step_occupants _ _ _ _ _ S St) as [E|(c & x & y & -> & E & F)].
    + rewrite E. split; [exact A|]. intros z Z. rewrite app_comm_cons. apply in_app_iff. left. apply B. exact Z.
    + rewrite F. rewrite E in A, B. split.
      * apply (NoDup_Add (a := c) (l := x ++ y)); [apply Add_app|]. split; [exact A|]. intros I. apply B in I.
        cbn [entrants flat_map app] in N. rewrite app_comm_cons in N. apply NoDup_remove_2 in N. rewrite app_nil_r in N. auto.
      * intros z Z. rewrite app_comm_cons. apply in_app_iff. apply in_app_iff in Z. destruct Z as [Z|[<-|Z]].
        { left. apply B. apply in_app_iff. auto. }
        { right. left. reflexivity. }
        { left. apply B. apply in_app_iff. auto. }
Qed.
