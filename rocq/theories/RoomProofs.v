(** Lemmas about the room. *)
From Verif Require Import Base BaseProofs Room RoomSpec.

Local Open Scope N_scope.

(** ** Sending *)

Lemma send_team_map : forall l e, send_team l e = map (fun c => (c, e)) (sitters l).
Proof.
  induction l as [|s l IH]; intros e; [reflexivity|]. simpl. rewrite IH.
  destruct (sl_client s); reflexivity.
Qed.

Lemma send_all_broadcast : forall r e, send_all r e = broadcast r e.
Proof.
  intros r e. unfold send_all, broadcast, occupants, send_spectators.
  rewrite !map_app, !send_team_map. reflexivity.
Qed.

Lemma in_sitters : forall l c, In c (sitters l) <-> exists n s, nth_error l n = Some s /\ sl_client s = Some c.
Proof.
  intros l c. unfold sitters. rewrite in_flat_map. split.
  - intros [s [A B]]. apply In_nth_error in A. destruct A as [n A]. exists n, s. split; [exact A|].
    destruct (sl_client s); [destruct B as [<-|[]]; reflexivity|destruct B].
  - intros (n & s & A & B). exists s. split; [eapply nth_error_In; eauto|]. rewrite B. left. reflexivity.
Qed.

Lemma seats_cases : forall r t, (t = 0 /\ seats r t = rm_team0 r) \/ (t = 1 /\ seats r t = rm_team1 r) \/ (2 <= t /\ seats r t = []).
Proof.
  intros r t. destruct t as [|[p|p|]]; [left|right; right|right; right|right; left]; split; try reflexivity; lia.
Qed.

Lemma sits_team : forall r t p c, sits r t p c -> t = 0 \/ t = 1.
Proof.
  intros r t p c (s & A & _). unfold place in A.
  destruct (seats_cases r t) as [[E _]|[[E _]|[_ E]]]; auto. rewrite E in A. destruct (N.to_nat p); discriminate.
Qed.

Lemma in_occupants : forall r c, In c (occupants r) <-> present r c.
Proof.
  intros r c. unfold occupants, present, watches. rewrite !in_app_iff, !in_sitters. split.
  - intros [(n & s & A & B)|[(n & s & A & B)|A]]; [left|left|right; exact A].
    + exists 0, (N.of_nat n), s. unfold place. simpl. rewrite Nat2N.id. auto.
    + exists 1, (N.of_nat n), s. unfold place. simpl. rewrite Nat2N.id. auto.
  - intros [(t & p & s & A & B)|A]; [|auto]. unfold place in A.
    destruct (seats_cases r t) as [[_ E]|[[_ E]|[_ E]]]; rewrite E in A.
    + left. eauto.
    + right; left. eauto.
    + destruct (N.to_nat p); discriminate.
Qed.

(** ** Seats *)

Lemma set_slot_place : forall r t p f t' p', t = 0 \/ t = 1 ->
  place (set_slot t p f r) t' p' =
  if (t =? t') && (p =? p') then option_map f (place r t p) else place r t' p'.
Proof.
  intros r t p f t' p' T. unfold place, set_slot.
  assert (K : forall l, nth_error (match nth_error l (N.to_nat p) with
      | Some s => upd (N.to_nat p) (f s) l | None => l end) (N.to_nat p') =
      if p =? p' then option_map f (nth_error l (N.to_nat p)) else nth_error l (N.to_nat p')).
  { intros l. destruct (N.eqb_spec p p') as [<-|D].
    - destruct (nth_error l (N.to_nat p)) eqn:E; [|exact E].
      simpl. apply upd_same. apply nth_error_Some. congruence.
    - destruct (nth_error l (N.to_nat p)) eqn:E; [|reflexivity].
      apply upd_other. lia. }
  destruct T as [-> | ->]; destruct (seats_cases r t') as [[-> _]|[[-> _]|[T' _]]]; simpl;
    try apply K; try reflexivity;
    destruct t' as [|[q|q|]]; try lia; try reflexivity.
Qed.

Lemma set_slot_rest : forall r t p f,
  rm_options (set_slot t p f r) = rm_options r /\ rm_host (set_slot t p f r) = rm_host r /\
  rm_state (set_slot t p f r) = rm_state r /\ rm_spectators (set_slot t p f r) = rm_spectators r /\
  rm_drawn (set_slot t p f r) = rm_drawn r /\
  length (rm_team0 (set_slot t p f r)) = length (rm_team0 r) /\
  length (rm_team1 (set_slot t p f r)) = length (rm_team1 r).
Proof.
  intros r t p f. unfold set_slot. destruct (t =? 0); cbn; repeat split; try reflexivity;
    destruct (nth_error _ _); try rewrite upd_length; reflexivity.
Qed.

Lemma set_slot_same_but : forall r t p f, t = 0 \/ t = 1 -> same_but r (set_slot t p f r) t p.
Proof.
  intros r t p f T. destruct (set_slot_rest r t p f) as (A & B & C & D & _).
  unfold same_but. repeat split; auto. intros t' p' N. rewrite set_slot_place by exact T.
  destruct (N.eqb_spec t t') as [<-|]; [|reflexivity]. destruct (N.eqb_spec p p') as [<-|]; [|reflexivity].
  destruct (N eq_refl).
Qed.

Lemma slot_at_place : forall r t p, t = 0 \/ t = 1 -> slot_at r t p = place r t p.
Proof. intros r t p [-> | ->]; reflexivity. Qed.

(** ** The invariant *)

Record sane (v : env) (r : room) : Prop := {
  sn_len0 : length (rm_team0 r) = 3%nat;
  sn_len1 : length (rm_team1 r) = 3%nat;
  sn_max : exists m0 m1, op_max (rm_options r) = [m0; m1] /\ 1 <= m0 <= 3 /\ 1 <= m1 <= 3;
  sn_beyond : forall t p s, place r t p = Some s -> limit r t <= p -> s = slot0;
  sn_empty : forall t p s, place r t p = Some s -> sl_client s = None -> s = slot0;
  sn_deck : forall t p s, place r t p = Some s ->
    if sl_valid s then fst (ev_check v (banlist_id (rm_options r)) (sl_deck s)) = true else sl_deck s = deck0;
  sn_watch : NoDup (rm_spectators r);
  sn_host : sits r 0 0 (rm_host r);
  sn_state : (configuring r /\ rm_drawn r = 0%nat) \/ deciding r }.

Lemma sane_limit : forall v r, sane v r -> exists m0 m1,
  limit r 0 = m0 /\ limit r 1 = m1 /\ max_of r 0 = Ok m0 /\ max_of r 1 = Ok m1 /\ 1 <= m0 <= 3 /\ 1 <= m1 <= 3.
Proof.
  intros v r S. destruct (sn_max v r S) as (m0 & m1 & E & A & B). exists m0, m1.
  unfold limit, max_of. rewrite E. repeat split; try reflexivity; lia.
Qed.

Lemma sane_place : forall v r t p, sane v r -> t = 0 \/ t = 1 -> p < 3 -> exists s, place r t p = Some s.
Proof.
  intros v r t p S T L. unfold place. destruct (nth_error (seats r t) (N.to_nat p)) eqn:E; [eauto|].
  apply nth_error_None in E. pose proof (sn_len0 v r S). pose proof (sn_len1 v r S).
  destruct T as [-> | ->]; simpl in E; lia.
Qed.

Lemma place_lt : forall v r t p s, sane v r -> place r t p = Some s -> p < 3.
Proof.
  intros v r t p s S E. unfold place in E.
  assert (L : (N.to_nat p < length (seats r t))%nat) by (apply nth_error_Some; congruence).
  pose proof (sn_len0 v r S). pose proof (sn_len1 v r S).
  destruct (seats_cases r t) as [[_ A]|[[_ A]|[_ A]]]; rewrite A in L; simpl in L; lia.
Qed.

(** ** Scanning for a free seat *)

Fixpoint first_free (l : list slot) (pos : N) : option N :=
  match l with
  | [] => None
  | s :: l' => match sl_client s with None => Some pos | Some _ => first_free l' (pos + 1) end
  end.

Lemma scan_team_run : forall l pos max n f, pos < max ->
  scan_team l pos max n f =
  (n + lenN (sitters (firstn (N.to_nat (max - pos)) l)),
   match f with Some _ => f | None => first_free (firstn (N.to_nat (max - pos)) l) pos end).
Proof.
  induction l as [|s l IH]; intros pos max n f L.
  - simpl. rewrite firstn_nil. simpl. unfold lenN. simpl. rewrite N.add_0_r. destruct f; reflexivity.
  - replace (N.to_nat (max - pos)) with (S (N.to_nat (max - (pos + 1)))) by lia.
    cbn [scan_team firstn].
    destruct (N.eqb_spec (pos + 1) max) as [E|E].
    + replace (N.to_nat (max - (pos + 1))) with 0%nat by lia. cbn [firstn].
      unfold sitters, lenN. simpl. destruct (sl_client s); simpl; destruct f; f_equal; try lia; reflexivity.
    + destruct (sl_client s) eqn:C; rewrite IH by lia; unfold sitters, lenN; simpl; rewrite C; simpl.
      * destruct f; f_equal; unfold sitters; lia.
      * destruct f; reflexivity.
Qed.

Lemma first_free_spec : forall l pos,
  match first_free l pos with
  | Some q => pos <= q /\ (exists s, nth_error l (N.to_nat (q - pos)) = Some s /\ sl_client s = None) /\
      (forall i, pos <= i -> i < q -> exists s c, nth_error l (N.to_nat (i - pos)) = Some s /\ sl_client s = Some c)
  | None => forall i, pos <= i -> i - pos < lenN l ->
      exists s c, nth_error l (N.to_nat (i - pos)) = Some s /\ sl_client s = Some c
  end.
Proof.
  induction l as [|s l IH]; intros pos; simpl.
  - intros i A B. unfold lenN in B. simpl in B. lia.
  - destruct (sl_client s) eqn:C.
    + specialize (IH (pos + 1)). destruct (first_free l (pos + 1)) as [q|] eqn:F.
      * destruct IH as (A & B & D). split; [lia|]. split.
        { replace (N.to_nat (q - pos)) with (S (N.to_nat (q - (pos + 1)))) by lia. exact B. }
        intros i I J. destruct (N.eq_dec i pos) as [->|K].
        { rewrite N.sub_diag. simpl. eauto. }
        replace (N.to_nat (i - pos)) with (S (N.to_nat (i - (pos + 1)))) by lia. apply D; lia.
      * intros i I J. destruct (N.eq_dec i pos) as [->|K].
        { rewrite N.sub_diag. simpl. eauto. }
        replace (N.to_nat (i - pos)) with (S (N.to_nat (i - (pos + 1)))) by lia. apply IH; [lia|].
        unfold lenN in *. simpl in J. lia.
    + split; [lia|]. split; [rewrite N.sub_diag; simpl; eauto|]. intros i I J. lia.
Qed.

(** Nobody sits past the limit. *)
Lemma sitters_limit : forall v r t, sane v r -> t = 0 \/ t = 1 ->
  sitters (firstn (N.to_nat (limit r t)) (seats r t)) = sitters (seats r t).
Proof.
  intros v r t S T. rewrite <- (firstn_skipn (N.to_nat (limit r t)) (seats r t)) at 2.
  unfold sitters at 2. rewrite flat_map_app. fold (sitters (firstn (N.to_nat (limit r t)) (seats r t))).
  assert (Z : flat_map (fun s => match sl_client s with Some c => [c] | None => [] end)
                (skipn (N.to_nat (limit r t)) (seats r t)) = []); [|rewrite Z; symmetry; apply app_nil_r].
  assert (A : forall s, In s (skipn (N.to_nat (limit r t)) (seats r t)) -> s = slot0).
  { intros s I. apply In_nth_error in I. destruct I as [n I]. rewrite nth_error_skipn in I.
    apply (sn_beyond v r S t (limit r t + N.of_nat n)); [|lia]. unfold place. rewrite <- I. f_equal. lia. }
  induction (skipn (N.to_nat (limit r t)) (seats r t)) as [|s l IH]; [reflexivity|].
  simpl. rewrite (A s) by (left; reflexivity). simpl. apply IH. intros; apply A; right; auto.
Qed.

Lemma nth_error_firstn_lt : forall A n (l : list A) i, (i < n)%nat -> nth_error (firstn n l) i = nth_error l i.
Proof.
  induction n as [|n IH]; intros l i L; [lia|]. destruct l; [destruct i; reflexivity|].
  destruct i; [reflexivity|]. simpl. apply IH. lia.
Qed.

Lemma scan_team_sane : forall v r t, sane v r -> t = 0 \/ t = 1 -> exists e,
  scan_team (seats r t) 0 (limit r t) 0 None = (duelists r t, e) /\
  match e with Some p => free r t p | None => full r t end.
Proof.
  intros v r t S T. destruct (sane_limit v r S) as (m0 & m1 & L0 & L1 & _ & _ & B0 & B1).
  assert (B : 1 <= limit r t <= 3) by (destruct T as [-> | ->]; lia).
  exists (first_free (firstn (N.to_nat (limit r t - 0)) (seats r t)) 0). split.
  - rewrite scan_team_run by lia. rewrite N.sub_0_r. unfold duelists.
    rewrite (sitters_limit v r t S T). reflexivity.
  - pose proof (first_free_spec (firstn (N.to_nat (limit r t - 0)) (seats r t)) 0) as F.
    rewrite N.sub_0_r in *.
    assert (Len : lenN (firstn (N.to_nat (limit r t)) (seats r t)) = limit r t).
    { unfold lenN. rewrite firstn_length. pose proof (sn_len0 v r S). pose proof (sn_len1 v r S).
      destruct T as [-> | ->]; simpl; lia. }
    assert (P : forall i, i < limit r t -> nth_error (firstn (N.to_nat (limit r t)) (seats r t)) (N.to_nat i) = place r t i).
    { intros i I. apply nth_error_firstn_lt. lia. }
    destruct (first_free _ 0) as [q|].
    + destruct F as (_ & (s & A & C) & D). rewrite N.sub_0_r in A.
      assert (Q : q < limit r t).
      { rewrite <- Len. unfold lenN.
        assert (N.to_nat q < length (firstn (N.to_nat (limit r t)) (seats r t)))%nat by (apply nth_error_Some; congruence). lia. }
      split; [exact Q|]. split; [exists s; rewrite <- P by exact Q; auto|].
      intros i I. destruct (D i) as (s' & c & E & G); [lia|exact I|]. rewrite N.sub_0_r in E.
      exists c, s'. rewrite <- P by lia. auto.
    + intros i I. destruct (F i) as (s' & c & E & G); [lia|rewrite N.sub_0_r, Len; exact I|].
      rewrite N.sub_0_r in E. exists c, s'. rewrite <- P by lia. auto.
Qed.

Lemma free_not_full : forall r t p, free r t p -> ~ full r t.
Proof.
  intros r t p (A & (s & B & C) & _) F. destruct (F p A) as (c & s' & D & E). congruence.
Qed.

Lemma find_empty_sane : forall v r, sane v r ->
  (find_empty r = Ok None /\ full r 0 /\ full r 1) \/
  (exists t p, find_empty r = Ok (Some (t, p)) /\ next_team r t /\ free r t p).
Proof.
  intros v r S. destruct (sane_limit v r S) as (m0 & m1 & L0 & L1 & M0 & M1 & _).
  destruct (scan_team_sane v r 0 S (or_introl eq_refl)) as (e0 & E0 & P0).
  destruct (scan_team_sane v r 1 S (or_intror eq_refl)) as (e1 & E1 & P1).
  unfold find_empty. rewrite M0, M1. cbn [obind]. rewrite L0 in E0. rewrite L1 in E1.
  cbn [seats] in E0, E1. rewrite E0, E1.
  destruct e0 as [p0|], e1 as [p1|].
  - right. destruct (N.leb_spec (duelists r 0) (duelists r 1)) as [L|L].
    + exists 0, p0. split; [reflexivity|]. split; [|exact P0]. split; [lia|].
      split; [eapply free_not_full; eauto|]. right. change (1 - 0) with 1. lia.
    + exists 1, p1. split; [reflexivity|]. split; [|exact P1]. split; [lia|].
      split; [eapply free_not_full; eauto|]. right. change (1 - 1) with 0. lia.
  - right. exists 0, p0. split; [reflexivity|]. split; [|exact P0]. split; [lia|].
    split; [eapply free_not_full; eauto|]. left. exact P1.
  - right. exists 1, p1. split; [reflexivity|]. split; [|exact P1]. split; [lia|].
    split; [eapply free_not_full; eauto|]. left. exact P0.
  - left. auto.
Qed.

(** ** Finding a client's seat *)

Lemma scan_peer_run : forall c l pos max, pos < max ->
  match scan_peer c l pos max with
  | Some q => pos <= q /\ q < max /\ exists s, nth_error l (N.to_nat (q - pos)) = Some s /\ sl_client s = Some c
  | None => forall i s, pos <= i -> i < max -> nth_error l (N.to_nat (i - pos)) = Some s -> sl_client s <> Some c
  end.
Proof.
  intros c. induction l as [|s l IH]; intros pos max L; simpl.
  - intros i s _ _ H. destruct (N.to_nat (i - pos)); discriminate.
  - destruct (match sl_client s with Some c' => c' =? c | None => false end) eqn:E.
    + split; [lia|]. split; [lia|]. exists s. rewrite N.sub_diag. split; [reflexivity|].
      destruct (sl_client s); [apply N.eqb_eq in E; congruence|discriminate].
    + assert (H0 : sl_client s <> Some c).
      { intros H. rewrite H, N.eqb_refl in E. discriminate. }
      destruct (N.eqb_spec (pos + 1) max) as [M|M].
      * intros i s' I J K. assert (i = pos) by lia. subst i. rewrite N.sub_diag in K.
        injection K as <-. exact H0.
      * specialize (IH (pos + 1) max ltac:(lia)). destruct (scan_peer c l (pos + 1) max) as [q|].
        { destruct IH as (A & B & s' & C & D). split; [lia|]. split; [lia|]. exists s'. split; [|exact D].
          replace (N.to_nat (q - pos)) with (S (N.to_nat (q - (pos + 1)))) by lia. exact C. }
        intros i s' I J K. destruct (N.eq_dec i pos) as [->|D].
        { rewrite N.sub_diag in K. injection K as <-. exact H0. }
        replace (N.to_nat (i - pos)) with (S (N.to_nat (i - (pos + 1)))) in K by lia. apply (IH i); auto; lia.
Qed.

Lemma find_peer_sane : forall v r c, sane v r ->
  (find_peer c r = Ok None /\ forall t p, ~ sits r t p c) \/
  (exists t p, find_peer c r = Ok (Some (t, p)) /\ (t = 0 \/ t = 1) /\ sits r t p c).
Proof.
  intros v r c S. destruct (sane_limit v r S) as (m0 & m1 & L0 & L1 & M0 & M1 & B0 & B1).
  unfold find_peer. rewrite M0. cbn [obind].
  pose proof (scan_peer_run c (rm_team0 r) 0 m0 ltac:(lia)) as R0.
  destruct (scan_peer c (rm_team0 r) 0 m0) as [p|].
  - right. exists 0, p. split; [reflexivity|]. split; [auto|]. destruct R0 as (_ & _ & s & A & B).
    rewrite N.sub_0_r in A. exists s. auto.
  - rewrite M1. cbn [obind]. pose proof (scan_peer_run c (rm_team1 r) 0 m1 ltac:(lia)) as R1.
    destruct (scan_peer c (rm_team1 r) 0 m1) as [p|].
    + right. exists 1, p. split; [reflexivity|]. split; [auto|]. destruct R1 as (_ & _ & s & A & B).
      rewrite N.sub_0_r in A. exists s. auto.
    + left. split; [reflexivity|]. intros t p H. pose proof (sits_team r t p c H) as T. destruct H as (s & A & B).
      assert (I : p < limit r t).
      { destruct (N.le_gt_cases (limit r t) p) as [G|G]; [|exact G].
        rewrite (sn_beyond v r S t p s A G) in B. discriminate. }
      destruct T as [-> | ->].
      * apply (R0 p s); [lia|rewrite <- L0; exact I|rewrite N.sub_0_r; exact A|exact B].
      * apply (R1 p s); [lia|rewrite <- L1; exact I|rewrite N.sub_0_r; exact A|exact B].
Qed.

(** ** Starting *)

Lemma team_can_start_run : forall l b, team_can_start l b = true <->
  ((b = true \/ sitters l <> []) /\
   forall n s c, nth_error l n = Some s -> sl_client s = Some c -> sl_valid s = true /\ sl_ready s = true).
Proof.
  induction l as [|s l IH]; intros b; simpl.
  - split; [intros ->; split; [auto|]; intros [|n] s c H; discriminate|]. intros [[H|H] _]; congruence.
  - unfold sitters. simpl. destruct (sl_client s) as [c|] eqn:C.
    + destruct (negb (sl_valid s) || negb (sl_ready s)) eqn:G.
      * split; [discriminate|]. intros [_ H]. destruct (H 0%nat s c eq_refl C) as [A B].
        rewrite A, B in G. discriminate.
      * rewrite IH. apply orb_false_elim in G. destruct G as [G1 G2]. apply negb_false_iff in G1, G2.
        split.
        { intros [_ H]. split; [right; simpl; discriminate|]. intros [|n] s' c' A B.
          - injection A as <-. auto.
          - eapply H; eauto. }
        { intros [_ H]. split; [auto|]. intros n s' c' A B. eapply (H (S n)); eauto. }
    + rewrite IH. simpl. split; intros [A H]; (split; [exact A|]).
      * intros [|n] s' c' D E; [injection D as <-; congruence|eapply H; eauto].
      * intros n s' c' D E. eapply (H (S n)); eauto.
Qed.

Lemma sitters_some : forall l, sitters l <> [] <-> exists n s c, nth_error l n = Some s /\ sl_client s = Some c.
Proof.
  intros l. split.
  - destruct (sitters l) as [|c x] eqn:E; [congruence|]. intros _.
    assert (I : In c (sitters l)) by (rewrite E; left; reflexivity). apply in_sitters in I.
    destruct I as (n & s & A & B). eauto.
  - intros (n & s & c & A & B) E. assert (I : In c (sitters l)) by (apply in_sitters; eauto). rewrite E in I. destruct I.
Qed.

Lemma can_start_spec : forall r, can_start r = true <-> all_ready r.
Proof.
  intros r. unfold can_start, all_ready.
  assert (K : (if team_can_start (rm_team0 r) false then team_can_start (rm_team1 r) false else false) = true <->
     team_can_start (rm_team0 r) false = true /\ team_can_start (rm_team1 r) false = true).
  { destruct (team_can_start (rm_team0 r) false); split; intros H; try tauto; try discriminate; destruct H; auto. }
  rewrite K, !team_can_start_run, !sitters_some. clear K. split.
  - intros [[[A|A] B] [[C|C] D]]; try discriminate. split.
    + intros t T. assert (O : t = 0 \/ t = 1) by lia. destruct O as [-> | ->].
      * destruct A as (n & s & c & E & F). exists (N.of_nat n), c, s. unfold place. simpl. rewrite Nat2N.id. auto.
      * destruct C as (n & s & c & E & F). exists (N.of_nat n), c, s. unfold place. simpl. rewrite Nat2N.id. auto.
    + intros t p s c E F. unfold place in E.
      destruct (seats_cases r t) as [[_ G]|[[_ G]|[_ G]]]; rewrite G in E; eauto.
      destruct (N.to_nat p); discriminate.
  - intros [A B]. split; (split; [right|]).
    + destruct (A 0 ltac:(lia)) as (p & c & s & C & D). exists (N.to_nat p), s, c. auto.
    + intros n s c C D. apply (B 0 (N.of_nat n) s c); [|exact D]. unfold place. simpl. rewrite Nat2N.id. exact C.
    + destruct (A 1 ltac:(lia)) as (p & c & s & C & D). exists (N.to_nat p), s, c. auto.
    + intros n s c C D. apply (B 1 (N.of_nat n) s c); [|exact D]. unfold place. simpl. rewrite Nat2N.id. exact C.
Qed.

(** ** Dice *)

Lemma roll_dice_run : forall rng fuel i,
  match roll_dice rng fuel (2 * i) with
  | Ok (l, w, n) => exists k, (k < fuel)%nat /\
      l = map (fun j => throw rng (i + j)) (seq 0 (S k)) /\
      (forall j, (j < k)%nat -> tie (throw rng (i + j))) /\
      ~ tie (throw rng (i + k)) /\
      w = (if fst (throw rng (i + k)) <? snd (throw rng (i + k)) then 1 else 0)
  | Diverge => forall k, (k < fuel)%nat -> tie (throw rng (i + k))
  | _ => False
  end.
Proof.
  intros rng. induction fuel as [|fuel IH]; intros i; [simpl; intros; lia|].
  cbn [roll_dice]. change (die (rng (2 * i)%nat)) with (fst (throw rng i)).
  replace (S (2 * i)) with (2 * i + 1)%nat by lia. change (die (rng (2 * i + 1)%nat)) with (snd (throw rng i)).
  destruct (N.eqb_spec (fst (throw rng i)) (snd (throw rng i))) as [E|E]; cbn [negb].
  - replace (S (2 * i + 1)) with (2 * S i)%nat by lia. specialize (IH (S i)).
    destruct (roll_dice rng fuel (2 * S i)) as [[[l w] n]| | |]; cbn [obind]; try exact IH.
    + destruct IH as (k & A & B & C & D & F). exists (S k). split; [lia|]. split; [|split; [|split]].
      * change (seq 0 (S (S k))) with (0%nat :: seq 1 (S k)). cbn [map]. f_equal.
        { rewrite Nat.add_0_r. destruct (throw rng i); reflexivity. }
        rewrite B, <- seq_shift, map_map. apply map_ext. intros j. f_equal. lia.
      * intros [|j] J; [rewrite Nat.add_0_r; exact E|]. replace (i + S j)%nat with (S i + j)%nat by lia. apply C. lia.
      * replace (i + S k)%nat with (S i + k)%nat by lia. exact D.
      * replace (i + S k)%nat with (S i + k)%nat by lia. exact F.
    + intros [|k] K; [rewrite Nat.add_0_r; exact E|]. replace (i + S k)%nat with (S i + k)%nat by lia. apply IH. lia.
  - exists 0%nat. rewrite !Nat.add_0_r. split; [lia|]. split; [|split; [|split]].
    + cbn [map seq]. rewrite Nat.add_0_r. destruct (throw rng i); reflexivity.
    + intros j J. lia.
    + exact E.
    + reflexivity.
Qed.

(** ** Leaders *)

Lemma team_leader_run : forall l,
  match team_leader l with
  | Ok c => exists n s, nth_error l n = Some s /\ sl_client s = Some c /\
      forall m s', (m < n)%nat -> nth_error l m = Some s' -> sl_client s' = None
  | UB => sitters l = []
  | _ => False
  end.
Proof.
  induction l as [|s l IH]; [reflexivity|]. simpl. destruct (sl_client s) as [c|] eqn:C.
  - exists 0%nat, s. repeat split; auto. intros m s' L. lia.
  - destruct (team_leader l) as [c| | |]; try exact IH.
    + destruct IH as (n & s' & A & B & D). exists (S n), s'. repeat split; auto.
      intros [|m] s2 L E; [injection E as <-; exact C|]. apply (D m); [lia|exact E].
Qed.

Lemma get_team_leader_run : forall r t, (t = 0 \/ t = 1) -> (exists p c, sits r t p c) ->
  exists c, get_team_leader r t = Ok c /\ leads r t c.
Proof.
  intros r t T (p & c & s & A & B). unfold get_team_leader.
  replace (t <? 2) with true by (symmetry; apply N.ltb_lt; lia). cbn [assert_ obind].
  replace (if t =? 0 then rm_team0 r else rm_team1 r) with (seats r t) by (destruct T as [-> | ->]; reflexivity).
  pose proof (team_leader_run (seats r t)) as R.
  destruct (team_leader (seats r t)) as [x| | |]; [|destruct R| |destruct R].
  - destruct R as (n & s' & C & D & E). exists x. split; [reflexivity|]. exists (N.of_nat n). split.
    + exists s'. unfold place. rewrite Nat2N.id. auto.
    + intros q c' L (s2 & F & G). assert (H := E (N.to_nat q) s2 ltac:(lia) F). congruence.
  - assert (I : In c (sitters (seats r t))) by (apply in_sitters; eauto). rewrite R in I. destruct I.
Qed.

(** ** Steps *)

Definition description (v : env) (r : room) : event :=
  EvConf (CeEntering (Some (rm_options r)) (all_duelists v r) (u32 (lenN (rm_spectators r)))).

Inductive step (v : env) (r : room) : action -> room -> sent -> Prop :=
| StQuiet : forall a, step v r a r []
| StSeat : forall c t p, configuring r -> next_team r t -> free r t p ->
    step v r (Enter c) (set_slot t p (set_client c) r)
      ((c, description v r) :: broadcast (set_slot t p (set_client c) r)
         (EvConf (CeDuelistEnters (mkDuelist t p (ev_user v c) (c =? rm_host r) false))))
| StWatch : forall c, configuring r -> full r 0 -> full r 1 -> c <> rm_host r ->
    step v r (Enter c) (set_spectators (set_insert c (rm_spectators r)) r)
      ((c, description v r) :: broadcast (set_spectators (set_insert c (rm_spectators r)) r)
         (EvSpectators (u32 (lenN (set_insert c (rm_spectators r))))))
| StAccept : forall c d t p, configuring r -> t = 0 \/ t = 1 -> sits r t p c ->
    fst (ev_check v (banlist_id (rm_options r)) d) = true ->
    step v r (Signal c (SgConf (CsUpdateDeck d))) (set_slot t p (set_deck true d) r) [(c, EvConf (CeDeckStatus None))]
| StReject : forall c d t p, configuring r -> t = 0 \/ t = 1 -> sits r t p c ->
    fst (ev_check v (banlist_id (rm_options r)) d) = false ->
    step v r (Signal c (SgConf (CsUpdateDeck d))) (set_slot t p (set_deck false deck0) r)
      [(c, EvConf (CeDeckStatus (Some (snd (ev_check v (banlist_id (rm_options r)) d)))))]
| StReady : forall c b t p s, configuring r -> t = 0 \/ t = 1 ->
    place r t p = Some s -> sl_client s = Some c -> sl_ready s = negb b -> (b = true -> sl_valid s = true) ->
    step v r (Signal c (SgConf (CsReady b))) (set_slot t p (set_ready b) r)
      (broadcast (set_slot t p (set_ready b) r)
         (EvConf (CeUpdateDuelist (mkDuelist t p (ev_user v c) (c =? rm_host r) b))))
| StStart : forall b r' o, configuring r -> all_ready r -> enter_deciding v r = Ok (r', o) ->
    step v r (Signal (rm_host r) (SgConf (CsStart b))) r' o
| StFirst : forall t, deciding r -> op_ftdm (rm_options r) = FTDM_HOST_CHOOSES -> t < 2 ->
    step v r (Signal (rm_host r) (SgFirst (FsTeam t))) r (broadcast r (EvFirst (FeResult t HowNotSet))).

Lemma enter_run : forall v r c, sane v r -> configuring r ->
  (full r 0 /\ full r 1 /\ c = rm_host r /\ enter v c r = Abort) \/
  (full r 0 /\ full r 1 /\ c <> rm_host r /\
    let r' := set_spectators (set_insert c (rm_spectators r)) r in
    enter v c r = Ok (r', (c, description v r) :: broadcast r' (EvSpectators (u32 (lenN (rm_spectators r')))))) \/
  (exists t p, next_team r t /\ free r t p /\
    let r' := set_slot t p (set_client c) r in
    enter v c r = Ok (r', (c, description v r) :: broadcast r'
      (EvConf (CeDuelistEnters (mkDuelist t p (ev_user v c) (c =? rm_host r) false))))).
Proof.
  intros v r c S C. unfold enter. rewrite C. unfold enter_conf.
  destruct (find_empty_sane v r S) as [(E & F0 & F1)|(t & p & E & NT & F)]; rewrite E; cbn [obind].
  - destruct (N.eqb_spec (rm_host r) c) as [<-|D]; cbn [negb assert_ obind]; [left; auto|]. right; left.
    repeat (split; [assumption || congruence|]). rewrite send_all_broadcast. reflexivity.
  - right; right. exists t, p. repeat (split; [assumption|]).
    rewrite send_all_broadcast, (N.eqb_sym (rm_host r)). reflexivity.
Qed.

Lemma act_step : forall v r a r' o, sane v r -> act v a r = Ok (r', o) -> step v r a r' o.
Proof.
  intros v r a r' o S H. destruct a as [c|c s]; cbn [act] in H.
  - destruct (sn_state v r S) as [[C _]|[d D]].
    + destruct (enter_run v r c S C) as [(_ & _ & _ & E)|[(F0 & F1 & D & E)|(t & p & NT & F & E)]];
        cbn zeta in E; rewrite E in H; inversion H; subst; [apply StWatch|apply StSeat]; assumption.
    + unfold enter in H. rewrite D in H. inversion H; subst. apply StQuiet.
  - unfold visit in H. destruct (rm_state r) as [| |d] eqn:ST.
    { inversion H; subst. apply StQuiet. }
    + destruct s as [|s|s]; try (inversion H; subst; apply StQuiet).
      destruct s as [|d|b|b]; cbn [signal_conf] in H.
      * inversion H; subst. apply StQuiet.
      * unfold update_deck in H. destruct (find_peer_sane v r c S) as [[E _]|(t & p & E & T & Q)]; rewrite E in H; cbn [obind] in H.
        { inversion H; subst. apply StQuiet. }
        destruct (ev_check v (banlist_id (rm_options r)) d) as [ok err] eqn:K.
        assert (K1 : fst (ev_check v (banlist_id (rm_options r)) d) = ok) by (rewrite K; reflexivity).
        assert (K2 : snd (ev_check v (banlist_id (rm_options r)) d) = err) by (rewrite K; reflexivity).
        rewrite <- K2 in H. destruct ok; inversion H; subst; [apply StAccept|apply StReject]; auto.
      * unfold ready_status in H. destruct (find_peer_sane v r c S) as [[E _]|(t & p & E & T & Q)]; rewrite E in H; cbn [obind] in H.
        { inversion H; subst. apply StQuiet. }
        destruct Q as (s & A & B). rewrite slot_at_place, A in H by exact T. cbn [or_ub obind] in H.
        destruct (Bool.eqb b (sl_ready s)) eqn:X; [inversion H; subst; apply StQuiet|].
        destruct (b && negb (sl_valid s)) eqn:Y; [inversion H; subst; apply StQuiet|].
        inversion H; subst. rewrite send_all_broadcast, (N.eqb_sym (rm_host r)). apply StReady with (s := s); auto.
        { destruct b, (sl_ready s); try discriminate; reflexivity. }
        { intros ->. destruct (sl_valid s); [reflexivity|discriminate]. }
      * unfold start_dueling in H. destruct (N.eqb_spec c (rm_host r)) as [->|D]; cbn [negb] in H;
          [|inversion H; subst; apply StQuiet].
        destruct (can_start r) eqn:X; cbn [negb] in H; [|inversion H; subst; apply StQuiet].
        apply StStart; auto. apply can_start_spec. exact X.
    + destruct s as [|s|s]; try (inversion H; subst; apply StQuiet).
      destruct s as [|t]; cbn [signal_first] in H; [inversion H; subst; apply StQuiet|].
      destruct (Z.eqb_spec (op_ftdm (rm_options r)) FTDM_HOST_CHOOSES) as [F|F]; cbn [negb orb] in H;
        [|inversion H; subst; apply StQuiet].
      destruct (N.eqb_spec c (rm_host r)) as [->|D]; cbn [negb] in H; [|inversion H; subst; apply StQuiet].
      destruct (N.ltb_spec 1 t) as [L|L]; [inversion H; subst; apply StQuiet|].
      inversion H; subst. rewrite send_all_broadcast. apply StFirst; auto; [exists d; exact ST|lia].
Qed.

(** Which room, and what was sent, after the start. *)
Lemma occupants_same : forall r r', rm_team0 r' = rm_team0 r -> rm_team1 r' = rm_team1 r ->
  rm_spectators r' = rm_spectators r -> forall e, broadcast r' e = broadcast r e.
Proof. intros r r' A B C e. unfold broadcast, occupants. rewrite A, B, C. reflexivity. Qed.

Lemma deciding_run : forall v r, configuring r -> rm_drawn r = 0%nat -> all_ready r ->
  let m := op_ftdm (rm_options r) in
  let hail := broadcast r (EvFirst FeEntering) in
  let ask c n := fun o => enter_deciding v r =
    Ok (set_state (Deciding (Some c)) (set_drawn n r), o ++ [(c, EvFirst (FeDecide true))]) in
  (m = FTDM_HOST_CHOOSES -> ask (rm_host r) 0%nat hail) /\
  (m = FTDM_DICE ->
     (exists k w c n, (k < ev_fuel v)%nat /\
        (forall j, (j < k)%nat -> tie (throw (ev_rng v) j)) /\ ~ tie (throw (ev_rng v) k) /\
        w = (if fst (throw (ev_rng v) k) <? snd (throw (ev_rng v) k) then 1 else 0) /\ leads r w c /\
        ask c n (hail ++ broadcast r (EvFirst (FeResult w (HowDice (map (throw (ev_rng v)) (seq 0 (S k)))))))) \/
     (enter_deciding v r = Diverge /\ forall k, (k < ev_fuel v)%nat -> tie (throw (ev_rng v) k))) /\
  (m = FTDM_COIN ->
     exists c, let w := ev_rng v 0%nat mod 2 in leads r w c /\
       ask c 1%nat (hail ++ broadcast r (EvFirst (FeResult w (HowCoin w))))) /\
  (m = FTDM_INT_MIN \/ m = FTDM_INT_MAX -> enter_deciding v r = UB) /\
  (m <> FTDM_HOST_CHOOSES -> m <> FTDM_DICE -> m <> FTDM_COIN -> m <> FTDM_INT_MIN -> m <> FTDM_INT_MAX ->
     enter_deciding v r = Ok (set_state (Deciding None) r, hail)).
Proof.
  intros v r C D [One _] m hail ask. unfold ask. unfold enter_deciding, on_enter_deciding.
  cbn [rm_state set_state]. rewrite C. cbn [state_index N.eqb Pos.eqb negb assert_ obind].
  rewrite !send_all_broadcast.
  rewrite (occupants_same r (set_state (Deciding None) r)) by reflexivity.
  change (op_ftdm (rm_options (set_state (Deciding None) r))) with m. fold hail.
  cbn [rm_host set_state rm_drawn]. rewrite D.
  split; [|split; [|split; [|split]]].
  - intros ->. cbn [Z.eqb FTDM_HOST_CHOOSES]. unfold send_choose, set_state, set_drawn. cbn. rewrite <- D. reflexivity.
  - intros ->. cbn [Z.eqb FTDM_HOST_CHOOSES FTDM_RPS FTDM_DICE Pos.eqb].
    pose proof (roll_dice_run (ev_rng v) (ev_fuel v) 0) as R. change (2 * 0)%nat with 0%nat in R.
    destruct (roll_dice (ev_rng v) (ev_fuel v) 0) as [[[l w] n]| | |]; try destruct R; cbn [obind].
    + left. destruct H as (K & L & T & NT & W). cbn [plus] in *.
      assert (O : w = 0 \/ w = 1) by (rewrite W; destruct (_ <? _); auto).
      destruct (get_team_leader_run (set_drawn n (set_state (Deciding None) r)) w O) as (c & GL & Ld).
      { apply (One w). lia. }
      rewrite GL. cbn [obind]. exists x, w, c, n. repeat (split; [assumption|]).
      rewrite send_all_broadcast, (occupants_same r) by reflexivity. rewrite L. reflexivity.
    + right. split; [reflexivity|exact R].
  - intros ->. cbn [Z.eqb FTDM_HOST_CHOOSES FTDM_RPS FTDM_DICE FTDM_COIN Pos.eqb].
    assert (O : ev_rng v 0%nat mod 2 = 0 \/ ev_rng v 0%nat mod 2 = 1).
    { pose proof (N.mod_lt (ev_rng v 0%nat) 2 ltac:(lia)). lia. }
    destruct (get_team_leader_run (set_drawn 1%nat (set_state (Deciding None) r)) _ O) as (c & GL & Ld).
    { apply (One (ev_rng v 0%nat mod 2)). lia. }
    exists c. cbn zeta. split; [exact Ld|].
    rewrite GL. cbn [obind]. rewrite (occupants_same r) by reflexivity. reflexivity.
  - intros [-> | ->]; reflexivity.
  - intros A B E F G. apply Z.eqb_neq in A, B, E, F, G. rewrite A, B, E, F, G. destruct (m =? FTDM_RPS)%Z; reflexivity.
Qed.
