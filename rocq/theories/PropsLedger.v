(** C96: a duelist's seat shows what the duelist said. *)
From Verif Require Import Base BaseProofs Room RoomSpec RoomProofs RoomInv SeatSpec PropsRoom PropsSeats.

Local Open Scope N_scope.

Definition status (s : slot) : standing := (sl_valid s, sl_ready s, sl_deck s).

Lemma seated_sits : forall r c, seated r c = true <-> exists t p, sits r t p c.
Proof.
  intros r c. unfold seated. rewrite existsb_exists. split.
  - intros (c' & I & E). apply N.eqb_eq in E. subst c'. apply in_app_iff in I. destruct I as [I|I];
      apply in_sitters in I; destruct I as (n & s & A & B); [exists 0|exists 1]; exists (N.of_nat n), s; unfold place, seats;
      rewrite Nat2N.id; auto.
  - intros (t & p & (s & A & B)). exists c. split; [|apply N.eqb_refl]. apply in_app_iff. unfold place in A.
    destruct (seats_cases r t) as [[_ E]|[[_ E]|[_ E]]]; rewrite E in A;
      [left|right|destruct (N.to_nat p); discriminate]; apply in_sitters; eauto.
Qed.

Section Client.
Variable v : env.
Variable c : N.

Record book (r : room) (x : standing) : Prop := {
  bk_free : forall t p s, place r t p = Some s -> sl_client s = None -> s = slot0;
  bk_seat : forall t p s, place r t p = Some s -> sl_client s = Some c -> ~ twice r c -> status s = x;
  bk_none : seated r c = false -> x = newcomer
}.

(** The room's view of the client may change, the clients do not. *)
Lemma slot_twice : forall r t p f, t = 0 \/ t = 1 -> (forall s, sl_client (f s) = sl_client s) ->
  forall t' p' d, sits (set_slot t p f r) t' p' d <-> sits r t' p' d.
Proof.
  intros r t p f T K t' p' d. unfold sits. rewrite set_slot_place by exact T.
  destruct ((t =? t') && (p =? p')) eqn:E; [|reflexivity]. apply andb_true_iff in E as [E1 E2].
  apply N.eqb_eq in E1, E2. subst t' p'. destruct (place r t p) as [s|]; cbn.
  - split; intros (s' & A & B).
    + injection A as <-. exists s. rewrite K in B. auto.
    + injection A as <-. exists (f s). rewrite K. auto.
  - split; intros (s' & A & _); discriminate.
Qed.

Lemma same_twice : forall r r', (forall t p d, sits r' t p d <-> sits r t p d) -> rm_spectators r' = rm_spectators r ->
  (twice r' c <-> twice r c) /\ seated r' c = seated r c.
Proof.
  intros r r' S W. split.
  - unfold twice, watches. rewrite W. split; intros [(t & p & t' & p' & N & A & B)|((t & p & A) & B)].
    + left. exists t, p, t', p'. split; [exact N|]. split; apply S; assumption.
    + right. split; [|exact B]. exists t, p. apply S. exact A.
    + left. exists t, p, t', p'. split; [exact N|]. split; apply S; assumption.
    + right. split; [|exact B]. exists t, p. apply S. exact A.
  - assert (X : seated r' c = true <-> seated r c = true).
    { rewrite !seated_sits. split; intros (t & p & A); exists t, p; apply S; exact A. }
    destruct (seated r' c), (seated r c); try reflexivity; destruct X; auto; symmetry; auto.
Qed.

(** A word of somebody at one of the seats. *)
Lemma book_slot : forall r x t p f c' g, t = 0 \/ t = 1 -> (forall s, sl_client (f s) = sl_client s) ->
  sits r t p c' -> (forall s, place r t p = Some s -> status (f s) = g (status s)) ->
  book r x -> book (set_slot t p f r) (if c' =? c then g x else x).
Proof.
  intros r x t p f c' g T K (s0 & A0 & B0) G [F S N].
  pose proof (slot_twice r t p f T K) as St.
  destruct (set_slot_rest r t p f) as (_ & _ & _ & W & _).
  destruct (same_twice r (set_slot t p f r) St W) as [Tw Se]. split.
  - intros t' p' s. rewrite set_slot_place by exact T. destruct ((t =? t') && (p =? p')) eqn:E; [|apply F].
    rewrite A0. cbn. intros X Y. injection X as <-. rewrite K in Y. congruence.
  - intros t' p' s. rewrite set_slot_place by exact T. destruct ((t =? t') && (p =? p')) eqn:E.
    + apply andb_true_iff in E as [E1 E2]. apply N.eqb_eq in E1, E2. subst t' p'. rewrite A0. cbn.
      intros X Y Nt. injection X as <-. rewrite K in Y. assert (c' = c) by congruence. subst c'. rewrite N.eqb_refl.
      rewrite (G s0 A0). f_equal. apply (S t p); auto. rewrite <- Tw. exact Nt.
    + intros X Y Nt. rewrite Tw in Nt. destruct (N.eqb_spec c' c) as [->|Ne]; [|apply (S t' p'); auto].
      exfalso. apply Nt. left. exists t, p, t', p'. split; [|split; [exists s0; auto|exists s; auto]].
      intros Q. injection Q as <- <-. rewrite !N.eqb_refl in E. discriminate.
  - rewrite Se. intros X. destruct (N.eqb_spec c' c) as [->|Ne]; [|auto].
    assert (Y : seated r c = true) by (apply seated_sits; exists t, p, s0; auto). congruence.
Qed.

Lemma book_enter : forall r x c' r' o, sane v r -> configuring r -> book r x -> enter v c' r = Ok (r', o) -> book r' x.
Proof.
  intros r x c' r' o S C [F St N] E.
  destruct (enter_run v r c' S C) as [(_ & _ & _ & Q)|[(_ & _ & _ & Q)|(t & p & NT & Fr & Q)]]; cbn zeta in Q; rewrite Q in E;
    [discriminate| |]; injection E as <- _; clear Q.
  - split.
    + exact F.
    + intros t p s A B Nt. apply (St t p s A B). intros T. apply Nt. destruct T as [T|[T W]]; [left; exact T|right].
      split; [exact T|]. unfold watches in *. cbn. unfold set_insert. destruct (existsb _ _); [exact W|]. apply in_app_iff. auto.
    + exact N.
  - assert (T : t = 0 \/ t = 1) by (destruct NT; lia). destruct Fr as (_ & (s0 & A0 & B0) & _).
    assert (Up : forall t' p' d, sits r t' p' d -> sits (set_slot t p (set_client c') r) t' p' d).
    { intros t' p' d (s & A & B). unfold sits. rewrite set_slot_place by exact T. destruct ((t =? t') && (p =? p')) eqn:Z; [|eauto].
      apply andb_true_iff in Z as [E1 E2]. apply N.eqb_eq in E1, E2. subst t' p'. congruence. }
    destruct (set_slot_rest r t p (set_client c')) as (_ & _ & _ & W & _).
    assert (Tw : twice r c -> twice (set_slot t p (set_client c') r) c).
    { intros [(t1 & p1 & t2 & p2 & Ne & A & B)|((t1 & p1 & A) & B)]; [left; exists t1, p1, t2, p2; auto|right].
      unfold watches. rewrite W. eauto. }
    split.
    + intros t' p' s. rewrite set_slot_place by exact T. destruct ((t =? t') && (p =? p')) eqn:Z; [|apply F].
      rewrite A0. cbn. intros X Y. injection X as <-. discriminate.
    + intros t' p' s. rewrite set_slot_place by exact T. destruct ((t =? t') && (p =? p')) eqn:Z; [|intros A B Nt; apply (St t' p' s A B); auto].
      apply andb_true_iff in Z as [E1 E2]. apply N.eqb_eq in E1, E2. subst t' p'.
      rewrite A0. cbn. intros X Y Nt. injection X as <-. injection Y as ->. pose proof (F t p s0 A0 B0) as ->.
      cbn. symmetry. apply N. destruct (seated r c) eqn:Se; [|reflexivity]. exfalso. apply Nt. left.
      apply seated_sits in Se. destruct Se as (t1 & p1 & Q). exists t, p, t1, p1. split; [|split; [|apply Up; exact Q]].
      * intros X. injection X as <- <-. destruct Q as (s & A & B). congruence.
      * eexists. rewrite set_slot_place, !N.eqb_refl by exact T. cbn [andb]. rewrite A0. split; reflexivity.
    + intros Se. apply N. destruct (seated r c) eqn:X; [|reflexivity]. apply seated_sits in X. destruct X as (t1 & p1 & Q).
      assert (Y : seated (set_slot t p (set_client c') r) c = true) by (apply seated_sits; eauto). congruence.
Qed.

Definition words1 (a : action) (r : room) : list conf_signal :=
  match a, rm_state r with
  | Signal c' (SgConf s), Configuring => if (c' =? c) && seated r c then [s] else []
  | _, _ => []
  end.
Definition check1 (r : room) (d : deck) : bool := fst (ev_check v (house_list (rm_options r)) d).

Lemma book_act : forall r x a r' o, sane v r -> book r x -> act v a r = Ok (r', o) ->
  book r' (fold_left (say (check1 r)) (words1 a r) x).
Proof.
  intros r x a r' o S B E. destruct (rm_state r) as [| |dd] eqn:ST.
  - destruct (sn_state v r S) as [[Q _]|[? Q]]; congruence.
  - destruct a as [c'|c' s].
    + cbn. eapply book_enter; eauto.
    + cbn [act] in E. unfold visit in E. rewrite ST in E. unfold words1. rewrite ST.
      destruct s as [|s|s]; try (injection E as <- _; exact B).
      assert (Q : (find_peer c' r = Ok None /\ ((c' =? c) && seated r c = false)) \/
        (exists t p, find_peer c' r = Ok (Some (t, p)) /\ (t = 0 \/ t = 1) /\ sits r t p c' /\ (c' =? c) && seated r c = (c' =? c))).
      { destruct (find_peer_sane v r c' S) as [[P Nn]|(t & p & P & T & Q)]; [left|right].
        - split; [exact P|]. destruct (N.eqb_spec c' c) as [->|]; [|reflexivity]. destruct (seated r c) eqn:Z; [|reflexivity].
          apply seated_sits in Z. destruct Z as (t & p & Z). destruct (Nn t p Z).
        - exists t, p. split; [exact P|]. split; [exact T|]. split; [exact Q|]. destruct (N.eqb_spec c' c) as [->|]; [|reflexivity].
          apply seated_sits. eauto. }
      destruct s as [|d|b|b]; cbn [signal_conf] in E.
      * injection E as <- _. clear Q. destruct x as [[x1 x2] x3]. destruct (_ && _); exact B.
      * unfold update_deck in E. destruct Q as [(P & Z)|(t & p & P & T & Q & Z)]; rewrite P in E; cbn [obind] in E; rewrite Z.
        { injection E as <- _. exact B. }
        change (banlist_id (rm_options r)) with (house_list (rm_options r)) in E.
        destruct (ev_check v (house_list (rm_options r)) d) as [ok err] eqn:V.
        assert (Cd : check1 r d = ok) by (unfold check1; now rewrite V).
        replace (fold_left (say (check1 r)) (if c' =? c then [CsUpdateDeck d] else []) x)
          with (if c' =? c then say (check1 r) x (CsUpdateDeck d) else x) by (destruct (c' =? c); reflexivity).
        destruct ok; injection E as <- _; (apply book_slot with (g := fun x => say (check1 r) x (CsUpdateDeck d));
          [exact T|reflexivity|exact Q| |exact B]; intros s _; cbn; now rewrite Cd).
      * unfold ready_status in E. destruct Q as [(P & Z)|(t & p & P & T & Q & Z)]; rewrite P in E; cbn [obind] in E; rewrite Z.
        { injection E as <- _. exact B. }
        rewrite (slot_at_place r t p T) in E. pose proof Q as (s & A & K). rewrite A in E. cbn [or_ub obind] in E.
        replace (fold_left (say (check1 r)) (if c' =? c then [CsReady b] else []) x)
          with (if c' =? c then say (check1 r) x (CsReady b) else x) by (destruct (c' =? c); reflexivity).
        assert (Same : r' = r -> say (check1 r) (status s) (CsReady b) = status s ->
          book r' (if c' =? c then say (check1 r) x (CsReady b) else x)).
        { intros -> Y. destruct (N.eqb_spec c' c) as [->|]; [|exact B]. destruct B as [F St N]. split; [exact F| |].
          - intros t' p' s' A' K' Nt. pose proof (St t p s A K Nt) as X. pose proof (St t' p' s' A' K' Nt) as X'. congruence.
          - intros Se. assert (X : seated r c = true) by (apply seated_sits; eauto). congruence. }
        destruct (Bool.eqb b (sl_ready s)) eqn:Eb.
        { injection E as <- _. apply eqb_prop in Eb. subst b. apply Same; [reflexivity|]. unfold status. cbn.
          destruct (sl_ready s); [now rewrite orb_true_r|reflexivity]. }
        destruct (b && negb (sl_valid s)) eqn:Bv.
        { injection E as <- _. apply andb_true_iff in Bv as [-> Bv]. apply negb_true_iff in Bv. apply Same; [reflexivity|].
          unfold status. cbn. now rewrite Bv. }
        injection E as <- _.
        apply book_slot with (g := fun x => say (check1 r) x (CsReady b)); [exact T|reflexivity|exact Q| |exact B].
        intros s' A'. assert (s' = s) by congruence. subst s'. destruct b; [|reflexivity]. cbn in Bv.
        apply negb_false_iff in Bv. unfold status. cbn. now rewrite Bv.
      * replace (fold_left (say (check1 r)) (if (c' =? c) && seated r c then [CsStart b] else []) x) with x
          by (destruct ((c' =? c) && seated r c); destruct x as [[x1 x2] x3]; reflexivity).
        unfold start_dueling in E. destruct (negb (c' =? rm_host r)); [injection E as <- _; exact B|].
        destruct (can_start r) eqn:Cs; cbn [negb] in E; [|injection E as <- _; exact B]. apply can_start_spec in Cs.
        destruct (start_run v r r' o ST (sane_drawn v r S ST) Cs E) as [(d & n & ->) _].
        destruct B as [F St N]. split; [exact F|exact St|exact N].
  - unfold words1. rewrite ST. destruct a as [c'|c' s]; cbn [act] in E.
    + unfold enter in E. rewrite ST in E. injection E as <- _. exact B.
    + unfold visit in E. rewrite ST in E.
      replace (match s with SgConf _ => [] | _ => [] end : list conf_signal) with (@nil conf_signal) by (destruct s; reflexivity).
      destruct s as [|s|s]; try (injection E as <- _; exact B). destruct s as [|t]; cbn [signal_first] in E.
      * injection E as <- _. exact B.
      * destruct (_ || _); [injection E as <- _; exact B|]. destruct (1 <? t); injection E as <- _; exact B.
Qed.

Lemma book_play : forall l r x out r' out', sane v r -> book r x -> play v l r out = Ok (r', out') ->
  book r' (fold_left (say (check1 r)) (words v c l r) x).
Proof.
  induction l as [|a l IH]; intros r x out r' out' S B E; cbn [play] in E.
  - injection E as <- _. exact B.
  - cbn [words]. destruct (act v a r) as [[r1 o]| | |] eqn:A; cbn [obind] in E; try discriminate.
    fold (words1 a r). rewrite fold_left_app.
    assert (O : check1 r1 = check1 r).
    { apply act_step in A; [|exact S]. destruct (step_fixed _ _ _ _ _ S A) as [O _]. unfold check1. now rewrite O. }
    rewrite <- O at 1. eapply IH; [|eapply book_act; eauto|exact E].
    eapply sane_step; [exact S|]. apply act_step; eauto.
Qed.
End Client.

(** The seat of a duelist that is at one place only. *)
Theorem C96_seat : forall v host o l r out r0 out0 t p c s,
  session v host o l = Ok (r, out) -> construct v host o = Ok (r0, out0) ->
  place r t p = Some s -> sl_client s = Some c -> ~ twice r c ->
  (sl_valid s, sl_ready s, sl_deck s) =
    fold_left (say (fun d => fst (ev_check v (house_list o) d))) (words v c l r0) newcomer.
Proof.
  intros v host o l r out r0 out0 t p c s H C A K N. rewrite construct_run in C. injection C as <- _.
  unfold session in H. rewrite construct_run in H. cbn [obind] in H.
  assert (B : book c (first_room host o) newcomer).
  { split.
    - intros t' p' s' A' K'. unfold place in A'.
      destruct (seats_cases (first_room host o) t') as [[_ E]|[[_ E]|[_ E]]]; rewrite E in A';
        destruct (N.to_nat p') as [|[|[|[|n]]]]; cbn in A'; try discriminate; injection A' as <-; try reflexivity; discriminate.
    - intros t' p' s' A' K' _. unfold place in A'.
      destruct (seats_cases (first_room host o) t') as [[_ E]|[[_ E]|[_ E]]]; rewrite E in A';
        destruct (N.to_nat p') as [|[|[|[|n]]]]; cbn in A'; try discriminate; injection A' as <-; try reflexivity; discriminate.
    - reflexivity. }
  pose proof (book_play v c l _ _ _ _ _ (first_sane v host o) B H) as [_ Q _]. exact (Q t p s A K N).
Qed.
Print Assumptions C96_seat.

(** So a duelist is ready without a valid deck exactly if it was ready when its
    latest deck came and was rejected, and has not withdrawn since. *)
Definition no_deck (s : conf_signal) : Prop := match s with CsUpdateDeck _ => False | _ => True end.
Definition ready_of (x : standing) : bool := snd (fst x).
Definition valid_of (x : standing) : bool := fst (fst x).

Lemma unready : forall check l x, ready_of (fold_left (say check) l x) = true ->
  valid_of (fold_left (say check) l x) = false ->
  (exists before d after, l = before ++ CsUpdateDeck d :: after /\ check d = false /\ Forall no_deck after /\
     ~ In (CsReady false) after /\ ready_of (fold_left (say check) before x) = true) \/
  (Forall no_deck l /\ ~ In (CsReady false) l /\ ready_of x = true /\ valid_of x = false).
Proof.
  intros check. induction l as [|s l IH] using rev_ind; intros x R V.
  - right. repeat split; auto.
  - rewrite fold_left_app in R, V. cbn [fold_left] in R, V. destruct (fold_left (say check) l x) as [[va re] d] eqn:E.
    assert (K : no_deck s -> s <> CsReady false -> re = true -> va = false ->
      (exists before d after, l ++ [s] = before ++ CsUpdateDeck d :: after /\ check d = false /\ Forall no_deck after /\
        ~ In (CsReady false) after /\ ready_of (fold_left (say check) before x) = true) \/
      (Forall no_deck (l ++ [s]) /\ ~ In (CsReady false) (l ++ [s]) /\ ready_of x = true /\ valid_of x = false)).
    { intros Nd Nr Rr Vv. destruct (IH x) as [(before & d' & after & L & C & F & N & G)|(F & N & G & G')]; rewrite ?E; auto.
      - left. exists before, d', (after ++ [s]). rewrite L, <- app_assoc. split; [reflexivity|]. split; [exact C|].
        split; [apply Forall_app; auto|]. split; [|exact G]. rewrite in_app_iff. intros [I|[I|[]]]; auto.
      - right. split; [apply Forall_app; auto|]. split; [|auto]. rewrite in_app_iff. intros [I|[I|[]]]; auto. }
    destruct s as [|d'|[]|b]; cbn in R, V.
    + apply K; [exact Logic.I|discriminate|exact R|exact V].
    + left. exists l, d', []. destruct (check d') eqn:C; cbn in R, V; [discriminate|]. rewrite E. repeat split; auto.
    + apply K; [exact Logic.I|discriminate| |exact V]. subst va. exact R.
    + discriminate.
    + apply K; [exact Logic.I|discriminate|exact R|exact V].
Qed.

Theorem C64_when_partial : forall v host o l r out r0 out0 t p c s,
  session v host o l = Ok (r, out) -> construct v host o = Ok (r0, out0) ->
  place r t p = Some s -> sl_client s = Some c -> ~ twice r c ->
  let check := fun d => fst (ev_check v (house_list o) d) in
  (sl_ready s = true /\ sl_valid s = false <->
   exists before d after, words v c l r0 = before ++ CsUpdateDeck d :: after /\ check d = false /\
     Forall no_deck after /\ ~ In (CsReady false) after /\ ready_of (fold_left (say check) before newcomer) = true).
Proof.
  intros v host o l r out r0 out0 t p c s H C A K N check.
  pose proof (C96_seat _ _ _ _ _ _ _ _ _ _ _ _ H C A K N) as E. fold check in E. split.
  - intros [R V]. destruct (unready check (words v c l r0) newcomer) as [X|(_ & _ & X & _)]; [| |exact X|discriminate].
    + rewrite <- E. exact R.
    + rewrite <- E. exact V.
  - intros (before & d & after & L & Cd & F & Nr & G). rewrite L, fold_left_app in E. cbn [fold_left] in E.
    destruct (fold_left (say check) before newcomer) as [[va re] d0]. cbn in G. subst re.
    change (say check (va, true, d0) (CsUpdateDeck d)) with (if check d then (true, true, d) else (false, true, deck0)) in E.
    rewrite Cd in E. assert (Q : fold_left (say check) after (false, true, deck0) = (false, true, deck0)).
    { clear - F Nr. induction after as [|x after IH]; [reflexivity|]. inversion F; subst. cbn [fold_left].
      replace (say check (false, true, deck0) x) with (false, true, deck0).
      - apply IH; [assumption|]. intros I. apply Nr. right. exact I.
      - destruct x as [|d|[]|b]; try reflexivity; [destruct H1|]. destruct Nr. left. reflexivity. }
    rewrite Q in E. injection E as E1 E2 _. auto.
Qed.
Print Assumptions C64_when_partial.

(** Client 2 hands in a deck and gets ready, client 3 speaks without a seat, then
    2's next deck is rejected: it stays ready; withdrawing works. *)
Definition ex_words : list action :=
  [Signal 2 (SgConf (CsReady true)); Enter 2; Signal 2 (SgConf (CsReady true))] ++ prepare 2 ++
  [Enter 3; Signal 3 (SgConf (CsUpdateDeck ex_deck)); Signal 2 (SgConf (CsUpdateDeck deck0))].
Example C96_ex : exists r out r0 out0 s, construct ex_env 1 (ex_options [] 0) = Ok (r0, out0) /\
  session ex_env 1 (ex_options [] 0) ex_words = Ok (r, out) /\
  place r 1 0 = Some s /\ sl_client s = Some 2 /\ ~ twice r 2 /\
  words ex_env 2 ex_words r0 =
    [CsReady true] ++ [CsUpdateDeck ex_deck; CsReady true; CsUpdateDeck deck0] /\ words ex_env 3 ex_words r0 = [] /\
  sl_ready s = true /\ sl_valid s = false /\ sl_deck s = deck0.
Proof.
  do 5 eexists. split; [vm_compute; reflexivity|]. split; [vm_compute; reflexivity|]. split; [reflexivity|].
  split; [reflexivity|]. split; [|vm_compute; repeat split; reflexivity].
  apply nodup_once. vm_compute. repeat constructor; simpl; intuition discriminate.
Qed.

(** ** C65 from the history *)

Lemma once : forall v host o l r out r0 out0 c,
  session v host o l = Ok (r, out) -> construct v host o = Ok (r0, out0) -> NoDup (host :: arrivals v l r0) -> ~ twice r c.
Proof.
  intros v host o l r out r0 out0 c H C N T. apply (C63_twice_iff_partial _ _ _ _ _ _ _ _ c H C) in T.
  destruct T as (i & j & Lt & _ & A & B).
  assert (i = j); [|lia]. eapply NoDup_nth_error; [exact N| |congruence]. apply nth_error_Some. congruence.
Qed.

(** If nobody came twice, the host starts the duel exactly if at least one other
    came and everybody at the table has a valid deck and is ready. *)
Theorem C65_history : forall v host o l r out r0 out0 b r' s,
  session v host o l = Ok (r, out) -> construct v host o = Ok (r0, out0) ->
  let came := host :: arrivals v l r0 in
  NoDup came -> configuring r -> act v (Signal host (start_signal b)) r = Ok (r', s) ->
  (~ configuring r' <->
   (2 <= length came)%nat /\
   forall i c, (i < N.to_nat (limit r 0 + limit r 1))%nat -> nth_error came i = Some c ->
     exists d, fold_left (say (fun d => fst (ev_check v (house_list o) d))) (words v c l r0) newcomer = (true, true, d)).
Proof.
  intros v host o l r out r0 out0 b r' s H C came N Cf E.
  rewrite (C65_start _ _ _ _ _ _ _ _ _ H Cf E). destruct (C62_seating _ _ _ _ _ _ _ _ H C) as [St _]. fold came in St.
  pose proof (session_filled _ _ _ _ _ _ _ _ H C) as (m0 & m1 & F0 & F1 & L0 & L1 & _). rewrite L0, L1 in *.
  assert (M : 1 <= m0 /\ 1 <= m1) by (destruct F0 as [-> |[-> | ->]], F1 as [-> |[-> | ->]]; lia).
  assert (S0 : seat_no m0 m1 0 = (0, 0)) by (destruct F0 as [-> |[-> | ->]], F1 as [-> |[-> | ->]]; reflexivity).
  assert (S1 : seat_no m0 m1 1 = (1, 0)) by (destruct F0 as [-> |[-> | ->]], F1 as [-> |[-> | ->]]; reflexivity).
  split.
  - intros [_ [Two All]]. split.
    + destruct (Two 1 ltac:(lia)) as (p & c & Q). apply St in Q. destruct Q as (i & Li & Ei & A).
      destruct (N.to_nat i) as [|n] eqn:Ni.
      * assert (i = 0) by lia. subst i. rewrite S0 in Ei. discriminate.
      * unfold came in *. destruct (arrivals v l r0) as [|x y]; cbn in *; [destruct n; discriminate|lia].
    + intros i c Li A. destruct (seat_no m0 m1 (N.of_nat i)) as [t p] eqn:Ei.
      assert (Q : sits r t p c) by (apply St; exists (N.of_nat i); rewrite Nat2N.id; repeat split; auto; lia).
      destruct Q as (q & Q1 & Q2). destruct (All t p q c Q1 Q2) as [V R].
      pose proof (C96_seat _ _ _ _ _ _ _ _ _ _ _ _ H C Q1 Q2 (once _ _ _ _ _ _ _ _ c H C N)) as Z.
      rewrite V, R in Z. eauto.
  - intros [Two All]. split; [eauto|]. split.
    + intros t Lt. assert (K : t = 0 \/ t = 1) by lia. destruct K as [-> | ->].
      * exists 0, host. apply St. exists 0. split; [lia|]. split; [exact S0|reflexivity].
      * unfold came in Two. destruct (arrivals v l r0) as [|x y] eqn:Ar; [cbn in Two; lia|].
        exists 0, x. apply St. exists 1. split; [lia|]. split; [exact S1|]. reflexivity.
    + intros t p q c Q1 Q2. assert (Q : sits r t p c) by (exists q; auto). apply St in Q. destruct Q as (i & Li & Ei & A).
      destruct (All (N.to_nat i) c ltac:(lia) A) as (d & Z).
      pose proof (C96_seat _ _ _ _ _ _ _ _ _ _ _ _ H C Q1 Q2 (once _ _ _ _ _ _ _ _ c H C N)) as Y. rewrite Z in Y.
      injection Y as Y1 Y2 _. auto.
Qed.
Print Assumptions C65_history.

Example C65_history_ex : exists r out r0 out0 r' s, construct ex_env 1 (ex_options [2; 1] 0) = Ok (r0, out0) /\
  let l := [Enter 2; Enter 3; Enter 4] ++ prepare 1 ++ prepare 2 ++ prepare 3 in
  session ex_env 1 (ex_options [2; 1] 0) l = Ok (r, out) /\ 1 :: arrivals ex_env l r0 = [1; 2; 3; 4] /\ configuring r /\
  limit r 0 + limit r 1 = 3 /\ act ex_env (Signal 1 (start_signal true)) r = Ok (r', s) /\ ~ configuring r'.
Proof.
  do 6 eexists. split; [vm_compute; reflexivity|]. cbn zeta. split; [vm_compute; reflexivity|]. split; [reflexivity|].
  split; [reflexivity|]. split; [reflexivity|]. split; [vm_compute; reflexivity|]. discriminate.
Qed.
