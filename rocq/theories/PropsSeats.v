(** C62 and C63, exactly: who sits where and who watches. *)
From Verif Require Import Base BaseProofs Room RoomSpec RoomProofs RoomInv SeatSpec PropsRoom.

Local Open Scope N_scope.

(** The clients of a team, seat by seat, after the arrivals [es]. *)
Definition seat_index (m0 m1 t p : N) : N :=
  let k := N.min m0 m1 in if p <? k then 2 * p + t else k + p.
Definition chart (m0 m1 t : N) (es : list N) : list (option N) :=
  map (fun p => if p <? (if t =? 0 then m0 else m1) then nth_error es (N.to_nat (seat_index m0 m1 t p)) else None) [0; 1; 2].

Record filled (m0 m1 : N) (es : list N) (r : room) : Prop := {
  fi_max : op_max (rm_options r) = [m0; m1];
  fi_team0 : map sl_client (rm_team0 r) = chart m0 m1 0 es;
  fi_team1 : map sl_client (rm_team1 r) = chart m0 m1 1 es;
  fi_watch : forall c, In c (rm_spectators r) <-> In c (skipn (N.to_nat (m0 + m1)) es)
}.

Definition few (m : N) : Prop := m = 1 \/ m = 2 \/ m = 3.

Lemma three : forall l a b c, map sl_client l = [a; b; c] -> exists x y z, l = [x; y; z] /\
  sl_client x = a /\ sl_client y = b /\ sl_client z = c.
Proof. intros [|x [|y [|z [|w l]]]] a b c H; try discriminate. injection H as A B C. eauto 8. Qed.

Ltac small := change (Pos.to_nat 1) with 1%nat in *; change (Pos.to_nat 2) with 2%nat in *;
  change (Pos.to_nat 3) with 3%nat in *; change (Pos.to_nat 4) with 4%nat in *; change (Pos.to_nat 5) with 5%nat in *;
  change (Pos.to_nat 6) with 6%nat in *.

Lemma find_filled : forall m0 m1 es r c, few m0 -> few m1 -> filled m0 m1 es r ->
  match find_empty r with
  | Ok (Some (t, p)) => (length es < N.to_nat (m0 + m1))%nat /\ filled m0 m1 (es ++ [c]) (set_slot t p (set_client c) r)
  | Ok None => (N.to_nat (m0 + m1) <= length es)%nat /\
      chart m0 m1 0 (es ++ [c]) = chart m0 m1 0 es /\ chart m0 m1 1 (es ++ [c]) = chart m0 m1 1 es
  | _ => False
  end.
Proof.
  intros m0 m1 es r c F0 F1 [M A B W]. unfold find_empty, max_of. rewrite M. cbn -[scan_team N.to_nat].
  change (Pos.to_nat 1) with 1%nat. cbn [nth_error or_ub obind].
  unfold chart in A, B. cbn [map] in A, B. apply three in A as (x & y & z & A & A1 & A2 & A3).
  apply three in B as (x' & y' & z' & B & B1 & B2 & B3).
  destruct r as [dr op h t0 t1 sp st]. cbn [rm_team0 rm_team1 rm_options rm_spectators] in *. subst t0 t1.
  destruct F0 as [-> |[-> | ->]], F1 as [-> |[-> | ->]];
    destruct es as [|e0 [|e1 [|e2 [|e3 [|e4 [|e5 es]]]]]];
    unfold seat_index in *; cbn in A1, A2, A3, B1, B2, B3; small; cbn in A1, A2, A3, B1, B2, B3;
    cbn; rewrite A1, ?A2, ?A3, ?B1, ?B2, ?B3; cbn; rewrite ?A1, ?A2, ?A3, ?B1, ?B2, ?B3; cbn;
    try (split; [lia|]; split; unfold chart, seat_index; cbn; small; reflexivity);
    (split; [lia|]; split; [cbn; exact M|unfold chart, seat_index; cbn; small; cbn; rewrite ?A1, ?A2, ?A3, ?B1, ?B2, ?B3; reflexivity
      |unfold chart, seat_index; cbn; small; cbn; rewrite ?A1, ?A2, ?A3, ?B1, ?B2, ?B3; reflexivity|];
     intros d; cbn [rm_spectators set_slot]; etransitivity; [apply W|]; rewrite !skipn_all2 by (cbn; lia); reflexivity).
Qed.

Lemma same_clients : forall m0 m1 es r r', filled m0 m1 es r -> rm_options r' = rm_options r ->
  map sl_client (rm_team0 r') = map sl_client (rm_team0 r) -> map sl_client (rm_team1 r') = map sl_client (rm_team1 r) ->
  rm_spectators r' = rm_spectators r -> filled m0 m1 es r'.
Proof. intros m0 m1 es r r' [A B C D] E F G H. split; [congruence|congruence|congruence|]. rewrite H. exact D. Qed.

Lemma slot_clients : forall m0 m1 es r t p f, (forall s, sl_client (f s) = sl_client s) -> filled m0 m1 es r ->
  filled m0 m1 es (set_slot t p f r).
Proof.
  intros m0 m1 es r t p f K F.
  assert (U : forall l n s, nth_error l n = Some s -> map sl_client (upd n (f s) l) = map sl_client l).
  { induction l as [|z l IH]; intros [|n] s H; try discriminate; cbn.
    - injection H as ->. now rewrite K.
    - now rewrite (IH n s H). }
  eapply same_clients; [exact F|..]; unfold set_slot; destruct (t =? 0); cbn; try reflexivity;
    destruct (nth_error _ _) eqn:E; try reflexivity; now apply U.
Qed.

Lemma step_filled : forall v m0 m1 es r a r' o, few m0 -> few m1 -> sane v r -> filled m0 m1 es r -> act v a r = Ok (r', o) ->
  filled m0 m1 (es ++ match a, rm_state r with Enter c, Configuring => [c] | _, _ => [] end) r'.
Proof.
  intros v m0 m1 es r a r' o F0 F1 S F E. destruct a as [c|c s].
  - cbn [act] in E. unfold enter in E. destruct (rm_state r) eqn:St.
    + discriminate.
    + unfold enter_conf in E. pose proof (find_filled m0 m1 es r c F0 F1 F) as Q.
      destruct (find_empty r) as [[[t p]|]| | |]; cbn [obind] in E; try contradiction.
      * injection E as <- _. apply Q.
      * destruct Q as (L & C0 & C1). destruct (N.eqb_spec (rm_host r) c) as [|Ne]; cbn in E; [discriminate|].
        injection E as <- _. destruct F as [A B D W]. split; cbn [set_spectators rm_options rm_team0 rm_team1 rm_spectators]; [congruence|congruence|congruence|].
        intros d. rewrite skipn_app, in_app_iff. rewrite <- W.
        replace (N.to_nat (m0 + m1) - length es)%nat with 0%nat by lia. cbn [skipn In].
        unfold set_insert. destruct (existsb (N.eqb c) (rm_spectators r)) eqn:X.
        -- apply existsb_exists in X as (y & Y & Z). apply N.eqb_eq in Z. subst y.
           split; [auto|]. intros [I|[<-|[]]]; assumption.
        -- rewrite in_app_iff. cbn [In]. tauto.
    + injection E as <- _. rewrite app_nil_r. exact F.
  - rewrite app_nil_r.
    assert (X : step v r (Signal c s) r' o) by (apply act_step; assumption). clear E.
    inversion X; subst; try exact F; try (apply slot_clients; [reflexivity|exact F]).
    match goal with C : configuring r, AR : all_ready r, E : enter_deciding v r = Ok _ |- _ =>
      destruct (start_run v r r' o C (sane_drawn v r S C) AR E) as [(d & n & ->) _] end.
    eapply same_clients; [exact F|reflexivity..].
Qed.

Lemma play_filled : forall v m0 m1 l es r out r' out', few m0 -> few m1 -> sane v r -> filled m0 m1 es r ->
  play v l r out = Ok (r', out') -> filled m0 m1 (es ++ arrivals v l r) r'.
Proof.
  intros v m0 m1. induction l as [|a l IH]; intros es r out r' out' F0 F1 S F E; cbn [play] in E.
  - injection E as <- _. cbn. now rewrite app_nil_r.
  - cbn [arrivals]. destruct (act v a r) as [[r1 o]| | |] eqn:A; cbn [obind] in E; try discriminate.
    rewrite app_assoc. pose proof (step_filled v m0 m1 es r a r1 o F0 F1 S F A) as F'.
    apply act_step in A; [|exact S]. eapply IH; [exact F0|exact F1| |exact F'|exact E]. eapply sane_step; eauto.
Qed.

Lemma few_bounds : forall m, 1 <= m <= 3 -> few m.
Proof. intros m H. unfold few. lia. Qed.

Lemma session_filled : forall v host o l r out r0 out0, session v host o l = Ok (r, out) -> construct v host o = Ok (r0, out0) ->
  exists m0 m1, few m0 /\ few m1 /\ limit r 0 = m0 /\ limit r 1 = m1 /\ filled m0 m1 (host :: arrivals v l r0) r.
Proof.
  intros v host o l r out r0 out0 H C. rewrite construct_run in C. injection C as <- _.
  pose proof (session_sane _ _ _ _ _ _ H) as S. destruct (sane_limit v r S) as (m0 & m1 & L0 & L1 & _ & _ & B0 & B1).
  exists m0, m1. split; [now apply few_bounds|]. split; [now apply few_bounds|]. split; [exact L0|]. split; [exact L1|].
  destruct (session_fixed _ _ _ _ _ _ H) as [O _]. unfold session in H. rewrite construct_run in H. cbn [obind] in H.
  change (host :: ?x) with ([host] ++ x). eapply play_filled; [now apply few_bounds|now apply few_bounds|apply first_sane| |exact H].
  destruct (clamped o) as (k0 & k1 & E & K0 & K1).
  assert (k0 = m0 /\ k1 = m1) as [<- <-].
  { unfold limit in L0, L1. rewrite O, E in L0, L1. cbn in L0, L1. auto. }
  apply few_bounds in K0, K1.
  split; cbn [first_room rm_options rm_team0 rm_team1 rm_spectators]; [exact E|..].
  - destruct K0 as [-> |[-> | ->]], K1 as [-> |[-> | ->]]; vm_compute; reflexivity.
  - destruct K0 as [-> |[-> | ->]], K1 as [-> |[-> | ->]]; vm_compute; reflexivity.
  - intros c. rewrite skipn_all2; [reflexivity|]. cbn. destruct K0 as [-> |[-> | ->]]; lia.
Qed.

Lemma filled_sits : forall m0 m1 es r t p c, few m0 -> few m1 -> filled m0 m1 es r ->
  (sits r t p c <-> exists i, i < m0 + m1 /\ seat_no m0 m1 i = (t, p) /\ nth_error es (N.to_nat i) = Some c).
Proof.
  intros m0 m1 es r t p c F0 F1 [_ A B _].
  assert (X : sits r t p c <-> nth_error (match t with 0 => chart m0 m1 0 es | 1 => chart m0 m1 1 es | _ => [] end) (N.to_nat p) = Some (Some c)).
  { unfold sits, place, seats. rewrite <- A, <- B.
    assert (Y : forall l, (exists s, nth_error l (N.to_nat p) = Some s /\ sl_client s = Some c) <-> nth_error (map sl_client l) (N.to_nat p) = Some (Some c)).
    { intros l. rewrite nth_error_map. destruct (nth_error l (N.to_nat p)) as [s|]; cbn.
      - split; [intros (s' & E & G); injection E as ->; congruence|]. intros E. injection E as E. eauto.
      - split; [intros (s' & E & _); discriminate|discriminate]. }
    destruct t as [|[t|t|]]; try apply Y; (split; [intros (s & E & _)|intros E]; destruct (N.to_nat p); discriminate). }
  rewrite X. clear X. split.
  - intros H.
    assert (T : t = 0 \/ t = 1) by (destruct t as [|[t|t|]]; auto; destruct (N.to_nat p); discriminate).
    assert (P : p = 0 \/ p = 1 \/ p = 2).
    { assert (L : (N.to_nat p < 3)%nat); [|lia].
      destruct T as [-> | ->]; (eapply Nat.lt_le_trans; [apply nth_error_Some; rewrite H; discriminate|reflexivity]). }
    exists (seat_index m0 m1 t p).
    destruct F0 as [-> |[-> | ->]], F1 as [-> |[-> | ->]], T as [-> | ->], P as [-> |[-> | ->]];
      cbn in H; small; cbn in H; try discriminate; (split; [reflexivity|]; split; [reflexivity|]; cbn; small; now injection H).
  - intros (i & L & E & H).
    assert (K : i = 0 \/ i = 1 \/ i = 2 \/ i = 3 \/ i = 4 \/ i = 5).
    { destruct F0 as [-> |[-> | ->]], F1 as [-> |[-> | ->]]; lia. }
    destruct K as [-> |[-> |[-> |[-> |[-> | ->]]]]], F0 as [-> |[-> | ->]], F1 as [-> |[-> | ->]]; try lia;
      cbn in E; injection E as <- <-; cbn; small; cbn in H |- *; small; cbn [nth_error] in *; (rewrite H; reflexivity) || (f_equal; exact H).
Qed.

(** In every room, the clients sit in the order they came while the room was
    being configured, the host first: the teams take turns as long as both have
    room, then the larger one fills up; whoever comes later watches. *)
Theorem C62_seating : forall v host o l r out r0 out0,
  session v host o l = Ok (r, out) -> construct v host o = Ok (r0, out0) ->
  let came := host :: arrivals v l r0 in
  let room := limit r 0 + limit r 1 in
  (forall t p c, sits r t p c <->
     exists i, i < room /\ seat_no (limit r 0) (limit r 1) i = (t, p) /\ nth_error came (N.to_nat i) = Some c) /\
  (forall c, watches r c <-> exists i, room <= i /\ nth_error came (N.to_nat i) = Some c).
Proof.
  intros v host o l r out r0 out0 H C came room. destruct (session_filled _ _ _ _ _ _ _ _ H C) as (m0 & m1 & F0 & F1 & L0 & L1 & F).
  unfold room. rewrite L0, L1. split; [intros t p c; now apply filled_sits|]. intros c. unfold watches.
  rewrite (fi_watch _ _ _ _ F c). fold came. clear. split.
  - intros I. apply In_nth_error in I as (n & I). exists (N.of_nat n + (m0 + m1)). split; [lia|].
    rewrite nth_error_skipn in I. rewrite <- I. f_equal. lia.
  - intros (i & L & E). eapply nth_error_In with (n := (N.to_nat i - N.to_nat (m0 + m1))%nat). rewrite nth_error_skipn.
    rewrite <- E. f_equal. lia.
Qed.
Print Assumptions C62_seating.

Lemma seat_no_inj : forall m0 m1 i j, few m0 -> few m1 -> i < m0 + m1 -> j < m0 + m1 ->
  seat_no m0 m1 i = seat_no m0 m1 j -> i = j.
Proof.
  intros m0 m1 i j F0 F1 A B E.
  assert (K : forall x, x < m0 + m1 -> x = 0 \/ x = 1 \/ x = 2 \/ x = 3 \/ x = 4 \/ x = 5).
  { intros x X. destruct F0 as [-> |[-> | ->]], F1 as [-> |[-> | ->]]; lia. }
  apply K in A as A'. apply K in B as B'.
  destruct F0 as [-> |[-> | ->]], F1 as [-> |[-> | ->]], A' as [-> |[-> |[-> |[-> |[-> | ->]]]]], B' as [-> |[-> |[-> |[-> |[-> | ->]]]]];
    try reflexivity; try lia; discriminate.
Qed.

(** So a client is at two places at once exactly if it came twice, the first
    time to sit down. *)
Theorem C63_twice_iff_partial : forall v host o l r out r0 out0 c,
  session v host o l = Ok (r, out) -> construct v host o = Ok (r0, out0) ->
  let came := host :: arrivals v l r0 in
  (twice r c <-> exists i j, (i < j)%nat /\ (i < N.to_nat (limit r 0 + limit r 1))%nat /\
     nth_error came i = Some c /\ nth_error came j = Some c).
Proof.
  intros v host o l r out r0 out0 c H C came. destruct (C62_seating _ _ _ _ _ _ _ _ H C) as [St Wt]. fold came in St, Wt.
  destruct (session_filled _ _ _ _ _ _ _ _ H C) as (m0 & m1 & F0 & F1 & L0 & L1 & _). rewrite L0, L1 in *. split.
  - intros [(t & p & t' & p' & Ne & A & B)|((t & p & A) & B)].
    + apply St in A as (i & Li & Ei & A). apply St in B as (j & Lj & Ej & B).
      destruct (N.lt_total i j) as [Q|[-> |Q]].
      * exists (N.to_nat i), (N.to_nat j). repeat split; auto; lia.
      * congruence.
      * exists (N.to_nat j), (N.to_nat i). repeat split; auto; lia.
    + apply St in A as (i & Li & Ei & A). apply Wt in B as (j & Lj & B).
      exists (N.to_nat i), (N.to_nat j). repeat split; auto; lia.
  - intros (i & j & Lt & Li & A & B). rewrite <- (Nat2N.id i) in A. rewrite <- (Nat2N.id j) in B.
    destruct (seat_no m0 m1 (N.of_nat i)) as [t p] eqn:Ei.
    assert (Sa : sits r t p c) by (apply St; exists (N.of_nat i); repeat split; auto; lia).
    destruct (N.lt_ge_cases (N.of_nat j) (m0 + m1)) as [Lj|Lj].
    + destruct (seat_no m0 m1 (N.of_nat j)) as [t' p'] eqn:Ej. left. exists t, p, t', p'.
      split; [|split; [exact Sa|apply St; exists (N.of_nat j); auto]].
      intros Eq. assert (N.of_nat i = N.of_nat j) as Q by (apply (seat_no_inj m0 m1); [exact F0|exact F1|lia|exact Lj|congruence]). lia.
    + right. split; [eauto|]. apply Wt. eauto.
Qed.
Print Assumptions C63_twice_iff_partial.

(** Teams of three and one: 1, 3 and 4 against 2; 5 and 3 watch. *)
Example C62_seating_ex : exists r out r0 out0, construct ex_env 1 (ex_options [3; 1] 0) = Ok (r0, out0) /\
  session ex_env 1 (ex_options [3; 1] 0) (map Enter [2; 3; 4; 5; 3]) = Ok (r, out) /\
  arrivals ex_env (map Enter [2; 3; 4; 5; 3]) r0 = [2; 3; 4; 5; 3] /\ limit r 0 + limit r 1 = 4 /\
  map (seat_no 3 1) [0; 1; 2; 3] = [(0, 0); (1, 0); (0, 1); (0, 2)] /\
  occupants r = [1; 3; 4; 2; 5; 3] /\ twice r 3 /\ ~ twice r 5.
Proof.
  eexists _, _, _, _. split; [vm_compute; reflexivity|]. split; [vm_compute; reflexivity|].
  split; [vm_compute; reflexivity|]. split; [reflexivity|]. split; [reflexivity|]. split; [reflexivity|]. split.
  - right. split; [exists 0, 1; eexists; split; reflexivity|]. right. left. reflexivity.
  - intros T. eapply (proj1 (C63_twice_iff_partial ex_env 1 (ex_options [3; 1] 0) (map Enter [2; 3; 4; 5; 3]) _ _ _ _ 5 ltac:(vm_compute; reflexivity) ltac:(vm_compute; reflexivity))) in T.
    destruct T as (i & j & Lt & Li & A & B). vm_compute in Li, A, B.
    destruct i as [|[|[|[|i]]]]; try discriminate; lia.
Qed.
