(** C98: announcements reach everybody, answers one client. *)
From Verif Require Import Base BaseProofs Room RoomSpec RoomProofs RoomInv RoomTotal NewsSpec PropsRoom.

Local Open Scope N_scope.

Lemma announced_app : forall s s', announced (s ++ s') = announced s ++ announced s'.
Proof. intros. apply filter_app. Qed.
Lemma told_app : forall s s', told (s ++ s') = told s ++ told s'.
Proof. intros. apply filter_app. Qed.
Lemma heard_app : forall c s s', heard c (s ++ s') = heard c s ++ heard c s'.
Proof. intros. unfold heard. rewrite filter_app, map_app. reflexivity. Qed.
Lemma news_app : forall c s s', news c (s ++ s') = news c s ++ news c s'.
Proof. intros. unfold news. rewrite announced_app, heard_app. reflexivity. Qed.

Lemma announced_broadcast : forall r e, announces e = true ->
  announced (broadcast r e) = broadcast r e /\ told (broadcast r e) = [].
Proof.
  intros r e A. unfold announced, told, broadcast. induction (occupants r) as [|c l [IH1 IH2]]; [auto|].
  cbn [map filter snd]. rewrite A. cbn [negb]. rewrite IH1, IH2. auto.
Qed.

Lemma heard_broadcast : forall c r e, heard c (broadcast r e) = repeat e (places_of r c).
Proof.
  intros c r e. unfold heard, broadcast, places_of. induction (occupants r) as [|x l IH]; [reflexivity|].
  cbn [map filter fst count_occ]. destruct (N.eq_dec x c) as [->|D].
  - rewrite N.eqb_refl. cbn [map snd repeat]. rewrite IH. reflexivity.
  - apply N.eqb_neq in D. rewrite D. exact IH.
Qed.

(** What one step sends. *)
Definition delivered (a : action) (r' : room) (s : sent) : Prop := exists es,
  Forall (fun e => announces e = true) es /\ (length es <= 2)%nat /\ NoDup es /\
  announced s = flat_map (broadcast r') es /\
  (told s = [] \/ exists c e, told s = [(c, e)] /\ present r' c /\ (c = actor a \/ e = EvFirst (FeDecide true))).

Lemma delivered_one : forall a r' e, announces e = true -> delivered a r' (broadcast r' e).
Proof.
  intros a r' e A. exists [e]. destruct (announced_broadcast r' e A) as [X Y]. cbn [flat_map]. rewrite app_nil_r.
  split; [auto|]. split; [cbn; lia|]. split; [repeat constructor; intros []|]. split; [exact X|]. left. exact Y.
Qed.
Lemma delivered_reply : forall a r' c e e', c = actor a -> present r' c -> announces e = false -> announces e' = true ->
  delivered a r' ((c, e) :: broadcast r' e').
Proof.
  intros a r' c e e' -> P B A. exists [e']. destruct (announced_broadcast r' e' A) as [X Y].
  unfold announced, told in *. cbn [filter snd flat_map]. rewrite B, X, Y, app_nil_r. cbn [negb].
  split; [auto|]. split; [cbn; lia|]. split; [repeat constructor; intros []|]. split; [reflexivity|]. right. eauto 8.
Qed.
Lemma delivered_only : forall a r' c e, c = actor a -> present r' c -> announces e = false -> delivered a r' [(c, e)].
Proof.
  intros a r' c e -> P B. exists []. unfold announced, told. cbn [filter snd flat_map]. rewrite B. cbn [negb].
  split; [auto|]. split; [cbn; lia|]. split; [constructor|]. split; [reflexivity|]. right. eauto 8.
Qed.
Lemma delivered_asked : forall a r' es c, Forall (fun e => announces e = true) es -> (length es <= 2)%nat -> NoDup es ->
  present r' c -> delivered a r' (flat_map (broadcast r') es ++ [(c, EvFirst (FeDecide true))]).
Proof.
  intros a r' es c A L D P. exists es.
  assert (K : announced (flat_map (broadcast r') es) = flat_map (broadcast r') es /\ told (flat_map (broadcast r') es) = []).
  { clear L D. induction A as [|e es E A [IH1 IH2]]; [split; reflexivity|]. cbn [flat_map].
    rewrite announced_app, told_app, IH1, IH2. destruct (announced_broadcast r' e E) as [-> ->]. auto. }
  rewrite announced_app, told_app. destruct K as [-> ->]. cbn. rewrite app_nil_r.
  repeat (split; [assumption|]). split; [reflexivity|]. right. eauto 8.
Qed.

Lemma step_delivered : forall v r a r' s, sane v r -> step v r a r' s -> delivered a r' s.
Proof.
  intros v r a r' s S St.
  pose proof (step_recipients _ _ _ _ _ S St) as Rc.
  destruct St as [a|c t p C NT F|c C F0 F1 H|c d t p C T Q K|c d t p C T Q K|c b t p s C T A B R V|b r' o C AR E|t D M L].
  - exists []. split; [auto|]. split; [cbn; lia|]. split; [constructor|]. split; [reflexivity|]. left. reflexivity.
  - apply delivered_reply; auto. eapply Rc. left. reflexivity.
  - apply delivered_reply; auto. eapply Rc. left. reflexivity.
  - apply delivered_only; auto. eapply Rc. left. reflexivity.
  - apply delivered_only; auto. eapply Rc. left. reflexivity.
  - apply delivered_one. reflexivity.
  - destruct (deciding_run v r C (sane_drawn v r S C) AR) as (A1 & A2 & A3 & A4 & A5).
    assert (Ask : forall es n c, enter_deciding v r =
      Ok (set_state (Deciding (Some c)) (set_drawn n r), flat_map (broadcast r) es ++ [(c, EvFirst (FeDecide true))]) ->
      Forall (fun e => announces e = true) es -> (length es <= 2)%nat -> NoDup es -> delivered (Signal (rm_host r) (SgConf (CsStart b))) r' o).
    { intros es n c Q Al Ln Nd. rewrite Q in E. injection E as <- <-.
      apply (delivered_asked _ (set_state (Deciding (Some c)) (set_drawn n r)) es c); auto.
      eapply Rc. apply in_app_iff. right. left. reflexivity. }
    destruct (Z.eq_dec (op_ftdm (rm_options r)) FTDM_HOST_CHOOSES) as [X|N1].
    { apply (Ask [EvFirst FeEntering] 0%nat (rm_host r)); auto; [|repeat constructor; intros []].
      cbn [flat_map]. rewrite app_nil_r. apply A1. exact X. }
    destruct (Z.eq_dec (op_ftdm (rm_options r)) FTDM_DICE) as [X|N2].
    { destruct (A2 X) as [(k & w & c & n & _ & _ & _ & _ & _ & Q)|(Q & _)]; [|congruence].
      eapply (Ask [EvFirst FeEntering; EvFirst (FeResult w _)] n c); auto; [|repeat constructor; cbn; intuition discriminate].
      cbn [flat_map]. rewrite app_nil_r. exact Q. }
    destruct (Z.eq_dec (op_ftdm (rm_options r)) FTDM_COIN) as [X|N3].
    { destruct (A3 X) as (c & _ & Q).
      eapply (Ask [EvFirst FeEntering; EvFirst (FeResult _ _)] 1%nat c); auto; [|repeat constructor; cbn; intuition discriminate].
      cbn [flat_map]. rewrite app_nil_r. exact Q. }
    destruct (Z.eq_dec (op_ftdm (rm_options r)) FTDM_INT_MIN) as [X|N4]; [rewrite A4 in E by auto; discriminate|].
    destruct (Z.eq_dec (op_ftdm (rm_options r)) FTDM_INT_MAX) as [X|N5]; [rewrite A4 in E by auto; discriminate|].
    rewrite A5 in E by assumption. injection E as <- <-.
    apply (delivered_one _ (set_state (Deciding None) r)). reflexivity.
  - apply delivered_one. reflexivity.
Qed.

Lemma delivered_news : forall a r' s, delivered a r' s -> exists es, forall c,
  news c s = flat_map (fun e => repeat e (places_of r' c)) es.
Proof.
  intros a r' s (es & _ & _ & _ & E & _). exists es. intros c. unfold news. rewrite E. clear E.
  induction es as [|e es IH]; [reflexivity|]. cbn [flat_map]. rewrite heard_app, heard_broadcast, IH. reflexivity.
Qed.

Lemma places_grow : forall v r a r' s c, sane v r -> step v r a r' s -> (places_of r c <= places_of r' c)%nat.
Proof.
  intros v r a r' s c S St. unfold places_of.
  destruct (step_occupants _ _ _ _ _ S St) as [->|(d & x & y & _ & -> & ->)]; [lia|].
  rewrite !count_occ_app. cbn [count_occ]. destruct (N.eq_dec d c); lia.
Qed.

Lemma play_places : forall v l r out r' out' c, sane v r -> play v l r out = Ok (r', out') ->
  (places_of r c <= places_of r' c)%nat.
Proof.
  induction l as [|a l IH]; intros r out r' out' c S H; cbn [play] in H.
  - injection H as <- <-. lia.
  - apply obind_Ok in H as [[r1 o] [A H]]. apply act_step in A; [|exact S].
    pose proof (places_grow _ _ _ _ _ c S A). apply (IH r1 _ _ _ c) in H; [lia|]. eapply sane_step; eauto.
Qed.

Lemma play_news : forall v l r out r' out' c c', sane v r -> play v l r out = Ok (r', out') ->
  (0 < places_of r c)%nat -> (0 < places_of r c')%nat -> places_of r' c = places_of r' c' -> places_of r' c = 1%nat ->
  exists s, out' = out ++ s /\ news c s = news c' s.
Proof.
  induction l as [|a l IH]; intros r out r' out' c c' S H P P' E O; cbn [play] in H.
  - injection H as <- <-. exists []. rewrite app_nil_r. auto.
  - apply obind_Ok in H as [[r1 o] [A H]]. apply act_step in A; [|exact S].
    pose proof (sane_step _ _ _ _ _ S A) as S1.
    pose proof (places_grow _ _ _ _ _ c S A). pose proof (places_grow _ _ _ _ _ c' S A).
    pose proof (play_places _ _ _ _ _ _ c S1 H). pose proof (play_places _ _ _ _ _ _ c' S1 H).
    destruct (IH r1 (out ++ o) r' out' c c' S1 H) as (s & -> & N); try lia.
    exists (o ++ s). rewrite app_assoc. split; [reflexivity|]. rewrite !news_app, N. f_equal.
    destruct (delivered_news _ _ _ (step_delivered _ _ _ _ _ S A)) as [es K]. rewrite !K.
    replace (places_of r1 c) with 1%nat by lia. replace (places_of r1 c') with 1%nat by lia. reflexivity.
Qed.

Lemma play_app : forall v l1 l2 r out, play v (l1 ++ l2) r out = (let! (r', out') := play v l1 r out in play v l2 r' out').
Proof.
  induction l1 as [|a l1 IH]; intros l2 r out; [reflexivity|]. cbn [app play].
  destruct (act v a r) as [[r1 o1]| | |]; cbn [obind]; auto.
Qed.

Lemma present_places : forall r c, present r c <-> (0 < places_of r c)%nat.
Proof.
  intros r c. rewrite <- in_occupants. unfold places_of. rewrite (count_occ_In N.eq_dec). lia.
Qed.

(** C98.  Whatever happens in a room sends at most two announcements, each to
    everybody in the room, once for every place, and tells at most one client
    something else: the one that acted, or the one asked who goes first. *)
Theorem C98_everybody : forall v host o l r out a r' s, session v host o l = Ok (r, out) -> act v a r = Ok (r', s) ->
  exists es, Forall (fun e => announces e = true) es /\ (length es <= 2)%nat /\ NoDup es /\
    announced s = flat_map (fun e => map (fun c => (c, e)) (occupants r')) es /\
    (told s = [] \/ exists c e, told s = [(c, e)] /\ present r' c /\ (c = actor a \/ e = EvFirst (FeDecide true))).
Proof.
  intros v host o l r out a r' s H E. pose proof (session_sane _ _ _ _ _ _ H) as S.
  apply act_step in E; [|exact S]. exact (step_delivered _ _ _ _ _ S E).
Qed.
Print Assumptions C98_everybody.

(** Two clients that are in the room, at one place each, hear the same news in
    the same order ever after. *)
Theorem C98_same_news : forall v host o l l' r out r' out' c c',
  session v host o l = Ok (r, out) -> session v host o (l ++ l') = Ok (r', out') ->
  present r c -> present r c' -> places_of r' c = 1%nat -> places_of r' c' = 1%nat ->
  exists s, out' = out ++ s /\ news c s = news c' s.
Proof.
  intros v host o l l' r out r' out' c c' H H' P P' O O'. pose proof (session_sane _ _ _ _ _ _ H) as S.
  unfold session in *. rewrite construct_run in H, H'. cbn [obind] in H, H'. rewrite play_app, H in H'. cbn [obind] in H'.
  apply present_places in P, P'. eapply play_news; eauto. congruence.
Qed.
Print Assumptions C98_same_news.

(** Clients 1 and 2 sit, client 3 watches; both duelists get ready, the host
    starts and the coin decides. *)
Example C98_ex : exists r out r' out',
  session ex_env 1 (ex_options [] FTDM_COIN) [Enter 2; Enter 3] = Ok (r, out) /\
  session ex_env 1 (ex_options [] FTDM_COIN) ([Enter 2; Enter 3] ++ prepare 1 ++ prepare 2 ++ [Signal 1 (start_signal true)]) = Ok (r', out') /\
  present r 1 /\ present r 3 /\ places_of r' 1 = 1%nat /\ places_of r' 3 = 1%nat /\
  length (news 3 (skipn (length out) out')) = 4%nat /\
  length (heard 1 (skipn (length out) out')) = 6%nat /\ length (heard 3 (skipn (length out) out')) = 4%nat.
Proof.
  do 4 eexists. split; [vm_compute; reflexivity|]. split; [vm_compute; reflexivity|].
  split; [apply present_places; vm_compute; lia|]. split; [apply present_places; vm_compute; lia|].
  vm_compute. auto.
Qed.
