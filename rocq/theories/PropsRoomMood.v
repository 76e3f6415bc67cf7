(** Property C107: a deck validator that changes its mind. *)
From Verif Require Import Base BaseProofs Rename Room RoomSpec RoomProofs RoomInv RoomAlikeSpec RoomAlike RoomMood PropsRoom.

Local Open Scope N_scope.

(** The same action, but for a deck. *)
Inductive but_deck : action -> action -> Prop :=
| bd_same : forall a, but_deck a a
| bd_deck : forall c d d', but_deck (Signal c (SgConf (CsUpdateDeck d))) (Signal c (SgConf (CsUpdateDeck d'))).

(** ** The reduction *)

(** A deck that tells in which call it is handed in. *)
Definition tag (k : nat) : deck := mkDeck [N.of_nat k] [] [] [] [] [] [].
Definition tagged (k : nat) (a : action) : action :=
  match a with Signal c (SgConf (CsUpdateDeck d)) => Signal c (SgConf (CsUpdateDeck (tag k))) | _ => a end.
Fixpoint tag_all (k : nat) (l : list action) : list action :=
  match l with [] => [] | a :: l' => tagged k a :: tag_all (S k) l' end.
Definition handed (a : option action) : deck :=
  match a with Some (Signal c (SgConf (CsUpdateDeck d))) => d | _ => deck0 end.
(** Looks up what deck was handed in, and what the validator said of it. *)
Definition settled (checks : nat -> text -> deck -> bool * deck_error) (v : env) (l : list action) : env :=
  mkEnv (ev_user v)
    (fun t d => let k := N.to_nat (hd 0 (dk_main d)) in checks k t (handed (nth_error l (k - 1))))
    (ev_rng v) (ev_fuel v).

Definition other_check (v v' : env) : Prop :=
  ev_user v' = ev_user v /\ ev_rng v' = ev_rng v /\ ev_fuel v' = ev_fuel v.
Lemma duelists_check : forall v v' h t l p, other_check v v' -> team_duelists v h t p l = team_duelists v' h t p l.
Proof.
  intros v v' h t l p (U & _). revert p. induction l as [|s l IH]; intros p; cbn; [reflexivity|].
  rewrite U, !IH. reflexivity.
Qed.
Lemma enter_check : forall v v' c r, other_check v v' -> enter v c r = enter v' c r.
Proof.
  intros v v' c r H. unfold enter, enter_conf, all_duelists. rewrite !(duelists_check v v' _ _ _ _ H).
  destruct H as (-> & _). reflexivity.
Qed.
Lemma visit_check : forall v v' c s r, other_check v v' -> (forall d, s <> SgConf (CsUpdateDeck d)) -> visit v c s r = visit v' c s r.
Proof.
  intros v v' c s r (U & G & F) N. unfold visit. destruct (rm_state r), s as [|[|d|b|b]|s]; try reflexivity; cbn [signal_conf].
  - now destruct (N d).
  - unfold ready_status. rewrite U. reflexivity.
  - unfold start_dueling, enter_deciding, on_enter_deciding. rewrite G, F. reflexivity.
Qed.

Lemma update_nd : forall v v' c d d' r r', no_decks r = no_decks r' -> (forall t, ev_check v t d = ev_check v' t d') ->
  nd_result (visit v c (SgConf (CsUpdateDeck d)) r) = nd_result (visit v' c (SgConf (CsUpdateDeck d')) r').
Proof.
  intros v v' c d d' r r' N E. unfold visit.
  assert (T : rm_state r = rm_state r') by (change (rm_state (no_decks r) = rm_state r'); now rewrite N).
  assert (O : rm_options r = rm_options r') by (change (rm_options (no_decks r) = rm_options r'); now rewrite N).
  rewrite T. destruct (rm_state r'); cbn [signal_conf nd_result]; try (now rewrite N).
  unfold update_deck. rewrite <- (@nd_find_peer c r), <- (@nd_find_peer c r'), N, O, E.
  destruct (find_peer c (no_decks r')) as [[[t p]|]| | |]; cbn [obind nd_result]; try reflexivity; [|now rewrite N].
  destruct (ev_check v' _ _) as [[] err]; cbn [nd_result].
  - rewrite <- (@nd_set_slot t p (set_deck true d) (set_deck true d) r), N by reflexivity.
    rewrite (@nd_set_slot t p (set_deck true d') (set_deck true d) r') by reflexivity. reflexivity.
  - rewrite <- (@nd_set_slot t p (set_deck false deck0) (set_deck false deck0) r), N by reflexivity.
    rewrite (@nd_set_slot t p (set_deck false deck0) (set_deck false deck0) r') by reflexivity. reflexivity.
Qed.

Lemma act_settled : forall checks v l k a r r', no_decks r = no_decks r' -> nth_error l k = Some a ->
  nd_result (act (in_mood checks v (S k)) a r) = nd_result (act (settled checks v l) (tagged (S k) a) r').
Proof.
  intros checks v l k a r r' N A.
  assert (Q : other_check (in_mood checks v (S k)) (settled checks v l)) by (repeat split).
  destruct a as [c|c s]; cbn [act].
  - change (tagged (S k) (Enter c)) with (Enter c). rewrite (enter_check _ _ c r Q). exact (@nd_act_eq (settled checks v l) (Enter c) r r' N).
  - assert (X : (exists d, s = SgConf (CsUpdateDeck d)) \/ forall d, s <> SgConf (CsUpdateDeck d))
      by (destruct s as [|[|d|b|b]|s]; eauto; right; discriminate).
    destruct X as [[d ->]|X].
    + apply update_nd; [exact N|]. intros t. cbn [ev_check in_mood settled tag dk_main hd].
      rewrite Nat2N.id. replace (S k - 1)%nat with k by lia. rewrite A. reflexivity.
    + rewrite (visit_check _ _ c s r Q X).
      assert (T : tagged (S k) (Signal c s) = Signal c s)
        by (destruct s as [|[|d|b|b]|s]; try reflexivity; now destruct (X d)).
      rewrite T.
      exact (@nd_act_eq (settled checks v l) (Signal c s) r r' N).
Qed.

Lemma play_settled : forall checks v l l2 l1 r r' out, l = l1 ++ l2 -> no_decks r = no_decks r' ->
  nd_result (m_play checks v (S (length l1)) l2 r out) =
  nd_result (play (settled checks v l) (tag_all (S (length l1)) l2) r' out).
Proof.
  intros checks v l. induction l2 as [|a l2 IH]; intros l1 r r' out E N; cbn [m_play tag_all play nd_result]; [now rewrite N|].
  assert (A : nth_error l (length l1) = Some a).
  { subst l. rewrite nth_error_app2, Nat.sub_diag by lia. reflexivity. }
  pose proof (act_settled checks v l _ a r r' N A) as X.
  destruct (act (in_mood _ _ _) a r) as [[s os]| | |], (act (settled _ _ _) _ r') as [[s' os']| | |];
    cbn [nd_result obind] in X |- *; try discriminate; try reflexivity.
  assert (no_decks s = no_decks s') by congruence. assert (os = os') as <- by congruence.
  specialize (IH (l1 ++ [a]) s s' (out ++ os)). rewrite app_length in IH. cbn [length] in IH.
  rewrite Nat.add_1_r in IH. apply IH; [|assumption]. subst l. now rewrite <- app_assoc.
Qed.

Lemma session_settled : forall checks v host o l,
  nd_result (m_session checks v host o l) = nd_result (session (settled checks v l) host o (tag_all 1 l)).
Proof.
  intros checks v host o l. unfold m_session, session. rewrite !construct_run. cbn [obind].
  apply (play_settled checks v l l []); reflexivity.
Qed.

Lemma tag_all_but : forall l k, Forall2 but_deck l (tag_all k l).
Proof.
  induction l as [|a l IH]; intros k; cbn; constructor; auto.
  destruct a as [c|c [|[|d|b|b]|s]]; cbn; constructor.
Qed.

(** Whatever the validator says from call to call: there is a validator that never
    changes its mind and other decks such that everybody hears the same, and the
    room is the same but for the decks. *)
Theorem C107_constant : forall checks v host o l, exists v' l',
  Forall2 but_deck l l' /\ ev_user v' = ev_user v /\ ev_rng v' = ev_rng v /\ ev_fuel v' = ev_fuel v /\
  end_alike (fun x y => no_decks (fst x) = no_decks (fst y) /\ snd x = snd y)
    (m_session checks v host o l) (session v' host o l').
Proof.
  intros checks v host o l. exists (settled checks v l), (tag_all 1 l). split; [apply tag_all_but|].
  repeat split. pose proof (session_settled checks v host o l) as H.
  destruct (m_session _ _ _ _ _) as [[r x]| | |], (session _ _ _ _) as [[r' x']| | |]; cbn in H |- *; try discriminate; auto.
  split; congruence.
Qed.
Print Assumptions C107_constant.

(** ** What is in the seats *)

Lemma m_play_app : forall checks v l k a r out, m_play checks v k (l ++ [a]) r out =
  (let! (r', o) := m_play checks v k l r out in
   let! (r'', o') := act (in_mood checks v (k + length l)) a r' in Ok (r'', o ++ o')).
Proof.
  intros checks v l. induction l as [|b l IH]; intros k a r out; cbn [m_play app length].
  - rewrite Nat.add_0_r. reflexivity.
  - destruct (act _ b r) as [[s os]| | |]; cbn [obind]; try reflexivity. rewrite IH, Nat.add_succ_comm. reflexivity.
Qed.

(** A seat with an accepted deck: its client handed it in, and it was accepted then. *)
Definition accepted (checks : nat -> text -> deck -> bool * deck_error) (o : options) (l : list action) (s : slot) : Prop :=
  exists k c, sl_client s = Some c /\ nth_error l k = Some (Signal c (SgConf (CsUpdateDeck (sl_deck s)))) /\
    fst (checks (S k) (house_list o) (sl_deck s)) = true.
Definition honest (checks : nat -> text -> deck -> bool * deck_error) (o : options) (l : list action) (r : room) : Prop :=
  forall t p s, place r t p = Some s -> if sl_valid s then accepted checks o l s else sl_deck s = deck0.

Lemma accepted_more : forall checks o l a s, accepted checks o l s -> accepted checks o (l ++ [a]) s.
Proof.
  intros checks o l a s (k & c & A & B & C). exists k, c. split; [exact A|]. split; [|exact C].
  rewrite nth_error_app1; [exact B|]. apply nth_error_Some. congruence.
Qed.

Lemma place_nd : forall r t p, place (no_decks r) t p = option_map undeck (place r t p).
Proof.
  intros r t p. unfold place, seats. destruct t as [|[q|q|]]; try apply Rename.nth_map;
    cbn; destruct (N.to_nat p); reflexivity.
Qed.
Lemma sane_nd : forall v r, sane v r -> forall t p s, place r t p = Some s -> sl_client s = None ->
  sl_valid s = false /\ sl_ready s = false.
Proof. intros v r S t p s P C. apply (sn_empty v r S) with (2 := C) in P. subst s. split; reflexivity. Qed.

Lemma deciding_seats : forall v r r' o, on_enter_deciding v r = Ok (r', o) -> forall t p, place r' t p = place r t p.
Proof.
  intros v r r' o. unfold on_enter_deciding, send_choose.
  repeat match goal with
  | |- context [if ?b then _ else _] => destruct b
  | |- context [obind (roll_dice ?x ?y ?z)] => destruct (roll_dice x y z) as [[[? ?] ?]| | |]; cbn [obind]; try discriminate
  | |- context [obind (get_team_leader ?x ?y)] => destruct (get_team_leader x y) as [?| | |]; cbn [obind]; try discriminate
  end; try discriminate; intros H; injection H as <- _; reflexivity.
Qed.

Lemma honest_act : forall checks v o l a r r' q w os, no_decks r = no_decks q -> sane w q ->
  banlist_id (rm_options r) = house_list o -> honest checks o l r ->
  act (in_mood checks v (S (length l))) a r = Ok (r', os) -> honest checks o (l ++ [a]) r'.
Proof.
  intros checks v o l a r r' q w os N S B H A.
  assert (M : honest checks o (l ++ [a]) r).
  { intros t p s P. specialize (H t p s P). destruct (sl_valid s); [now apply accepted_more|exact H]. }
  assert (K : (forall t p, place r' t p = place r t p) -> honest checks o (l ++ [a]) r').
  { intros E t p s P. rewrite E in P. exact (M t p s P). }
  assert (U : forall x : room * sent, Ok x = Ok (r', os) -> fst x = r -> honest checks o (l ++ [a]) r').
  { intros x E F. injection E as ->. cbn in F. subst r'. exact M. }
  assert (SL : forall t p f, t = 0 \/ t = 1 ->
    (forall s, place r t p = Some s -> if sl_valid (f s) then accepted checks o (l ++ [a]) (f s) else sl_deck (f s) = deck0) ->
    honest checks o (l ++ [a]) (set_slot t p f r)).
  { intros t p f T F t' p' s P. rewrite set_slot_place in P by exact T.
    destruct ((t =? t') && (p =? p')); [|exact (M t' p' s P)].
    destruct (place r t p) as [s0|] eqn:E; [|discriminate]. injection P as <-. now apply F. }
  destruct a as [c|c s]; cbn [act] in A.
  - unfold enter in A. destruct (rm_state r); [discriminate| |apply (U _ A); reflexivity].
    unfold enter_conf in A. rewrite <- (@nd_find_empty r), N, (@nd_find_empty q) in A.
    destruct (find_empty_sane w q S) as [(E & _)|(t & p & E & NT & (_ & (s & P & F) & _))]; rewrite E in A; cbn [obind] in A.
    + destruct (negb _); cbn [assert_ obind] in A; [|discriminate]. injection A as <- _. apply K. reflexivity.
    + injection A as <- _. assert (T : t = 0 \/ t = 1) by (destruct NT; lia). apply SL; [exact T|].
      intros s0 P0. specialize (H t p s0 P0). cbn.
      assert (X : option_map undeck (place r t p) = option_map undeck (place q t p)) by now rewrite <- !place_nd, N.
      rewrite P0, P in X. cbn in X. injection X as V _ C. destruct (sane_nd w q S t p s P F) as [V0 _].
      rewrite V, V0 in *. exact H.
  - unfold visit in A. destruct (rm_state r), s as [|[|d|b|b]|[|t]]; cbn [signal_conf signal_first] in A;
      try (apply (U _ A); reflexivity).
    + unfold update_deck in A. rewrite <- (@nd_find_peer c r), N, (@nd_find_peer c q) in A.
      destruct (find_peer_sane w q c S) as [(E & _)|(t & p & E & T & (s & P & C))]; rewrite E in A; cbn [obind] in A;
        [apply (U _ A); reflexivity|].
      rewrite B in A. cbn [ev_check in_mood] in A. destruct (checks _ _ d) as [[] err] eqn:V; injection A as <- _; (apply SL; [exact T|]);
        [|reflexivity].
      intros s0 P0. cbn. exists (length l), c. cbn [set_deck sl_client sl_deck].
      assert (X : option_map undeck (place r t p) = option_map undeck (place q t p)) by now rewrite <- !place_nd, N.
      rewrite P0, P in X. cbn in X. injection X as _ _ X. split; [congruence|].
      split; [|now rewrite V]. rewrite nth_error_app2, Nat.sub_diag by lia. reflexivity.
    + unfold ready_status in A. rewrite <- (@nd_find_peer c r), N, (@nd_find_peer c q) in A.
      destruct (find_peer_sane w q c S) as [(E & _)|(t & p & E & T & (s & P & C))]; rewrite E in A; cbn [obind] in A;
        [apply (U _ A); reflexivity|].
      destruct (slot_at r t p) as [s0|]; cbn [or_ub obind] in A; [|discriminate].
      destruct (Bool.eqb b (sl_ready s0)); [apply (U _ A); reflexivity|].
      destruct (b && negb (sl_valid s0)); [apply (U _ A); reflexivity|].
      injection A as <- _. apply SL; [exact T|]. intros s1 P1. specialize (M t p s1 P1). exact M.
    + unfold start_dueling in A. destruct (negb (c =? rm_host r)); [apply (U _ A); reflexivity|].
      destruct (negb (can_start r)); [apply (U _ A); reflexivity|].
      unfold enter_deciding in A. destruct (negb _); cbn [assert_ obind] in A; [|discriminate].
      apply K. intros t p. rewrite (deciding_seats _ _ _ _ A). reflexivity.
    + destruct (_ || _); [apply (U _ A); reflexivity|]. destruct (1 <? t); [apply (U _ A); reflexivity|].
      injection A as <- _. exact M.
Qed.

Lemma session_honest : forall checks v host o l r out, m_session checks v host o l = Ok (r, out) ->
  honest checks o l r /\ banlist_id (rm_options r) = house_list o.
Proof.
  intros checks v host o l. induction l as [|a l IH] using rev_ind; intros r out H.
  - unfold m_session in H. rewrite construct_run in H. cbn in H. injection H as <- _. split; [|reflexivity].
    intros t p s P. unfold place, seats in P. cbn in P. destruct t as [|[q|q|]];
      destruct (N.to_nat p) as [|[|[|[|n]]]]; cbn in P; try discriminate; injection P as <-; reflexivity.
  - unfold m_session in H, IH. rewrite construct_run in H, IH. cbn [obind] in H, IH. rewrite m_play_app in H.
    pose proof (session_settled checks v host o l) as E. unfold m_session, session in E. rewrite !construct_run in E. cbn [obind] in E.
    destruct (m_play checks v 1 l _ _) as [[r0 o0]| | |]; cbn [obind] in H; try discriminate.
    destruct (act _ a r0) as [[r1 o1]| | |] eqn:A; cbn [obind] in H; try discriminate. injection H as <- <-.
    destruct (IH r0 o0 eq_refl) as [Ho B].
    destruct (play _ _ _ _) as [[q oq]| | |] eqn:Q; cbn [nd_result] in E; try discriminate.
    assert (S : sane (settled checks v l) q).
    { apply (session_sane _ host o (tag_all 1 l) _ oq). unfold session. rewrite construct_run. cbn [obind]. exact Q. }
    split; [|now rewrite (@act_options _ _ _ _ _ A)].
    apply (honest_act checks v o l a r0 r1 q (settled checks v l) o1); auto. congruence.
Qed.

(** Whatever the validator says from call to call: a seat marked as having a valid
    deck holds one its client handed in and the validator accepted at that time,
    any other seat holds none. *)
Theorem C107_accepted : forall checks v host o l r out t p s,
  m_session checks v host o l = Ok (r, out) -> place r t p = Some s ->
  if sl_valid s then accepted checks o l s else sl_deck s = deck0.
Proof. intros checks v host o l r out t p s H P. exact (proj1 (session_honest _ _ _ _ _ _ _ H) t p s P). Qed.
Print Assumptions C107_accepted.

(** When the duel is about to start, this is so for every duelist. *)
Theorem C107_start : forall checks v host o l r out t p s,
  m_session checks v host o l = Ok (r, out) -> deciding r -> place r t p = Some s -> sl_client s <> None ->
  sl_ready s = true /\ accepted checks o l s.
Proof.
  intros checks v host o l r out t p s H D P C. pose proof (C107_accepted _ _ _ _ _ _ _ t p s H P) as A.
  pose proof (session_settled checks v host o l) as E. rewrite H in E. cbn [nd_result] in E.
  destruct (session _ host o _) as [[q oq]| | |] eqn:Q; cbn [nd_result] in E; try discriminate.
  assert (N : no_decks r = no_decks q) by congruence.
  assert (D' : deciding q).
  { destruct D as [x D]. exists x. change (rm_state (no_decks q) = Deciding x). rewrite <- N. exact D. }
  assert (X : option_map undeck (place r t p) = option_map undeck (place q t p)) by now rewrite <- !place_nd, N.
  rewrite P in X. cbn in X. destruct (place q t p) as [s'|] eqn:P'; [|discriminate]. cbn in X. injection X as V R K.
  destruct (sl_client s) as [c|] eqn:F; [|contradiction].
  destruct (C74_decks _ _ _ _ _ _ Q D') as [_ Z]. destruct (Z t p s' c P' (eq_sym K)) as (R' & V' & _).
  rewrite V, V' in A. split; [congruence|exact A].
Qed.
Print Assumptions C107_start.

(** A validator that takes only every other deck: 6 hands in the same deck twice. *)
Definition every_other (k : nat) (t : text) (d : deck) : bool * deck_error := (Nat.even k, ex_error).
Definition moody : list action :=
  [Enter 6; Signal 6 (SgConf (CsUpdateDeck ex_deck)); Signal 6 (SgConf (CsUpdateDeck ex_deck));
   Signal 6 (SgConf (CsUpdateDeck ex_deck)); Signal 6 (SgConf (CsReady true)); Signal 5 (SgConf (CsUpdateDeck ex_deck));
   Signal 5 (SgConf (CsReady true)); Signal 5 (SgConf (CsStart true))].
Example C107_ex : exists r out s, m_session every_other ex_env 5 (ex_options [1; 1] FTDM_COIN) moody = Ok (r, out) /\
  deciding r /\ place r 1 0 = Some s /\ sl_client s = Some 6 /\ sl_deck s = ex_deck /\
  heard 6 (filter (fun x => match snd x with EvConf (CeDeckStatus _) => true | _ => false end) out) =
    [EvConf (CeDeckStatus None); EvConf (CeDeckStatus (Some ex_error)); EvConf (CeDeckStatus None)].
Proof.
  eexists _, _, _. split; [vm_compute; reflexivity|]. split; [eexists; reflexivity|].
  split; [vm_compute; reflexivity|]. split; [reflexivity|]. split; reflexivity.
Qed.
