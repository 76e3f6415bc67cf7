(** Properties C105 and C106: neither the order in which the room keeps its
    spectators nor what clients call themselves matters. *)
From Coq Require Import Permutation.
From Verif Require Import Base BaseProofs Room RoomSpec RoomProofs RoomInv RoomMirror RoomAlikeSpec RoomAlike RoomLoose
  RoomLooseSpec RoomLooseProofs PropsRoom.

Local Open Scope N_scope.

Lemma dub_id : forall e, dub (fun u => u) e = e.
Proof.
  assert (D : forall d, dub_duelist (fun u => u) d = d) by now intros [].
  intros [[o l n|d|d|er]|e|n]; cbn; try reflexivity; rewrite ?D; try reflexivity.
  rewrite (map_ext _ (fun d => d) D), map_id. reflexivity.
Qed.
Lemma dub_ids : forall l, map (dub (fun u => u)) l = l.
Proof. intros l. rewrite (map_ext _ (fun e => e) dub_id). apply map_id. Qed.

(** ** C105: the order of the spectators *)

(** Whatever order the set of spectators keeps: the same outcome, the same room
    but for that order, and everybody hears the same. *)
Theorem C105_order : forall spot v host o l, keeps_set spot ->
  end_alike (fun x y => same_room (fst x) (fst y) /\ forall c, heard c (snd x) = heard c (snd y))
    (session v host o l) (l_session spot (fun _ => ev_user v) v host o l).
Proof.
  intros spot v host o l K.
  pose proof (session_l K (fun u => u) v (fun _ => ev_user v) (fun _ _ => eq_refl) host o l) as H.
  destruct (session v host o l) as [[r x]| | |], (l_session _ _ _ _ _ _) as [[r' x']| | |]; cbn [end_alike] in H |- *; auto.
  destruct H as [A B]. split; [exact A|]. intros c. specialize (B c). now rewrite !dub_ids in B.
Qed.
Print Assumptions C105_order.

(** A set of addresses in ascending order: 9 comes first, but is served last. *)
Fixpoint sorted (c : N) (l : list N) : list N :=
  match l with
  | [] => [c]
  | d :: l' => if c <? d then c :: l else d :: sorted c l'
  end.
Lemma sorted_keeps : keeps_set sorted.
Proof.
  intros c l _. induction l as [|d l IH]; cbn; [reflexivity|]. destruct (c <? d); [reflexivity|].
  rewrite IH. apply perm_swap.
Qed.
Example C105_ex : keeps_set sorted /\
  exists r out r' out', session ex_env 5 (ex_options [1; 1] FTDM_COIN) [Enter 6; Enter 9; Enter 7; Enter 8] = Ok (r, out) /\
    l_session sorted (fun _ => ev_user ex_env) ex_env 5 (ex_options [1; 1] FTDM_COIN) [Enter 6; Enter 9; Enter 7; Enter 8] =
      Ok (r', out') /\
    rm_spectators r = [9; 7; 8] /\ rm_spectators r' = [7; 8; 9] /\ out <> out' /\ length (heard 9 out') = 4%nat.
Proof.
  split; [apply sorted_keeps|]. eexists _, _, _, _. split; [vm_compute; reflexivity|]. split; [vm_compute; reflexivity|].
  split; [reflexivity|]. split; [reflexivity|]. split; [discriminate|reflexivity].
Qed.

(** ** C106: what clients call themselves *)

(** Whatever the clients call themselves from call to call: the same outcome, the
    same room, and everybody hears the same but for the users. *)
Theorem C106_names : forall spot users v host o l, keeps_set spot ->
  end_alike (fun x y => same_room (fst x) (fst y) /\
      forall c, map anonymous (heard c (snd x)) = map anonymous (heard c (snd y)))
    (session v host o l) (l_session spot users v host o l).
Proof. intros spot users v host o l K. now apply (session_l K (fun _ => mkUser [] []) v users (fun _ _ => eq_refl) host o l). Qed.
Print Assumptions C106_names.

Lemma sane_loose : forall v w r r', ev_check w = ev_check v -> same_room r r' -> sane v r -> sane w r'.
Proof.
  intros v w r r' E [P Q] S.
  assert (L : forall t p, place r' t p = place r t p) by (intros; now rewrite Q).
  assert (M : forall t, limit r' t = limit r t) by (intros; now rewrite Q).
  destruct (sr_fields (conj P Q)) as (D & O & H & T0 & T1 & T).
  destruct S as [L0 L1 X B Em De W Ho St]. split.
  - now rewrite T0.
  - now rewrite T1.
  - now rewrite O.
  - intros t p s. rewrite L, M. apply B.
  - intros t p s. rewrite L. apply Em.
  - intros t p s. rewrite L, E, O. apply De.
  - now apply (Permutation_NoDup P).
  - unfold sits. rewrite H, L. exact Ho.
  - unfold configuring, deciding. rewrite T, D. exact St.
Qed.

Lemma in_broadcast : forall r e x f, In (x, f) (send_all r e) -> f = e.
Proof. intros r e x f. rewrite send_all_broadcast. unfold broadcast. intros H. apply in_map_iff in H as (c & H & _). congruence. Qed.

Ltac silent H M := apply in_broadcast in H; subst; destruct M.

Lemma deciding_current : forall v r r' o x e d, on_enter_deciding v r = Ok (r', o) -> In (x, e) o -> In d (mentions e) -> False.
Proof.
  intros v r r' o x e d. unfold on_enter_deciding.
  destruct (_ =? FTDM_HOST_CHOOSES)%Z.
  { intros H I M. cbn [send_choose] in H. assert (o = send_all r (EvFirst FeEntering) ++ [(rm_host r, EvFirst (FeDecide true))]) by congruence.
    subst o. apply in_app_iff in I as [I|[I|[]]]; [silent I M|]. injection I as <- <-. destruct M. }
  destruct (_ =? FTDM_RPS)%Z.
  { intros H I M. assert (o = send_all r (EvFirst FeEntering)) by congruence. subst o. silent I M. }
  destruct (_ =? FTDM_DICE)%Z.
  { destruct (roll_dice _ _ _) as [[[l w] n]| | |]; cbn [obind]; try discriminate.
    destruct (get_team_leader _ _) as [c| | |]; cbn [obind send_choose]; try discriminate.
    intros H I M. injection H as _ <-. apply in_app_iff in I as [I|[I|[]]]; [|injection I as <- <-; destruct M].
    apply in_app_iff in I as [I|I]; silent I M. }
  destruct (_ =? FTDM_COIN)%Z.
  { destruct (get_team_leader _ _) as [c| | |]; cbn [obind send_choose]; try discriminate.
    intros H I M. injection H as _ <-. apply in_app_iff in I as [I|[I|[]]]; [|injection I as <- <-; destruct M].
    apply in_app_iff in I as [I|I]; silent I M. }
  destruct (_ || _); [discriminate|]. intros H I M. injection H as _ <-. silent I M.
Qed.

Lemma enter_current : forall spot v c r r' o, sane v r -> l_enter spot v c r = Ok (r', o) ->
  forall x e d, In (x, e) o -> In d (mentions e) -> describes v r' d.
Proof.
  intros spot v c r r' o S H x e d I M. unfold l_enter in H. destruct (rm_state r) eqn:T; [discriminate| |].
  2: { injection H as <- <-. destruct I. }
  unfold l_enter_conf in H. pose proof (description_agrees v r) as (A & _). cbn [fst] in A.
  destruct (find_empty_sane v r S) as [(E & _)|(t & p & E & NT & (_ & (s & P & N) & _))]; rewrite E in H; cbn [obind] in H.
  - destruct (negb _); cbn [assert_ obind] in H; [|discriminate]. injection H as <- <-. destruct I as [I|I]; [|silent I M].
    injection I as <- <-. cbn [mentions] in M. apply A in M. exact M.
  - assert (TT : t = 0 \/ t = 1) by (destruct NT; lia).
    assert (s = slot0) by now apply (sn_empty v r S) with (2 := N) in P. subst s.
    injection H as <- <-. destruct I as [I|I].
    + injection I as <- <-. cbn [mentions] in M. apply A in M as (s & k & Q & R & W).
      exists s, k. destruct (set_slot_rest r t p (set_client c)) as (_ & -> & _).
      rewrite set_slot_place by exact TT. split; [|split; [exact R|exact W]].
      destruct (N.eqb_spec t (du_team d)) as [->|]; cbn [andb]; [|exact Q].
      destruct (N.eqb_spec p (du_pos d)) as [->|]; [|exact Q].
      assert (s = slot0) by congruence. subst s. discriminate.
    + apply in_broadcast in I. subst e. cbn in M. destruct M as [<-|[]]. exists (set_client c slot0), c. cbn [du_team du_pos].
      destruct (set_slot_rest r t p (set_client c)) as (_ & -> & _).
      rewrite set_slot_place, !N.eqb_refl, P by exact TT. cbn. repeat split. apply N.eqb_sym.
Qed.

Lemma act_current : forall spot v a r r' o, sane v r -> l_act spot v a r = Ok (r', o) ->
  forall x e d, In (x, e) o -> In d (mentions e) -> describes v r' d.
Proof.
  intros spot v a r r' o S H x e d I M. destruct a as [c|c s]; cbn [l_act] in H; [now apply (enter_current spot v c r r' o S H x e d)|].
  assert (Z : forall q : room * sent, Ok q = Ok (r', o) -> snd q = [] -> describes v r' d).
  { intros q Q N. injection Q as ->. cbn in N. subst o. destruct I. }
  unfold visit in H. destruct (rm_state r) eqn:T, s as [|[|k|b|b]|[|t]]; cbn [signal_conf signal_first] in H;
    try (apply (Z _ H); reflexivity).
  - unfold update_deck in H. destruct (find_peer c r) as [[[t p]|]| | |]; cbn [obind] in H; try discriminate;
      [|apply (Z _ H); reflexivity].
    destruct (ev_check _ _ _) as [[] err]; injection H as _ <-; destruct I as [I|[]]; injection I as <- <-; destruct M.
  - unfold ready_status in H.
    destruct (find_peer_sane v r c S) as [(E & _)|(t & p & E & TT & (s & P & N))]; rewrite E in H; cbn [obind] in H;
      [apply (Z _ H); reflexivity|].
    rewrite (slot_at_place r _ _ TT), P in H. cbn [or_ub obind] in H.
    destruct (Bool.eqb b (sl_ready s)); [apply (Z _ H); reflexivity|].
    destruct (b && negb (sl_valid s)); [apply (Z _ H); reflexivity|].
    injection H as <- <-. apply in_broadcast in I. subst e. cbn in M. destruct M as [<-|[]].
    exists (set_ready b s), c. cbn [du_team du_pos].
    destruct (set_slot_rest r t p (set_ready b)) as (_ & -> & _).
    rewrite set_slot_place, !N.eqb_refl, P by exact TT. cbn. repeat split; [exact N|apply N.eqb_sym].
  - unfold start_dueling in H. destruct (negb (c =? rm_host r)); [apply (Z _ H); reflexivity|].
    destruct (negb (can_start r)); [apply (Z _ H); reflexivity|].
    unfold enter_deciding in H. destruct (negb _); cbn [assert_ obind] in H; [|discriminate].
    destruct (deciding_current v _ r' o x e d H I M).
  - destruct (_ || _); [apply (Z _ H); reflexivity|]. destruct (1 <? t); [apply (Z _ H); reflexivity|].
    injection H as _ <-. silent I M.
Qed.

Lemma l_play_app : forall spot users v l k a r out, l_play spot users v k (l ++ [a]) r out =
  (let! (r', o) := l_play spot users v k l r out in
   let! (r'', o') := l_act spot (at_call users v (k + length l)) a r' in Ok (r'', o ++ o')).
Proof.
  intros spot users v l. induction l as [|b l IH]; intros k a r out; cbn [l_play app length].
  - rewrite Nat.add_0_r. reflexivity.
  - destruct (l_act _ _ b r) as [[s os]| | |]; cbn [obind]; try reflexivity. rewrite IH, Nat.add_succ_comm. reflexivity.
Qed.

(** What the room says about a duelist in answer to a call is true of the room,
    and the user it names is what that client calls itself at the moment. *)
Theorem C106_current : forall spot users v host o l a r out, keeps_set spot ->
  l_session spot users v host o (l ++ [a]) = Ok (r, out) ->
  exists r0 before now, l_session spot users v host o l = Ok (r0, before) /\ out = before ++ now /\
    forall x e d, In (x, e) now -> In d (mentions e) -> describes (at_call users v (S (length l))) r d.
Proof.
  intros spot users v host o l a r out K H. unfold l_session in *.
  pose proof (session_l K (fun _ => mkUser [] []) v users (fun _ _ => eq_refl) host o l) as X. unfold l_session in X.
  destruct (l_construct _ _ _ _) as [[s os]| | |]; cbn [obind] in *; try discriminate.
  rewrite l_play_app in H. destruct (l_play spot users v 1 l s os) as [[r0 b]| | |]; cbn [obind] in H; try discriminate.
  destruct (l_act _ _ a r0) as [[r1 o1]| | |] eqn:A; cbn [obind] in H; try discriminate. injection H as <- <-.
  exists r0, b, o1. split; [reflexivity|]. split; [reflexivity|].
  destruct (session v host o l) as [[q oq]| | |] eqn:Q; cbn in X; try contradiction. destruct X as [X _].
  apply (act_current spot _ a r0 r1 o1); [|exact A].
  apply (sane_loose v _ q); [reflexivity|exact X|]. apply (session_sane _ _ _ _ _ _ Q).
Qed.
Print Assumptions C106_current.

(** 6 gives itself a new name each time; when 7 enters it is told the present one,
    but those who came before were told another. *)
Definition fickle (k : nat) (c : N) : user := mkUser [c] [if c =? 6 then N.of_nat k else 0].
Definition named (c : N) (e : event) : list N :=
  flat_map (fun d => match us_id (du_user d) with [i] => if i =? c then us_name (du_user d) else [] | _ => [] end) (mentions e).
Example C106_ex :
  exists r out, l_session sorted fickle ex_env 5 (ex_options [1; 1] FTDM_COIN)
      ([Enter 6; Enter 7] ++ prepare 6 ++ [Enter 8]) = Ok (r, out) /\
    watches r 8 /\ flat_map (named 6) (heard 5 out) = [1; 4] /\ flat_map (named 6) (heard 7 out) = [2; 4] /\
    flat_map (named 6) (heard 8 out) = [5].
Proof. eexists _, _. split; [vm_compute; reflexivity|]. split; [right; left; reflexivity|]. vm_compute. repeat split. Qed.
