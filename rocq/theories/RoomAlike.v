(** The room under other clients in the same roles, and under other decks. *)
From Verif Require Import Base Room RoomSpec RoomAlikeSpec Rename.

Set Implicit Arguments.
Local Open Scope N_scope.

(** ** Other clients *)

Section Names.
Variable rho : N -> N.
Hypothesis inj : distinct rho.
Variables v v' : env.
Hypothesis world : same_world rho v v'.

Let NR := nm_room rho.
Let NS := nm_sent rho.
Let NX := nm_result rho.

Lemma eqb_nm : forall c d, (rho c =? rho d) = (c =? d).
Proof.
  intros c d. destruct (c =? d) eqn:E.
  - apply N.eqb_eq in E as ->. apply N.eqb_refl.
  - apply N.eqb_neq in E. apply N.eqb_neq. intro H. apply E, inj, H.
Qed.

Lemma sent_app_nm : forall a b, NS (a ++ b) = NS a ++ NS b.
Proof. intros. apply map_app. Qed.

Lemma send_team_nm : forall l e, send_team (map (nm_slot rho) l) e = NS (send_team l e).
Proof. induction l as [|[va rd [c|] dk] l IH]; intros e; cbn; rewrite ?IH; reflexivity. Qed.
Lemma send_spectators_nm : forall r e, send_spectators (NR r) e = NS (send_spectators r e).
Proof. intros r e. unfold send_spectators, NS, nm_sent. cbn. rewrite !map_map. reflexivity. Qed.
Lemma send_all_nm : forall r e, send_all (NR r) e = NS (send_all r e).
Proof.
  intros r e. unfold send_all. rewrite send_spectators_nm. cbn [NR nm_room rm_team0 rm_team1].
  rewrite !send_team_nm, <- !sent_app_nm. reflexivity.
Qed.

Lemma set_slot_nm : forall t p f g r, (forall s, g (nm_slot rho s) = nm_slot rho (f s)) ->
  set_slot t p g (NR r) = NR (set_slot t p f r).
Proof.
  intros t p f g [n o h t0 t1 s st] G. unfold set_slot, NR, nm_room. cbn.
  destruct (t =? 0); cbn; rewrite nth_map.
  - destruct (nth_error t0 (N.to_nat p)); cbn; [rewrite G, upd_map|]; reflexivity.
  - destruct (nth_error t1 (N.to_nat p)); cbn; [rewrite G, upd_map|]; reflexivity.
Qed.

Lemma team_leader_nm : forall l, team_leader (map (nm_slot rho) l) =
  match team_leader l with Ok c => Ok (rho c) | Abort => Abort | UB => UB | Diverge => Diverge end.
Proof. induction l as [|[va rd [c|] dk] l IH]; cbn; auto. Qed.
Lemma get_team_leader_nm : forall r t, get_team_leader (NR r) t =
  match get_team_leader r t with Ok c => Ok (rho c) | Abort => Abort | UB => UB | Diverge => Diverge end.
Proof.
  intros r t. unfold get_team_leader. destruct (t <? 2); cbn; [|reflexivity].
  destruct (t =? 0); apply team_leader_nm.
Qed.

Lemma roll_dice_nm : forall fuel k, roll_dice (ev_rng v') fuel k = roll_dice (ev_rng v) fuel k.
Proof.
  destruct world as (_ & _ & G & _).
  induction fuel as [|fuel IH]; intros k; cbn; [reflexivity|]. rewrite !G, IH. reflexivity.
Qed.

Lemma choose_nm : forall r out t, 
  (let! c := get_team_leader (NR r) t in
   let '(r, o) := send_choose c (NR r) in Ok (r, NS out ++ o)) =
  NX (let! c := get_team_leader r t in let '(r, o) := send_choose c r in Ok (r, out ++ o)).
Proof.
  intros r out t. rewrite get_team_leader_nm. destruct (get_team_leader r t); cbn; try reflexivity.
  unfold nm_sent. rewrite map_app. reflexivity.
Qed.

Lemma on_enter_deciding_nm : forall r, on_enter_deciding v' (NR r) = NX (on_enter_deciding v r).
Proof.
  intros r. unfold on_enter_deciding. rewrite !send_all_nm.
  change (rm_options (NR r)) with (rm_options r). change (rm_drawn (NR r)) with (rm_drawn r).
  change (rm_host (NR r)) with (rho (rm_host r)).
  destruct (op_ftdm (rm_options r) =? FTDM_HOST_CHOOSES)%Z.
  { unfold NX. cbn. f_equal. f_equal. symmetry. apply sent_app_nm. }
  destruct (op_ftdm (rm_options r) =? FTDM_RPS)%Z; [reflexivity|].
  destruct (op_ftdm (rm_options r) =? FTDM_DICE)%Z.
  { destruct world as (_ & _ & _ & F). rewrite roll_dice_nm, F.
    destruct (roll_dice (ev_rng v) (ev_fuel v) (rm_drawn r)) as [[[l w] n]| | |]; cbn [obind]; try reflexivity.
    change (set_drawn n (NR r)) with (NR (set_drawn n r)).
    rewrite send_all_nm, <- sent_app_nm. apply choose_nm. }
  destruct (op_ftdm (rm_options r) =? FTDM_COIN)%Z.
  { destruct world as (_ & _ & G & _). rewrite G.
    change (set_drawn (S (rm_drawn r)) (NR r)) with (NR (set_drawn (S (rm_drawn r)) r)).
    rewrite send_all_nm, <- sent_app_nm. apply choose_nm. }
  destruct (_ || _); reflexivity.
Qed.

Lemma state_index_nm : forall s, state_index (nm_state rho s) = state_index s.
Proof. intros []; reflexivity. Qed.

Lemma enter_deciding_nm : forall r, enter_deciding v' (NR r) = NX (enter_deciding v r).
Proof.
  intros r. unfold enter_deciding.
  change (rm_state (NR r)) with (nm_state rho (rm_state r)). rewrite state_index_nm.
  change (set_state (Deciding None) (NR r)) with (NR (set_state (Deciding None) r)).
  change (rm_state (NR (set_state (Deciding None) r))) with (Deciding None).
  change (rm_state (set_state (Deciding None) r)) with (Deciding None).
  destruct (negb _); cbn [assert_ obind]; [apply on_enter_deciding_nm|reflexivity].
Qed.

Lemma enter_configuring_nm : forall r, enter_configuring (NR r) = NX (enter_configuring r).
Proof.
  intros r. unfold enter_configuring.
  change (rm_state (NR r)) with (nm_state rho (rm_state r)). rewrite state_index_nm.
  change (set_state Configuring (NR r)) with (NR (set_state Configuring r)).
  change (rm_state (NR (set_state Configuring r))) with Configuring.
  change (rm_state (set_state Configuring r)) with Configuring.
  destruct (negb _); cbn [assert_ obind]; [|reflexivity]. rewrite send_all_nm. reflexivity.
Qed.

Lemma scan_team_nm : forall l pos max n e, scan_team (map (nm_slot rho) l) pos max n e = scan_team l pos max n e.
Proof.
  induction l as [|[va rd [c|] dk] l IH]; intros; cbn; [reflexivity| |]; rewrite IH; reflexivity.
Qed.
Lemma find_empty_nm : forall r, find_empty (NR r) = find_empty r.
Proof. intros r. 
  unfold find_empty. change (max_of (NR r)) with (max_of r).
  destruct (max_of r 0) as [m0| | |]; cbn [obind]; try reflexivity.
  destruct (max_of r 1) as [m1| | |]; cbn [obind]; try reflexivity.
  cbn [NR nm_room rm_team0 rm_team1]. rewrite !scan_team_nm. reflexivity.
Qed.

Lemma team_duelists_nm : forall l host t pos,
  team_duelists v' (rho host) t pos (map (nm_slot rho) l) = team_duelists v host t pos l.
Proof.
  destruct world as (U & _).
  induction l as [|[va rd [c|] dk] l IH]; intros; cbn; rewrite ?IH, ?U, ?eqb_nm; reflexivity.
Qed.
Lemma all_duelists_nm : forall r, all_duelists v' (NR r) = all_duelists v r.
Proof. intros r. unfold all_duelists. cbn [NR nm_room rm_team0 rm_team1 rm_host]. rewrite !team_duelists_nm. reflexivity. Qed.

Lemma set_insert_nm : forall c l, set_insert (rho c) (map rho l) = map rho (set_insert c l).
Proof.
  intros c l. unfold set_insert.
  replace (existsb (N.eqb (rho c)) (map rho l)) with (existsb (N.eqb c) l).
  - destruct (existsb _ l); [reflexivity|]. rewrite map_app. reflexivity.
  - induction l as [|d l IH]; cbn; [reflexivity|]. rewrite IH, eqb_nm. reflexivity.
Qed.

Lemma len_nm : forall l, lenN (map rho l) = lenN l.
Proof. intros l. unfold lenN. now rewrite map_length. Qed.
Lemma enter_conf_nm : forall c r, enter_conf v' (rho c) (NR r) = NX (enter_conf v c r).
Proof.
  intros c r. unfold enter_conf. rewrite all_duelists_nm, find_empty_nm.
  change (rm_options (NR r)) with (rm_options r).
  change (rm_spectators (NR r)) with (map rho (rm_spectators r)).
  change (rm_host (NR r)) with (rho (rm_host r)).
  rewrite len_nm, eqb_nm.
  destruct (find_empty r) as [[[t p]|]| | |]; cbn [obind]; try reflexivity.
  - rewrite (@set_slot_nm t p (set_client c) (set_client (rho c)) r) by reflexivity.
    rewrite send_all_nm. destruct world as (U & _). rewrite U. reflexivity.
  - destruct (negb _); cbn [assert_ obind]; [|reflexivity].
    rewrite set_insert_nm.
    change (set_spectators (map rho (set_insert c (rm_spectators r))) (NR r))
      with (NR (set_spectators (set_insert c (rm_spectators r)) r)).
    rewrite send_all_nm.
    change (rm_spectators (NR (set_spectators (set_insert c (rm_spectators r)) r)))
      with (map rho (set_insert c (rm_spectators r))).
    rewrite len_nm. reflexivity.
Qed.

Lemma enter_nm : forall c r, enter v' (rho c) (NR r) = NX (enter v c r).
Proof.
  intros c r. unfold enter. change (rm_state (NR r)) with (nm_state rho (rm_state r)).
  destruct (rm_state r); cbn; [reflexivity|apply enter_conf_nm|reflexivity].
Qed.

Lemma bind_nm : forall (x : result) (k k' : room * sent -> result),
  (forall r o, k' (NR r, NS o) = NX (k (r, o))) -> obind (NX x) k' = NX (obind x k).
Proof. intros [[r o]| | |] k k' H; cbn; auto. Qed.

Lemma construct_nm : forall host o, construct v' (rho host) o = NX (construct v host o).
Proof.
  intros host o. unfold construct.
  change (mkRoom 0 (clamp_options o) (rho host) (repeat slot0 3) (repeat slot0 3) [] Monostate)
    with (NR (mkRoom 0 (clamp_options o) host (repeat slot0 3) (repeat slot0 3) [] Monostate)).
  rewrite enter_configuring_nm. apply bind_nm. intros r o1. rewrite enter_nm. apply bind_nm. intros r' o2.
  change (rm_state (NR r')) with (nm_state rho (rm_state r')). rewrite state_index_nm.
  destruct (negb _); cbn [assert_ obind]; [|reflexivity].
  rewrite <- sent_app_nm. reflexivity.
Qed.

Lemma scan_peer_nm : forall c l pos max, scan_peer (rho c) (map (nm_slot rho) l) pos max = scan_peer c l pos max.
Proof.
  intros c. induction l as [|[va rd [d|] dk] l IH]; intros; cbn; rewrite ?eqb_nm, ?IH; reflexivity.
Qed.
Lemma find_peer_nm : forall c r, find_peer (rho c) (NR r) = find_peer c r.
Proof. intros c r. 
  unfold find_peer. change (max_of (NR r)) with (max_of r).
  destruct (max_of r 0) as [m0| | |]; cbn [obind]; try reflexivity.
  cbn [NR nm_room rm_team0 rm_team1]. rewrite scan_peer_nm.
  destruct (scan_peer c (rm_team0 r) 0 m0); [reflexivity|].
  destruct (max_of r 1) as [m1| | |]; cbn [obind]; try reflexivity. rewrite scan_peer_nm. reflexivity.
Qed.

Lemma update_deck_nm : forall c d r, update_deck v' (rho c) d (NR r) = NX (update_deck v c d r).
Proof.
  intros c d r. unfold update_deck. rewrite find_peer_nm. destruct world as (_ & C & _). rewrite C.
  change (rm_options (NR r)) with (rm_options r).
  destruct (find_peer c r) as [[[t p]|]| | |]; cbn [obind]; try reflexivity.
  destruct (ev_check v (banlist_id (rm_options r)) d) as [[] err].
  - rewrite (@set_slot_nm t p (set_deck true d)) by reflexivity. reflexivity.
  - rewrite (@set_slot_nm t p (set_deck false deck0)) by reflexivity. reflexivity.
Qed.

Lemma slot_at_nm : forall r t p, slot_at (NR r) t p = option_map (nm_slot rho) (slot_at r t p).
Proof. intros r t p. unfold slot_at. destruct (t =? 0); cbn; apply nth_map. Qed.

Lemma ready_status_nm : forall c b r, ready_status v' (rho c) b (NR r) = NX (ready_status v c b r).
Proof.
  intros c b r. unfold ready_status. rewrite find_peer_nm.
  destruct (find_peer c r) as [[[t p]|]| | |]; cbn [obind]; try reflexivity.
  rewrite slot_at_nm. destruct (slot_at r t p) as [s|]; cbn [or_ub option_map obind]; [|reflexivity].
  change (sl_ready (nm_slot rho s)) with (sl_ready s). change (sl_valid (nm_slot rho s)) with (sl_valid s).
  destruct (Bool.eqb b (sl_ready s)); [reflexivity|]. destruct (b && negb (sl_valid s)); [reflexivity|].
  rewrite (@set_slot_nm t p (set_ready b)) by reflexivity. rewrite send_all_nm.
  change (rm_host (NR r)) with (rho (rm_host r)). rewrite eqb_nm.
  destruct world as (U & _). rewrite U. reflexivity.
Qed.

Lemma team_can_start_nm : forall l b, team_can_start (map (nm_slot rho) l) b = team_can_start l b.
Proof. induction l as [|[va rd [d|] dk] l IH]; intros; cbn; rewrite ?IH; reflexivity. Qed.
Lemma can_start_nm : forall r, can_start (NR r) = can_start r.
Proof. intros r. unfold can_start. cbn [NR nm_room rm_team0 rm_team1]. rewrite !team_can_start_nm. reflexivity. Qed.

Lemma start_dueling_nm : forall c r, start_dueling v' (rho c) (NR r) = NX (start_dueling v c r).
Proof.
  intros c r. unfold start_dueling. change (rm_host (NR r)) with (rho (rm_host r)).
  rewrite eqb_nm, can_start_nm.
  destruct (negb (c =? rm_host r)); [reflexivity|]. destruct (negb (can_start r)); [reflexivity|].
  apply enter_deciding_nm.
Qed.

Lemma visit_nm : forall c s r, visit v' (rho c) s (NR r) = NX (visit v c s r).
Proof.
  intros c s r. unfold visit. change (rm_state (NR r)) with (nm_state rho (rm_state r)).
  destruct (rm_state r), s as [|[|d|b|b]|[|t]]; cbn [nm_state signal_conf signal_first]; try reflexivity.
  - apply update_deck_nm.
  - apply ready_status_nm.
  - apply start_dueling_nm.
  - change (rm_options (NR r)) with (rm_options r). change (rm_host (NR r)) with (rho (rm_host r)).
    rewrite eqb_nm. destruct (_ || _); [reflexivity|]. destruct (1 <? t); [reflexivity|].
    rewrite send_all_nm. reflexivity.
Qed.

Lemma act_nm : forall a r, act v' (nm_action rho a) (NR r) = NX (act v a r).
Proof. intros [c|c s] r; cbn; [apply enter_nm|apply visit_nm]. Qed.

Lemma play_nm : forall l r out, play v' (map (nm_action rho) l) (NR r) (NS out) = NX (play v l r out).
Proof.
  induction l as [|a l IH]; intros r out; cbn [play map]; [reflexivity|].
  rewrite act_nm. apply bind_nm. intros r' o. rewrite <- sent_app_nm. apply IH.
Qed.

Lemma session_nm : forall host o l, session v' (rho host) o (map (nm_action rho) l) = NX (session v host o l).
Proof.
  intros. unfold session. rewrite construct_nm. apply bind_nm. intros r out. apply play_nm.
Qed.

Lemma heard_nm : forall c o, heard (rho c) (NS o) = heard c o.
Proof.
  intros c o. unfold heard, NS, nm_sent. induction o as [|[d e] o IH]; cbn; [reflexivity|].
  rewrite eqb_nm. destruct (d =? c); cbn; now rewrite IH.
Qed.
Lemma heard_none_nm : forall c o, (forall d, c <> rho d) -> heard c (NS o) = [].
Proof.
  intros c o H. unfold heard, NS, nm_sent. induction o as [|[d e] o IH]; cbn; [reflexivity|].
  replace (rho d =? c) with false; [exact IH|]. symmetry. apply N.eqb_neq. intro E. apply (H d). now symmetry.
Qed.
End Names.

(** ** Other decks *)

Definition nd_result (x : result) : result :=
  match x with Ok (r, o) => Ok (no_decks r, o) | Abort => Abort | UB => UB | Diverge => Diverge end.

Lemma nd_send_team : forall l e, send_team (map undeck l) e = send_team l e.
Proof. induction l as [|[va rd [c|] dk] l IH]; intros e; cbn; rewrite ?IH; reflexivity. Qed.
Lemma nd_send_all : forall r e, send_all (no_decks r) e = send_all r e.
Proof. intros r e. unfold send_all. cbn. rewrite !nd_send_team. reflexivity. Qed.
Lemma nd_nd : forall r, no_decks (no_decks r) = no_decks r.
Proof. intros [n o h t0 t1 s st]. unfold no_decks; cbn. rewrite !map_map. reflexivity. Qed.

Lemma nd_set_slot : forall t p f g r, (forall s, undeck (g (undeck s)) = undeck (f s)) ->
  no_decks (set_slot t p g (no_decks r)) = no_decks (set_slot t p f r).
Proof.
  intros t p f g [n o h t0 t1 s st] G. unfold set_slot, no_decks. cbn.
  assert (U : forall l, map undeck (map undeck l) = map undeck l) by (intros; rewrite map_map; reflexivity).
  destruct (t =? 0); cbn; rewrite nth_map, U.
  - destruct (nth_error t0 (N.to_nat p)); cbn; [|now rewrite U]. rewrite <- !upd_map, G, U. reflexivity.
  - destruct (nth_error t1 (N.to_nat p)); cbn; [|now rewrite U]. rewrite <- !upd_map, G, U. reflexivity.
Qed.
Lemma nd_set_slot_send : forall t p f g r e, (forall s, undeck (g (undeck s)) = undeck (f s)) ->
  send_all (set_slot t p g (no_decks r)) e = send_all (set_slot t p f r) e.
Proof. intros. rewrite <- nd_send_all. rewrite (nd_set_slot t p f g r) by assumption. apply nd_send_all. Qed.

Lemma nd_team_leader : forall l, team_leader (map undeck l) = team_leader l.
Proof. induction l as [|[va rd [c|] dk] l IH]; cbn; auto. Qed.
Lemma nd_get_team_leader : forall r t, get_team_leader (no_decks r) t = get_team_leader r t.
Proof. intros r t. unfold get_team_leader. cbn. destruct (t =? 0); rewrite nd_team_leader; reflexivity. Qed.

Lemma nd_on_enter_deciding : forall v r, nd_result (on_enter_deciding v (no_decks r)) = nd_result (on_enter_deciding v r).
Proof.
  intros v r. unfold on_enter_deciding. rewrite !nd_send_all.
  change (rm_options (no_decks r)) with (rm_options r). change (rm_drawn (no_decks r)) with (rm_drawn r).
  change (rm_host (no_decks r)) with (rm_host r).
  destruct (op_ftdm (rm_options r) =? FTDM_HOST_CHOOSES)%Z.
  { cbn [send_choose nd_result]. f_equal. f_equal. apply (nd_nd (set_state (Deciding (Some (rm_host r))) r)). }
  destruct (op_ftdm (rm_options r) =? FTDM_RPS)%Z; [cbn; now rewrite nd_nd|].
  destruct (op_ftdm (rm_options r) =? FTDM_DICE)%Z.
  { destruct (roll_dice (ev_rng v) (ev_fuel v) (rm_drawn r)) as [[[l w] n]| | |]; cbn [obind]; try reflexivity.
    change (set_drawn n (no_decks r)) with (no_decks (set_drawn n r)).
    rewrite nd_send_all, nd_get_team_leader.
    destruct (get_team_leader (set_drawn n r) w) as [c| | |]; cbn [obind send_choose nd_result]; try reflexivity.
    f_equal. f_equal. apply (nd_nd (set_state (Deciding (Some c)) (set_drawn n r))). }
  destruct (op_ftdm (rm_options r) =? FTDM_COIN)%Z.
  { change (set_drawn (S (rm_drawn r)) (no_decks r)) with (no_decks (set_drawn (S (rm_drawn r)) r)).
    rewrite nd_send_all, nd_get_team_leader.
    destruct (get_team_leader _ _) as [c| | |]; cbn [obind send_choose nd_result]; try reflexivity.
    f_equal. f_equal. apply (nd_nd (set_state (Deciding (Some c)) (set_drawn (S (rm_drawn r)) r))). }
  destruct (_ || _); [reflexivity|]. cbn. now rewrite nd_nd.
Qed.

Lemma nd_enter_deciding : forall v r, nd_result (enter_deciding v (no_decks r)) = nd_result (enter_deciding v r).
Proof.
  intros v r. unfold enter_deciding.
  change (rm_state (no_decks r)) with (rm_state r).
  change (set_state (Deciding None) (no_decks r)) with (no_decks (set_state (Deciding None) r)).
  change (rm_state (no_decks (set_state (Deciding None) r))) with (Deciding None).
  change (rm_state (set_state (Deciding None) r)) with (Deciding None).
  destruct (negb _); cbn [assert_ obind]; [apply nd_on_enter_deciding|reflexivity].
Qed.

Lemma nd_scan_team : forall l pos max n e, scan_team (map undeck l) pos max n e = scan_team l pos max n e.
Proof. induction l as [|[va rd [c|] dk] l IH]; intros; cbn; [reflexivity| |]; rewrite IH; reflexivity. Qed.
Lemma nd_find_empty : forall r, find_empty (no_decks r) = find_empty r.
Proof. intros r. 
  unfold find_empty. change (max_of (no_decks r)) with (max_of r).
  destruct (max_of r 0) as [m0| | |]; cbn [obind]; try reflexivity.
  destruct (max_of r 1) as [m1| | |]; cbn [obind]; try reflexivity.
  cbn [no_decks rm_team0 rm_team1]. rewrite !nd_scan_team. reflexivity.
Qed.
Lemma nd_team_duelists : forall v l host t pos,
  team_duelists v host t pos (map undeck l) = team_duelists v host t pos l.
Proof. intros v. induction l as [|[va rd [c|] dk] l IH]; intros; cbn; rewrite ?IH; reflexivity. Qed.
Lemma nd_all_duelists : forall v r, all_duelists v (no_decks r) = all_duelists v r.
Proof. intros v r. unfold all_duelists. cbn. rewrite !nd_team_duelists. reflexivity. Qed.

Lemma nd_enter : forall v c r, nd_result (enter v c (no_decks r)) = nd_result (enter v c r).
Proof.
  intros v c r. unfold enter. change (rm_state (no_decks r)) with (rm_state r).
  destruct (rm_state r); cbn [nd_result]; [reflexivity| |now rewrite nd_nd].
  unfold enter_conf. rewrite nd_all_duelists, nd_find_empty.
  change (rm_options (no_decks r)) with (rm_options r).
  change (rm_spectators (no_decks r)) with (rm_spectators r).
  change (rm_host (no_decks r)) with (rm_host r).
  destruct (find_empty r) as [[[t p]|]| | |]; cbn [obind]; try reflexivity.
  - cbn [nd_result]. rewrite (@nd_set_slot t p (set_client c) (set_client c) r) by reflexivity.
    rewrite (@nd_set_slot_send t p (set_client c) (set_client c) r) by reflexivity. reflexivity.
  - destruct (negb _); cbn [assert_ obind]; [|reflexivity].
    change (set_spectators (set_insert c (rm_spectators r)) (no_decks r))
      with (no_decks (set_spectators (set_insert c (rm_spectators r)) r)).
    rewrite nd_send_all. cbn [nd_result]. rewrite nd_nd. reflexivity.
Qed.

Lemma nd_scan_peer : forall c l pos max, scan_peer c (map undeck l) pos max = scan_peer c l pos max.
Proof. intros c. induction l as [|[va rd [d|] dk] l IH]; intros; cbn; rewrite ?IH; reflexivity. Qed.
Lemma nd_find_peer : forall c r, find_peer c (no_decks r) = find_peer c r.
Proof. intros c r. 
  unfold find_peer. change (max_of (no_decks r)) with (max_of r).
  destruct (max_of r 0) as [m0| | |]; cbn [obind]; try reflexivity.
  cbn [no_decks rm_team0 rm_team1]. rewrite nd_scan_peer.
  destruct (scan_peer c (rm_team0 r) 0 m0); [reflexivity|].
  destruct (max_of r 1) as [m1| | |]; cbn [obind]; try reflexivity. rewrite nd_scan_peer. reflexivity.
Qed.
Lemma nd_slot_at : forall r t p, slot_at (no_decks r) t p = option_map undeck (slot_at r t p).
Proof. intros r t p. unfold slot_at. destruct (t =? 0); cbn; apply nth_map. Qed.
Lemma nd_team_can_start : forall l b, team_can_start (map undeck l) b = team_can_start l b.
Proof. induction l as [|[va rd [d|] dk] l IH]; intros; cbn; rewrite ?IH; reflexivity. Qed.
Lemma nd_can_start : forall r, can_start (no_decks r) = can_start r.
Proof. intros r. unfold can_start. cbn. rewrite !nd_team_can_start. reflexivity. Qed.

Lemma nd_visit : forall v c s r, nd_result (visit v c s (no_decks r)) = nd_result (visit v c s r).
Proof.
  intros v c s r. unfold visit. change (rm_state (no_decks r)) with (rm_state r).
  destruct (rm_state r), s as [|[|d|b|b]|[|t]]; cbn [signal_conf signal_first]; try (cbn; now rewrite nd_nd).
  - unfold update_deck. rewrite nd_find_peer. change (rm_options (no_decks r)) with (rm_options r).
    destruct (find_peer c r) as [[[t p]|]| | |]; cbn [obind]; try reflexivity; [|cbn; now rewrite nd_nd].
    destruct (ev_check v (banlist_id (rm_options r)) d) as [[] err]; cbn [nd_result].
    + rewrite (@nd_set_slot t p (set_deck true d) (set_deck true d)) by reflexivity. reflexivity.
    + rewrite (@nd_set_slot t p (set_deck false deck0) (set_deck false deck0)) by reflexivity. reflexivity.
  - unfold ready_status. rewrite nd_find_peer.
    destruct (find_peer c r) as [[[t p]|]| | |]; cbn [obind]; try reflexivity; [|cbn; now rewrite nd_nd].
    rewrite nd_slot_at. destruct (slot_at r t p) as [s|]; cbn [or_ub option_map obind]; [|reflexivity].
    change (sl_ready (undeck s)) with (sl_ready s). change (sl_valid (undeck s)) with (sl_valid s).
    destruct (Bool.eqb b (sl_ready s)); [cbn; now rewrite nd_nd|].
    destruct (b && negb (sl_valid s)); [cbn; now rewrite nd_nd|].
    cbn [nd_result]. rewrite (@nd_set_slot t p (set_ready b) (set_ready b)) by reflexivity.
    rewrite (@nd_set_slot_send t p (set_ready b) (set_ready b)) by reflexivity. reflexivity.
  - unfold start_dueling. change (rm_host (no_decks r)) with (rm_host r). rewrite nd_can_start.
    destruct (negb (c =? rm_host r)); [cbn; now rewrite nd_nd|].
    destruct (negb (can_start r)); [cbn; now rewrite nd_nd|]. apply nd_enter_deciding.
  - change (rm_options (no_decks r)) with (rm_options r). change (rm_host (no_decks r)) with (rm_host r).
    destruct (_ || _); [cbn; now rewrite nd_nd|]. destruct (1 <? t); [cbn; now rewrite nd_nd|].
    rewrite nd_send_all. cbn. now rewrite nd_nd.
Qed.

Lemma nd_act : forall v a r, nd_result (act v a (no_decks r)) = nd_result (act v a r).
Proof. intros v [c|c s] r; cbn; [apply nd_enter|apply nd_visit]. Qed.
Lemma nd_act_eq : forall v a r r', no_decks r = no_decks r' -> nd_result (act v a r) = nd_result (act v a r').
Proof. intros v a r r' H. rewrite <- nd_act, H. apply nd_act. Qed.

Lemma set_slot_options : forall t p f r, rm_options (set_slot t p f r) = rm_options r.
Proof. intros. unfold set_slot. destruct (t =? 0); reflexivity. Qed.

Lemma act_options : forall v a r r' o, act v a r = Ok (r', o) -> rm_options r' = rm_options r.
Proof.
  intros v [c|c s] r r' o H; cbn in H.
  - unfold enter in H. destruct (rm_state r); [discriminate| |congruence].
    unfold enter_conf in H. destruct (find_empty r) as [[[t p]|]| | |]; cbn [obind] in H; try discriminate.
    + injection H as <- _. apply set_slot_options.
    + destruct (negb _); [|discriminate]. cbn [assert_ obind] in H. injection H as <- _. reflexivity.
  - unfold visit in H.
    destruct (rm_state r), s as [|[|d|b|b]|[|t]]; cbn [signal_conf signal_first] in H; try congruence.
    + unfold update_deck in H. destruct (find_peer c r) as [[[t p]|]| | |]; cbn [obind] in H; try congruence.
      destruct (ev_check _ _ _) as [[] err]; injection H as <- _; apply set_slot_options.
    + unfold ready_status in H. destruct (find_peer c r) as [[[t p]|]| | |]; cbn [obind] in H; try congruence.
      destruct (slot_at r t p) as [s|]; cbn [or_ub obind] in H; [|discriminate].
      destruct (Bool.eqb _ _); [congruence|]. destruct (_ && _); [congruence|].
      injection H as <- _. apply set_slot_options.
    + unfold start_dueling in H. destruct (negb _); [congruence|]. destruct (negb _); [congruence|].
      unfold enter_deciding in H. destruct (negb _); [|discriminate]. cbn [assert_ obind] in H.
      unfold on_enter_deciding in H.
      destruct (_ =? FTDM_HOST_CHOOSES)%Z; [injection H as <- _; reflexivity|].
      destruct (_ =? FTDM_RPS)%Z; [injection H as <- _; reflexivity|].
      destruct (_ =? FTDM_DICE)%Z.
      { destruct (roll_dice _ _ _) as [[[l w] n]| | |]; cbn [obind] in H; try discriminate.
        destruct (get_team_leader _ _); cbn [obind send_choose] in H; try discriminate.
        injection H as <- _. reflexivity. }
      destruct (_ =? FTDM_COIN)%Z.
      { destruct (get_team_leader _ _); cbn [obind send_choose] in H; try discriminate.
        injection H as <- _. reflexivity. }
      destruct (_ || _); [discriminate|]. injection H as <- _. reflexivity.
    + destruct (_ || _); [congruence|]. destruct (1 <? t); [congruence|]. injection H as <- _. reflexivity.
Qed.

(** What was sent so far: the same for those outside [w], in outline for all. *)
Definition sent_alike (w : N -> Prop) (o o' : sent) : Prop :=
  (forall c, ~ w c -> heard c o = heard c o') /\
  map (fun x => (fst x, outline (snd x))) o = map (fun x => (fst x, outline (snd x))) o'.
Definition decks_apart (w : N -> Prop) (x y : room * sent) : Prop :=
  no_decks (fst x) = no_decks (fst y) /\ sent_alike w (snd x) (snd y).

Lemma sent_alike_refl : forall w o, sent_alike w o o.
Proof. split; auto. Qed.
Lemma heard_app : forall c o o', heard c (o ++ o') = heard c o ++ heard c o'.
Proof. intros. unfold heard. now rewrite filter_app, map_app. Qed.
Lemma sent_alike_app : forall w o o' p p', sent_alike w o o' -> sent_alike w p p' -> sent_alike w (o ++ p) (o' ++ p').
Proof.
  intros w o o' p p' [A B] [C D]. split.
  - intros c H. rewrite !heard_app, A, C by assumption. reflexivity.
  - rewrite !map_app, B, D. reflexivity.
Qed.

Lemma same_act_apart : forall v w a r r', no_decks r = no_decks r' ->
  end_alike (decks_apart w) (act v a r) (act v a r').
Proof.
  intros v w a r r' H. pose proof (nd_act_eq v a H) as E.
  destruct (act v a r) as [[s o]| | |], (act v a r') as [[s' o']| | |]; cbn [nd_result end_alike] in *; try discriminate; auto.
  assert (no_decks s = no_decks s') by congruence. assert (o = o') as <- by congruence.
  split; [assumption|apply sent_alike_refl].
Qed.

Lemma other_act_apart : forall v o w a a' r, banlist_id (rm_options r) = house_list o -> other_deck v o w a a' ->
  end_alike (decks_apart w) (act v a r) (act v a' r).
Proof.
  intros v o w a a' r B [b|c d d' W K].
  - apply same_act_apart. reflexivity.
  - cbn. unfold visit. destruct (rm_state r); cbn; try (split; [reflexivity|apply sent_alike_refl]).
    unfold update_deck. destruct (find_peer c r) as [[[t p]|]| | |]; cbn [obind]; try exact I;
      [|split; [reflexivity|apply sent_alike_refl]].
    rewrite B. destruct (ev_check v (house_list o) d) as [k e], (ev_check v (house_list o) d') as [k' e'].
    cbn in K. subst k'. destruct k; cbn; split; cbn [fst snd]; try apply sent_alike_refl.
    + rewrite <- (@nd_set_slot t p (set_deck true d) (set_deck true d) r) by reflexivity.
      apply nd_set_slot. reflexivity.
    + reflexivity.
    + split.
      * intros c' H. cbn. destruct (N.eqb_spec c c') as [->|]; [contradiction|reflexivity].
      * reflexivity.
Qed.

Lemma end_alike_ok : forall R x y a b, end_alike R x y -> x = Ok a -> y = Ok b -> R a b.
Proof. intros R x y a b H -> ->. exact H. Qed.

Lemma decks_apart_trans : forall w x y z, decks_apart w x y -> decks_apart w y z -> decks_apart w x z.
Proof. intros w x y z [A [B C]] [D [E F]]. split; [congruence|]. split; [|congruence]. intros c H. rewrite B, E; auto. Qed.
Lemma end_apart_trans : forall w x y z, end_alike (decks_apart w) x y -> end_alike (decks_apart w) y z ->
  end_alike (decks_apart w) x z.
Proof. intros w [x| | |] [y| | |] [z| | |]; cbn; try contradiction; auto. apply decks_apart_trans. Qed.

Lemma play_apart : forall v o w l l' r r' out out', Forall2 (other_deck v o w) l l' ->
  banlist_id (rm_options r) = house_list o -> no_decks r = no_decks r' -> sent_alike w out out' ->
  end_alike (decks_apart w) (play v l r out) (play v l' r' out').
Proof.
  intros v o w l l' r r' out out' H. revert r r' out out'.
  induction H as [|a a' l l' A _ IH]; intros r r' out out' B E S; cbn [play]; [split; assumption|].
  assert (X : end_alike (decks_apart w) (act v a r) (act v a' r')).
  { eapply end_apart_trans; [eapply other_act_apart; eassumption|]. apply same_act_apart, E. }
  destruct (act v a r) as [[s os]| | |] eqn:Q, (act v a' r') as [[s' os']| | |]; cbn in X |- *; try contradiction; auto.
  destruct X as [X Y]. apply IH; auto; [|apply sent_alike_app; assumption].
  rewrite (act_options _ _ _ Q). exact B.
Qed.

Lemma session_apart : forall v host o w l l', Forall2 (other_deck v o w) l l' ->
  end_alike (decks_apart w) (session v host o l) (session v host o l').
Proof.
  intros v host o w l l' H. unfold session.
  destruct (construct v host o) as [[r out]| | |] eqn:Q; cbn; auto.
  apply play_apart with (o := o); auto; [|apply sent_alike_refl].
  replace (rm_options r) with (clamp_options o); [reflexivity|].
  unfold construct in Q. unfold enter_configuring in Q. cbn [assert_ obind negb state_index rm_state set_state] in Q.
  cbn -[enter] in Q. destruct (enter v host _) as [[s os]| | |] eqn:Q2; cbn in Q; try discriminate.
  apply (act_options v (Enter host)) in Q2. cbn in Q2.
  destruct (negb _); [|discriminate]. injection Q as -> _. symmetry. exact Q2.
Qed.
