(** C117: a room in which nobody entered twice is never stuck. *)
From Verif Require Import Base BaseProofs Room RoomSpec RoomProofs RoomInv RoomTotal RoomLive PropsRoom
  RoomStuckSpec RoomStuck PropsRoomStuck.

Local Open Scope N_scope.

(** Whatever the clients did, accepted or not, the room can still be brought to
    the decision about the first turn. *)
Theorem C117_alive : forall v host o l d, NoDup (host :: entrants l) ->
  fst (ev_check v (house_list o) d) = true -> method_works v o ->
  exists r out, session v host o l = Ok (r, out) /\
    exists l' r' out', session v host o (l ++ l') = Ok (r', out') /\ deciding r'.
Proof.
  intros v host o l d ND K (M1 & M2 & M3).
  assert (Nh : ~ In host (entrants l)) by (inversion ND; assumption).
  destruct (C71_total_partial v host o l Nh M1 M2 M3) as (r & out & E). exists r, out. split; [exact E|].
  pose proof (session_sane _ _ _ _ _ _ E) as S. destruct (sn_state v r S) as [[C _]|D].
  2:{ exists [], r, out. rewrite app_nil_r. auto. }
  apply (C85_can_start_iff_partial v host o l r out d E C K M1 M2 M3).
  destruct (session_nodup _ _ _ _ _ _ E ND) as [Nd _].
  intros t p s c t0 p0 A B Q Bf. exfalso. apply (nodup_once r c Nd). left. exists t0, p0, t, p.
  split; [|split; [exact Q|exists s; auto]]. intros X. injection X as -> ->. exact (before_irrefl _ _ Bf).
Qed.
Print Assumptions C117_alive.

(** The room stays so for ever: from the decision there is no way back, and until
    then a start is in reach. *)
Theorem C117_always : forall v host o l1 l2 d, NoDup (host :: entrants (l1 ++ l2)) ->
  fst (ev_check v (house_list o) d) = true -> method_works v o ->
  exists r1 out1 r2 out2, session v host o l1 = Ok (r1, out1) /\ session v host o (l1 ++ l2) = Ok (r2, out2) /\
    (deciding r1 -> deciding r2) /\
    exists l3 r3 out3, session v host o ((l1 ++ l2) ++ l3) = Ok (r3, out3) /\ deciding r3.
Proof.
  intros v host o l1 l2 d ND K M.
  assert (Nh : ~ In host (entrants l1)).
  { inversion ND as [|? ? X _]. intros J. apply X. rewrite entrants_app. apply in_or_app. now left. }
  pose proof M as (M1 & M2 & M3). destruct (C71_total_partial v host o l1 Nh M1 M2 M3) as (r1 & out1 & E1).
  destruct (C117_alive v host o (l1 ++ l2) d ND K M) as (r2 & out2 & E2 & L).
  exists r1, out1, r2, out2. split; [exact E1|]. split; [exact E2|]. split; [|exact L].
  intros [x D]. destruct (sn_state v r2 (session_sane _ _ _ _ _ _ E2)) as [[C _]|D2]; [exfalso|exact D2].
  assert (P : play v l2 r1 out1 = Ok (r2, out2)).
  { unfold session in E1, E2. rewrite construct_run in E1, E2. cbn [obind] in E1, E2. now rewrite play_app, E1 in E2. }
  clear L ND E2 Nh. revert l1 r1 out1 E1 x D P. induction l2 as [|a l2 IH]; intros l1 r1 out1 E1 x D P.
  - injection P as -> ->. unfold configuring in C. congruence.
  - cbn [play] in P. destruct (act v a r1) as [[r o']| | |] eqn:A; cbn [obind] in P; try discriminate.
    assert (E : session v host o (l1 ++ [a]) = Ok (r, out1 ++ o')).
    { unfold session in *. rewrite construct_run in *. cbn [obind] in *. rewrite play_app, E1. cbn [obind play]. rewrite A. reflexivity. }
    assert (N : ~ configuring r).
    { apply (C65_left v host o l1 r1 out1 a r o' E1); [|exact A]. unfold configuring. rewrite D. discriminate. }
    destruct (sn_state v r (session_sane _ _ _ _ _ _ E)) as [[X _]|[y Y]]; [contradiction|].
    exact (IH (l1 ++ [a]) r _ E y Y P).
Qed.
Print Assumptions C117_always.

(** Decks rejected, readiness withdrawn, a start too early: still alive. *)
Definition C117_l : list action :=
  [Enter 2; Signal 2 (SgConf (CsUpdateDeck deck0)); Signal 1 (start_signal true); Signal 2 (SgConf (CsReady true));
   Enter 3; Signal 3 (SgConf (CsUpdateDeck ex_deck)); Signal 3 (SgConf (CsReady true)); Signal 3 (SgConf (CsReady false))].
Example C117_ex : NoDup (1 :: entrants C117_l) /\ fst (ev_check ex_env (house_list (ex_options [2; 1] 0)) ex_deck) = true /\
  fst (ev_check ex_env (house_list (ex_options [2; 1] 0)) deck0) = false /\
  method_works ex_env (ex_options [2; 1] 0) /\
  exists r out r' out', session ex_env 1 (ex_options [2; 1] 0) C117_l = Ok (r, out) /\ configuring r /\
    session ex_env 1 (ex_options [2; 1] 0) (C117_l ++ prepare 1 ++ prepare 2 ++ prepare 3 ++ [Signal 1 (start_signal true)]) = Ok (r', out') /\
    deciding r'.
Proof.
  split. { repeat constructor; cbn; lia. }
  split; [vm_compute; reflexivity|]. split; [vm_compute; reflexivity|].
  split. { split; [discriminate|]. split; discriminate. }
  do 4 eexists. split; [vm_compute; reflexivity|]. split; [reflexivity|]. split; [vm_compute; reflexivity|eexists; reflexivity].
Qed.
