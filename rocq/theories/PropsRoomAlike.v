(** Properties C102 and C103: the room treats clients alike and keeps decks to itself. *)
From Verif Require Import Base BaseProofs Room RoomSpec RoomProofs RoomAlikeSpec RoomAlike RoomHush PropsRoom.

Local Open Scope N_scope.

(** ** C102: other clients in the same roles *)

Theorem C102_alike : forall rho v v' host o l, distinct rho -> same_world rho v v' ->
  session v' (rho host) o (map (nm_action rho) l) = nm_result rho (session v host o l).
Proof. intros. now apply session_nm. Qed.
Print Assumptions C102_alike.

Theorem C102_heard : forall rho v v' host o l r out, distinct rho -> same_world rho v v' ->
  session v host o l = Ok (r, out) -> exists r' out',
  session v' (rho host) o (map (nm_action rho) l) = Ok (r', out') /\
  (forall c, heard (rho c) out' = heard c out) /\
  (forall c, (forall d, c <> rho d) -> heard c out' = [] /\ ~ present r' c) /\
  (forall t p c, sits r' t p (rho c) <-> sits r t p c) /\ (forall c, watches r' (rho c) <-> watches r c).
Proof.
  intros rho v v' host o l r out D W H. pose proof (C102_alike rho v v' host o l D W) as E. rewrite H in E.
  exists (nm_room rho r), (nm_sent rho out). split; [exact E|].
  assert (P : forall t p s', place (nm_room rho r) t p = Some s' <-> exists s, place r t p = Some s /\ s' = nm_slot rho s).
  { assert (M : forall l p s', nth_error (map (nm_slot rho) l) p = Some s' <->
        exists s, nth_error l p = Some s /\ s' = nm_slot rho s).
    { intros l0 p s'. rewrite Rename.nth_map. destruct (nth_error l0 p) as [s|]; cbn; split.
      - intros E'. exists s. split; [reflexivity|congruence].
      - intros (s0 & E' & ->). congruence.
      - discriminate.
      - intros (s0 & E' & _). discriminate. }
    intros t p s'. unfold place, seats.
    destruct t as [|[q|q|]]; [apply M| | |apply M]; apply (M [] (N.to_nat p) s'). }
  split; [intros c; now apply heard_nm|]. split; [|split].
  - intros c N. split; [now apply heard_none_nm|]. intros [(t & p & s & A & B)|A].
    + apply P in A as (s0 & A & ->). cbn in B. destruct (sl_client s0) as [d|]; [|discriminate]. injection B as B. now apply (N d).
    + unfold watches in A. cbn in A. apply in_map_iff in A as (d & A & _). now apply (N d).
  - intros t p c. split.
    + intros (s & A & B). apply P in A as (s0 & A & ->). cbn in B. exists s0. split; [exact A|].
      destruct (sl_client s0) as [d|]; [|discriminate]. injection B as B. now rewrite (D d c B).
    + intros (s & A & B). exists (nm_slot rho s). split; [apply P; eauto|]. cbn. now rewrite B.
  - intros c. unfold watches. cbn. rewrite in_map_iff. split.
    + intros (d & A & B). now rewrite <- (D d c A).
    + intros A. now exists c.
Qed.
Print Assumptions C102_heard.

(** Clients 5 to 8 become 105 to 108; a duelist each, a spectator, the dice. *)
Definition far (c : N) : N := c + 100.
Definition far_env : env :=
  mkEnv (fun c => ev_user ex_env (c - 100)) (ev_check ex_env) (ev_rng ex_env) (ev_fuel ex_env).
Example C102_ex : distinct far /\ same_world far ex_env far_env /\
  exists r out, session ex_env 5 (ex_options [1; 1] FTDM_DICE)
    ([Enter 6; Enter 7] ++ prepare 6 ++ prepare 5 ++ [Signal 5 (SgConf (CsStart true))]) = Ok (r, out) /\
    deciding r /\ watches r 7 /\ length (heard 7 out) = 6%nat.
Proof.
  split; [unfold distinct, far; lia|]. split.
  - split; [|split; [|split]]; try reflexivity. intros c. unfold far. cbn [far_env ev_user]. f_equal. lia.
  - eexists _, _. split; [vm_compute; reflexivity|]. split; [eexists; reflexivity|]. split; [left; reflexivity|reflexivity].
Qed.

(** ** C103: decks stay secret *)

(** Both runs end in the same way, in rooms that differ in decks at most; those
    outside [w] hear the same, the others but for what their complaints say. *)
Theorem C103_same_verdict : forall v host o (w : N -> Prop) l l', Forall2 (other_deck v o w) l l' ->
  end_alike (fun x y => no_decks (fst x) = no_decks (fst y) /\
      (forall c, ~ w c -> heard c (snd x) = heard c (snd y)) /\
      forall c, map outline (heard c (snd x)) = map outline (heard c (snd y)))
    (session v host o l) (session v host o l').
Proof.
  intros v host o w l l' H. pose proof (session_apart host H) as E.
  destruct (session v host o l) as [[r x]| | |], (session v host o l') as [[r' x']| | |]; cbn [end_alike fst snd] in E |- *; auto.
  destruct E as [A [B C]]. split; [exact A|]. split; [exact B|]. intros c.
  assert (K : forall z : sent, map outline (heard c z) = heard c (map (fun x => (fst x, outline (snd x))) z)).
  { intros z. unfold heard. induction z as [|[d e] z IH]; cbn; [reflexivity|]. destruct (d =? c); cbn; now rewrite IH. }
  rewrite !K. cbn [snd] in C. now rewrite C.
Qed.
Print Assumptions C103_same_verdict.

(** Even the verdict stays secret as long as its owner does not claim to be ready. *)
Theorem C103_unready : forall v host o (w : N -> Prop) l l', Forall2 (any_deck w) l l' ->
  end_alike (fun x y => forall c, ~ w c -> heard c (snd x) = heard c (snd y))
    (session v host o l) (session v host o l').
Proof.
  intros v host o w l l' H. pose proof (hush_session v host o H) as E.
  destruct (session v host o l) as [[r x]| | |], (session v host o l') as [[r' x']| | |]; cbn in E |- *; auto.
  now destruct E.
Qed.
Print Assumptions C103_unready.

(** 6 hands in one of two good decks, and the duel starts; or one of a good and a
    bad deck, without getting ready.  Saying to be ready tells them apart. *)
Definition ex_deck' : deck := mkDeck [46986414; 46986414] [] [] [] [] [] [].
Definition duel_of (d : deck) : list action :=
  [Enter 6; Enter 7; Signal 6 (SgConf (CsUpdateDeck d)); Signal 6 (SgConf (CsReady true))] ++ prepare 5 ++
  [Signal 5 (SgConf (CsStart true))].
Definition visit_of (d : deck) : list action :=
  [Enter 6; Enter 7; Signal 6 (SgConf (CsUpdateDeck d))] ++ prepare 5 ++ [Signal 5 (SgConf (CsStart true))].
Example C103_ex :
  Forall2 (other_deck ex_env (ex_options [1; 1] FTDM_COIN) (fun c => c = 6)) (duel_of ex_deck) (duel_of ex_deck') /\
  Forall2 (any_deck (fun c => c = 6)) (visit_of ex_deck) (visit_of deck0) /\
  exists r out r' out' r'' out'', session ex_env 5 (ex_options [1; 1] FTDM_COIN) (duel_of ex_deck) = Ok (r, out) /\
    session ex_env 5 (ex_options [1; 1] FTDM_COIN) (duel_of ex_deck') = Ok (r', out') /\
    session ex_env 5 (ex_options [1; 1] FTDM_COIN) (duel_of deck0) = Ok (r'', out'') /\
    deciding r /\ deciding r' /\ configuring r'' /\ r <> r' /\ heard 7 out'' <> heard 7 out.
Proof.
  split; [repeat (constructor; [first [now apply od_deck | apply od_same]|]); constructor|].
  split; [repeat (constructor; [first [now apply ad_deck | apply ad_same; intros ? -> ?; discriminate]|]); constructor|].
  eexists _, _, _, _, _, _. split; [vm_compute; reflexivity|]. split; [vm_compute; reflexivity|].
  split; [vm_compute; reflexivity|].
  split; [eexists; reflexivity|]. split; [eexists; reflexivity|]. split; [reflexivity|]. split; discriminate.
Qed.
