(** Proofs about the dangers of the core's messages. *)
From Verif Require Import Base BaseProofs Place PlaceProofs Frame FrameSpec FrameLens FrameProofs FramePiles FrameFacts
  Limbo LimboSpec Msg Event EventSpec Query QuerySpec.
From Verif Require Import FrameInv EventProofs QueryProofs.
From Verif Require Import Reader EncodeQuery Encode CoreMsg EncodeSpec ReaderProofs EncodeProofs EncodeQueryProofs
  EncodeLocal EncodeState EncodeFrame EncodeHistory EncodeE2E.
From Verif Require Import HazardSpec HazardProofs HazardEvent.
From Verif Require EncodeWildSpec EncodeWildTop.
From Verif Require Import HazardMsgSpec.

Local Open Scope N_scope.

(** ** Places: on the board or nowhere *)
Definition tame (p : place) : Prop := (0 <= p_con p)%Z /\ (p_loc p = 0 \/ In (p_loc p) board_locs).

Lemma tame_cases : forall p, tame p -> p_loc p = 0 \/ regular p.
Proof. intros p [H1 [H2|H2]]; [now left|right; split; auto]. Qed.
Lemma core_tame : forall c, cloc_ok c -> tame (core_place c).
Proof.
  intros c K. split.
  - unfold core_place. destruct (core_spot _ _). cbn [p_con]. lia.
  - apply core_locs in K. unfold board_locs. cbn [In] in *. intuition.
Qed.
Lemma core_regular : forall c, cloc_ok c -> ~ outside (core_place c) -> regular (core_place c).
Proof. intros c K N. destruct (tame_cases _ (core_tame c K)); [contradiction|assumption]. Qed.

Lemma has_outside : forall p L, p_loc p = 0 -> has_card p L = Abort.
Proof. intros [con loc seq oseq] L H. cbn [p_loc] in H. subst. reflexivity. Qed.
Lemma ord_has_tame : forall p L, shape L -> tame p -> orderly (has_card p L).
Proof.
  intros p L S T. destruct (tame_cases p T) as [Z|R]; [rewrite has_outside by exact Z; apply ord_abort|].
  now apply ord_has.
Qed.
Lemma swap_tame : forall a b L, lay_ok L -> tame a -> tame b -> ~ wild_swap a b L -> orderly (card_swap a b L).
Proof.
  intros a b L LO Ta Tb NW. assert (S : shape L) by apply LO.
  destruct (tame_cases a Ta) as [Za|Ra].
  { unfold card_swap. rewrite has_outside by exact Za. apply ord_abort. }
  destruct (tame_cases b Tb) as [Zb|Rb].
  { unfold card_swap. apply ord_bind; [now apply ord_has|]. intros x _. apply ord_then. intros _.
    rewrite has_outside by exact Zb. apply ord_abort. }
  now apply ord_swap.
Qed.
Lemma seqs_tame : forall prev L, shape L -> Forall tame prev -> orderly (shuffle_seqs prev L).
Proof.
  induction prev as [|p prev IH]; intros L S F; cbn [shuffle_seqs]; [apply ord_ok|].
  apply Forall_cons_iff in F as [R F]. apply ord_bind; [now apply ord_has_tame|]. intros x _.
  apply ord_then. intros _. apply ord_bind; [now apply IH|]. intros; apply ord_ok.
Qed.
Lemma shuffle_tame : forall prev cur L, shape L -> Forall tame prev -> Forall tame cur ->
  ~ wild_shuffle prev cur -> orderly (card_shuffle prev cur L).
Proof.
  intros prev cur L S Fp Fc NW. unfold card_shuffle. destruct prev as [|p0 prev].
  - exfalso. apply NW. left. reflexivity.
  - apply ord_then. intros _. apply ord_then. intros _.
    apply ord_bind; [now apply seqs_tame|]. intros seqs E. apply ord_loop; auto.
    + rewrite (seqs_length _ _ E). cbn. lia.
    + destruct (Nat.le_gt_cases (length (p0 :: prev)) (length cur)); auto.
      exfalso. apply NW. right. left. auto.
    + eapply Forall_impl; [|exact Fc]. intros p T. now apply tame_cases.
    + intros X. apply NW. right. right. exact X.
Qed.

(** ** Queries *)
Lemma query_tame : forall use q f, inv card f -> tame (qr_place q) -> orderly (parse_query use q f).
Proof.
  intros use q f I T. unfold parse_query. apply ord_bind; [apply ord_has_tame; [apply I|exact T]|].
  intros h H. apply ord_then. intros ->. destruct (has_card_Ok_slot _ _ _ H) as (k & i & S).
  destruct (card_at_place_iff card (qr_place q) f k i I S) as [(_ & id & E & L & _)|[X _]]; [|congruence].
  rewrite E. cbn [obind]. apply heap_get_In in L. destruct (heap_get id (f_heap f)) as [c|]; [|congruence].
  cbn [or_ub obind]. destruct (parse_data _ _ _). apply ord_ok.
Qed.
Lemma queries_tame : forall qs c, inv card (b_frame (cx_board c)) -> Forall (fun q => tame (qr_place q)) qs ->
  orderly (ofold ctx_query qs c).
Proof.
  induction qs as [|q qs IH]; intros c I F; cbn [ofold]; [apply ord_ok|].
  apply Forall_cons_iff in F as [T F]. apply ord_bind.
  - unfold ctx_query. apply ord_bind; [now apply query_tame|]. intros [hits f] _. apply ord_ok.
  - intros c1 E. apply IH; [|exact F]. unfold ctx_query in E. apply obind_Ok in E. destruct E as [[hits f] [E G]].
    inversion G; subst. cbn [set_board cx_board set_frame b_frame]. eapply query_inv; eauto.
Qed.
Lemma slot_tame : forall con loc i l, tame (let '(fl, fs) := core_spot loc i in mkPlace (Z.of_N con) fl fs (-1)) ->
  Forall (fun x : place * list qitem => tame (fst x)) (slot_queries con loc i l).
Proof.
  intros con loc i l T. unfold slot_queries. destruct (core_spot loc i) as [fl fs].
  constructor; [exact T|]. apply Forall_forall. intros x X. apply in_map_iff in X. destruct X as [y [<- _]]. exact T.
Qed.
Lemma spot_tame : forall con loc i, In loc [0; 0x1; 0x2; 0x4; 0x8; 0x10; 0x20; 0x40] -> (loc = 8 -> i < 8) ->
  tame (let '(fl, fs) := core_spot loc i in mkPlace (Z.of_N con) fl fs (-1)).
Proof.
  intros con loc i H B. assert (E : In (fst (core_spot loc i)) (0 :: board_locs)).
  { cbn [In] in H. repeat destruct H as [<-|H]; try contradiction; try (cbn; tauto).
    specialize (B eq_refl).
    assert (E : i = 0 \/ i = 1 \/ i = 2 \/ i = 3 \/ i = 4 \/ i = 5 \/ i = 6 \/ i = 7) by lia.
    repeat destruct E as [->|E]; try subst; cbn; tauto. }
  destruct (core_spot loc i) as [fl fs]. cbn [fst In] in E. split; cbn [p_con p_loc]; [lia|]. destruct E; auto.
Qed.
Lemma batch_tame : forall l con loc i, In loc [0; 0x1; 0x2; 0x4; 0x8; 0x10; 0x20; 0x40] ->
  (loc = 8 -> i + lenN l <= 8) ->
  Forall (fun x : place * list qitem => tame (fst x)) (batch_queries con loc i l).
Proof.
  induction l as [|s l IH]; intros con loc i H B; cbn [batch_queries]; [constructor|].
  unfold lenN in *. cbn [length] in B. apply Forall_app. split.
  - destruct s; [|constructor]. apply slot_tame, spot_tame; auto. lia.
  - apply IH; auto. lia.
Qed.
Lemma core_queries_tame : forall m xs, core_ok m -> core_queries m = Some xs ->
  Forall (fun x : place * list qitem => tame (fst x)) xs.
Proof.
  intros m xs K E. destruct m; try discriminate E; cbn [core_queries] in E; inversion E; subst; cbn [core_ok] in K.
  - destruct K as (_ & H & B & _). apply batch_tame; auto.
  - destruct K as [[[_ H _ _ B _ _] _] _]. apply slot_tame, spot_tame; auto.
Qed.

(** ** Operations that are never dangerous *)
Definition gentle (a : lact) : Prop :=
  match a with LSwap _ _ | LSplice _ _ _ _ | LShuffle _ _ => False | _ => True end.
Lemma gentle_trips : forall l (f : frame card), Forall gentle l ->
  ~ trips (fun a (f : frame card) => wild (plain_act a) (f_lay f)) (fun a => fstep card0 (plain_act a)) l f.
Proof.
  induction l as [|a l IH]; intros f F T; cbn [trips] in T; [exact T|].
  apply Forall_cons_iff in F as [G F]. destruct T as [T|(f' & _ & T)]; [|exact (IH _ F T)].
  destruct a; try (exact T); exact G.
Qed.
Lemma gentle_orderly : forall e (b : pboard card), inv card (b_frame b) -> regular_event e ->
  Forall gentle (event_acts e) -> ~ wild_values e ->
  match e with EvChainStack (ChainPop _) => b_chain b <> [] | _ => True end ->
  orderly (pparse card0 e b).
Proof.
  intros e b I R G V P. apply pparse_orderly; auto. intros [W|[W|W]]; [auto| |eapply gentle_trips; eauto].
  destruct e as [| | |[]| | | | | | | |]; auto.
Qed.

Lemma row_regular : forall l con loc i, (0 <= con)%Z ->
  (loc = 0x4 \/ loc = 0x8 /\ i + lenN l <= 8) -> Forall regular (row_places con loc i l).
Proof.
  induction l as [|z l IH]; intros con loc i H B; cbn [row_places]; [constructor|].
  unfold lenN in *. cbn [length] in B. apply Forall_app. split.
  - destruct z as [[pos mats]|]; [|constructor].
    assert (E : In (fst (core_spot loc i)) board_locs).
    { destruct B as [->|[-> B]]; [cbn; tauto|].
      assert (E : i = 0 \/ i = 1 \/ i = 2 \/ i = 3 \/ i = 4 \/ i = 5 \/ i = 6 \/ i = 7) by lia.
      repeat destruct E as [->|E]; try subst; cbn; tauto. }
    destruct (core_spot loc i) as [fl fs]. cbn [fst] in E.
    constructor; [split; auto|]. apply Forall_forall. intros x X. apply in_map_iff in X. destruct X as [y [<- _]].
    split; auto.
  - apply IH; auto. destruct B as [B|[B B']]; [left; auto|right; split; [auto|lia]].
Qed.
Lemma side_regular : forall s con, cside_ok s -> (0 <= con)%Z -> Forall regular (side_places con s).
Proof.
  intros s con [_ [M _] [P _] _ _] H. unfold side_places. apply Forall_app. split; apply row_regular; auto.
  right. split; [reflexivity|]. unfold lenN. rewrite P. lia.
Qed.

Lemma adds_gentle : forall l, Forall gentle (map LAdd l).
Proof. intros l. apply Forall_forall. intros a H. apply in_map_iff in H. destruct H as [p [<- _]]. exact Logic.I. Qed.
Lemma adds_regular : forall l, Forall regular l -> Forall regular_act (map LAdd l).
Proof. intros l F. apply Forall_map. exact F. Qed.
