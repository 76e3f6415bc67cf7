(** C83: exactly which duels can be watched, and scrubbed. *)
From Verif Require Import Base BaseProofs Place Frame FrameSpec FrameInv Limbo LimboSpec Msg Event EventSpec Query QuerySpec
  UQuery UQuerySpec UReplaySpec UReplay.
From Verif Require Import Encode CoreMsg EncodeSpec EncodeQueryProofs Duel DuelMsg DuelRun DuelReplaySpec DuelReplay.

Local Open Scope N_scope.

Lemma recording_ok : forall ms D c D', mirrors D c -> Forall core_ok ms -> duel_run ms D = Some D' ->
  exists rs, recording ms c = Ok rs /\ length rs = length ms.
Proof.
  induction ms as [|m ms IH]; intros D c D' M K H; [exists []; split; reflexivity|].
  inversion K as [|? ? K1 K2]; subst. apply run_cons in H. destruct H as [D1 [E H]].
  destruct (duel_follows _ _ _ _ M K1 E) as (c2 & F & M2). unfold feed in F. apply obind_Ok in F as [[r c1] [F1 F2]].
  destruct (IH D1 c2 D' M2 K2 H) as (rs & R & L). exists (msg_steps (r_msg r) :: rs).
  cbn [recording]. rewrite F1. cbn [obind]. rewrite F2. cbn [obind]. rewrite R. split; [reflexivity|]. cbn [length]. congruence.
Qed.

Lemma recorded_event : forall ms c rs m e, recording ms c = Ok rs -> In m ms -> core_ok m -> core_event m = Some e ->
  In (REvent e) (concat rs).
Proof.
  induction ms as [|m0 ms IH]; intros c rs m e R J K Ev; [destruct J|]. cbn [recording] in R.
  apply obind_Ok in R as [[r c1] [F1 R]]. apply obind_Ok in R as [c2 [F2 R]]. apply obind_Ok in R as [l [R X]].
  injection X as <-. cbn [concat]. apply in_or_app. destruct J as [->|J].
  - left. assert (E := event_encode m e K Ev c []). rewrite app_nil_r, F1 in E. injection E as -> _. left. reflexivity.
  - right. exact (IH _ _ _ _ R J K Ev).
Qed.

Lemma played_no_chain : forall use ss b b' e, play_all use ss b = Ok b' -> In (REvent e) ss -> no_chain e.
Proof.
  induction ss as [|s ss IH]; intros b b' e H J; [destruct J|]. unfold play_all in H. cbn [ofold] in H.
  apply obind_Ok in H as [b1 [H1 H2]]. destruct J as [->|J]; [|exact (IH _ _ _ H2 J)].
  destruct e; try exact Logic.I. destruct c; try exact Logic.I; discriminate H1.
Qed.

Lemma forward_played : forall use ss b0 n s, (n <= length ss)%nat ->
  rwalk use ss (repeat Forward n) (0%nat, [], b0) = Ok s ->
  exists hs b, s = (n, hs, b) /\ length hs = n /\ play_all use (firstn n ss) b0 = Ok b.
Proof.
  intros use ss b0. induction n as [|n IH]; intros s L H.
  - injection H as <-. exists [], b0. repeat split.
  - assert (E : repeat Forward (S n) = repeat Forward n ++ [Forward]) by exact (repeat_cons n Forward).
    rewrite E in H. unfold rwalk in H. rewrite ofold_app in H. apply obind_Ok in H as [s1 [H1 H2]].
    destruct (IH s1 ltac:(lia) H1) as (hs & b & -> & Lh & P). cbn [ofold rmove] in H2.
    destruct (nth_error ss n) as [x|] eqn:X; [|apply nth_error_None in X; lia].
    apply obind_Ok in H2 as [s2 [H2 H3]]. injection H3 as <-. apply obind_Ok in H2 as [[h b'] [H2 H3]]. injection H3 as <-.
    exists (h :: hs), b'. split; [reflexivity|]. split; [cbn [length]; congruence|].
    apply nth_error_split in X. destruct X as (l1 & l2 & -> & <-).
    rewrite firstn_app, firstn_all2 by lia. replace (S (length l1) - length l1)%nat with 1%nat by lia. cbn [firstn].
    rewrite firstn_app, firstn_all, Nat.sub_diag, firstn_O, app_nil_r in P.
    unfold play_all in *. rewrite ofold_app, P. cbn [obind ofold]. rewrite H2. reflexivity.
Qed.

(** A viewer who went past a shuffle and steps back is stopped. *)
Lemma back_over_shuffle : forall use ss b0 reason prev cur, In (REvent (EvCard reason (CardShuffle prev cur))) ss ->
  exists walk, forall s, rwalk use ss walk (0%nat, [], b0) <> Ok s.
Proof.
  intros use ss b0 reason prev cur J. apply In_nth_error in J. destruct J as [i J].
  exists (repeat Forward (S i) ++ [Backward]). intros s H.
  assert (Li : (i < length ss)%nat) by (apply nth_error_Some; congruence).
  unfold rwalk in H. rewrite ofold_app in H. apply obind_Ok in H as [s1 [H1 H2]].
  destruct (forward_played use ss b0 (S i) s1 Li H1) as (hs & b & -> & Lh & _).
  cbn [ofold rmove] in H2. destruct hs as [|h hs]; [discriminate Lh|]. rewrite J in H2. discriminate H2.
Qed.
