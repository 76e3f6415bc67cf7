(** Streams of messages, one buffer or many. *)
From Verif Require Import Base BaseProofs Place Frame FrameSpec Msg Event Query.
From Verif Require Import Reader EncodeQuery Encode CoreMsg ReaderProofs EncodeProofs EncodeQueryProofs
  EncodeSpec StreamSpec EncodeLocal EncodeFrame EncodeFacts EncodeState.

Local Open Scope N_scope.

Lemma b4_shape : forall v, v < 2 ^ 32 -> exists n0 n1 n2 n3, b4 v = [n0; n1; n2; n3] /\
  n0 + 256 * (n1 + 256 * (n2 + 256 * n3)) = v.
Proof.
  intros v L. do 4 eexists. split; [cbn; reflexivity|].
  pose proof (N.div_mod v 256 ltac:(lia)). pose proof (N.div_mod (v / 256) 256 ltac:(lia)).
  pose proof (N.div_mod (v / 256 / 256) 256 ltac:(lia)).
  assert (v / 256 / 256 / 256 < 256).
  { rewrite !N.div_div by lia. apply N.div_lt_upper_bound; lia. }
  rewrite (N.mod_small (v / 256 / 256 / 256)) by assumption. lia.
Qed.

(** What follows a message does not matter. *)
Lemma alone_encode : forall m c rest r c', core_ok m -> ready c m ->
  encode_one c (ser m) = Ok (r, c') -> encode_one c (ser m ++ rest) = Ok (r, c').
Proof.
  intros m c rest r c' K R E.
  assert (B : r_bytes_read r = lenN (ser m)).
  { eapply encode_frames; [exact K|]. rewrite app_nil_r. exact E. }
  pose proof (encode_local c (ser m) r c' E) as H. rewrite B in H. unfold lenN in H.
  rewrite Nat2N.id, firstn_all in H. apply H; clear H.
  intros con p0 p1 p2 p3 n0 n1 n2 n3 tl who X W.
  destruct m; try discriminate X. cbn [core_ok ready] in K, R. destruct K as (K1 & K2 & K3 & K4).
  destruct R as [R1 R2]. unfold ser in X. cbn [msg_number payload] in X.
  destruct (b4_shape pos K2) as (q0 & q1 & q2 & q3 & Q & _).
  destruct (b4_shape (lenN bits) K3) as (s0 & s1 & s2 & s3 & S & V).
  rewrite Q in X. unfold seq4 in X. rewrite S in X. cbn in X. inversion X; subst.
  rewrite N.mod_small in W by (unfold is_u8 in K1; lia). rewrite V. now apply R2.
Qed.

Lemma stream_alone : forall f ms c, Forall core_ok ms -> ctx_sound c -> well_fed f c ms ->
  exists l d, one_by_one f c ms = Ok (l, d) /\ ctx_sound d /\
    drain f (length ms) c (flat_map ser ms) = Ok l /\
    map r_bytes_read l = map (fun m => lenN (ser m)) ms.
Proof.
  intros f ms. induction ms as [|m ms IH]; intros c K S W.
  - exists [], c. cbn. auto.
  - inversion K as [|? ? K1 K2]; subst. destruct W as [R W].
    destruct (ready_encode m c [] K1 S R) as [r [c1 E]]. rewrite app_nil_r in E.
    destruct (W r c1 E) as (c2 & E2 & S2 & W2).
    destruct (IH c2 K2 S2 W2) as (l & d & O & Sd & D & M).
    pose proof (alone_encode m c (flat_map ser ms) r c1 K1 R E) as E'.
    pose proof (encode_frames _ _ _ _ _ K1 E') as B.
    exists (r :: l), d. cbn [one_by_one]. rewrite E. cbn [obind]. rewrite E2. cbn [obind]. rewrite O.
    split; [reflexivity|]. split; [exact Sd|]. cbn [flat_map length].
    assert (X : exists b t, ser m ++ flat_map ser ms = b :: t) by (unfold ser; cbn; eauto).
    destruct X as [b [t X]]. cbn [drain]. rewrite X. rewrite <- X. rewrite E'. cbn [obind].
    rewrite E2. cbn [obind]. rewrite B. unfold lenN. rewrite Nat2N.id.
    rewrite skipn_app, skipn_all, Nat.sub_diag. cbn [skipn app]. rewrite D. cbn [obind map].
    split; [reflexivity|]. rewrite B, M. reflexivity.
Qed.

(** Following the duel: the context is the one [feed_all] gives. *)
Lemma follow_feeds : forall ms c l d, one_by_one follow c ms = Ok (l, d) -> feed_all c ms = Ok d.
Proof.
  induction ms as [|m ms IH]; intros c l d H; cbn [one_by_one] in H.
  - inversion H; subst. reflexivity.
  - apply obind_Ok in H. destruct H as [[r c1] [H1 H]]. apply obind_Ok in H. destruct H as [c2 [H2 H]].
    apply obind_Ok in H. destruct H as [[l2 d2] [H3 H]]. inversion H; subst.
    unfold feed_all. cbn [ofold]. unfold feed. rewrite H1. cbn [obind]. rewrite H2. cbn [obind].
    exact (IH c2 l2 d H3).
Qed.

Lemma follow_sound : forall r c c', ctx_sound c -> follow r c = Ok c' -> ctx_sound c'.
Proof.
  intros r c c' S F. unfold follow in F. destruct (r_msg r) as [m|]; [exact (sound_parse _ S F)|].
  inversion F; subst; exact S.
Qed.
Lemma fed_step : forall c m ms r c' c'', ctx_sound c -> ready c m ->
  encode_one c (ser m) = Ok (r, c') -> follow r c' = Ok c'' ->
  (ctx_sound c'' -> well_fed follow c'' ms) -> well_fed follow c (m :: ms).
Proof.
  intros c m ms r c' c'' S R E F W. split; [exact R|]. intros r1 c1 E1. rewrite E in E1.
  inversion E1; subst. exists c''. split; [exact F|].
  assert (S2 : ctx_sound c'') by (eapply follow_sound; [exact (sound_encode _ S E)|exact F]). auto.
Qed.
