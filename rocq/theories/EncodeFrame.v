(** Framing of the messages that need the state of the duel, and of streams. *)
From Verif Require Import Base BaseProofs Place Frame Msg Event Query QuerySpec.
From Verif Require Import Reader EncodeQuery Encode CoreMsg EncodeSpec ReaderProofs EncodeProofs EncodeQueryProofs EncodeLocal.

Local Open Scope N_scope.

Local Opaque le_bytes ser_loc ser_loc4 ser_loc1 ser_loc44 ser_effect ser_counter bb bi4.

(** [m] consumes exactly [s] if it succeeds. *)
Definition frames {A} (m : reader A) (s : list N) : Prop :=
  forall rest x r, m (s ++ rest) = Ok (x, r) -> r = rest.

Lemma frames_reads : forall A (m : reader A) s x, reads m s x -> frames m s.
Proof. intros A m s x H rest y r E. rewrite H in E. now inversion E. Qed.
Lemma frames_bind : forall A B (m : reader A) (k : A -> reader B) a b x,
  reads m a x -> frames (k x) b -> frames (rbind m k) (a ++ b).
Proof.
  intros A B m k a b x H1 H2 rest y r E. unfold rbind in E. rewrite <- app_assoc, H1 in E.
  cbn [obind] in E. eapply H2, E.
Qed.
Lemma frames_last : forall A B (m : reader A) (k : A -> reader B) a x,
  reads m a x -> frames (k x) [] -> frames (rbind m k) a.
Proof.
  intros A B m k a x H1 H2. rewrite <- (app_nil_r a). eapply frames_bind; eauto.
Qed.
Lemma frames_lift : forall A B (o : outcome A) (k : A -> reader B) s,
  (forall x, frames (k x) s) -> frames (rbind (rlift o) k) s.
Proof.
  intros A B o k s H rest y r E. unfold rbind, rlift in E. destruct o; try discriminate E.
  cbn [obind] in E. eapply H, E.
Qed.
Lemma frames_ret : forall A (x : A), frames (rret x) [].
Proof. intros A x. eapply frames_reads, reads_ret. Qed.

(** The messages that depend on the state. *)
Definition core_stateful (m : core_msg) : bool :=
  match m with
  | CmWin _ _ | CmDeckTop _ _ _ _ | CmMove _ _ _ _ | CmSwapGraveDeck _ _ _ | CmDraw _ _
  | CmReverseDeck | CmMatchKill _ => true
  | _ => false
  end.

Lemma core_cases : forall m,
  (exists e, core_event m = Some e) \/ (exists to rq, core_request m = Some (to, rq)) \/
  (exists xs, core_queries m = Some xs) \/ core_silent m = true \/ core_stateful m = true.
Proof.
  intros m. destruct m;
    first
      [ left; eexists; reflexivity
      | right; left; eexists; eexists; reflexivity
      | right; right; left; eexists; reflexivity
      | right; right; right; left; reflexivity
      | right; right; right; right; reflexivity ].
Qed.

Lemma stateful_frames : forall m c, core_ok m -> core_stateful m = true ->
  exists k, kind_of (msg_number m) = Some k /\ frames (dispatch k c) (payload m).
Proof.
  intros m c K E. destruct m; try discriminate E.
  all: eexists; split; [reflexivity|]; unfold dispatch; cbn [event_case request_case payload].
  all: cbn [core_ok] in K; ands.
  - unfold win_case. eapply frames_bind; [chunk|]. eapply frames_last; [chunk|].
    apply frames_lift. intros mwr. apply frames_ret.
  - unfold deck_top_case. eapply frames_bind; [chunk|]. apply frames_lift. intros size.
    eapply frames_bind; [chunk|]. eapply frames_bind; [chunk|]. eapply frames_last; [chunk|].
    apply frames_ret.
  - unfold move_case. eapply frames_bind; [chunk|]. eapply frames_bind; [chunk|].
    eapply frames_bind; [chunk|]. eapply frames_last; [chunk|].
    intros rest x r G. unfold rlift in G. apply obind_Ok in G. destruct G as [a [_ G]].
    now inversion G.
  - unfold swap_grave_deck_case, seq4. rewrite <- ?app_assoc.
    eapply frames_bind; [chunk|]. eapply frames_bind; [chunk|]. eapply frames_bind; [chunk|].
    apply frames_lift. intros gy. apply frames_lift. intros deck.
    intros rest x r G. unfold rbind at 1 in G. apply obind_Ok in G. destruct G as [[l r'] [G1 G]].
    apply obind_Ok in G1. destruct G1 as [l' [_ G1]]. inversion G1; subst. clear G1.
    eapply frames_last in G; [exact G | | apply frames_ret].
    apply reads_skip. rewrite (lenN_flat_map _ _ 1) by (intros; apply lenN_le). lia.
  - unfold draw_case, seq4. eapply frames_bind; [chunk|]. eapply frames_bind; [chunk|].
    eapply frames_last; [apply reads_skip, skip_pairs|].
    apply frames_lift. intros deck. apply frames_lift. intros hand. apply frames_ret.
  - unfold reverse_deck_case. apply frames_lift. intros d0. apply frames_lift. intros d1.
    apply frames_ret.
  - eapply frames_last; [chunk | apply frames_ret].
Qed.

Lemma encode_frames : forall m c rest r c', core_ok m ->
  encode_one c (ser m ++ rest) = Ok (r, c') -> r_bytes_read r = lenN (ser m).
Proof.
  intros m c rest r c' K H.
  destruct (core_cases m) as [[e E]|[[to [rq E]]|[[xs E]|[E|E]]]].
  - rewrite (event_encode m e K E) in H. now inversion H.
  - rewrite (request_encode m to rq K E) in H. now inversion H.
  - destruct (queries_encode m xs K E) as [qs [_ Q]]. rewrite Q in H. now inversion H.
  - rewrite (silent_encode m K E) in H. now inversion H.
  - destruct (stateful_frames m c K E) as [k [A F]].
    unfold encode_one, ser in H. cbn [app] in H. rewrite read1_cons in H. cbn [obind] in H.
    rewrite A in H. apply obind_Ok in H. destruct H as [[[v c1] r1] [D H]].
    apply F in D. subst r1.
    replace (lenN (msg_number m :: payload m ++ rest) - lenN rest) with (lenN (ser m)) in H
      by (change (msg_number m :: payload m ++ rest) with (ser m ++ rest); rewrite lenN_app; lia).
    now inversion H.
Qed.

(** ** Streams *)
Lemma drain_splits : forall f ms fuel c l, Forall core_ok ms ->
  drain f fuel c (flat_map ser ms) = Ok l ->
  map r_bytes_read l = map (fun m => lenN (ser m)) ms.
Proof.
  intros f ms. induction ms as [|m ms IH]; intros fuel c l K H.
  - destruct fuel; cbn in H; now inversion H.
  - inversion K as [|? ? K1 K2]; subst. cbn [flat_map] in H.
    assert (E : exists b t, ser m ++ flat_map ser ms = b :: t) by (unfold ser; cbn; eauto).
    destruct E as [b [t E]]. destruct fuel as [|fuel]; cbn [drain] in H; rewrite E in H;
      [discriminate|]. rewrite <- E in H.
    apply obind_Ok in H. destruct H as [[r c1] [H1 H]].
    pose proof (encode_frames _ _ _ _ _ K1 H1) as B.
    apply obind_Ok in H. destruct H as [c2 [_ H]]. apply obind_Ok in H. destruct H as [l2 [H3 H]].
    inversion H; subst l. cbn [map]. rewrite B. f_equal. eapply IH; [assumption|].
    rewrite B in H3. unfold lenN in H3. rewrite Nat2N.id in H3.
    rewrite skipn_app, skipn_all, Nat.sub_diag in H3. exact H3.
Qed.
