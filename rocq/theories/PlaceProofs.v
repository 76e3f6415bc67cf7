(** Proofs about Place.v. *)
From Verif Require Import Base BaseProofs Place.

Local Open Scope N_scope.

(** ** Specification: lexicographic order on the four fields *)
Inductive lex_lt : place -> place -> Prop :=
| lex_con : forall a b, (p_con a < p_con b)%Z -> lex_lt a b
| lex_loc : forall a b, p_con a = p_con b -> p_loc a < p_loc b -> lex_lt a b
| lex_seq : forall a b, p_con a = p_con b -> p_loc a = p_loc b ->
    p_seq a < p_seq b -> lex_lt a b
| lex_oseq : forall a b, p_con a = p_con b -> p_loc a = p_loc b ->
    p_seq a = p_seq b -> (p_oseq a < p_oseq b)%Z -> lex_lt a b.

Lemma place_less_spec : forall a b, place_less a b = true <-> lex_lt a b.
Proof.
  intros a b. unfold place_less.
  destruct (Z.ltb_spec (p_con a) (p_con b)); [split; auto using lex_con|].
  destruct (Z.ltb_spec (p_con b) (p_con a)).
  { split; [discriminate|]. intros X; inversion X; subst; lia. }
  assert (p_con a = p_con b) by lia.
  destruct (N.ltb_spec (p_loc a) (p_loc b)); [split; auto using lex_loc|].
  destruct (N.ltb_spec (p_loc b) (p_loc a)).
  { split; [discriminate|]. intros X; inversion X; subst; lia. }
  assert (p_loc a = p_loc b) by lia.
  destruct (N.ltb_spec (p_seq a) (p_seq b)); [split; auto using lex_seq|].
  destruct (N.ltb_spec (p_seq b) (p_seq a)).
  { split; [discriminate|]. intros X; inversion X; subst; lia. }
  assert (p_seq a = p_seq b) by lia.
  destruct (Z.ltb_spec (p_oseq a) (p_oseq b)); [split; auto using lex_oseq|].
  split; [discriminate|]. intros X; inversion X; subst; lia.
Qed.

Lemma place_less_irrefl : forall a, place_less a a = false.
Proof.
  intros a. destruct (place_less a a) eqn:E; auto.
  apply place_less_spec in E. inversion E; subst; lia.
Qed.

Lemma place_less_trans : forall a b c,
  place_less a b = true -> place_less b c = true -> place_less a c = true.
Proof.
  intros a b c H1 H2. apply place_less_spec in H1. apply place_less_spec in H2.
  apply place_less_spec.
  inversion H1; inversion H2; subst.
  all: try (apply lex_con; lia).
  all: try (apply lex_loc; congruence || lia).
  all: try (apply lex_loc; [congruence|]; lia).
  all: try (apply lex_seq; try congruence; lia).
  all: try (apply lex_oseq; try congruence; lia).
Qed.

Lemma place_less_total : forall a b,
  place_less a b = true \/ a = b \/ place_less b a = true.
Proof.
  intros [c l s o] [c' l' s' o'].
  rewrite !place_less_spec.
  destruct (Z.lt_trichotomy c c') as [?|[->|?]]; [left; apply lex_con; auto| |right; right; apply lex_con; auto].
  destruct (N.lt_trichotomy l l') as [?|[->|?]]; [left; apply lex_loc; auto| |right; right; apply lex_loc; auto].
  destruct (N.lt_trichotomy s s') as [?|[->|?]]; [left; apply lex_seq; auto| |right; right; apply lex_seq; auto].
  destruct (Z.lt_trichotomy o o') as [?|[->|?]]; [left; apply lex_oseq; auto| |right; right; apply lex_oseq; auto].
  auto.
Qed.

Lemma place_eqb_eq : forall a b, place_eqb a b = true <-> a = b.
Proof.
  intros a b. unfold place_eqb. split.
  - intros H. apply andb_true_iff in H. destruct H as [H1 H2].
    destruct (place_less_total a b) as [E|[E|E]]; auto; rewrite E in *; discriminate.
  - intros ->. rewrite place_less_irrefl. reflexivity.
Qed.

Lemma place_eqb_refl : forall a, place_eqb a a = true.
Proof. intros; apply place_eqb_eq; reflexivity. Qed.

(** ** Locations *)

(** Specification: the ten named locations. *)
Definition pile_locs : list N := [0x1; 0x2; 0x10; 0x20; 0x40].
Definition zone_locs : list N := [0x4; 0x8; 0x100; 0x200; 0x400].

Lemma loc_is_pile_pow2 : forall k, loc_is_pile (2 ^ k) = true <-> In (2 ^ k) pile_locs.
Proof.
  intros k. destruct (N.lt_ge_cases k 12) as [L|L].
  - assert (In k [0;1;2;3;4;5;6;7;8;9;10;11]).
    { simpl. lia. }
    simpl in H. repeat (destruct H as [<-|H]; [vm_compute; split; intros; try tauto; try discriminate; intuition congruence|]).
    destruct H.
  - assert (P : 2 ^ 12 <= 2 ^ k) by (apply N.pow_le_mono_r; lia).
    split; intros H; exfalso.
    + unfold loc_is_pile in H. apply negb_true_iff, N.eqb_neq in H. apply H.
      apply N.bits_inj_0. intros n. rewrite N.land_spec, N.pow2_bits_eqb.
      destruct (N.eqb_spec k n) as [<-|]; auto.
      rewrite (N.bits_above_log2 PILE_MASK k); auto.
      assert (N.log2 PILE_MASK = 6) by reflexivity. lia.
    + simpl in H. change (2 ^ 12) with 4096 in P. lia.
Qed.

Lemma loc_is_zone_pow2 : forall k, loc_is_zone (2 ^ k) = true <-> In (2 ^ k) zone_locs.
Proof.
  intros k. destruct (N.lt_ge_cases k 12) as [L|L].
  - assert (In k [0;1;2;3;4;5;6;7;8;9;10;11]).
    { simpl. lia. }
    simpl in H. repeat (destruct H as [<-|H]; [vm_compute; split; intros; try tauto; try discriminate; intuition congruence|]).
    destruct H.
  - assert (P : 2 ^ 12 <= 2 ^ k) by (apply N.pow_le_mono_r; lia).
    split; intros H; exfalso.
    + unfold loc_is_zone in H. apply negb_true_iff, N.eqb_neq in H. apply H.
      apply N.bits_inj_0. intros n. rewrite N.land_spec, N.pow2_bits_eqb.
      destruct (N.eqb_spec k n) as [<-|]; auto.
      rewrite (N.bits_above_log2 ZONE_MASK k); auto.
      assert (N.log2 ZONE_MASK = 10) by reflexivity. lia.
    + simpl in H. change (2 ^ 12) with 4096 in P. lia.
Qed.

(** On a single-bit (or zero) location the three predicates are exclusive. *)
Lemma loc_exclusive : forall k,
  loc_is_empty (2 ^ k) = false /\
  (loc_is_pile (2 ^ k) = true -> loc_is_zone (2 ^ k) = false).
Proof.
  intros k. split.
  - unfold loc_is_empty, LOCATION_UNSPECIFIED. apply N.eqb_neq. apply N.pow_nonzero. lia.
  - intros H. apply loc_is_pile_pow2 in H.
    destruct (loc_is_zone (2 ^ k)) eqn:E; auto. apply loc_is_zone_pow2 in E.
    simpl in *. lia.
Qed.

Lemma loc_empty_neither : forall l, loc_is_empty l = true ->
  loc_is_pile l = false /\ loc_is_zone l = false.
Proof.
  unfold loc_is_empty, LOCATION_UNSPECIFIED. intros l H. apply N.eqb_eq in H. subst.
  split; reflexivity.
Qed.

(** The mask tests are per-bit: a location is a pile (zone) location exactly
    when one of its bits is. *)
Lemma land_neq_0_bit : forall a b, negb (N.land a b =? 0) = true <->
  exists k, N.testbit a k = true /\ N.testbit b k = true.
Proof.
  intros a b. rewrite negb_true_iff, N.eqb_neq. split.
  - intros H. exists (N.log2 (N.land a b)).
    pose proof (N.bit_log2 _ H) as B. rewrite N.land_spec in B.
    apply andb_true_iff in B. exact B.
  - intros [k [A B]] E. assert (T : N.testbit (N.land a b) k = true).
    { rewrite N.land_spec, A, B. reflexivity. }
    rewrite E, N.bits_0 in T. discriminate.
Qed.

Lemma testbit_loc_mask : forall m k,
  N.testbit m k = negb (N.land (2 ^ k) m =? 0).
Proof.
  intros m k. destruct (N.testbit m k) eqn:E; symmetry.
  - apply land_neq_0_bit. exists k. rewrite N.pow2_bits_true. auto.
  - apply negb_false_iff, N.eqb_eq, N.bits_inj_0. intros n.
    rewrite N.land_spec, N.pow2_bits_eqb. destruct (N.eqb_spec k n) as [<-|]; auto.
Qed.

Lemma loc_is_pile_bits : forall l, loc_is_pile l = true <->
  exists k, N.testbit l k = true /\ In (2 ^ k) pile_locs.
Proof.
  intros l. unfold loc_is_pile. rewrite land_neq_0_bit.
  split; intros [k [A B]]; exists k; split; auto.
  - apply loc_is_pile_pow2. unfold loc_is_pile. rewrite <- testbit_loc_mask. exact B.
  - apply loc_is_pile_pow2 in B. unfold loc_is_pile in B. rewrite <- testbit_loc_mask in B. exact B.
Qed.

Lemma loc_is_zone_bits : forall l, loc_is_zone l = true <->
  exists k, N.testbit l k = true /\ In (2 ^ k) zone_locs.
Proof.
  intros l. unfold loc_is_zone. rewrite land_neq_0_bit.
  split; intros [k [A B]]; exists k; split; auto.
  - apply loc_is_zone_pow2. unfold loc_is_zone. rewrite <- testbit_loc_mask. exact B.
  - apply loc_is_zone_pow2 in B. unfold loc_is_zone in B. rewrite <- testbit_loc_mask in B. exact B.
Qed.

(** zone_seq_lim is defined exactly on the five zones. *)
Definition zone_limits : list (N * N) :=
  [(0x4, 7); (0x8, 5); (0x100, 1); (0x200, 2); (0x400, 1)].

Lemma zone_seq_lim_spec : forall l n, zone_seq_lim l = Ok n <-> In (l, n) zone_limits.
Proof.
  intros l n. unfold zone_seq_lim, LOCATION_MONSTER_ZONE, LOCATION_SPELL_ZONE,
    LOCATION_FIELD_ZONE, LOCATION_PENDULUM_ZONE, LOCATION_SKILL_ZONE, zone_limits.
  repeat match goal with
  | |- context [?x =? ?y] => destruct (N.eqb_spec x y) as [->|?]
  end; simpl; split; intros H;
  repeat match goal with
  | H : Ok _ = Ok _ |- _ => injection H as <-
  | H : UB = Ok _ |- _ => discriminate
  | H : _ \/ _ |- _ => destruct H
  | H : (_, _) = (_, _) |- _ => injection H; intros; subst; clear H
  | H : False |- _ => destruct H
  end; auto; try congruence; tauto.
Qed.

Lemma zone_seq_lim_ub : forall l, ~ In l zone_locs -> zone_seq_lim l = UB.
Proof.
  intros l H. unfold zone_seq_lim, LOCATION_MONSTER_ZONE, LOCATION_SPELL_ZONE,
    LOCATION_FIELD_ZONE, LOCATION_PENDULUM_ZONE, LOCATION_SKILL_ZONE. simpl in H.
  repeat match goal with
  | |- context [?x =? ?y] => destruct (N.eqb_spec x y) as [->|?]; [exfalso; tauto|]
  end. reflexivity.
Qed.
