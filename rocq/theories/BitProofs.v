(** Proofs about Bit.v. *)
From Verif Require Import Base BaseProofs Bit BitSpec.

Local Open Scope N_scope.

(** ** popcnt *)

Fixpoint ppop (p : positive) : nat :=
  match p with xH => 1 | xO p => ppop p | xI p => S (ppop p) end.
Definition npop (x : N) : nat := match x with 0 => O | Npos p => ppop p end.

Lemma land_double_succ : forall a b, N.land (2 * a) (2 * b + 1) = 2 * N.land a b.
Proof.
  intros. apply N.bits_inj. intros [|i].
  - rewrite N.land_spec, !N.testbit_even_0, andb_false_l.  reflexivity.
  - rewrite N.land_spec.
    replace (N.pos i) with (N.succ (N.pred (N.pos i))) by lia.
    rewrite !N.testbit_even_succ by lia. rewrite N.testbit_odd_succ by lia.
    symmetry; apply N.land_spec.
Qed.

Lemma land_odd_even : forall a b, N.land (2 * a + 1) (2 * b) = 2 * N.land a b.
Proof. intros. rewrite N.land_comm, land_double_succ, N.land_comm. reflexivity. Qed.

Lemma npop_double : forall a, npop (2 * a) = npop a.
Proof. destruct a; reflexivity. Qed.

Lemma npop_double_succ : forall a, npop (2 * a + 1) = S (npop a).
Proof. destruct a; reflexivity. Qed.

Lemma npop_step : forall x, x <> 0 -> npop x = S (npop (N.land x (x - 1))).
Proof.
  destruct x as [|p]; [congruence|intros _].
  induction p as [p IH|p IH|].
  - replace (N.pos p~1) with (2 * N.pos p + 1) by lia.
    replace (2 * N.pos p + 1 - 1) with (2 * N.pos p) by lia.
    rewrite land_odd_even, N.land_diag, npop_double, npop_double_succ. reflexivity.
  - replace (N.pos p~0) with (2 * N.pos p) by lia.
    replace (2 * N.pos p - 1) with (2 * (N.pos p - 1) + 1) by lia.
    rewrite land_double_succ, !npop_double. exact IH.
  - reflexivity.
Qed.

Lemma npop_0 : forall x, npop x = O -> x = 0.
Proof.
  destruct x as [|p]; auto. simpl. intros H. exfalso.
  revert H. induction p; simpl; try discriminate; auto.
Qed.

Lemma popcnt_loop_ok : forall fuel x c, (npop x < fuel)%nat ->
  popcnt_loop fuel x c = Ok (c + N.of_nat (npop x)).
Proof.
  induction fuel; intros x c H; [lia|]. simpl.
  destruct (N.eqb_spec x 0) as [->|E].
  - simpl. f_equal; lia.
  - rewrite (npop_step x E) in *. rewrite IHfuel by lia. f_equal; lia.
Qed.

Lemma npop_size : forall x, (npop x <= N.to_nat (N.size x))%nat.
Proof.
  destruct x as [|p]; simpl; auto.
  induction p; simpl in *; lia.
Qed.

Lemma popcnt_npop : forall x, popcnt x = Ok (N.of_nat (npop x)).
Proof.
  intros. unfold popcnt. rewrite popcnt_loop_ok; [reflexivity|].
  pose proof (npop_size x); lia.
Qed.

Lemma filter_map_seq : forall (f : nat -> bool) n,
  filter f (seq 1 n) = map S (filter (fun i => f (S i)) (seq 0 n)).
Proof.
  intros. rewrite <- seq_shift. generalize (seq 0 n). clear n.
  induction l; simpl; auto. destruct (f (S a)); simpl; congruence.
Qed.

Lemma bits_of_S : forall w x,
  bits_of (S w) x = (if N.odd x then [0%nat] else []) ++ map S (bits_of w (N.div2 x)).
Proof.
  intros. unfold bits_of. change (seq 0 (S w)) with (0%nat :: seq 1 w).
  cbn [filter]. rewrite filter_map_seq.
  assert (H : filter (fun i => N.testbit x (N.of_nat (S i))) (seq 0 w)
            = filter (fun i => N.testbit (N.div2 x) (N.of_nat i)) (seq 0 w)).
  { apply filter_ext. intros i. rewrite N.div2_spec, N.shiftr_spec by lia.
    f_equal; lia. }
  rewrite H. cbn [N.of_nat]. rewrite N.bit0_odd.
  destruct (N.odd x); reflexivity.
Qed.

Lemma npop_hamming : forall w x, x < 2 ^ N.of_nat w ->
  npop x = length (bits_of w x).
Proof.
  induction w; intros x H.
  - simpl in H. assert (x = 0) by lia. subst; reflexivity.
  - rewrite bits_of_S, app_length, map_length, <- IHw.
    + rewrite (N.div2_odd x) at 1. destruct (N.odd x); cbn [N.b2n].
      * rewrite npop_double_succ. reflexivity.
      * rewrite N.add_0_r, npop_double. reflexivity.
    + replace (N.of_nat (S w)) with (N.succ (N.of_nat w)) in H by lia.
      rewrite N.pow_succ_r' in H.
      pose proof (N.div2_odd x) as D. destruct (N.odd x); simpl N.b2n in D; lia.
Qed.

Lemma popcnt_hamming : forall w x, x < 2 ^ N.of_nat w -> popcnt x = Ok (hamming w x).
Proof.
  intros w x H. rewrite popcnt_npop. unfold hamming. rewrite <- npop_hamming by auto.
  reflexivity.
Qed.

(** ** Numbers as bit sets *)

Lemma bits_of_lt : forall w x i, In i (bits_of w x) -> (i < w)%nat.
Proof. unfold bits_of. intros. apply filter_In in H. destruct H. apply in_seq in H. lia. Qed.

Lemma bits_of_app : forall a b x,
  bits_of (a + b) x =
  bits_of a x ++ filter (fun i => N.testbit x (N.of_nat i)) (seq a b).
Proof. intros. unfold bits_of. rewrite seq_app, filter_app. reflexivity. Qed.

Lemma bits_of_low : forall n m x, x < 2 ^ N.of_nat n -> (n <= m)%nat ->
  bits_of m x = bits_of n x.
Proof.
  intros n m x H L. replace m with (n + (m - n))%nat by lia. rewrite bits_of_app.
  replace (filter _ _) with (@nil nat); [apply app_nil_r|].
  symmetry.
  assert (A : forall k len, (n <= k)%nat -> filter (fun i => N.testbit x (N.of_nat i)) (seq k len) = []).
  { intros k len; revert k; induction len; simpl; intros k K; auto.
    rewrite IHlen by lia.
    destruct (N.eq_dec x 0) as [->|X]; [rewrite N.bits_0; reflexivity|].
    rewrite N.bits_above_log2; auto.
    apply N.log2_lt_pow2; [lia|].
    apply N.lt_le_trans with (2 ^ N.of_nat n); auto.
    apply N.pow_le_mono_r; lia. }
  apply A; lia.
Qed.

Lemma lor_bit_lt : forall w c x i, c < 2 ^ w -> i < w ->
  N.lor c (N.land x (2 ^ i)) < 2 ^ w.
Proof.
  intros w c x i Hc Hi.
  destruct (N.eq_dec (N.lor c (N.land x (2 ^ i))) 0) as [->|E].
  { assert (2 ^ w <> 0) by (apply N.pow_nonzero; lia). lia. }
  apply N.log2_lt_pow2; [lia|].
  rewrite N.log2_lor.
  apply N.max_lub_lt.
  - destruct (N.eq_dec c 0) as [->|C]; [simpl; lia|].
    apply N.log2_lt_pow2; lia.
  - eapply N.le_lt_trans; [apply N.log2_land|].
    rewrite N.log2_pow2 by lia. lia.
Qed.

Lemma testbit_step : forall c x i j,
  N.testbit (N.lor c (N.land x (2 ^ i))) j =
  (N.testbit c j || (N.testbit x j && (i =? j)))%bool.
Proof.
  intros. rewrite N.lor_spec, N.land_spec, N.pow2_bits_eqb. reflexivity.
Qed.

(** ** chooser *)

(** After processing the bits below [i], the chosen bits are those of [x]
    below [i]. *)
Lemma chooser_loop_ok : forall todo w i count x chosen,
  (w <= 32)%nat -> (i + todo = w)%nat ->
  x < 2 ^ N.of_nat w -> chosen < 2 ^ N.of_nat w ->
  (forall j, N.testbit chosen (N.of_nat j) =
             (N.testbit x (N.of_nat j) && (j <? i)%nat)%bool) ->
  (length (bits_of w chosen) <= N.to_nat count)%nat ->
  exists r, chooser_loop todo (N.of_nat i) count x chosen = Ok r /\
            picks_lowest w count x r.
Proof.
  induction todo; intros w i count x chosen Hw Hi Hx Hc Hb Hle.
  - simpl. exists chosen. split; [reflexivity|]. split; [exact Hc|].
    assert (E : bits_of w chosen = bits_of w x).
    { unfold bits_of. apply filter_ext_in. intros j Hj. apply in_seq in Hj.
      rewrite Hb. replace (j <? i)%nat with true by (symmetry; apply Nat.ltb_lt; lia).
      apply andb_true_r. }
    rewrite E in *. rewrite firstn_all2 by lia. reflexivity.
  - cbn [chooser_loop]. rewrite popcnt_npop. cbn [obind].
    rewrite (npop_hamming w) by exact Hc.
    assert (P : bits_of w chosen = bits_of i x).
    { replace w with (i + S todo)%nat by lia. rewrite bits_of_app.
      replace (filter _ (seq i (S todo))) with (@nil nat).
      - rewrite app_nil_r. unfold bits_of. apply filter_ext_in. intros j Hj.
        apply in_seq in Hj. rewrite Hb.
        replace (j <? i)%nat with true by (symmetry; apply Nat.ltb_lt; lia).
        apply andb_true_r.
      - symmetry. assert (A : forall k n, (i <= k)%nat ->
          filter (fun j => N.testbit chosen (N.of_nat j)) (seq k n) = []).
        { intros k n; revert k; induction n; simpl; intros k K; auto.
          rewrite Hb. replace (k <? i)%nat with false by (symmetry; apply Nat.ltb_ge; lia).
          rewrite andb_false_r. apply IHn; lia. }
        apply A; lia. }
    destruct (N.ltb_spec (N.of_nat (length (bits_of w chosen))) count) as [L|L].
    + unfold shl1U. replace (N.of_nat i <? 32) with true by (symmetry; apply N.ltb_lt; lia).
      cbn [obind].
      replace (N.of_nat i + 1) with (N.of_nat (S i)) by lia.
      apply IHtodo; auto; try lia.
      * apply lor_bit_lt; auto; lia.
      * intros j. rewrite testbit_step, Hb.
        destruct (N.eqb_spec (N.of_nat i) (N.of_nat j)) as [E|E].
        -- assert (i = j) by lia. subst j.
           rewrite Nat.ltb_irrefl, andb_false_r, andb_true_r. simpl.
           replace (i <? S i)%nat with true by (symmetry; apply Nat.ltb_lt; lia).
           rewrite andb_true_r; reflexivity.
        -- rewrite andb_false_r, orb_false_r. f_equal.
           destruct (Nat.ltb_spec j i), (Nat.ltb_spec j (S i)); auto; lia.
      * assert (E : bits_of w (N.lor chosen (N.land x (2 ^ N.of_nat i))) = bits_of (S i) x).
        { replace w with (S i + todo)%nat by lia. rewrite bits_of_app.
          assert (T : forall j, N.testbit (N.lor chosen (N.land x (2 ^ N.of_nat i))) (N.of_nat j)
             = (N.testbit x (N.of_nat j) && (j <? S i)%nat)%bool).
          { intros j. rewrite testbit_step, Hb.
            destruct (N.eqb_spec (N.of_nat i) (N.of_nat j)) as [E|E].
            - assert (i = j) by lia. subst j. rewrite Nat.ltb_irrefl.
              replace (i <? S i)%nat with true by (symmetry; apply Nat.ltb_lt; lia).
              destruct (N.testbit x (N.of_nat i)); reflexivity.
            - rewrite andb_false_r, orb_false_r. f_equal.
              destruct (Nat.ltb_spec j i), (Nat.ltb_spec j (S i)); auto; lia. }
          replace (filter _ (seq (S i) todo)) with (@nil nat).
          - rewrite app_nil_r. unfold bits_of. apply filter_ext_in. intros j Hj.
            apply in_seq in Hj. rewrite T.
            replace (j <? S i)%nat with true by (symmetry; apply Nat.ltb_lt; lia).
            apply andb_true_r.
          - symmetry. assert (A : forall k n, (S i <= k)%nat ->
              filter (fun j => N.testbit (N.lor chosen (N.land x (2 ^ N.of_nat i))) (N.of_nat j)) (seq k n) = []).
            { intros k n; revert k; induction n; cbn [filter seq]; intros k K; auto.
              rewrite T. replace (k <? S i)%nat with false by (symmetry; apply Nat.ltb_ge; lia).
              rewrite andb_false_r. apply IHn; lia. }
            apply A; lia. }
        rewrite E. replace (S i) with (i + 1)%nat by lia. rewrite bits_of_app, <- P, app_length.
        cbn [seq filter]. destruct (N.testbit x (N.of_nat i)); simpl; lia.
    + exists chosen. split; [reflexivity|]. split; [exact Hc|].
      replace w with (i + S todo)%nat at 2 by lia. rewrite bits_of_app.
      rewrite <- P.
      assert (Q : length (bits_of w chosen) = N.to_nat count) by lia.
      rewrite firstn_app, Q, Nat.sub_diag, firstn_O, app_nil_r.
      rewrite <- Q, firstn_all. reflexivity.
Qed.

Lemma chooser_ok : forall w count x, (w <= 32)%nat -> x < 2 ^ N.of_nat w ->
  exists r, chooser w count x = Ok r /\ picks_lowest w count x r.
Proof.
  intros w count x Hw Hx. unfold chooser.
  apply (chooser_loop_ok w w 0 count x 0); auto.
  - apply N.neq_0_lt_0, N.pow_nonzero; lia.
  - intros j. rewrite N.bits_0. simpl. rewrite andb_false_r. reflexivity.
  - replace (bits_of w 0) with (@nil nat); [simpl; lia|].
    unfold bits_of. symmetry. induction (seq 0 w); simpl; auto.
Qed.

(** ** choosel *)

Lemma filter_bits_above : forall i k n c,
  (forall j, (j <? i)%nat = true -> N.testbit c (N.of_nat j) = false) ->
  (k + n <= i)%nat ->
  filter (fun j => N.testbit c (N.of_nat j)) (seq k n) = [].
Proof.
  intros i k n c H; revert k; induction n; simpl; intros k K; auto.
  rewrite H by (apply Nat.ltb_lt; lia). apply IHn. lia.
Qed.

(** With the bits at or above [i] already chosen. *)
Lemma choosel_loop_ok : forall i w count x chosen,
  (w <= 32)%nat -> (i <= w)%nat -> x < 2 ^ N.of_nat w -> chosen < 2 ^ N.of_nat w ->
  (forall j, N.testbit chosen (N.of_nat j) =
             (N.testbit x (N.of_nat j) && (i <=? j)%nat)%bool) ->
  (length (bits_of w chosen) < N.to_nat count)%nat ->
  exists r, choosel_loop i count x chosen = Ok r /\ picks_highest w count x r.
Proof.
  induction i; intros w count x chosen Hw Hi Hx Hc Hb Hlt.
  - simpl. exists chosen. split; [reflexivity|]. split; [exact Hc|].
    assert (E : bits_of w chosen = bits_of w x).
    { unfold bits_of. apply filter_ext. intros j. rewrite Hb. simpl.
      apply andb_true_r. }
    rewrite E in *. rewrite firstn_all2 by (rewrite rev_length; lia). reflexivity.
  - cbn [choosel_loop]. unfold shl1U.
    replace (N.of_nat i <? 32) with true by (symmetry; apply N.ltb_lt; lia).
    cbn [obind]. rewrite popcnt_npop. cbn [obind].
    set (chosen' := N.lor chosen (N.land x (2 ^ N.of_nat i))).
    assert (Hc' : chosen' < 2 ^ N.of_nat w) by (apply lor_bit_lt; auto; lia).
    assert (T : forall j, N.testbit chosen' (N.of_nat j) =
               (N.testbit x (N.of_nat j) && (i <=? j)%nat)%bool).
    { intros j. unfold chosen'. rewrite testbit_step, Hb.
      destruct (N.eqb_spec (N.of_nat i) (N.of_nat j)) as [E|E].
      - assert (i = j) by lia. subst j.
        replace (S i <=? i)%nat with false by (symmetry; apply Nat.leb_gt; lia).
        rewrite Nat.leb_refl. destruct (N.testbit x (N.of_nat i)); reflexivity.
      - rewrite andb_false_r, orb_false_r. f_equal.
        destruct (Nat.leb_spec (S i) j), (Nat.leb_spec i j); auto; lia. }
    assert (B : forall c k, (k <= w)%nat -> (forall j, N.testbit c (N.of_nat j) =
               (N.testbit x (N.of_nat j) && (k <=? j)%nat)%bool) ->
               bits_of w c = filter (fun j => N.testbit x (N.of_nat j)) (seq k (w - k))).
    { intros c k K Hk. replace w with (k + (w - k))%nat at 1 by lia.
      rewrite bits_of_app. unfold bits_of at 1.
      rewrite (filter_bits_above k 0 k c).
      - simpl. apply filter_ext_in. intros j Hj. apply in_seq in Hj. rewrite Hk.
        replace (k <=? j)%nat with true by (symmetry; apply Nat.leb_le; lia).
        apply andb_true_r.
      - intros j Hj. rewrite Hk. apply Nat.ltb_lt in Hj.
        replace (k <=? j)%nat with false by (symmetry; apply Nat.leb_gt; lia).
        apply andb_false_r.
      - lia. }
    assert (B1 := B chosen (S i) Hi Hb). assert (B2 := B chosen' i ltac:(lia) T).
    rewrite (npop_hamming w) by exact Hc'.
    assert (LL : (length (bits_of w chosen') <= S (length (bits_of w chosen)))%nat).
    { rewrite B2, B1. replace (w - i)%nat with (S (w - S i)) by lia.
      cbn [seq filter]. destruct (N.testbit x (N.of_nat i)); simpl; lia. }
    destruct (N.leb_spec count (N.of_nat (length (bits_of w chosen')))) as [L|L].
    + exists chosen'. split; [reflexivity|]. split; [exact Hc'|].
      assert (Q : length (bits_of w chosen') = N.to_nat count) by lia.
      assert (X : bits_of w x = bits_of i x ++ bits_of w chosen').
      { rewrite B2. replace w with (i + (w - i))%nat at 1 by lia. apply bits_of_app. }
      rewrite X, rev_app_distr, firstn_app, rev_length, Q, Nat.sub_diag, firstn_O, app_nil_r.
      rewrite <- Q, <- rev_length, firstn_all. reflexivity.
    + apply IHi; auto; lia.
Qed.

Lemma choosel_ok : forall w count x, (w <= 32)%nat -> 0 < count -> x < 2 ^ N.of_nat w ->
  exists r, choosel w count x = Ok r /\ picks_highest w count x r.
Proof.
  intros w count x Hw Hcnt Hx. unfold choosel.
  apply (choosel_loop_ok w w count x 0); auto.
  - apply N.neq_0_lt_0, N.pow_nonzero; lia.
  - intros j. rewrite N.bits_0. destruct (Nat.leb_spec w j) as [L|L].
    + destruct (N.eq_dec x 0) as [->|E]; [rewrite N.bits_0; reflexivity|].
      rewrite N.bits_above_log2; [reflexivity|].
      apply N.log2_lt_pow2; [lia|].
      apply N.lt_le_trans with (2 ^ N.of_nat w); auto. apply N.pow_le_mono_r; lia.
    + rewrite andb_false_r. reflexivity.
  - replace (bits_of w 0) with (@nil nat); [simpl; lia|].
    unfold bits_of. symmetry. induction (seq 0 w); simpl; auto.
Qed.

(** With count 0 the top bit is returned when it is set, otherwise nothing. *)
Lemma choosel_zero : forall w x, (S w <= 32)%nat ->
  choosel (S w) 0 x =
  Ok (if N.testbit x (N.of_nat w) then 2 ^ N.of_nat w else 0).
Proof.
  intros w x Hw. unfold choosel. cbn [choosel_loop]. unfold shl1U.
  replace (N.of_nat w <? 32) with true by (symmetry; apply N.ltb_lt; lia).
  cbn [obind]. rewrite popcnt_npop. cbn [obind]. rewrite N.lor_0_l.
  match goal with |- (if ?b then _ else _) = _ => replace b with true
    by (symmetry; apply N.leb_le; lia) end.
  f_equal. apply N.bits_inj. intros j. rewrite N.land_spec, N.pow2_bits_eqb.
  destruct (N.eqb_spec (N.of_nat w) j) as [<-|E].
  - rewrite andb_true_r. destruct (N.testbit x (N.of_nat w)) eqn:T.
    + rewrite N.pow2_bits_true; auto.
    + rewrite N.bits_0; auto.
  - rewrite andb_false_r. destruct (N.testbit x (N.of_nat w)).
    + rewrite N.pow2_bits_false; auto.
    + rewrite N.bits_0; auto.
Qed.

(** ** 64-bit operands *)

Lemma choosel_64_ub : forall count x, choosel 64 count x = UB.
Proof. reflexivity. Qed.

(** chooser on 64-bit operands is defined exactly when enough bits are set in
    the low half. *)
Lemma chooser_loop_app : forall a b i count x chosen,
  chooser_loop (a + b) i count x chosen =
  match chooser_loop a i count x chosen with
  | Ok r => if npop r <? N.to_nat count
            then chooser_loop b (i + N.of_nat a) count x r
            else Ok r
  | o => o
  end%nat.
Proof.
  induction a; intros b i count x chosen.
  - simpl. replace (i + 0) with i by lia.
    destruct (Nat.ltb_spec (npop chosen) (N.to_nat count)) as [L|L]; [reflexivity|].
    destruct b; simpl; auto. rewrite popcnt_npop. simpl.
    replace (N.of_nat (npop chosen) <? count) with false; auto.
    symmetry; apply N.ltb_ge; lia.
  - cbn [chooser_loop plus]. rewrite popcnt_npop. cbn [obind].
    destruct (N.ltb_spec (N.of_nat (npop chosen)) count) as [L|L].
    + destruct (shl1U i); simpl; auto. rewrite IHa.
      replace (i + 1 + N.of_nat a) with (i + N.of_nat (S a)) by lia. reflexivity.
    + destruct (Nat.ltb_spec (npop chosen) (N.to_nat count)); auto. lia.
Qed.

Lemma land_mod : forall x i, i < 32 -> N.land x (2 ^ i) = N.land (x mod 2 ^ 32) (2 ^ i).
Proof.
  intros. apply N.bits_inj. intros j. rewrite !N.land_spec, N.pow2_bits_eqb.
  destruct (N.eqb_spec i j) as [<-|E]; [|rewrite !andb_false_r; reflexivity].
  rewrite N.mod_pow2_bits_low by lia. reflexivity.
Qed.

Lemma chooser_loop_mod : forall todo i count x chosen, i + N.of_nat todo <= 32 ->
  chooser_loop todo i count x chosen = chooser_loop todo i count (x mod 2 ^ 32) chosen.
Proof.
  induction todo; intros; cbn [chooser_loop]; auto.
  destruct (popcnt chosen); simpl; auto. destruct (a <? count); auto.
  unfold shl1U. destruct (N.ltb_spec i 32) as [L|L]; [|reflexivity].
  cbn [obind]. rewrite land_mod by auto. apply IHtodo. lia.
Qed.

Lemma chooser_64 : forall count x,
  (count <= hamming 32 (x mod 2 ^ 32) ->
     exists r, chooser 64 count x = Ok r /\ picks_lowest 64 count x r) /\
  (hamming 32 (x mod 2 ^ 32) < count -> chooser 64 count x = UB).
Proof.
  intros count x. set (y := x mod 2 ^ 32).
  assert (Y : y < 2 ^ 32) by (apply N.mod_lt; discriminate).
  destruct (chooser_ok 32 count y ltac:(lia) Y) as [r [Hr [Hlt Hb]]].
  assert (E : chooser 64 count x =
     if (npop r <? N.to_nat count)%nat then chooser_loop 32 32 count x r else Ok r).
  { unfold chooser. change 64%nat with (32 + 32)%nat. rewrite chooser_loop_app.
    rewrite chooser_loop_mod by (simpl; lia). fold y. unfold chooser in Hr. rewrite Hr.
    reflexivity. }
  assert (LR : npop r = Nat.min (N.to_nat count) (length (bits_of 32 y))).
  { rewrite (npop_hamming 32) by exact Hlt. rewrite Hb, firstn_length. reflexivity. }
  assert (BX : bits_of 32 y = bits_of 32 x).
  { unfold bits_of. apply filter_ext_in. intros j Hj. apply in_seq in Hj.
    unfold y. rewrite N.mod_pow2_bits_low by lia. reflexivity. }
  unfold hamming. split; intros H.
  - exists r. rewrite E.
    destruct (Nat.ltb_spec (npop r) (N.to_nat count)) as [L|L]; [lia|].
    split; [reflexivity|]. split.
    + eapply N.lt_trans; [exact Hlt|]. apply N.pow_lt_mono_r; simpl; lia.
    + rewrite (bits_of_low 32 64 r) by (auto; lia). rewrite Hb.
      change 64%nat with (32 + 32)%nat. rewrite bits_of_app, <- BX.
      rewrite firstn_app.
      replace (N.to_nat count - length (bits_of 32 y))%nat with 0%nat by lia.
      rewrite firstn_O, app_nil_r. reflexivity.
  - rewrite E. destruct (Nat.ltb_spec (npop r) (N.to_nat count)) as [L|L].
    + cbn [chooser_loop]. rewrite popcnt_npop. cbn [obind].
      replace (N.of_nat (npop r) <? count) with true by (symmetry; apply N.ltb_lt; lia).
      reflexivity.
    + lia.
Qed.
