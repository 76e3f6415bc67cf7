(** Proofs about decode_one_answer. *)
From Verif Require Import Base BaseProofs Place Msg CoreMsg Decode DecodeSpec.

Local Open Scope N_scope.

(** ** The buffer *)
Lemma rep_le : forall w v, rep w v = le_bytes w v.
Proof. induction w as [|w IH]; intros v; cbn [rep le_bytes]; [reflexivity|]. now rewrite IH. Qed.
Lemma le_length : forall w v, length (le_bytes w v) = w.
Proof. induction w as [|w IH]; intros v; cbn [le_bytes length]; auto. Qed.
Lemma resize_length : forall n out, length (resize n out) = n.
Proof.
  intros n out. unfold resize. rewrite app_length, repeat_length, firstn_length. lia.
Qed.

(** The bytes of a value once written. *)
Definition wrote (w : nat) (v : Z) : list N := le_bytes w (of_signed (8 * N.of_nat w) v).
Lemma wrote_length : forall w v, length (wrote w v) = w.
Proof. intros. apply le_length. Qed.

Lemma write_at : forall w v pre mid post n, n = length pre -> length mid = w ->
  write w v (pre ++ mid ++ post, n) = Ok (pre ++ wrote w v ++ post, (n + w)%nat).
Proof.
  intros w v pre mid post n -> L. unfold write. rewrite !app_length.
  destruct (Nat.leb_spec (length pre + w) (length pre + (length mid + length post))); [|lia].
  rewrite firstn_app, firstn_all, Nat.sub_diag. cbn [firstn]. rewrite app_nil_r.
  rewrite skipn_app, skipn_all2 by lia. rewrite skipn_app, skipn_all2 by lia.
  replace (length pre + w - length pre - length mid)%nat with 0%nat by lia. cbn [skipn app].
  now rewrite rep_le.
Qed.

(** Starting to fill a fresh buffer, and going on. *)
Lemma write_next : forall w v done rest n, n = length done -> (w <= length rest)%nat ->
  exists rest', write w v (done ++ rest, n) = Ok ((done ++ wrote w v) ++ rest', length (done ++ wrote w v)) /\
    length rest = (w + length rest')%nat.
Proof.
  intros w v done rest n E L. exists (skipn w rest). split.
  - rewrite <- (firstn_skipn w rest) at 1. rewrite write_at; [|exact E|rewrite firstn_length; lia].
    now rewrite app_length, wrote_length, <- app_assoc, E.
  - rewrite skipn_length. lia.
Qed.

Lemma writes_run : forall A w (f : A -> Z) l done rest,
  length rest = (w * length l)%nat ->
  ofold (fun i => write w (f i)) l (done ++ rest, length done) =
    Ok (done ++ flat_map (fun i => wrote w (f i)) l, length (done ++ flat_map (fun i => wrote w (f i)) l)).
Proof.
  intros A w f l. induction l as [|x l IH]; intros done rest L; cbn [ofold flat_map].
  - destruct rest; [|cbn in L; lia]. now rewrite app_nil_r.
  - cbn [length] in L. destruct (write_next w (f x) done rest _ eq_refl) as [rest' [E L']]; [nia|].
    rewrite E. cbn [obind]. rewrite IH by nia. now rewrite <- app_assoc.
Qed.

Lemma response_run : forall v out, response_i v out = Ok (wrote 4 v).
Proof.
  intros v out. unfold response_i.
  destruct (write_next 4 v [] (resize 4 out) 0 eq_refl) as [r [E L]]; [rewrite resize_length; lia|].
  rewrite resize_length in L. destruct r; [|cbn in L; lia]. cbn [app] in E. rewrite E. cbn [obind].
  now rewrite app_nil_r.
Qed.

(** ** The cases *)
Lemma cards_run : forall rq l out, l <> [] ->
  match rq with RqCard (ScRecursive _ _ _ _ _ _) => False | RqCard _ => True | _ => False end ->
  decode_one_answer rq (AnCard (AcIndexes l)) out =
    Ok (wrote 4 1 ++ wrote 4 (Z.of_nat (length l)) ++ flat_map (fun i => wrote 2 (Z.of_N i)) l).
Proof.
  intros rq l out NE R. cbn [decode_one_answer decode_card].
  assert (A : negb (lenN l =? 0) = true) by (destruct l; [congruence|reflexivity]). rewrite A. cbn [assert_ obind].
  assert (U : match rq with RqCard (ScRecursive _ _ _ _ _ _) => Ok true | RqCard _ => Ok false | _ => Abort end = Ok false).
  { destruct rq as [| |[]| | | | | | | | | | | |]; try contradiction; reflexivity. }
  rewrite U. cbn [obind].
  destruct (write_next 4 1 [] (resize (8 + 2 * length l) out) 0 eq_refl) as [r1 [E1 L1]];
    [rewrite resize_length; lia|]. rewrite resize_length in L1. cbn [app] in E1. rewrite E1. cbn [obind].
  destruct (write_next 4 (Z.of_nat (length l)) (wrote 4 1) r1 _ eq_refl) as [r2 [E2 L2]]; [lia|].
  rewrite E2. cbn [obind]. rewrite (writes_run N 2 Z.of_N) by lia. cbn [obind]. now rewrite <- app_assoc.
Qed.

Lemma one_card_run : forall f a mn mx s d i l out,
  decode_one_answer (RqCard (ScRecursive f a mn mx s d)) (AnCard (AcIndexes (i :: l))) out =
    Ok (wrote 4 1 ++ wrote 4 (Z.of_N i)).
Proof.
  intros f a mn mx s d i l out. cbn [decode_one_answer decode_card].
  replace (negb (lenN (i :: l) =? 0)) with true by reflexivity. cbn [assert_ obind].
  destruct (write_next 4 1 [] (resize 8 out) 0 eq_refl) as [r1 [E1 L1]];
    [rewrite resize_length; lia|]. rewrite resize_length in L1. cbn [app] in E1. rewrite E1. cbn [obind nth_error or_ub].
  destruct (write_next 4 (Z.of_N i) (wrote 4 1) r1 _ eq_refl) as [r2 [E2 L2]]; [lia|].
  rewrite E2. cbn [obind]. destruct r2; [|cbn in L2; lia]. now rewrite app_nil_r.
Qed.

Definition wrote_place (p : place) : list N :=
  wrote 1 (p_con p) ++ wrote 1 (Z.of_N (p_loc p)) ++ wrote 1 (Z.of_N (p_seq p)).
Lemma write_place_next : forall p done rest, (3 <= length rest)%nat ->
  exists rest', write_place p (done ++ rest, length done) =
    Ok ((done ++ wrote_place p) ++ rest', length (done ++ wrote_place p)) /\
    length rest = (3 + length rest')%nat.
Proof.
  intros p done rest L. unfold write_place.
  destruct (write_next 1 (p_con p) done rest _ eq_refl) as [r1 [E1 L1]]; [lia|]. rewrite E1. cbn [obind].
  destruct (write_next 1 (Z.of_N (p_loc p)) (done ++ wrote 1 (p_con p)) r1 _ eq_refl) as [r2 [E2 L2]]; [lia|].
  rewrite E2. cbn [obind].
  destruct (write_next 1 (Z.of_N (p_seq p)) ((done ++ wrote 1 (p_con p)) ++ wrote 1 (Z.of_N (p_loc p))) r2 _ eq_refl)
    as [r3 [E3 L3]]; [lia|]. rewrite E3.
  exists r3. split; [|lia]. unfold wrote_place. now rewrite !app_assoc.
Qed.
Lemma zones_run : forall l done rest, length rest = (3 * length l)%nat ->
  ofold write_place l (done ++ rest, length done) =
    Ok (done ++ flat_map wrote_place l, length (done ++ flat_map wrote_place l)).
Proof.
  induction l as [|p l IH]; intros done rest L; cbn [ofold flat_map].
  - destruct rest; [|cbn in L; lia]. now rewrite app_nil_r.
  - cbn [length] in L. destruct (write_place_next p done rest) as [r [E R]]; [lia|].
    rewrite E. cbn [obind]. rewrite IH by lia. now rewrite !app_assoc.
Qed.
Lemma zone_run : forall rq l out, decode_one_answer rq (AnZone l) out = Ok (flat_map wrote_place l).
Proof.
  intros rq l out. cbn [decode_one_answer]. unfold decode_zone.
  pose proof (zones_run l [] (resize (3 * length l) out)) as E. cbn [app length] in E.
  rewrite E by apply resize_length. reflexivity.
Qed.

Lemma sort_run : forall rq l out, decode_one_answer rq (AnSort (AsIndexes l)) out =
  Ok (wrote 1 (Z.of_nat (length l)) ++ flat_map (fun i => wrote 1 (Z.of_N i)) l).
Proof.
  intros rq l out. cbn [decode_one_answer decode_sort].
  destruct (write_next 1 (Z.of_nat (length l)) [] (resize (1 + length l) out) 0 eq_refl) as [r1 [E1 L1]];
    [rewrite resize_length; lia|]. rewrite resize_length in L1. cbn [app] in E1. rewrite E1. cbn [obind].
  rewrite (writes_run N 1 Z.of_N) by lia. reflexivity.
Qed.

(** ** Reading back *)
Lemma uval_le : forall w v, uval (le_bytes w v) = v mod 256 ^ N.of_nat w.
Proof.
  induction w as [|w IH]; intros v; cbn [le_bytes uval fold_right].
  - now rewrite N.mod_1_r.
  - fold (uval (le_bytes w (v / 256))). rewrite IH.
    replace (256 ^ N.of_nat (S w)) with (256 * 256 ^ N.of_nat w)
      by (rewrite Nat2N.inj_succ, N.pow_succ_r'; reflexivity).
    rewrite N.mod_mul_r; [reflexivity|discriminate|apply N.pow_nonzero; discriminate].
Qed.
Lemma pow256 : forall w, 256 ^ N.of_nat w = 2 ^ (8 * N.of_nat w).
Proof. intros w. now rewrite N.pow_mul_r. Qed.
Lemma uval_wrote : forall w v, uval (wrote w v) = of_signed (8 * N.of_nat w) v.
Proof.
  intros w v. unfold wrote. rewrite uval_le, pow256. apply N.mod_small.
  unfold of_signed. pose proof (Z.mod_pos_bound v (2 ^ Z.of_N (8 * N.of_nat w))) as B.
  assert (P : (0 < 2 ^ Z.of_N (8 * N.of_nat w))%Z) by (apply Z.pow_pos_nonneg; lia).
  specialize (B P). apply N2Z.inj_lt. rewrite Z2N.id by lia. rewrite N2Z.inj_pow. apply B.
Qed.
Lemma uval_nat : forall w n, n < 2 ^ (8 * N.of_nat w) -> uval (wrote w (Z.of_N n)) = n.
Proof.
  intros w n H. rewrite uval_wrote. unfold of_signed. rewrite Z.mod_small; [apply N2Z.id|].
  split; [lia|]. apply N2Z.inj_lt in H. now rewrite N2Z.inj_pow in H.
Qed.
Lemma sval_neg1 : sval (wrote 4 (-1)) = (-1)%Z.
Proof. reflexivity. Qed.
Lemma sval_i32 : forall v, is_i32 v -> sval (wrote 4 v) = v.
Proof.
  intros v H. unfold is_i32 in H. unfold sval. rewrite uval_wrote, wrote_length. unfold of_signed.
  change (2 ^ Z.of_N (8 * N.of_nat 4))%Z with (2 ^ 32)%Z. change (2 ^ (8 * Z.of_nat 4))%Z with (2 ^ 32)%Z.
  assert (B := Z.mod_pos_bound v (2 ^ 32) ltac:(lia)). rewrite Z2N.id by lia. cbv zeta.
  destruct (Z.ltb_spec v 0) as [L|L].
  - replace (v mod 2 ^ 32)%Z with (v + 2 ^ 32)%Z in *.
    + destruct (Z.ltb_spec (2 * (v + 2 ^ 32)) (2 ^ 32)); lia.
    + apply Z.mod_unique with (q := (-1)%Z); lia.
  - rewrite Z.mod_small by lia. destruct (Z.ltb_spec (2 * v) (2 ^ 32)); lia.
Qed.

Lemma part_app : forall a b c, part (length a) (length b) (a ++ b ++ c) = Some b.
Proof.
  intros a b c. unfold part. rewrite !app_length.
  destruct (Nat.leb_spec (length a + length b) (length a + (length b + length c))); [|lia].
  rewrite skipn_app, skipn_all, Nat.sub_diag. cbn [app skipn].
  rewrite firstn_app, firstn_all, Nat.sub_diag. cbn [firstn]. now rewrite app_nil_r.
Qed.

Lemma chunks_run : forall w l, (0 < w)%nat -> Forall (fun i => i < 2 ^ (8 * N.of_nat w)) l ->
  chunks (length l) w (flat_map (fun i => wrote w (Z.of_N i)) l) = l.
Proof.
  intros w l W F. induction F as [|x l Hx F IH]; [reflexivity|]. cbn [length flat_map chunks].
  assert (L := wrote_length w (Z.of_N x)).
  destruct (wrote w (Z.of_N x) ++ _) as [|y t] eqn:E.
  - apply app_eq_nil in E. destruct E as [E _]. rewrite E in L. cbn in L. lia.
  - rewrite <- E. rewrite firstn_app, L, Nat.sub_diag, firstn_all2 by lia. cbn [firstn]. rewrite app_nil_r.
    rewrite uval_nat by exact Hx. f_equal.
    rewrite skipn_app, L, Nat.sub_diag, skipn_all2 by lia. cbn [skipn app]. exact IH.
Qed.
Lemma flat_wrote_length : forall w l, length (flat_map (fun i => wrote w (Z.of_N i)) l) = (w * length l)%nat.
Proof.
  intros w l. induction l as [|x l IH]; cbn [flat_map length]; [lia|]. rewrite app_length, wrote_length, IH. lia.
Qed.

Lemma core_cards_run : forall l, lenN l < 2 ^ 31 -> Forall (fun i => i < 2 ^ 16) l ->
  core_cards (wrote 4 1 ++ wrote 4 (Z.of_nat (length l)) ++ flat_map (fun i => wrote 2 (Z.of_N i)) l)
  = Some (Chosen l).
Proof.
  intros l L F. unfold core_cards.
  pose proof (part_app [] (wrote 4 1) (wrote 4 (Z.of_nat (length l)) ++ flat_map (fun i => wrote 2 (Z.of_N i)) l)) as P0.
  cbn [app length] in P0. rewrite wrote_length in P0. rewrite P0.
  replace (sval (wrote 4 1) =? -1)%Z with false by reflexivity.
  replace (uval (wrote 4 1) =? 1) with true by reflexivity.
  pose proof (part_app (wrote 4 1) (wrote 4 (Z.of_nat (length l))) (flat_map (fun i => wrote 2 (Z.of_N i)) l)) as P1.
  rewrite !wrote_length in P1. rewrite P1.
  replace (Z.of_nat (length l)) with (Z.of_N (lenN l)) by (unfold lenN; lia).
  rewrite uval_nat by (change (2 ^ (8 * N.of_nat 4)) with (2 ^ 32); lia).
  rewrite !app_length, !wrote_length, flat_wrote_length.
  replace (N.to_nat (lenN l)) with (length l) by (unfold lenN; lia).
  replace (4 + (4 + 2 * length l))%nat with (8 + 2 * length l)%nat by lia. rewrite Nat.eqb_refl.
  do 2 f_equal. change 8%nat with (4 + 4)%nat.
  rewrite app_assoc, skipn_app, skipn_all2 by (rewrite app_length, !wrote_length; lia).
  rewrite app_length, !wrote_length. cbn [Nat.add Nat.sub skipn app]. apply chunks_run; [lia|exact F].
Qed.

Lemma core_one_card_run : forall i, i < 2 ^ 32 -> core_one_card (wrote 4 1 ++ wrote 4 (Z.of_N i)) = Some (Chosen [i]).
Proof.
  intros i L. unfold core_one_card.
  pose proof (part_app [] (wrote 4 1) (wrote 4 (Z.of_N i))) as P0. cbn [app length] in P0.
  rewrite wrote_length in P0. rewrite P0.
  replace (sval (wrote 4 1) =? -1)%Z with false by reflexivity.
  replace (uval (wrote 4 1) =? 1) with true by reflexivity.
  pose proof (part_app (wrote 4 1) (wrote 4 (Z.of_N i)) []) as P1. rewrite !app_nil_r, !wrote_length in P1.
  rewrite P1. now rewrite uval_nat.
Qed.

Lemma wrote1 : forall n, n < 256 -> wrote 1 (Z.of_N n) = [n].
Proof.
  intros n H. unfold wrote. cbn [le_bytes]. f_equal. unfold of_signed.
  change (2 ^ Z.of_N (8 * N.of_nat 1))%Z with 256%Z. rewrite Z.mod_small by lia. rewrite N2Z.id.
  now apply N.mod_small.
Qed.
Lemma flat_wrote1 : forall l, Forall (fun i => i < 256) l -> flat_map (fun i => wrote 1 (Z.of_N i)) l = l.
Proof.
  intros l F. induction F as [|x l H F IH]; cbn [flat_map]; [reflexivity|]. now rewrite wrote1, IH.
Qed.
Lemma core_order_run : forall l, lenN l < 255 -> Forall (fun i => i < 256) l ->
  core_order (wrote 1 (Z.of_nat (length l)) ++ flat_map (fun i => wrote 1 (Z.of_N i)) l) = Some (Chosen l).
Proof.
  intros l L F. rewrite flat_wrote1 by exact F.
  replace (Z.of_nat (length l)) with (Z.of_N (lenN l)) by (unfold lenN; lia).
  rewrite wrote1 by lia. cbn [app core_order].
  assert (S : (sval [lenN l] =? -1)%Z = false).
  { unfold sval, uval. cbn [fold_right length]. change (2 ^ (8 * Z.of_nat 1))%Z with 256%Z. cbv zeta.
    apply Z.eqb_neq. destruct (Z.ltb_spec (2 * Z.of_N (lenN l + 256 * 0)) 256); lia. }
  rewrite S. replace (N.to_nat (lenN l)) with (length l) by (unfold lenN; lia). now rewrite Nat.eqb_refl.
Qed.

(** ** Commands *)
Lemma command_value : forall s t, t < 2 ^ 16 ->
  N.lor (u32 (N.shiftl (N.land s 0xFFFF) 16)) (N.land t 0xFFFF) = (s mod 2 ^ 16) * 2 ^ 16 + t.
Proof.
  intros s t H. change 0xFFFF with (N.ones 16). rewrite !N.land_ones.
  rewrite (N.mod_small t) by exact H. rewrite N.shiftl_mul_pow2. unfold u32, wrap.
  assert (B : s mod 2 ^ 16 < 2 ^ 16) by (apply N.mod_lt; discriminate).
  rewrite N.mod_small by (change (2 ^ 32) with (2 ^ 16 * 2 ^ 16); nia).
  apply N.bits_inj. intros i. rewrite N.lor_spec.
  destruct (N.ltb_spec i 16) as [I|I].
  - rewrite N.mul_pow2_bits_low by exact I. cbn [orb].
    rewrite <- (N.mod_pow2_bits_low (s mod 2 ^ 16 * 2 ^ 16 + t) 16 i I). rewrite N.add_comm, N.mod_add by discriminate.
    rewrite N.mod_pow2_bits_low by exact I. reflexivity.
  - rewrite N.mul_pow2_bits_high by exact I.
    assert (T : N.testbit t i = false).
    { destruct (N.eq_dec t 0) as [->|Z]; [apply N.bits_0|]. apply N.bits_above_log2.
      apply N.log2_lt_pow2 in H; lia. }
    rewrite T, orb_false_r. replace i with (i - 16 + 16) at 2 by lia.
    rewrite <- N.div_pow2_bits. rewrite N.div_add_l by discriminate.
    rewrite (N.div_small t) by exact H. now rewrite N.add_0_r.
Qed.

Lemma core_command_run : forall s t, s < 2 ^ 16 -> t < 2 ^ 16 ->
  core_command (wrote 4 (Z.of_N (s * 2 ^ 16 + t))) = Some (t, s).
Proof.
  intros s t S T. unfold core_command, core_u32. rewrite wrote_length. cbn [Nat.eqb].
  rewrite uval_nat by (change (2 ^ (8 * N.of_nat 4)) with (2 ^ 16 * 2 ^ 16); nia).
  rewrite N.add_comm, N.mod_add by discriminate. rewrite N.mod_small by exact T.
  rewrite N.div_add by discriminate. now rewrite (N.div_small t).
Qed.

Lemma command_run : forall ri a cmd i t out, stands_for a cmd i -> i < 2 ^ 16 ->
  command_code (si_is_battle_cmd ri) cmd = Some t ->
  exists bs, decode_one_answer (RqIdle ri) (AnIdle a) out = Ok bs /\ core_command bs = Some (t, i).
Proof.
  intros ri a cmd i t out S I C. cbn [decode_one_answer]. unfold decode_idle.
  destruct (si_is_battle_cmd ri); destruct S; try discriminate C; inversion C; subst t; clear C;
    try (cbn [assert_ negb Z.eqb ACTION_SHUFFLE ACTION_PHASE obind];
         unfold action_type; cbn [Z.eqb ACTION_ACTIVATE ACTION_SUMMON ACTION_SPSUMMON ACTION_REPOSITION ACTION_MSET ACTION_SSET];
         rewrite command_value by reflexivity; rewrite (N.mod_small i) by exact I;
         rewrite response_run; eexists; split; [reflexivity|]; now apply core_command_run);
    repeat match goal with
    | |- context [has_flag ?a ?b] =>
        let x := eval vm_compute in (has_flag a b) in change (has_flag a b) with x; cbn [obind]
    end; rewrite ?response_run; cbn [obind]; rewrite ?response_run;
    eexists; (split; [reflexivity|]); reflexivity.
Qed.

(** ** Zones *)
Lemma zone_bytes : forall who b p, who < 2 -> In (b, p) (mask_table who) -> plain_zone b ->
  wrote_place p = core_zone who b.
Proof.
  intros who b p W I P. assert (E : who = 0 \/ who = 1) by lia.
  destruct E; subst who; unfold mask_table in I; cbn in I;
    repeat (destruct I as [I|I]; [inversion I; subst b p; clear I|]); try contradiction;
    try (unfold plain_zone in P; vm_compute in P; discriminate P); reflexivity.
Qed.
Lemma odd_zone_bytes : forall who b p, who < 2 -> In (b, p) (mask_table who) -> ~ plain_zone b ->
  wrote_place p <> core_zone who b.
Proof.
  intros who b p W I P. assert (E : who = 0 \/ who = 1) by lia.
  destruct E; subst who; unfold mask_table in I; cbn in I;
    repeat (destruct I as [I|I]; [inversion I; subst b p; clear I|]); try contradiction;
    try (exfalso; apply P; reflexivity); vm_compute; discriminate.
Qed.

(** ** Safety *)
Lemma fits_run : forall rq a out, ~ misfit rq a -> exists bs, decode_one_answer rq a out = Ok bs.
Proof.
  intros rq a out M. destruct a as [|n|c|n|l|n|i|n|n|n|h|c|b|l|s]; cbn [decode_one_answer];
    rewrite ?response_run; eauto.
  - destruct c as [| | |l]; cbn [decode_card]; rewrite ?response_run; eauto.
    cbn [misfit] in M. destruct l as [|i l]; [exfalso; apply M; now left|].
    destruct rq as [| |sc| | | | | | | | | | | |]; try (exfalso; apply M; right; discriminate).
    change (exists bs, decode_one_answer (RqCard sc) (AnCard (AcIndexes (i :: l))) out = Ok bs).
    destruct sc; try (eexists; apply cards_run; [discriminate|exact I]).
    eexists. apply one_card_run.
  - cbn [misfit] in M. unfold decode_idle.
    destruct rq as [| | | | | |ri| | | | | | | |]; try (exfalso; apply M; left; discriminate).
    destruct i; rewrite ?response_run; eauto.
    + destruct (si_is_battle_cmd ri), (has_flag phase DPHASE_MAIN_2), (has_flag phase DPHASE_END),
        (has_flag phase DPHASE_BATTLE); cbn [obind]; rewrite ?response_run; cbn [obind];
        rewrite ?response_run; eauto.
    + destruct (Z.eqb_spec action ACTION_SHUFFLE) as [->|_]; [exfalso; apply M; right; eauto|].
      destruct (Z.eqb_spec action ACTION_PHASE) as [->|_]; [exfalso; apply M; right; eauto|].
      cbn [negb assert_ obind]. eauto using response_run.
  - destruct c; rewrite ?response_run; eauto.
  - eexists. exact (zone_run rq l out).
  - destruct s as [| |l]; [| |eexists; exact (sort_run rq l out)].
    + eexists. exact (sort_run rq [] out).
    + cbn [decode_sort]. rewrite response_run. eauto.
Qed.
Lemma misfit_run : forall rq a out, misfit rq a -> decode_one_answer rq a out = Abort.
Proof.
  intros rq a out M. destruct a as [|n|c|n|l|n|i|n|n|n|h|c|b|l|s]; try contradiction M; cbn [decode_one_answer].
  - destruct c as [| | |l]; try contradiction M. cbn [misfit] in M. cbn [decode_card]. destruct M as [->|M]; [reflexivity|].
    destruct l as [|i l]; [reflexivity|]. replace (negb (lenN (i :: l) =? 0)) with true by reflexivity.
    cbn [assert_ obind]. destruct rq; try reflexivity. now destruct (M c).
  - cbn [misfit] in M. unfold decode_idle. destruct rq as [| | | | | |ri| | | | | | | |]; try reflexivity.
    destruct M as [M|[x [E|E]]]; [now destruct (M ri)|subst i; reflexivity|subst i; reflexivity].
Qed.
