(** Reasoning about readers: exact consumption, locality, termination. *)
From Verif Require Import Base BaseProofs Place Msg QuerySpec Reader CoreMsg.

Local Open Scope N_scope.

(** [m] consumes exactly [s], whatever follows, and returns [x]. *)
Definition reads {A} (m : reader A) (s : list N) (x : A) : Prop :=
  forall rest, m (s ++ rest) = Ok (x, rest).

Lemma reads_ret : forall A (x : A), reads (rret x) [] x.
Proof. intros A x rest. reflexivity. Qed.

Lemma reads_bind : forall A B (m : reader A) (k : A -> reader B) a b x y,
  reads m a x -> reads (k x) b y -> reads (rbind m k) (a ++ b) y.
Proof.
  intros A B m k a b x y H1 H2 rest. unfold rbind. rewrite <- app_assoc, H1. cbn. apply H2.
Qed.

Lemma reads_last : forall A B (m : reader A) (k : A -> reader B) a x y,
  reads m a x -> reads (k x) [] y -> reads (rbind m k) a y.
Proof.
  intros A B m k a x y H1 H2. rewrite <- (app_nil_r a). eapply reads_bind; eauto.
Qed.

Lemma reads_lift : forall A B (o : outcome A) (k : A -> reader B) x s y,
  o = Ok x -> reads (k x) s y -> reads (rbind (rlift o) k) s y.
Proof. intros A B o k x s y -> H rest. unfold rbind, rlift. cbn. apply H. Qed.

Lemma reads_eq : forall A (m : reader A) s s' x x',
  reads m s x -> s = s' -> x = x' -> reads m s' x'.
Proof. intros. subst. assumption. Qed.

(** ** Integers *)
Lemma le_bytes_length : forall w v, length (le_bytes w v) = w.
Proof. induction w; intros v; cbn; [reflexivity | now rewrite IHw]. Qed.

Lemma le_le_bytes : forall w v, v < 256 ^ N.of_nat w -> le (le_bytes w v) = v.
Proof.
  induction w as [|w IH]; intros v H.
  - cbn in H. cbn. lia.
  - cbn [le_bytes le]. rewrite Nat2N.inj_succ, N.pow_succ_r' in H.
    rewrite IH by (apply N.div_lt_upper_bound; lia).
    rewrite N.add_comm. symmetry. apply N.div_mod. lia.
Qed.

Lemma rbytes_app : forall n a rest, lenN a = n -> rbytes n (a ++ rest) = Ok (a, rest).
Proof.
  intros n a rest <-. unfold rbytes, lenN. rewrite app_length.
  replace (N.of_nat (length a) <=? N.of_nat (length a + length rest)) with true by lia.
  rewrite Nat2N.id, firstn_app, skipn_app, Nat.sub_diag, firstn_all, skipn_all. cbn.
  now rewrite app_nil_r.
Qed.

Lemma reads_bytes : forall a n, lenN a = n -> reads (rbytes n) a a.
Proof. intros a n H rest. now apply rbytes_app. Qed.

Lemma reads_skip : forall a n, lenN a = n -> reads (rskip n) a tt.
Proof. intros a n H. unfold rskip. eapply reads_last; [now apply reads_bytes | apply reads_ret]. Qed.

Lemma reads_read : forall w v, v < 256 ^ N.of_nat w ->
  reads (read (N.of_nat w)) (le_bytes w v) v.
Proof.
  intros w v H. unfold read. eapply reads_last.
  - apply reads_bytes. unfold lenN. now rewrite le_bytes_length.
  - rewrite le_le_bytes by assumption. apply reads_ret.
Qed.

Lemma reads_1 : forall v, is_u8 v -> reads (read 1) (b1 v) v.
Proof. intros v H. apply (reads_read 1 v). exact H. Qed.
Lemma reads_2 : forall v, is_u16 v -> reads (read 2) (b2 v) v.
Proof. intros v H. apply (reads_read 2 v). exact H. Qed.
Lemma reads_4 : forall v, is_u32 v -> reads (read 4) (b4 v) v.
Proof. intros v H. apply (reads_read 4 v). exact H. Qed.
Lemma reads_8 : forall v, is_u64 v -> reads (read 8) (b8 v) v.
Proof. intros v H. apply (reads_read 8 v). exact H. Qed.

Lemma lenN_le : forall w v, lenN (le_bytes w v) = N.of_nat w.
Proof. intros. unfold lenN. now rewrite le_bytes_length. Qed.
Lemma lenN_app : forall A (a b : list A), lenN (a ++ b) = lenN a + lenN b.
Proof. intros. unfold lenN. rewrite app_length. lia. Qed.
Lemma lenN_flat_map : forall A (f : A -> list N) k l,
  (forall x, lenN (f x) = k) -> lenN (flat_map f l) = k * lenN l.
Proof.
  intros A f k l H. induction l as [|x l IH]; cbn.
  - unfold lenN. cbn. lia.
  - rewrite lenN_app, H, IH. unfold lenN. cbn [length]. lia.
Qed.

Lemma reads_con : forall v, is_u8 v -> reads read_con (b1 v) (Z.of_N v).
Proof. intros v H. unfold read_con. eapply reads_last; [now apply reads_1 | apply reads_ret]. Qed.

Lemma reads_bool : forall b, reads read_bool (bb b) b.
Proof.
  intros b. unfold read_bool, bb. eapply reads_last.
  - apply reads_1. destruct b; reflexivity.
  - destruct b; apply reads_ret.
Qed.

Lemma to_signed_mod : forall z, is_i32 z -> to_signed 32 (Z.to_N (z mod 2 ^ 32)) = z.
Proof.
  intros z [H1 H2]. change (2 ^ 31)%Z with 2147483648%Z in *.
  change (2 ^ 32)%Z with 4294967296%Z.
  unfold to_signed, wrap. change (2 ^ (32 - 1)) with 2147483648. change (2 ^ 32) with 4294967296.
  change (2 ^ Z.of_N 32)%Z with 4294967296%Z.
  assert (B : (0 <= z mod 4294967296 < 4294967296)%Z) by (apply Z.mod_pos_bound; lia).
  rewrite N.mod_small by lia. rewrite Z2N.id by lia.
  pose proof (Z.div_mod z 4294967296 ltac:(lia)) as D.
  assert (z / 4294967296 = 0 \/ z / 4294967296 = -1)%Z as [Q|Q].
  { assert (-1 <= z / 4294967296)%Z by (apply Z.div_le_lower_bound; lia).
    assert (z / 4294967296 < 1)%Z by (apply Z.div_lt_upper_bound; lia). lia. }
  - rewrite Q in D. destruct (N.ltb_spec (Z.to_N (z mod 4294967296)) 2147483648); lia.
  - rewrite Q in D. destruct (N.ltb_spec (Z.to_N (z mod 4294967296)) 2147483648); lia.
Qed.

Lemma to_signed_small : forall v, v < 2 ^ 31 -> to_signed 32 v = Z.of_N v.
Proof.
  intros v H. change (2 ^ 31) with 2147483648 in H.
  unfold to_signed, wrap. change (2 ^ (32 - 1)) with 2147483648. change (2 ^ 32) with 4294967296.
  rewrite N.mod_small by lia. destruct (N.ltb_spec v 2147483648); [reflexivity | lia].
Qed.

Lemma reads_i32 : forall z, is_i32 z -> reads read_i32 (bi4 z) z.
Proof.
  intros z H. unfold read_i32, bi4. eapply reads_last.
  - apply reads_4. unfold is_u32. change (2 ^ 32)%Z with 4294967296%Z. change (2 ^ 32) with 4294967296.
    pose proof (Z.mod_pos_bound z 4294967296 ltac:(lia)). lia.
  - rewrite to_signed_mod by assumption. apply reads_ret.
Qed.

Lemma reads_counter : forall c, counter_ok c -> reads read_counter (ser_counter c) c.
Proof.
  intros [t n] [H1 H2]. unfold is_u16 in *. cbn [ct_type ct_count] in *.
  unfold read_counter, ser_counter. cbn [ct_type ct_count]. eapply reads_last.
  - apply reads_4. unfold is_u32. change (2 ^ 16) with 65536 in *. change (2 ^ 32) with 4294967296. lia.
  - replace (N.land (t + n * 2 ^ 16) 0xFFFF) with t.
    2: { change 0xFFFF with (N.ones 16). rewrite N.land_ones, N.mod_add by (cbn; lia).
         now rewrite N.mod_small. }
    replace (N.shiftr (t + n * 2 ^ 16) 16) with n.
    2: { rewrite N.shiftr_div_pow2, N.div_add by (cbn; lia). rewrite N.div_small by assumption. lia. }
    apply reads_ret.
Qed.

Lemma reads_effect : forall e, effect_ok e -> reads read_effect (ser_effect e) e.
Proof.
  intros [c i] [H1 H2]. unfold is_u32 in *. cbn [e_code e_index] in *.
  unfold read_effect, ser_effect. cbn [e_code e_index]. eapply reads_last.
  - apply reads_8. unfold is_u64. change (2 ^ 20) with 1048576 in *.
    change (2 ^ 32) with 4294967296 in *. change (2 ^ 64) with 18446744073709551616. lia.
  - replace (N.land (c * 2 ^ 20 + i) 0xFFFFF) with i.
    2: { change 0xFFFFF with (N.ones 20). rewrite N.land_ones, N.add_comm, N.mod_add by (cbn; lia).
         now rewrite N.mod_small. }
    replace (N.shiftr (c * 2 ^ 20 + i) 20) with c.
    2: { rewrite N.shiftr_div_pow2, N.add_comm, N.div_add by (cbn; lia).
         rewrite N.div_small by assumption. lia. }
    unfold u32, wrap. rewrite N.mod_small by assumption. apply reads_ret.
Qed.

(** ** Sequences *)
Lemma reads_times : forall A B (m : reader A) (f : B -> list N) (g : B -> A) l,
  Forall (fun x => reads m (f x) (g x)) l ->
  reads (rtimes (length l) m) (flat_map f l) (map g l).
Proof.
  intros A B m f g l H. induction H as [|x l H1 _ IH]; cbn.
  - apply reads_ret.
  - eapply reads_bind; [exact H1|]. eapply reads_last; [exact IH | apply reads_ret].
Qed.

Lemma reads_count : forall A B (m : reader A) (f : B -> list N) (g : B -> A) l n,
  n = lenN l -> Forall (fun x => reads m (f x) (g x)) l ->
  reads (rcount n m) (flat_map f l) (map g l).
Proof. intros A B m f g l n -> H. unfold rcount, lenN. rewrite Nat2N.id. now apply reads_times. Qed.

Lemma reads_list4 : forall A B (m : reader A) (f : B -> list N) (g : B -> A) l,
  short4 l -> Forall (fun x => reads m (f x) (g x)) l ->
  reads (rlist 4 m) (seq4 f l) (map g l).
Proof.
  intros A B m f g l S H. unfold rlist, seq4. eapply reads_bind; [now apply reads_4|].
  now apply reads_count.
Qed.
Lemma reads_list1 : forall A B (m : reader A) (f : B -> list N) (g : B -> A) l,
  short1 l -> Forall (fun x => reads m (f x) (g x)) l ->
  reads (rlist 1 m) (seq1 f l) (map g l).
Proof.
  intros A B m f g l S H. unfold rlist, seq1. eapply reads_bind; [now apply reads_1|].
  now apply reads_count.
Qed.

(** ** Locations *)
Definition locs : list N := [0; 0x1; 0x2; 0x4; 0x8; 0x10; 0x20; 0x40].

Lemma core_spot_other : forall loc seq, loc <> 8 \/ (seq < 5) -> core_spot loc seq = (loc, seq).
Proof.
  intros loc seq H. unfold core_spot.
  destruct (N.eq_dec loc 8) as [->|E].
  - destruct H as [H|H]; [lia|].
    assert (seq = 0 \/ seq = 1 \/ seq = 2 \/ seq = 3 \/ seq = 4) as D by lia.
    destruct D as [->|[->|[->|[->| ->]]]]; reflexivity.
  - destruct loc as [|[p|p|]]; try reflexivity.
    destruct p as [p|p|]; try reflexivity. destruct p as [p|p|]; try reflexivity.
    destruct p as [p|p|]; try reflexivity. now contradiction E.
Qed.

Lemma fix_spell_spec : forall loc seq, In loc locs -> (loc = 8 -> seq < 8) ->
  fix_spell_loc_seq loc seq = core_spot loc seq.
Proof.
  intros loc seq H S. unfold fix_spell_loc_seq.
  cbn in H. decompose [or] H; try contradiction; subst loc;
    try (rewrite core_spot_other by (left; discriminate); reflexivity).
  specialize (S eq_refl). change (negb (N.land 8 LOCATION_SPELL_ZONE =? 0)) with true. cbn [andb].
  destruct (N.ltb_spec 4 seq) as [L|L].
  - assert (seq = 5 \/ seq = 6 \/ seq = 7) as D by lia. destruct D as [->|[->| ->]]; reflexivity.
  - rewrite core_spot_other by (right; lia). reflexivity.
Qed.

Lemma overlay_bits : forall c, cloc_ok c ->
  N.ldiff (cl_loc c) LOCATION_OVERLAY = core_base c /\
  negb (N.land (cl_loc c) LOCATION_OVERLAY =? 0) = (0x80 <=? cl_loc c).
Proof.
  intros c K. destruct K as [_ B U _ _ _ _]. unfold core_base in *. unfold is_u8 in U.
  destruct (N.leb_spec 0x80 (cl_loc c)) as [L|L].
  - cbn in B. decompose [or] B; try contradiction;
      match goal with H : ?k = cl_loc c - 128 |- _ =>
        replace (cl_loc c) with (k + 128) by lia; split; reflexivity end.
  - cbn in B. decompose [or] B; try contradiction;
      match goal with H : _ = cl_loc c |- _ => rewrite <- H in *; split; reflexivity end.
Qed.

Lemma reads_loc : forall c, cloc_ok c -> reads read_loc_info (ser_loc c) (core_place c).
Proof.
  intros c K. destruct (overlay_bits _ K) as [E1 E2]. destruct K as [K1 K2 K3 K4 K5 K6 K7].
  unfold read_loc_info, read_loc_info_, ser_loc.
  eapply reads_bind; [now apply reads_con|].
  eapply reads_bind; [now apply reads_1|]. cbv zeta.
  eapply reads_bind; [now apply reads_4|].
  rewrite E1, fix_spell_spec by assumption. unfold core_place.
  destruct (core_spot (core_base c) (cl_seq c)) as [fl fs].
  eapply reads_last; [now apply reads_4|]. rewrite E2.
  destruct (N.leb_spec 0x80 (cl_loc c)); [rewrite to_signed_small by auto|]; apply reads_ret.
Qed.

Lemma reads_loc4 : forall c, cloc_ok c -> reads read_place4 (ser_loc4 c) (core_card_place c).
Proof.
  intros c K. destruct (overlay_bits _ K) as [E1 E2]. destruct K as [K1 K2 K3 K4 K5 K6 K7].
  unfold read_place4, read_loc_info_, ser_loc4.
  eapply reads_bind; [now apply reads_con|].
  eapply reads_bind; [now apply reads_1|]. cbv zeta.
  eapply reads_last; [now apply reads_4|].
  rewrite E1, fix_spell_spec by assumption. unfold core_card_place.
  destruct (core_spot (core_base c) (cl_seq c)) as [fl fs]. apply reads_ret.
Qed.

Lemma reads_loc1 : forall c, cloc1_ok c -> reads read_place1 (ser_loc1 c) (core_card_place c).
Proof.
  intros c [K K']. destruct (overlay_bits _ K) as [E1 E2]. destruct K as [K1 K2 K3 K4 K5 K6 K7].
  unfold read_place1, read_loc_info_, ser_loc1.
  eapply reads_bind; [now apply reads_con|].
  eapply reads_bind; [now apply reads_1|]. cbv zeta.
  eapply reads_last; [now apply reads_1|].
  rewrite E1, fix_spell_spec by assumption. unfold core_card_place.
  destruct (core_spot (core_base c) (cl_seq c)) as [fl fs]. apply reads_ret.
Qed.

Lemma u8_u32 : forall v, is_u8 v -> is_u32 v.
Proof. unfold is_u8, is_u32. intros. eapply N.lt_trans; [eassumption|]. reflexivity. Qed.

Lemma reads_loc44 : forall c, cloc_ok c ->
  reads (read_loc_info_ 4 4 None) (ser_loc44 c) (core_card_place c).
Proof.
  intros c K. destruct (overlay_bits _ K) as [E1 E2]. destruct K as [K1 K2 K3 K4 K5 K6 K7].
  unfold read_loc_info_, ser_loc44.
  eapply reads_bind; [now apply reads_con|].
  eapply reads_bind; [apply reads_4; now apply u8_u32|]. cbv zeta.
  eapply reads_last; [now apply reads_4|].
  rewrite E1, fix_spell_spec by assumption. unfold core_card_place.
  destruct (core_spot (core_base c) (cl_seq c)) as [fl fs]. apply reads_ret.
Qed.

Lemma lenN_loc : forall c, lenN (ser_loc c) = 10.
Proof. reflexivity. Qed.

(** ** Locality and termination *)

(** The result of [m] depends only on the bytes it consumes. *)
Definition local {A} (m : reader A) : Prop :=
  forall bs x rest, m bs = Ok (x, rest) -> exists s, bs = s ++ rest /\ reads m s x.

Lemma local_ret : forall A (x : A), local (rret x).
Proof. intros A x bs y rest H. inversion H; subst. exists []. split; [reflexivity | apply reads_ret]. Qed.

Lemma local_bind : forall A B (m : reader A) (k : A -> reader B),
  local m -> (forall x, local (k x)) -> local (rbind m k).
Proof.
  intros A B m k H1 H2 bs y rest H. unfold rbind in H. apply obind_Ok in H.
  destruct H as [[x r] [E H]]. destruct (H1 _ _ _ E) as [s [-> R]].
  destruct (H2 _ _ _ _ H) as [s' [-> R']]. exists (s ++ s').
  split; [apply app_assoc | eapply reads_bind; eauto].
Qed.

Lemma local_lift : forall A (o : outcome A), local (rlift o).
Proof.
  intros A o bs x rest H. unfold rlift in H. apply obind_Ok in H. destruct H as [a [E H]].
  inversion H; subst. exists []. split; [reflexivity|]. intros r. reflexivity.
Qed.

Lemma local_bytes : forall n, local (rbytes n).
Proof.
  intros n bs x rest H. unfold rbytes in H.
  destruct (N.leb_spec n (lenN bs)) as [L|L]; [|discriminate]. inversion H; subst.
  exists (firstn (N.to_nat n) bs). split; [symmetry; apply firstn_skipn|].
  apply reads_bytes. unfold lenN in *. rewrite firstn_length. lia.
Qed.

Lemma local_times : forall A (m : reader A) n, local m -> local (rtimes n m).
Proof.
  intros A m n H. induction n; cbn.
  - apply local_ret.
  - apply local_bind; [assumption|]. intros x. apply local_bind; [assumption|].
    intros l. apply local_ret.
Qed.

(** [m] consumes at least [n] bytes. *)
Definition consumes {A} (n : nat) (m : reader A) : Prop :=
  forall bs x rest, m bs = Ok (x, rest) -> (length rest + n <= length bs)%nat.

Lemma local_consumes : forall A (m : reader A), local m -> consumes 0 m.
Proof.
  intros A m H bs x rest E. destruct (H _ _ _ E) as [s [-> _]]. rewrite app_length. lia.
Qed.
Lemma consumes_bytes : forall n, consumes (N.to_nat n) (rbytes n).
Proof.
  intros n bs x rest H. unfold rbytes in H.
  destruct (N.leb_spec n (lenN bs)) as [L|L]; [|discriminate]. inversion H; subst.
  rewrite skipn_length. unfold lenN in L. lia.
Qed.
Lemma consumes_bind : forall A B (m : reader A) (k : A -> reader B) a b,
  consumes a m -> (forall x, consumes b (k x)) -> consumes (a + b) (rbind m k).
Proof.
  intros A B m k a b H1 H2 bs y rest H. unfold rbind in H. apply obind_Ok in H.
  destruct H as [[x r] [E H]]. apply H1 in E. apply H2 in H. lia.
Qed.
Lemma consumes_ret : forall A (x : A), consumes 0 (rret x).
Proof. intros A x bs y rest H. inversion H; subst. lia. Qed.
Lemma consumes_weaken : forall A (m : reader A) a b, consumes a m -> (b <= a)%nat -> consumes b m.
Proof. intros A m a b H L bs x rest E. apply H in E. lia. Qed.
Lemma consumes_read : forall n, consumes (N.to_nat n) (read n).
Proof.
  intros n. unfold read. eapply consumes_weaken.
  - apply consumes_bind; [apply consumes_bytes | intros; apply consumes_ret].
  - lia.
Qed.

(** [m] terminates. *)
Definition halts {A} (m : reader A) : Prop := forall bs, m bs <> Diverge.

Lemma halts_ret : forall A (x : A), halts (rret x).
Proof. intros A x bs. discriminate. Qed.
Lemma halts_bind : forall A B (m : reader A) (k : A -> reader B),
  halts m -> (forall x, halts (k x)) -> halts (rbind m k).
Proof.
  intros A B m k H1 H2 bs. unfold rbind. specialize (H1 bs).
  destruct (m bs) as [[x r]| | |]; cbn; try discriminate; auto. apply H2.
Qed.
Lemma halts_lift : forall A (o : outcome A), o <> Diverge -> halts (rlift o).
Proof. intros A o H bs. unfold rlift. destruct o; cbn; congruence. Qed.
Lemma halts_bytes : forall n, halts (rbytes n).
Proof. intros n bs. unfold rbytes. destruct (n <=? lenN bs); discriminate. Qed.
Lemma halts_times : forall A (m : reader A) n, halts m -> halts (rtimes n m).
Proof.
  intros A m n H. induction n; cbn; [apply halts_ret|].
  apply halts_bind; [assumption|]. intros x. apply halts_bind; [assumption|].
  intros l. apply halts_ret.
Qed.

(** ** Zones *)
Lemma u16_testbit : forall z i, i < 16 -> N.testbit (u16 z) i = N.testbit z i.
Proof. intros z i H. unfold u16, wrap. now rewrite N.mod_pow2_bits_low. Qed.

Lemma flat_map_filter : forall A B (p : A -> bool) (f : A -> B) l,
  flat_map (fun x => if p x then [] else [f x]) l = map f (filter (fun x => negb (p x)) l).
Proof.
  intros A B p f l. induction l as [|x l IH]; cbn; [reflexivity|].
  destruct (p x); cbn; now rewrite IH.
Qed.

Definition half_place (con : Z) (x : N * N * N) : place :=
  let '(_, l, s) := x in mkPlace con l s (-1).
Lemma half_spec : forall who half,
  half_places who half =
  map (half_place (Z.of_N who))
      (filter (fun x : N * N * N => negb (N.testbit half (fst (fst x)))) half_table).
Proof.
  intros who half. rewrite <- flat_map_filter.
  unfold half_places, half_table, half_place. cbn [flat_map fst snd].
  change (8 + 0) with 8. change (8 + 1) with 9. change (8 + 2) with 10. change (8 + 3) with 11.
  change (8 + 4) with 12. change (14 + 0) with 14. change (14 + 1) with 15.
  rewrite ?app_nil_r. rewrite <- ?app_assoc. reflexivity.
Qed.

Lemma map_filter_ext : forall A B (f g : A -> B) (p q : A -> bool) l,
  (forall x, In x l -> p x = q x) -> (forall x, f x = g x) ->
  map f (filter p l) = map g (filter q l).
Proof.
  intros A B f g p q l H E. induction l as [|x l IH]; cbn; [reflexivity|].
  rewrite <- (H x) by now left. specialize (IH (fun y Hy => H y (or_intror Hy))).
  destruct (p x); cbn; now rewrite IH, ?E.
Qed.

Lemma filter_map : forall A B (f : A -> B) (p : B -> bool) l,
  filter p (map f l) = map f (filter (fun x => p (f x)) l).
Proof.
  intros A B f p l. induction l as [|x l IH]; cbn; [reflexivity|].
  destruct (p (f x)); cbn; now rewrite IH.
Qed.

Lemma unpack_spec : forall mask who, who < 2 -> unpack_zones mask who = clear_zones mask who.
Proof.
  intros mask who W. unfold unpack_zones, clear_zones, mask_table.
  rewrite filter_app, map_app, !filter_map, !map_map, !half_spec.
  replace (Z.of_N (of_signed 8 (1 - Z.of_N who))) with (1 - Z.of_N who)%Z.
  2: { assert (who = 0 \/ who = 1) as [->| ->] by lia; reflexivity. }
  f_equal.
  - apply map_filter_ext.
    + intros [[b l] s] H. cbn [fst snd]. rewrite u16_testbit; [reflexivity|].
      unfold half_table in H. cbn in H. decompose [or] H; try contradiction;
        match goal with E : (_, _, _) = _ |- _ => inversion E; subst; reflexivity end.
    + intros [[b l] s]. reflexivity.
  - apply map_filter_ext.
    + intros [[b l] s] H. cbn [fst snd]. rewrite u16_testbit.
      * rewrite N.shiftr_spec', N.add_comm. reflexivity.
      * unfold half_table in H. cbn in H. decompose [or] H; try contradiction;
          match goal with E : (_, _, _) = _ |- _ => inversion E; subst; reflexivity end.
    + intros [[b l] s]. reflexivity.
Qed.
