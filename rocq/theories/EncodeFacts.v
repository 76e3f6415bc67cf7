(** Facts about encode_one: what it recognises, what it looks at. *)
From Verif Require Import Base BaseProofs Place PlaceProofs Frame FrameSpec FrameProofs Msg Event Query QuerySpec.
From Verif Require Import Reader EncodeQuery Encode CoreMsg ReaderProofs EncodeProofs EncodeQueryProofs
  EncodeSpec EncodeLocal EncodeFrame.

Local Open Scope N_scope.

(** ** Which messages are handled *)
Lemma kind_of_In : forall b k, kind_of b = Some k -> In (b, k) kind_table.
Proof.
  intros b k. unfold kind_of. induction kind_table as [|[v x] l IH]; [discriminate|].
  cbn [lookup_kind]. destruct (N.eqb_spec b v) as [->|]; intros H.
  - left. congruence.
  - right. auto.
Qed.

Definition finished (b : N) : bool :=
  match kind_of b with Some k => negb (unfinished k) | None => false end.

Ltac fin B := cbn [negb];
  split; [split; intros; congruence|]; split; [split; intros; congruence | exact B].
Lemma encode_known : forall c b tl r c', encode_one c (b :: tl) = Ok (r, c') ->
  (r_state r = StUnknown <-> finished b = false) /\ (r_msg r <> None <-> r_state r = StOk) /\
  1 <= r_bytes_read r <= lenN (b :: tl).
Proof.
  intros c b tl r c' H. apply encode_ok in H. destruct H as [b' [tl' [v [rest [E [-> [L D]]]]]]].
  inversion E; subst b' tl'. clear E. cbn [r_state r_msg r_bytes_read]. unfold finished.
  assert (B : 1 <= lenN (b :: tl) - lenN rest <= lenN (b :: tl)).
  { unfold lenN. cbn [length]. lia. }
  destruct (kind_of b) as [k|].
  - pose proof (yields_dispatch k c _ _ _ D) as Y. unfold settled in Y. cbn [fst] in Y.
    destruct (v_state v).
    + destruct Y as [Y ->]. rewrite Y. fin B.
    + destruct Y as [Y [m [-> _]]]. rewrite Y. fin B.
    + destruct Y as [Y ->]. rewrite Y. fin B.
  - destruct D as [-> [-> ->]]. cbn [v_none v_state v_msg]. fin B.
Qed.

Lemma encode_unknown : forall c b tl, finished b = false ->
  encode_one c (b :: tl) = Ok (mkResult StUnknown 1 None, c).
Proof.
  intros c b tl F. unfold encode_one. rewrite read1_cons. cbn [obind]. unfold finished in F.
  assert (G : lenN (b :: tl) - lenN tl = 1) by (unfold lenN; cbn [length]; lia).
  destruct (kind_of b) as [k|]; [|cbn [obind]; now rewrite G].
  destruct k; try discriminate F; unfold dispatch, rret; cbn [event_case request_case obind]; now rewrite G.
Qed.

(** ** What the result depends on *)
Lemma pile_size_grave : forall c con gy, pile_size c con LOCATION_GRAVEYARD = Ok gy ->
  exists who, side_of_con con = Some who /\ gy = lenN (contents (CPile (who, LGrave)) (ctx_layout c)).
Proof.
  intros c con gy H. unfold pile_size in H. apply obind_Ok in H. destruct H as [r [R H]].
  inversion H; subst gy. clear H. unfold pile_ref in R.
  destruct (con <=? 1)%Z; [|discriminate]. cbn [assert_ obind] in R.
  destruct (loc_is_pile LOCATION_GRAVEYARD); [|discriminate]. cbn [assert_ obind] in R.
  unfold con_index in R. destruct (Z.eqb_spec con 0) as [->|]; [|destruct (Z.eqb_spec con 1) as [->|]];
    cbn [obind] in R; [| |discriminate]; inversion R; subst; eexists; split; reflexivity.
Qed.

Lemma encode_local : forall c bs r c', encode_one c bs = Ok (r, c') ->
  (forall con p0 p1 p2 p3 n0 n1 n2 n3 tl who,
     bs = 35 :: con :: p0 :: p1 :: p2 :: p3 :: n0 :: n1 :: n2 :: n3 :: tl ->
     side_of_con (Z.of_N con) = Some who ->
     lenN (contents (CPile (who, LGrave)) (ctx_layout c)) <=
     8 * (n0 + 256 * (n1 + 256 * (n2 + 256 * n3)))) ->
  forall rest', encode_one c (firstn (N.to_nat (r_bytes_read r)) bs ++ rest') = Ok (r, c').
Proof.
  intros c bs r c' H G rest'. pose proof H as H0. apply encode_ok in H.
  destruct H as [b [tl [v [rest [-> [-> [L D]]]]]]]. cbn [r_bytes_read].
  destruct (kind_of b) as [k|] eqn:K.
  - assert (X : exists s, tl = s ++ rest /\ reads (dispatch k c) s (v, c')).
    { destruct k; try (eapply local_dispatch; [discriminate | exact D]).
      assert (B : b = 35).
      { apply kind_of_In in K. unfold kind_table in K. cbn [In] in K.
        repeat destruct K as [K|K]; try discriminate K; [now inversion K|contradiction]. }
      subst b. unfold dispatch in *. cbn [event_case request_case] in *.
      eapply local_swap; [exact D|]. intros con p0 p1 p2 p3 n0 n1 n2 n3 t -> gy P.
      destruct (pile_size_grave _ _ _ P) as [who [S ->]]. eapply G; eauto. }
    destruct X as [s [-> R]].
    assert (Q : N.to_nat (lenN (b :: s ++ rest) - lenN rest) = length (b :: s)).
    { unfold lenN. cbn [length]. rewrite app_length. lia. }
    rewrite Q. change (b :: s ++ rest) with ((b :: s) ++ rest).
    rewrite firstn_app, firstn_all, Nat.sub_diag. cbn [firstn]. rewrite app_nil_r.
    unfold encode_one. cbn [app]. rewrite read1_cons. cbn [obind]. rewrite K, R. cbn [obind].
    assert (T : forall t, lenN (b :: s ++ t) - lenN t = lenN (b :: s)).
    { intros t. unfold lenN. cbn [length]. rewrite app_length. lia. }
    now rewrite !T.
  - destruct D as [-> [-> ->]].
    assert (Q : lenN (b :: tl) - lenN tl = 1) by (unfold lenN; cbn [length]; lia).
    rewrite Q. cbn [N.to_nat Pos.to_nat Pos.iter_op firstn app].
    change (Pos.to_nat 1) with 1%nat. cbn [firstn app].
    rewrite encode_unknown; [reflexivity|]. unfold finished. now rewrite K.
Qed.

(** ** Zone masks *)
Lemma mask_valid : forall who b p, who < 2 -> In (b, p) (mask_table who) -> slot p <> None.
Proof.
  intros who b p W H. assert (E : who = 0 \/ who = 1) by lia.
  destruct E; subst who; vm_compute in H;
    repeat destruct H as [H|H]; try contradiction; inversion H; subst; discriminate.
Qed.
Lemma mask_nodup : forall who, who < 2 -> NoDup (map snd (mask_table who)) /\ NoDup (map fst (mask_table who)).
Proof.
  intros who W. assert (E : who = 0 \/ who = 1) by lia.
  destruct E; subst who; vm_compute; split;
    repeat (apply NoDup_cons; [cbn; intuition discriminate|]); apply NoDup_nil.
Qed.
Lemma nodup_snd : forall A B (l : list (A * B)) a a' b, NoDup (map snd l) ->
  In (a, b) l -> In (a', b) l -> a = a'.
Proof.
  intros A B l a a' b. induction l as [|[x y] l IH]; [contradiction|].
  cbn [map snd]. intros N H1 H2. inversion N as [|? ? N1 N2]; subst.
  assert (X : forall z, In (z, b) l -> In b (map snd l)) by (intros z Z; apply (in_map snd) in Z; exact Z).
  destruct H1 as [H1|H1]; destruct H2 as [H2|H2].
  - congruence.
  - inversion H1; subst. exfalso. eauto.
  - inversion H2; subst. exfalso. eauto.
  - auto.
Qed.
Lemma clear_zones_iff : forall mask who b p, who < 2 -> In (b, p) (mask_table who) ->
  (In p (clear_zones mask who) <-> N.testbit mask b = false).
Proof.
  intros mask who b p W H. unfold clear_zones. rewrite in_map_iff. split.
  - intros [[b' p'] [E F]]. cbn [snd] in E. subst p'. apply filter_In in F. destruct F as [F T].
    assert (b' = b) by (eapply nodup_snd; [apply mask_nodup, W | exact F | exact H]).
    subst. cbn [fst] in T. now apply negb_true_iff in T.
  - intros T. exists (b, p). split; [reflexivity|]. apply filter_In. split; [exact H|].
    cbn [fst]. now rewrite T.
Qed.
Lemma clear_zones_only : forall mask who p, In p (clear_zones mask who) ->
  exists b, In (b, p) (mask_table who).
Proof.
  intros mask who p H. apply in_map_iff in H. destruct H as [[b q] [E F]]. cbn [snd] in E. subst q.
  apply filter_In in F. exists b. apply F.
Qed.
Lemma nodup_filter_map : forall A B (f : A -> B) g l, NoDup (map f l) -> NoDup (map f (filter g l)).
Proof.
  intros A B f g l. induction l as [|x l IH]; [auto|]. cbn [map filter]. intros N.
  inversion N as [|? ? N1 N2]; subst. destruct (g x); [|auto]. cbn [map]. constructor; [|auto].
  intros I. apply N1. apply in_map_iff in I. destruct I as [y [E F]]. apply filter_In in F.
  rewrite <- E. apply in_map, F.
Qed.
Lemma clear_zones_nodup : forall mask who, who < 2 -> NoDup (clear_zones mask who).
Proof. intros mask who W. apply nodup_filter_map, mask_nodup, W. Qed.

(** ** Places *)
Lemma reads_place4_any : forall con loc seq, is_u8 con -> is_u8 loc -> is_u32 seq ->
  reads read_place4 (b1 con ++ b1 loc ++ b4 seq)
    (let '(l, s) := fix_spell_loc_seq (N.ldiff loc 0x80) seq in mkPlace (Z.of_N con) l s (-1)).
Proof.
  intros con loc seq H1 H2 H3. unfold read_place4, read_loc_info_.
  eapply reads_bind; [now apply reads_con|]. eapply reads_bind; [now apply (reads_read 1)|].
  eapply reads_last; [now apply (reads_read 4)|]. unfold LOCATION_OVERLAY.
  destruct (fix_spell_loc_seq (N.ldiff loc 128) seq) as [l s]. apply reads_ret.
Qed.
Lemma reads_loc_any : forall con loc seq pos, is_u8 con -> is_u8 loc -> is_u32 seq -> is_u32 pos ->
  reads read_loc_info (b1 con ++ b1 loc ++ b4 seq ++ b4 pos)
    (let '(l, s) := fix_spell_loc_seq (N.ldiff loc 0x80) seq in
     mkPlace (Z.of_N con) l s (if N.testbit loc 7 then to_signed 32 pos else (-1)%Z)).
Proof.
  intros con loc seq pos H1 H2 H3 H4. unfold read_loc_info, read_loc_info_.
  eapply reads_bind; [now apply reads_con|]. eapply reads_bind; [now apply (reads_read 1)|].
  eapply reads_bind; [now apply (reads_read 4)|]. unfold LOCATION_OVERLAY.
  destruct (fix_spell_loc_seq (N.ldiff loc 128) seq) as [l s].
  eapply reads_last; [now apply (reads_read 4)|].
  replace (negb (N.land loc 128 =? 0)) with (N.testbit loc 7); [apply reads_ret|].
  change 128 with (2 ^ 7). destruct (N.testbit loc 7) eqn:T.
  - destruct (N.eqb_spec (N.land loc (2 ^ 7)) 0) as [E|]; [|reflexivity].
    exfalso. apply (f_equal (fun x => N.testbit x 7)) in E.
    rewrite N.land_spec, T, N.pow2_bits_true, N.bits_0 in E. discriminate.
  - replace (N.land loc (2 ^ 7)) with 0; [reflexivity|]. symmetry. apply N.bits_inj_0. intros n.
    rewrite N.land_spec, N.pow2_bits_eqb. destruct (N.eqb_spec 7 n) as [<-|]; [now rewrite T|].
    apply andb_false_r.
Qed.

Lemma fix_spell_other : forall loc seq, N.testbit loc 3 = false -> fix_spell_loc_seq loc seq = (loc, seq).
Proof.
  intros loc seq T. unfold fix_spell_loc_seq, LOCATION_SPELL_ZONE.
  replace (N.land loc 8) with 0; [reflexivity|]. symmetry. apply N.bits_inj_0. intros n.
  change 8 with (2 ^ 3). rewrite N.land_spec, N.pow2_bits_eqb.
  destruct (N.eqb_spec 3 n) as [<-|]; [now rewrite T | apply andb_false_r].
Qed.
Lemma core_spot_inj : forall loc seq loc' seq',
  In loc [0; 0x1; 0x2; 0x4; 0x8; 0x10; 0x20; 0x40] -> (loc = 0x8 -> seq < 8) ->
  In loc' [0; 0x1; 0x2; 0x4; 0x8; 0x10; 0x20; 0x40] -> (loc' = 0x8 -> seq' < 8) ->
  core_spot loc seq = core_spot loc' seq' -> loc = loc' /\ seq = seq'.
Proof.
  assert (G : forall loc seq, In loc [0; 0x1; 0x2; 0x4; 0x8; 0x10; 0x20; 0x40] ->
    (loc = 0x8 -> seq < 8) -> (loc <> 8 /\ core_spot loc seq = (loc, seq)) \/
    (loc = 8 /\ (seq < 5 /\ core_spot loc seq = (8, seq) \/ seq = 5 /\ core_spot loc seq = (0x100, 0) \/
       seq = 6 /\ core_spot loc seq = (0x200, 0) \/ seq = 7 /\ core_spot loc seq = (0x200, 1)))).
  { intros loc seq I H. cbn [In] in I.
    repeat destruct I as [<-|I]; try contradiction; try (left; split; [discriminate | reflexivity]).
    right. split; [reflexivity|]. specialize (H eq_refl).
    assert (E : seq = 0 \/ seq = 1 \/ seq = 2 \/ seq = 3 \/ seq = 4 \/ seq = 5 \/ seq = 6 \/ seq = 7) by lia.
    repeat destruct E as [->|E]; try (left; split; reflexivity); try subst; auto. }
  intros loc seq loc' seq' I1 H1 I2 H2 E.
  destruct (G _ _ I1 H1) as [[N1 E1]|[N1 E1]]; destruct (G _ _ I2 H2) as [[N2 E2]|[N2 E2]].
  - rewrite E1, E2 in E. now inversion E.
  - exfalso. rewrite E1 in E. cbn [In] in I1.
    destruct E2 as [[_ E2]|[[_ E2]|[[_ E2]|[_ E2]]]]; rewrite E2 in E; inversion E; subst;
      intuition discriminate.
  - exfalso. rewrite E2 in E. cbn [In] in I2.
    destruct E1 as [[_ E1]|[[_ E1]|[[_ E1]|[_ E1]]]]; rewrite E1 in E; inversion E; subst;
      intuition discriminate.
  - split; [congruence|]. subst.
    destruct E1 as [[L1 E1]|[[L1 E1]|[[L1 E1]|[L1 E1]]]]; destruct E2 as [[L2 E2]|[[L2 E2]|[[L2 E2]|[L2 E2]]]];
      rewrite E1, E2 in E; inversion E; subst; congruence.
Qed.

(** ** Descriptors *)
Lemma effect_word : forall d, d < 2 ^ 64 ->
  reads read_effect (b8 d) (mkEffect (d / 2 ^ 20 mod 2 ^ 32) (d mod 2 ^ 20)).
Proof.
  intros d H. unfold read_effect. eapply reads_last; [now apply (reads_read 8)|].
  unfold u32, wrap. rewrite N.shiftr_div_pow2. change 0xFFFFF with (N.ones 20). rewrite N.land_ones.
  apply reads_ret.
Qed.
Lemma counter_word : forall d, d < 2 ^ 32 ->
  reads read_counter (b4 d) (mkCounter (d mod 2 ^ 16) (d / 2 ^ 16)).
Proof.
  intros d H. unfold read_counter. eapply reads_last; [now apply (reads_read 4)|].
  rewrite N.shiftr_div_pow2. change 0xFFFF with (N.ones 16). rewrite N.land_ones. apply reads_ret.
Qed.
