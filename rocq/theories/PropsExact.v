(** C26, C45, C46, C54-C59: exactly which values come through.  The theorems
    named [_refuted] elsewhere show one value that does not. *)
From Verif Require Import Base BaseProofs Place Frame FrameSpec Msg Event EventSpec EventProofs Query.
From Verif Require Import Reader EncodeQuery Encode CoreMsg EncodeSpec ReaderProofs EncodeProofs
  EncodeQueryProofs EncodeLocal EncodeFrame EncodeFacts EncodeState Decode DecodeSpec DecodeProofs PropsDecode.
From Verif Require PropsEncode.

Local Open Scope N_scope.

(** C26: recovering is right exactly below 2^32. *)
Theorem C26_recover_iff_partial : forall C (c0 : C) (b b' : pboard C) who n,
  pparse c0 (EvLp (con_of who) (LpRecover n)) b = Ok b' ->
  (Z.of_N (lp_of who b') = lp_after (LpRecover n) (Z.of_N (lp_of who b)) <-> lp_of who b + n < 2 ^ 32).
Proof.
  intros C c0 b b' who n P. split.
  - intros E. cbn [lp_after] in E.
    assert (B : lp_of who b' < 2 ^ 32); [|lia].
    clear E. destruct b as [f ch tu tc [x0 x1] ph bl].
    destruct who; inversion P; subst b'; clear P; cbn; apply N.mod_lt; discriminate.
  - intros L. destruct (lp_plain C c0 b who (LpRecover n)) as [b2 [P2 [E _]]];
      [now intros m [= <-]|]. rewrite P in P2. now inversion P2; subst b2.
Qed.
Print Assumptions C26_recover_iff_partial.

(** C45: a description comes through exactly below 2^52. *)
Theorem C45_effect_iff_partial : forall d rest, d < 2 ^ 64 ->
  exists e, read_effect (b8 d ++ rest) = Ok (e, rest) /\
    (d = e_code e * 2 ^ 20 + e_index e <-> d < 2 ^ 52).
Proof.
  intros d rest D. eexists. split; [apply (effect_word d D)|]. cbn [e_code e_index].
  pose proof (N.div_mod d (2 ^ 20) ltac:(discriminate)) as M.
  pose proof (N.mod_lt d (2 ^ 20) ltac:(discriminate)) as L.
  pose proof (N.mod_lt (d / 2 ^ 20) (2 ^ 32) ltac:(discriminate)) as L2. split; intros H.
  - change (2 ^ 52) with (2 ^ 32 * 2 ^ 20). nia.
  - rewrite (N.mod_small (d / 2 ^ 20)); [lia|]. apply N.div_lt_upper_bound; [discriminate|exact H].
Qed.
Print Assumptions C45_effect_iff_partial.

(** C54 *)
Theorem C54_race_iff_partial : forall rq n out,
  exists bs, decode_one_answer rq (AnRace n) out = Ok bs /\ (core_u32 bs = Some n <-> n < 2 ^ 32).
Proof.
  intros rq n out. exists (wrote 4 (Z.of_N n)). cbn [decode_one_answer]. rewrite response_run.
  split; [reflexivity|]. unfold core_u32. rewrite wrote_length. cbn [Nat.eqb]. split.
  - intros E. assert (V : uval (wrote 4 (Z.of_N n)) = n) by congruence. rewrite uval_wrote in V.
    unfold of_signed in V. revert V. change (2 ^ Z.of_N (8 * N.of_nat 4))%Z with (2 ^ 32)%Z.
    pose proof (Z.mod_pos_bound (Z.of_N n) (2 ^ 32) ltac:(lia)). lia.
  - intros L. now rewrite uval_nat.
Qed.
Print Assumptions C54_race_iff_partial.

(** C55 *)
Lemma wrote2_small : forall n, uval (wrote 2 (Z.of_N n)) < 2 ^ 16.
Proof.
  intros n. rewrite uval_wrote. unfold of_signed. change (2 ^ Z.of_N (8 * N.of_nat 2))%Z with (2 ^ 16)%Z.
  pose proof (Z.mod_pos_bound (Z.of_N n) (2 ^ 16) ltac:(lia)). lia.
Qed.
Lemma chunks2_small : forall l, Forall (fun i => i < 2 ^ 16)
  (chunks (length l) 2 (flat_map (fun i => wrote 2 (Z.of_N i)) l)).
Proof.
  intros l. induction l as [|x l IH]; [constructor|]. cbn [length flat_map].
  assert (L := wrote_length 2 (Z.of_N x)). pose proof (wrote2_small x) as X.
  destruct (wrote 2 (Z.of_N x)) as [|a [|b [|]]]; try discriminate L.
  cbn [app chunks firstn skipn]. now constructor.
Qed.
Lemma core_cards_small : forall l l', lenN l < 2 ^ 31 ->
  core_cards (wrote 4 1 ++ wrote 4 (Z.of_nat (length l)) ++ flat_map (fun i => wrote 2 (Z.of_N i)) l)
  = Some (Chosen l') -> Forall (fun i => i < 2 ^ 16) l'.
Proof.
  intros l l' L. unfold core_cards.
  pose proof (part_app [] (wrote 4 1) (wrote 4 (Z.of_nat (length l)) ++ flat_map (fun i => wrote 2 (Z.of_N i)) l)) as P0.
  cbn [app length] in P0. rewrite wrote_length in P0. rewrite P0.
  replace (sval (wrote 4 1) =? -1)%Z with false by reflexivity.
  replace (uval (wrote 4 1) =? 1) with true by reflexivity.
  pose proof (part_app (wrote 4 1) (wrote 4 (Z.of_nat (length l))) (flat_map (fun i => wrote 2 (Z.of_N i)) l)) as P1.
  rewrite !wrote_length in P1. rewrite P1.
  replace (Z.of_nat (length l)) with (Z.of_N (lenN l)) by (unfold lenN; lia).
  rewrite uval_nat by (change (2 ^ (8 * N.of_nat 4)) with (2 ^ 32); lia).
  replace (N.to_nat (lenN l)) with (length l) by (unfold lenN; lia).
  destruct (_ =? _)%nat; [|discriminate]. intros E. apply (f_equal (fun o => match o with
    Some (Chosen k) => k | _ => [] end)) in E. cbv beta iota in E. rewrite <- E. clear E.
  change 8%nat with (4 + 4)%nat.
  rewrite app_assoc, skipn_app, skipn_all2 by (rewrite app_length, !wrote_length; lia).
  rewrite app_length, !wrote_length. cbn [Nat.add Nat.sub skipn app]. apply chunks2_small.
Qed.
Theorem C55_cards_iff_partial : forall sc l out,
  (forall f a mn mx s d, sc <> ScRecursive f a mn mx s d) -> l <> [] -> lenN l < 2 ^ 31 ->
  exists bs, decode_one_answer (RqCard sc) (AnCard (AcIndexes l)) out = Ok bs /\
    (core_cards bs = Some (Chosen l) <-> Forall (fun i => i < 2 ^ 16) l).
Proof.
  intros sc l out R NE L. eexists. split.
  - apply cards_run; [exact NE|]. destruct sc; try exact I. now apply (R can_finish accept min max selectable deselectable).
  - split; [now apply core_cards_small|now apply core_cards_run].
Qed.
Print Assumptions C55_cards_iff_partial.

(** C56 *)
Theorem C56_commands_iff_partial : forall ri a cmd i t out, stands_for a cmd i ->
  command_code (si_is_battle_cmd ri) cmd = Some t ->
  exists bs, decode_one_answer (RqIdle ri) (AnIdle a) out = Ok bs /\
    (core_command bs = Some (t, i) <-> i < 2 ^ 16).
Proof.
  intros ri a cmd i t out S C. destruct (N.ltb_spec i (2 ^ 16)) as [L|L].
  - destruct (command_run ri a cmd i t out S L C) as [bs [E R]]. exists bs. now split.
  - destruct (fits_run (RqIdle ri) (AnIdle a) out) as [bs E].
    { cbn [misfit]. intros [M|[x [-> | ->]]]; [now destruct (M ri)|inversion S|inversion S]. }
    exists bs. split; [exact E|]. split; [|lia]. unfold core_command, core_u32.
    destruct (Nat.eqb_spec (length bs) 4) as [B|B]; [|discriminate]. intros [= _ Q].
    assert (V : uval bs < 2 ^ 32).
    { assert (W : exists v, bs = wrote 4 v).
      { revert E. cbn [decode_one_answer]. unfold decode_idle.
        destruct S; try (cbn in L; lia); cbn [assert_ negb Z.eqb ACTION_SHUFFLE ACTION_PHASE obind];
          rewrite response_run; intros [= <-]; eauto. }
      destruct W as [v ->]. rewrite uval_wrote. unfold of_signed.
      change (2 ^ Z.of_N (8 * N.of_nat 4))%Z with (2 ^ 32)%Z.
      pose proof (Z.mod_pos_bound v (2 ^ 32) ltac:(lia)). lia. }
    assert (U : uval bs / 2 ^ 16 < 2 ^ 16) by (apply N.div_lt_upper_bound; [discriminate|exact V]). lia.
Qed.
Print Assumptions C56_commands_iff_partial.

(** C57 *)
Lemma place_length : forall p, length (wrote_place p) = 3%nat.
Proof. intros p. unfold wrote_place. now rewrite !app_length, !wrote_length. Qed.
Theorem C57_zones_iff_partial : forall rq mask to zs out, to < 2 -> Forall (offered mask to) zs ->
  exists bs, decode_one_answer rq (AnZone (map snd zs)) out = Ok bs /\
    (bs = flat_map (core_zone to) (map fst zs) <-> Forall (fun z => plain_zone (fst z)) zs).
Proof.
  intros rq mask to zs out T F. eexists. split; [apply zone_run|]. split.
  - intros E. induction F as [|[b p] zs [I _] F IH]; [constructor|]. cbn [map flat_map fst snd] in E, I.
    assert (E1 : wrote_place p = core_zone to b).
    { apply (f_equal (firstn 3)) in E. rewrite !firstn_app in E. rewrite place_length in E.
      rewrite firstn_all2 in E by (rewrite place_length; lia). cbn [length core_zone Nat.sub firstn] in E.
      now rewrite !app_nil_r in E. }
    assert (E2 : flat_map wrote_place (map snd zs) = flat_map (core_zone to) (map fst zs)).
    { rewrite E1 in E. now apply app_inv_head in E. }
    constructor; [|now apply IH]. cbn [fst].
    destruct (N.ltb_spec (b mod 16) 13) as [L|L]; [exact L|].
    exfalso. refine (odd_zone_bytes to b p T I _ E1). unfold plain_zone. lia.
  - intros P. induction F as [|[b p] zs [I _] F IH]; cbn [map flat_map]; [reflexivity|].
    inversion P; subst. rewrite IH by assumption. f_equal. cbn [fst snd]. eapply zone_bytes; eauto.
Qed.
Print Assumptions C57_zones_iff_partial.

(** C58: orders of up to 254 cards, all of them among the first 256. *)
Lemma wrote1_small : forall n, exists m, wrote 1 n = [m] /\ m < 256.
Proof.
  intros n. unfold wrote. cbn [le_bytes]. eexists. split; [reflexivity|]. apply N.mod_lt. discriminate.
Qed.
Lemma flat_wrote1_small : forall l, Forall (fun i => i < 256) (flat_map (fun i => wrote 1 (Z.of_N i)) l).
Proof.
  intros l. induction l as [|x l IH]; cbn [flat_map]; [constructor|].
  destruct (wrote1_small (Z.of_N x)) as [m [-> M]]. now constructor.
Qed.
Theorem C58_sort_iff_partial : forall rq l out,
  exists bs, decode_one_answer rq (AnSort (AsIndexes l)) out = Ok bs /\
    (core_order bs = Some (Chosen l) <-> lenN l < 255 /\ Forall (fun i => i < 2 ^ 8) l).
Proof.
  intros rq l out. eexists. split; [apply sort_run|]. split; [|intros [L F]; now apply core_order_run].
  destruct (wrote1_small (Z.of_nat (length l))) as [m [-> M]]. cbn [app core_order].
  destruct (Z.eqb_spec (sval [m]) (-1)) as [|NE]; [discriminate|].
  destruct (Nat.eqb_spec (length (flat_map (fun i => wrote 1 (Z.of_N i)) l)) (N.to_nat m)) as [E|]; [|discriminate].
  intros [= Q]. split; [|rewrite <- Q; apply flat_wrote1_small].
  rewrite Q in E. assert (NM : m <> 255) by (intros ->; now apply NE). unfold lenN. lia.
Qed.
Print Assumptions C58_sort_iff_partial.

(** C59: the buffer is left alone, whatever is in it, exactly by the answers
    that carry nothing. *)
Theorem C59_untouched_iff_partial : forall rq a,
  (forall out, decode_one_answer rq a out = Ok out) <-> empty_answer rq a.
Proof.
  intros rq a. split; [|intros H out; now apply C59_untouched_partial].
  intros H. destruct a as [|n|c|n|l|n|i|n|n|n|h|c|b|l|s]; try exact I;
    try (specialize (H []); cbn [decode_one_answer] in H; rewrite response_run in H; discriminate H).
  - destruct c as [| | |l]; try exact I;
      try (specialize (H []); cbn [decode_one_answer decode_card] in H; rewrite response_run in H; discriminate H).
    specialize (H []). exfalso. destruct l as [|i l]; [discriminate H|].
    destruct rq as [| |sc| | | | | | | | | | | |]; try discriminate H.
    destruct sc; try (rewrite cards_run in H; [discriminate H|discriminate|exact I]).
    rewrite one_card_run in H. discriminate H.
  - specialize (H []). cbn [decode_one_answer] in H. unfold decode_idle in H.
    destruct rq as [| | | | | |ri| | | | | | | |]; try discriminate H.
    destruct i as [| |ph|act s].
    + now exists ri.
    + rewrite response_run in H. discriminate H.
    + exists ri. split; [reflexivity|].
      change DPHASE_MAIN_2 with (2 ^ 8) in H. change DPHASE_END with (2 ^ 9) in H.
      change DPHASE_BATTLE with (2 ^ 7) in H. rewrite !flag_bit in H.
      destruct (si_is_battle_cmd ri).
      * destruct (N.testbit ph 8), (N.testbit ph 9); cbn [obind] in H; rewrite ?response_run in H;
          cbn [obind] in H; rewrite ?response_run in H; try discriminate H. now split.
      * destruct (N.testbit ph 7), (N.testbit ph 9); rewrite ?response_run in H; try discriminate H. now split.
    + destruct (negb (act =? ACTION_SHUFFLE)%Z); [|discriminate H]. cbn [assert_ obind] in H.
      destruct (negb (act =? ACTION_PHASE)%Z); [|discriminate H]. cbn [assert_ obind] in H.
      rewrite response_run in H. discriminate H.
  - destruct c; try exact I; specialize (H []); cbn [decode_one_answer] in H; rewrite response_run in H; discriminate H.
  - specialize (H [1]). rewrite zone_run in H. exfalso.
    assert (L : length (flat_map wrote_place l) = 1%nat) by (inversion H as [H1]; now rewrite H1).
    destruct l as [|p l]; [discriminate L|]. cbn [flat_map] in L. rewrite app_length, place_length in L. lia.
  - specialize (H []). destruct s as [| |l].
    + vm_compute in H. discriminate H.
    + vm_compute in H. discriminate H.
    + rewrite sort_run in H. discriminate H.
Qed.
Print Assumptions C59_untouched_iff_partial.

(** C46: the index of a material comes through exactly below 2^31. *)
Theorem C46_overlay_iff_partial : forall con loc seq pos rest, con < 256 -> loc < 128 -> seq < 2 ^ 32 ->
  pos < 2 ^ 32 -> exists l s o,
  read_loc_info (b1 con ++ b1 loc ++ b4 seq ++ b4 pos ++ rest) = Ok (mkPlace (Z.of_N con) l s (-1), rest) /\
  read_loc_info (b1 con ++ b1 (loc + 0x80) ++ b4 seq ++ b4 pos ++ rest) =
    Ok (mkPlace (Z.of_N con) l s o, rest) /\
  (o = Z.of_N pos <-> pos < 2 ^ 31).
Proof.
  intros con loc seq pos rest C L S P. destruct (N.ltb_spec pos (2 ^ 31)) as [Q|Q].
  - destruct (PropsEncode.C46_overlay_partial con loc seq pos rest C L S P) as [l [s [R1 [R2 _]]]].
    exists l, s, (Z.of_N pos). split; [exact R1|]. split; [exact (R2 Q)|]. tauto.
  - assert (B : forall n, 7 <= n -> N.testbit loc n = false).
    { intros n Hn. destruct loc as [|x]; [reflexivity|]. apply N.bits_above_log2.
      assert (N.log2 (N.pos x) < 7) by (apply N.log2_lt_pow2; lia). lia. }
    assert (E : N.ldiff loc 0x80 = loc).
    { apply N.bits_inj. intros n. rewrite N.ldiff_spec. change 0x80 with (2 ^ 7).
      rewrite N.pow2_bits_eqb. destruct (N.eqb_spec 7 n) as [<-|]; [|apply andb_true_r].
      rewrite (B 7) by lia. reflexivity. }
    assert (A : loc + 0x80 = N.lor loc 0x80).
    { rewrite <- N.lxor_lor; [apply N.add_nocarry_lxor|]; apply N.bits_inj_0; intros n;
        rewrite N.land_spec; change 0x80 with (2 ^ 7); rewrite N.pow2_bits_eqb;
        (destruct (N.eqb_spec 7 n) as [<-|]; [now rewrite (B 7) by lia | apply andb_false_r]). }
    assert (E' : N.ldiff (loc + 0x80) 0x80 = loc).
    { rewrite A. apply N.bits_inj. intros n. rewrite N.ldiff_spec, N.lor_spec. change 0x80 with (2 ^ 7).
      rewrite N.pow2_bits_eqb. destruct (N.eqb_spec 7 n) as [<-|].
      - rewrite (B 7) by lia. reflexivity.
      - now rewrite orb_false_r, andb_true_r. }
    assert (T : N.testbit (loc + 0x80) 7 = true) by (rewrite A, N.lor_spec; apply orb_true_r).
    assert (R1 := reads_loc_any con loc seq pos). assert (R2 := reads_loc_any con (loc + 0x80) seq pos).
    unfold is_u8, is_u32 in *. rewrite E in R1. rewrite E' in R2. rewrite (B 7) in R1 by lia. rewrite T in R2.
    destruct (fix_spell_loc_seq loc seq) as [l s]. eexists l, s, _. split; [|split].
    + rewrite !app_assoc. rewrite <- (app_assoc (b1 con)), <- (app_assoc (b1 con)), <- (app_assoc (b1 loc)).
      apply R1; lia.
    + rewrite !app_assoc.
      rewrite <- (app_assoc (b1 con)), <- (app_assoc (b1 con)), <- (app_assoc (b1 (loc + 0x80))).
      apply R2; lia.
    + split; [|lia]. unfold to_signed, wrap. cbv zeta. change (2 ^ (32 - 1)) with (2 ^ 31).
      rewrite N.mod_small by lia.
      destruct (N.ltb_spec pos (2 ^ 31)); intros; lia.
Qed.
Print Assumptions C46_overlay_iff_partial.

(** Values on either side of each border. *)
Definition ex_board (lp : N) : pboard unit := mkBoard plain frame0 [] 0 0%Z (lp, 0) 0 [].
Example C26_iff_ex : exists b', pparse tt (EvLp (con_of false) (LpRecover 1000)) (ex_board 7500) = Ok b' /\
  lp_of false b' = 8500.
Proof. eexists. split; vm_compute; reflexivity. Qed.
Example C45_iff_ex : read_effect (b8 (2 ^ 52 - 1)) = Ok (mkEffect (2 ^ 32 - 1) (2 ^ 20 - 1), []) /\
  read_effect (b8 (2 ^ 52 + 3)) = Ok (mkEffect 0 3, []).
Proof. split; vm_compute; reflexivity. Qed.
Example C46_iff_ex :
  read_loc_info [0; 0x84; 2; 0; 0; 0; 255; 255; 255; 127] = Ok (mkPlace 0 0x4 2 2147483647, []) /\
  read_loc_info [0; 0x84; 2; 0; 0; 0; 255; 255; 255; 255] = Ok (mkPlace 0 0x4 2 (-1), []).
Proof. split; vm_compute; reflexivity. Qed.
Example C54_iff_ex : decode_one_answer RqNotSet (AnRace 0xFFFFFFFF) [] = Ok [255; 255; 255; 255] /\
  decode_one_answer RqNotSet (AnRace 0x100000002) [] = Ok [2; 0; 0; 0].
Proof. split; vm_compute; reflexivity. Qed.
Example C55_iff_ex :
  decode_one_answer (RqCard (ScUniqueRange false 1 3 [])) (AnCard (AcIndexes [0xFFFF; 0x10001])) []
    = Ok [1; 0; 0; 0; 2; 0; 0; 0; 255; 255; 1; 0].
Proof. vm_compute. reflexivity. Qed.
Example C56_iff_ex : stands_for (AiAction 0 0x10002) DoActivate 0x10002 /\
  decode_one_answer (idle_request false) (AnIdle (AiAction 0 0x10002)) [] = Ok [5; 0; 2; 0].
Proof. split; [constructor|vm_compute; reflexivity]. Qed.
Example C57_iff_ex : offered 0 0 (11, mkPlace 0 0x8 3 (-1)) /\ offered 0 0 (13, mkPlace 0 0x100 0 (-1)) /\
  plain_zone 11 /\ ~ plain_zone 13 /\
  decode_one_answer RqNotSet (AnZone [mkPlace 0 0x8 3 (-1); mkPlace 0 0x100 0 (-1)]) [] = Ok [0; 8; 3; 0; 0; 0].
Proof.
  split; [split; [vm_compute; tauto|reflexivity]|]. split; [split; [vm_compute; tauto|reflexivity]|].
  split; [reflexivity|]. split; [unfold plain_zone; vm_compute; discriminate|vm_compute; reflexivity].
Qed.
Example C58_iff_ex : decode_one_answer RqNotSet (AnSort (AsIndexes [255; 0x101])) [] = Ok [2; 255; 1] /\
  (let l := repeat 0 255 in exists bs, decode_one_answer RqNotSet (AnSort (AsIndexes l)) [] = Ok bs /\
     core_order bs = Some Declined).
Proof. split; [vm_compute; reflexivity|]. eexists. split; vm_compute; reflexivity. Qed.
Example C59_iff_ex : ~ empty_answer RqNotSet (AnZone []) /\
  decode_one_answer RqNotSet (AnZone []) [1] = Ok [] /\ decode_one_answer RqNotSet (AnZone []) [] = Ok [].
Proof. split; [intros []|]. split; vm_compute; reflexivity. Qed.
