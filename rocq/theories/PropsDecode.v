(** C54-C59: the decoder. *)
From Verif Require Import Base BaseProofs Place Frame Msg Event Query.
From Verif Require Import Encode CoreMsg EncodeSpec EncodeProofs EncodeQueryProofs Decode DecodeSpec DecodeProofs.

Local Open Scope N_scope.

(** C54 *)
Theorem C54_numbers : forall rq a n out, number_answer a = Some n -> is_u32 n ->
  exists bs, decode_one_answer rq a out = Ok bs /\ bs = b4 n /\ core_u32 bs = Some n.
Proof.
  intros rq a n out A U. exists (wrote 4 (Z.of_N n)).
  assert (E : decode_one_answer rq a out = Ok (wrote 4 (Z.of_N n))).
  { destruct a as [|m|c|m|l|m|i|m|m|m|h|[]|b|l|s]; try discriminate A; inversion A; subst n;
      cbn [decode_one_answer]; rewrite response_run; try reflexivity. now destruct b. }
  split; [exact E|]. split.
  - unfold wrote, of_signed. rewrite Z.mod_small; [now rewrite N2Z.id|].
    split; [lia|]. unfold is_u32 in U. change (2 ^ Z.of_N (8 * N.of_nat 4))%Z with (Z.of_N (2 ^ 32)). lia.
  - unfold core_u32. rewrite wrote_length. cbn [Nat.eqb]. now rewrite uval_nat.
Qed.
Print Assumptions C54_numbers.

Theorem C54_hands : forall rq h out, is_i32 h ->
  exists bs, decode_one_answer rq (AnRps h) out = Ok bs /\ bs = bi4 h /\ core_i32 bs = Some h.
Proof.
  intros rq h out H. exists (wrote 4 h). cbn [decode_one_answer]. rewrite response_run.
  split; [reflexivity|]. split; [reflexivity|].
  unfold core_i32. rewrite wrote_length. cbn [Nat.eqb]. now rewrite sval_i32.
Qed.
Print Assumptions C54_hands.

Theorem C54_no_chain : forall rq out,
  exists bs, decode_one_answer rq (AnToChain AtNoOp) out = Ok bs /\ core_i32 bs = Some (-1)%Z.
Proof.
  intros rq out. exists (wrote 4 (-1)). cbn [decode_one_answer]. rewrite response_run. now split.
Qed.
Print Assumptions C54_no_chain.

(** Races are 64 bits wide (the core asks with 64 bits, C40); only the lower half
    is written. *)
Theorem C54_race_partial : forall rq n out, is_u32 n ->
  exists bs, decode_one_answer rq (AnRace n) out = Ok bs /\ bs = b4 n /\ core_u32 bs = Some n.
Proof. intros rq n out U. exact (C54_numbers rq (AnAttribute n) n out eq_refl U). Qed.
Print Assumptions C54_race_partial.

Theorem C54_race_refuted : exists n n', n <> n' /\ is_u64 n /\ is_u64 n' /\ forall rq out,
  decode_one_answer rq (AnRace n) out = decode_one_answer rq (AnRace n') out.
Proof.
  exists (2 ^ 32), 0. split; [discriminate|]. split; [reflexivity|]. split; [reflexivity|].
  intros rq out. cbn [decode_one_answer]. rewrite !response_run. reflexivity.
Qed.
Print Assumptions C54_race_refuted.

Example C54_ex :
  decode_one_answer RqNotSet (AnCardCode 0x04030201) [9; 9; 9; 9; 9; 9] = Ok [1; 2; 3; 4] /\
  decode_one_answer RqNotSet (AnYesNo true) [] = Ok [1; 0; 0; 0] /\
  decode_one_answer RqNotSet (AnRps (-2)) [] = Ok [254; 255; 255; 255] /\
  decode_one_answer RqNotSet (AnToChain (AtIndex 3)) [] = Ok [3; 0; 0; 0].
Proof. vm_compute. auto. Qed.

(** C55.  Indexes from 2^16 on do not fit the format. *)
Theorem C55_cards_partial : forall sc l out,
  (forall f a mn mx s d, sc <> ScRecursive f a mn mx s d) ->
  l <> [] -> lenN l < 2 ^ 31 -> Forall (fun i => i < 2 ^ 16) l ->
  exists bs, decode_one_answer (RqCard sc) (AnCard (AcIndexes l)) out = Ok bs /\
    core_cards bs = Some (Chosen l).
Proof.
  intros sc l out R NE L F. eexists. split.
  - apply cards_run; [exact NE|]. destruct sc; try exact I. now apply (R can_finish accept min max selectable deselectable).
  - now apply core_cards_run.
Qed.
Print Assumptions C55_cards_partial.

(** One card is selected or unselected at a time: the first of the answer. *)
Theorem C55_select_unselect : forall f a mn mx s d i l out, is_u32 i ->
  exists bs, decode_one_answer (RqCard (ScRecursive f a mn mx s d)) (AnCard (AcIndexes (i :: l))) out = Ok bs /\
    core_one_card bs = Some (Chosen [i]).
Proof.
  intros f a mn mx s d i l out U. eexists. split; [apply one_card_run|]. now apply core_one_card_run.
Qed.
Print Assumptions C55_select_unselect.

Theorem C55_declined : forall rq a out, a = AcCancel \/ a = AcFinish ->
  exists bs, decode_one_answer rq (AnCard a) out = Ok bs /\ core_i32 bs = Some (-1)%Z /\
    core_cards bs = Some Declined /\ core_one_card bs = Some Declined.
Proof.
  intros rq a out A. exists (wrote 4 (-1)). destruct A; subst a; cbn [decode_one_answer decode_card];
    rewrite response_run; vm_compute; auto.
Qed.
Print Assumptions C55_declined.

Theorem C55_cards_refuted : exists l l', l <> l' /\ Forall is_u32 l /\ Forall is_u32 l' /\
  forall mn mx cards out,
    decode_one_answer (RqCard (ScUniqueRange false mn mx cards)) (AnCard (AcIndexes l)) out =
    decode_one_answer (RqCard (ScUniqueRange false mn mx cards)) (AnCard (AcIndexes l')) out.
Proof.
  exists [0x10000], [0]. split; [discriminate|].
  split; [repeat constructor|]. split; [repeat constructor|].
  intros mn mx cards out. rewrite !cards_run; [reflexivity|discriminate|exact I|discriminate|exact I].
Qed.
Print Assumptions C55_cards_refuted.

(** Answers stop on an assertion exactly when they do not fit the request, and
    nothing else goes wrong: all writes stay inside the buffer. *)
Theorem C55_safe : forall rq a out,
  (misfit rq a -> decode_one_answer rq a out = Abort) /\
  (~ misfit rq a -> exists bs, decode_one_answer rq a out = Ok bs).
Proof. intros rq a out. split; [apply misfit_run|apply fits_run]. Qed.
Print Assumptions C55_safe.

Example C55_ex :
  decode_one_answer (RqCard (ScUniqueRange false 1 3 [])) (AnCard (AcIndexes [2; 0; 0x102])) [7]
    = Ok [1; 0; 0; 0; 3; 0; 0; 0; 2; 0; 0; 0; 2; 1] /\
  core_cards [1; 0; 0; 0; 3; 0; 0; 0; 2; 0; 0; 0; 2; 1] = Some (Chosen [2; 0; 0x102]) /\
  decode_one_answer (RqCard (ScRecursive true true 1 3 [] [])) (AnCard (AcIndexes [4])) [7]
    = Ok [1; 0; 0; 0; 4; 0; 0; 0] /\
  misfit RqNotSet (AnCard (AcIndexes [4])) /\ ~ misfit RqNotSet (AnCard AcCancel).
Proof. vm_compute. repeat split; auto. right. discriminate. Qed.

(** C56.  Card indexes from 2^16 on do not fit the format. *)
Theorem C56_commands_partial : forall ri a cmd i t out, stands_for a cmd i -> i < 2 ^ 16 ->
  command_code (si_is_battle_cmd ri) cmd = Some t ->
  exists bs, decode_one_answer (RqIdle ri) (AnIdle a) out = Ok bs /\ core_command bs = Some (t, i).
Proof. exact command_run. Qed.
Print Assumptions C56_commands_partial.

Theorem C56_commands_refuted : exists i i', i <> i' /\ is_u32 i /\ is_u32 i' /\ forall ri out,
  decode_one_answer (RqIdle ri) (AnIdle (AiAction 0 i)) out =
  decode_one_answer (RqIdle ri) (AnIdle (AiAction 0 i')) out.
Proof.
  exists 0x10000, 0. split; [discriminate|]. split; [reflexivity|]. split; [reflexivity|].
  intros ri out. cbn [decode_one_answer]. unfold decode_idle.
  destruct (si_is_battle_cmd ri); cbn; rewrite !response_run; reflexivity.
Qed.
Print Assumptions C56_commands_refuted.

(** Nor does the decoder notice commands of the other request kind: attacking in
    the main phase reads as special summoning. *)
Theorem C56_foreign_command_refuted : exists ri i, command_code (si_is_battle_cmd ri) DoAttack = None /\
  forall out, exists bs, decode_one_answer (RqIdle ri) (AnIdle (AiAction 6 i)) out = Ok bs /\
    exists t, core_command bs = Some (t, i) /\ command_code (si_is_battle_cmd ri) DoSpsummon = Some t.
Proof.
  exists (mkIdle false 0 [] [] [] [] [] [] [] false), 3. split; [reflexivity|].
  intros out. eexists. split; [cbn; rewrite response_run; reflexivity|]. exists 1. split; reflexivity.
Qed.
Print Assumptions C56_foreign_command_refuted.

Definition idle_request (battle : bool) : request :=
  RqIdle (mkIdle true 0x280 [] [] [] [] [] [] [] battle).
Example C56_ex :
  decode_one_answer (idle_request false) (AnIdle (AiAction 0 0x102)) [] = Ok [5; 0; 2; 1] /\
  decode_one_answer (idle_request true) (AnIdle (AiAction 0 0x102)) [] = Ok [0; 0; 2; 1] /\
  decode_one_answer (idle_request false) (AnIdle (AiPhase 0x200)) [] = Ok [7; 0; 0; 0] /\
  decode_one_answer (idle_request true) (AnIdle (AiPhase 0x200)) [] = Ok [3; 0; 0; 0] /\
  stands_for (AiAction 0 0x102) DoActivate 0x102 /\ command_code true DoActivate = Some 0.
Proof. repeat split; try (vm_compute; reflexivity). apply sf_activate. Qed.

(** C57.  A zone selection of the core, shown to player [to], answered with some
    of the offered places. *)
Definition offered (mask to : N) (z : N * place) : Prop :=
  In z (mask_table to) /\ N.testbit mask (fst z) = false.
Theorem C57_zones_partial : forall c to n mask zs out, core_ok (CmSelectPlace to n mask) ->
  Forall (fun z => offered mask to z /\ plain_zone (fst z)) zs ->
  exists r rq, encode_one c (ser (CmSelectPlace to n mask)) = Ok (r, c) /\
    r_msg r = Some (mkMsg (MsgRequest (Z.of_N to) rq) []) /\
    (exists l, rq = RqZone false n l /\ Forall (fun z => In (snd z) l) zs) /\
    decode_one_answer rq (AnZone (map snd zs)) out = Ok (flat_map (core_zone to) (map fst zs)).
Proof.
  intros c to n mask zs out K F. pose proof K as [T _].
  pose proof (request_encode (CmSelectPlace to n mask) _ _ K eq_refl c []) as E. rewrite app_nil_r in E.
  do 2 eexists. split; [exact E|]. split; [reflexivity|]. split.
  - eexists. split; [reflexivity|]. eapply Forall_impl; [|exact F]. intros [b p] [[I B] _].
    unfold clear_zones. apply in_map_iff. exists (b, p). split; [reflexivity|]. apply filter_In.
    split; [exact I|]. cbn [fst snd] in B |- *. now rewrite B.
  - rewrite zone_run. f_equal. induction F as [|[b p] zs [[I B] P] F IH]; cbn [map flat_map]; [reflexivity|].
    rewrite IH. f_equal. cbn [fst snd]. eapply zone_bytes; eauto.
Qed.
Print Assumptions C57_zones_partial.

(** Every other zone (field and pendulum) is written wrong. *)
Theorem C57_other_zones_wrong : forall rq to b p out, to < 2 -> In (b, p) (mask_table to) -> ~ plain_zone b ->
  exists bs, decode_one_answer rq (AnZone [p]) out = Ok bs /\ bs <> core_zone to b.
Proof.
  intros rq to b p out T I P. exists (wrote_place p). rewrite zone_run. cbn [flat_map]. rewrite app_nil_r.
  split; [reflexivity|]. now apply odd_zone_bytes.
Qed.
Print Assumptions C57_other_zones_wrong.

Theorem C57_zones_refuted : exists to mask b p, to < 2 /\ offered mask to (b, p) /\ forall rq out,
  decode_one_answer rq (AnZone [p]) out <> Ok (core_zone to b).
Proof.
  exists 0, (N.ones 32 - 2 ^ 13), 13, (mkPlace 0 0x100 0 (-1)). split; [reflexivity|].
  split; [split; [vm_compute; tauto|reflexivity]|].
  intros rq out. rewrite zone_run. vm_compute. discriminate.
Qed.
Print Assumptions C57_zones_refuted.

Example C57_ex :
  core_ok (CmSelectPlace 1 1 0xDF9FF7FE) /\
  offered 0xDF9FF7FE 1 (11, mkPlace 1 0x8 3 (-1)) /\ plain_zone 11 /\
  offered 0xDF9FF7FE 1 (21, mkPlace 0 0x4 5 (-1)) /\ plain_zone 21 /\
  decode_one_answer RqNotSet (AnZone [mkPlace 1 0x8 3 (-1); mkPlace 0 0x4 5 (-1)]) [5]
    = Ok [1; 8; 3; 0; 4; 5] /\
  offered 0xDF9FF7FE 1 (29, mkPlace 0 0x100 0 (-1)) /\ ~ plain_zone 29 /\
  decode_one_answer RqNotSet (AnZone [mkPlace 0 0x100 0 (-1)]) [] = Ok [0; 0; 0] /\
  core_zone 1 29 = [0; 8; 5].
Proof.
  split; [repeat split; reflexivity|]. unfold offered, plain_zone.
  repeat split; try (vm_compute; reflexivity); try (vm_compute; tauto). vm_compute. discriminate.
Qed.

(** C58.  At most 254 indexes, each below 2^8, fit the format. *)
Theorem C58_sort_partial : forall rq l out, lenN l < 255 -> Forall (fun i => i < 2 ^ 8) l ->
  exists bs, decode_one_answer rq (AnSort (AsIndexes l)) out = Ok bs /\ core_order bs = Some (Chosen l).
Proof. intros rq l out L F. eexists. split; [apply sort_run|]. now apply core_order_run. Qed.
Print Assumptions C58_sort_partial.

Theorem C58_skip : forall rq out,
  exists bs, decode_one_answer rq (AnSort AsSkip) out = Ok bs /\ core_i32 bs = Some (-1)%Z /\
    core_order bs = Some Declined.
Proof.
  intros rq out. exists (wrote 4 (-1)). cbn [decode_one_answer decode_sort]. rewrite response_run.
  vm_compute. auto.
Qed.
Print Assumptions C58_skip.

Theorem C58_sort_refuted : exists l l', l <> l' /\ Forall is_u32 l /\ Forall is_u32 l' /\
  forall rq out, decode_one_answer rq (AnSort (AsIndexes l)) out = decode_one_answer rq (AnSort (AsIndexes l')) out.
Proof.
  exists [0x100], [0]. split; [discriminate|].
  split; [repeat constructor|]. split; [repeat constructor|].
  intros rq out. rewrite !sort_run. reflexivity.
Qed.
Print Assumptions C58_sort_refuted.

Example C58_ex :
  decode_one_answer RqNotSet (AnSort (AsIndexes [2; 0; 1])) [9; 9; 9; 9; 9; 9; 9] = Ok [3; 2; 0; 1] /\
  core_order [3; 2; 0; 1] = Some (Chosen [2; 0; 1]).
Proof. vm_compute. auto. Qed.

(** C59 *)
Lemma flag_bit : forall p i, has_flag p (2 ^ i) = N.testbit p i.
Proof.
  intros p i. unfold has_flag. destruct (N.testbit p i) eqn:B.
  - replace (N.land p (2 ^ i)) with (2 ^ i).
    + apply negb_true_iff, N.eqb_neq, N.pow_nonzero. discriminate.
    + apply N.bits_inj. intros k. rewrite N.land_spec, N.pow2_bits_eqb.
      destruct (N.eqb_spec i k); subst; [now rewrite B|now rewrite andb_false_r].
  - replace (N.land p (2 ^ i)) with 0; [reflexivity|].
    apply N.bits_inj. intros k. rewrite N.bits_0, N.land_spec, N.pow2_bits_eqb.
    destruct (N.eqb_spec i k); subst; [now rewrite B|now rewrite andb_false_r].
Qed.
Theorem C59_untouched_partial : forall rq a out, empty_answer rq a -> decode_one_answer rq a out = Ok out.
Proof.
  intros rq a out H. destruct a as [|n|[]|n|l|n|[]|n|n|n|h|[]|b|l|s]; try contradiction H; try reflexivity.
  - destruct H as [ri ->]. reflexivity.
  - destruct H as [ri [-> [B9 B]]]. cbn [decode_one_answer decode_idle].
    change DPHASE_MAIN_2 with (2 ^ 8). change DPHASE_END with (2 ^ 9). change DPHASE_BATTLE with (2 ^ 7).
    rewrite !flag_bit. rewrite B9. destruct (si_is_battle_cmd ri); rewrite B; reflexivity.
Qed.
Print Assumptions C59_untouched_partial.

(** Missing: an unset order is written as an order of no cards. *)
Theorem C59_untouched_refuted : exists rq a out, a = AnSort AsNotSet /\ decode_one_answer rq a out <> Ok out.
Proof. exists RqNotSet, (AnSort AsNotSet), [1; 2]. split; [reflexivity|]. vm_compute. discriminate. Qed.
Print Assumptions C59_untouched_refuted.

Example C59_ex :
  empty_answer (idle_request true) (AnIdle (AiPhase 0x80)) /\
  ~ empty_answer (idle_request false) (AnIdle (AiPhase 0x80)) /\
  empty_answer RqNotSet (AnCounter [(1, 2)]) /\
  decode_one_answer RqNotSet (AnCounter [(1, 2)]) [7; 8] = Ok [7; 8].
Proof.
  repeat split.
  - eexists. repeat split.
  - intros [ri [E [_ B]]]. inversion E; subst ri. vm_compute in B. discriminate.
Qed.
