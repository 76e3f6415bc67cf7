(** Proofs about encode_one: contents and framing of the messages. *)
From Verif Require Import Base BaseProofs Place Frame Msg Event Query QuerySpec.
From Verif Require Import Reader EncodeQuery Encode CoreMsg ReaderProofs.

Local Open Scope N_scope.

Local Opaque le_bytes ser_loc ser_loc4 ser_loc1 ser_loc44 ser_effect ser_counter bb bi4.

(** One step of a reader along a known byte string. *)
Ltac side := first [assumption | reflexivity | idtac].
Ltac chunk :=
  match goal with
  | |- reads read_con _ _ => simple eapply reads_con; side
  | |- reads read_bool _ _ => simple eapply reads_bool
  | |- reads (read 1) _ _ => simple eapply reads_1; side
  | |- reads (read 2) _ _ => simple eapply reads_2; side
  | |- reads (read 4) _ _ => simple eapply reads_4; side
  | |- reads (read 8) _ _ => simple eapply reads_8; side
  | |- reads read_i32 _ _ => simple eapply reads_i32; side
  | |- reads read_loc_info _ _ => simple eapply reads_loc; side
  | |- reads read_place4 _ _ => simple eapply reads_loc4; side
  | |- reads read_place1 _ _ => simple eapply reads_loc1; side
  | |- reads (read_loc_info_ 4 4 None) _ _ => simple eapply reads_loc44; side
  | |- reads read_effect _ _ => simple eapply reads_effect; side
  | |- reads read_counter _ _ => simple eapply reads_counter; side
  | |- reads (rskip _) (le_bytes _ _) _ => simple eapply reads_skip; rewrite lenN_le; reflexivity
  end.
Ltac rd1 :=
  rewrite <- ?app_assoc; cbv beta zeta;
  match goal with
  | |- reads (rret _) _ _ => simple apply reads_ret
  | |- reads (rbind _ _) (_ ++ _) _ => simple eapply reads_bind; [chunk|]
  | |- reads (rbind _ _) _ _ => simple eapply reads_last; [chunk|]
  end.
Ltac rd := repeat rd1.
Ltac unpack :=
  repeat match goal with
  | H : _ /\ _ |- _ => destruct H
  | H : ccard_ok _ |- _ => destruct H
  | H : ccard1_ok _ |- _ => destruct H
  | H : clink_ok _ |- _ => destruct H
  | H : cact_ok _ |- _ => destruct H
  end.

Ltac ands := repeat match goal with H : _ /\ _ |- _ => destruct H end.

Lemma reads_chain : forall k, clink_ok k -> reads chain_link (ser_clink k) (core_chain k).
Proof.
  intros k H. unpack. unfold chain_link, ser_clink, ser_ccard, core_chain. rd.
Qed.
Lemma reads_sel : forall c, ccard_ok c ->
  reads sel_card_r (ser_ccard c) (mkSelCard (core_place (cc_loc c)) (cc_code c)).
Proof. intros k H. unpack. unfold sel_card_r, ser_ccard. rd. Qed.
Lemma reads_act4 : forall a, cact_ok a -> reads act_card_r (ser_cact4 a) (core_act4 a).
Proof. intros a H. unpack. unfold act_card_r, ser_cact4, ser_ccard4, core_act4. rd. Qed.
Lemma reads_listed4 : forall c, ccard_ok c ->
  reads (listed_place read_place4) (ser_ccard4 c) (core_card_place (cc_loc c)).
Proof. intros c H. unpack. unfold listed_place, ser_ccard4. eapply reads_bind; [chunk|chunk]. Qed.
Lemma reads_listed1 : forall c, ccard1_ok c ->
  reads (listed_place read_place1) (ser_ccard1 c) (core_card_place (cc_loc c)).
Proof. intros c H. unpack. unfold listed_place, ser_ccard1. eapply reads_bind; [chunk|chunk]. Qed.

Lemma reads_cards4 : forall l, short4 l -> Forall ccard_ok l ->
  reads (read_card_list 1) (seq4 ser_ccard4 l) (places_of l).
Proof.
  intros l S H. unfold read_card_list, places_of. apply reads_list4; [assumption|].
  eapply Forall_impl; [|exact H]. intros c K. exact (reads_listed4 c K).
Qed.
Lemma reads_cards44 : forall l, short4 l -> Forall ccard_ok l ->
  reads (read_card_list 4) (seq4 ser_ccard44 l) (places_of l).
Proof.
  intros l S H. unfold read_card_list, places_of. apply reads_list4; [assumption|].
  eapply Forall_impl; [|exact H]. intros c K. unpack. unfold ser_ccard44.
  eapply reads_bind; [chunk|chunk].
Qed.
Lemma reads_locs : forall l, short4 l -> Forall cloc_ok l ->
  reads (rlist 4 read_loc_info) (seq4 ser_loc l) (map core_place l).
Proof.
  intros l S H. apply reads_list4; [assumption|].
  eapply Forall_impl; [|exact H]. intros c K. now apply reads_loc.
Qed.
Lemma reads_places4 : forall l, short4 l -> Forall ccard_ok l ->
  reads (rlist 4 (listed_place read_place4)) (seq4 ser_ccard4 l) (places_of l).
Proof.
  intros l S H. unfold places_of. apply reads_list4; [assumption|].
  eapply Forall_impl; [|exact H]. exact reads_listed4.
Qed.
Lemma reads_places1 : forall l, short4 l -> Forall ccard1_ok l ->
  reads (rlist 4 (listed_place read_place1)) (seq4 ser_ccard1 l) (places_of l).
Proof.
  intros l S H. unfold places_of. apply reads_list4; [assumption|].
  eapply Forall_impl; [|exact H]. exact reads_listed1.
Qed.
Lemma reads_sels : forall l, short4 l -> Forall ccard_ok l ->
  reads (rlist 4 sel_card_r) (seq4 ser_ccard l) (codes_at l).
Proof.
  intros l S H. unfold codes_at. apply reads_list4; [assumption|].
  eapply Forall_impl; [|exact H]. exact reads_sel.
Qed.
Lemma reads_acts4 : forall l, short4 l -> Forall cact_ok l ->
  reads (rlist 4 act_card_r) (seq4 ser_cact4 l) (map core_act4 l).
Proof.
  intros l S H. apply reads_list4; [assumption|].
  eapply Forall_impl; [|exact H]. exact reads_act4.
Qed.

Ltac chunks :=
  match goal with
  | |- reads (read_card_list 1) _ _ => simple apply reads_cards4; side
  | |- reads (read_card_list 4) _ _ => simple apply reads_cards44; side
  | |- reads (rlist 4 read_loc_info) _ _ => simple apply reads_locs; side
  | |- reads (rlist 4 (listed_place read_place4)) _ _ => simple apply reads_places4; side
  | |- reads (rlist 4 (listed_place read_place1)) _ _ => simple apply reads_places1; side
  | |- reads (rlist 4 sel_card_r) _ _ => simple apply reads_sels; side
  | |- reads (rlist 4 act_card_r) _ _ => simple apply reads_acts4; side
  | |- reads chain_link _ _ => simple apply reads_chain; side
  | _ => chunk
  end.
Ltac rds1 :=
  rewrite <- ?app_assoc; cbv beta zeta;
  match goal with
  | |- reads (rret _) _ _ => simple apply reads_ret
  | |- reads (rbind _ _) (_ ++ _) _ => simple eapply reads_bind; [chunks|]
  | |- reads (rbind _ _) _ _ => simple eapply reads_last; [chunks|]
  end.
Ltac rds := repeat rds1.

(** ** Field reload *)
Lemma map_of_nat_seqN : forall con loc seq n, n < 2 ^ 31 ->
  map (fun o => mkPlace con loc seq (to_signed 32 o)) (seqN n) =
  map (fun o => mkPlace con loc seq (Z.of_nat o)) (List.seq 0 (N.to_nat n)).
Proof.
  intros con loc seq n H. unfold seqN. rewrite map_map. apply map_ext_in.
  intros o I. apply in_seq in I. rewrite to_signed_small by lia. now rewrite nat_N_Z.
Qed.

Lemma core_spot_monster : forall s, core_spot 0x4 s = (0x4, s).
Proof. intros s. apply core_spot_other. now left. Qed.

Lemma reads_slot : forall con loc s z,
  czone_ok z -> (loc = 0x4 \/ loc = 0x8 /\ s < 8 /\ (5 <= s -> bare z)) ->
  reads (zone_slot con loc s) (ser_czone z)
    (match z with
     | None => []
     | Some (_, mats) =>
         let '(fl, fs) := core_spot loc s in
         mkPlace con fl fs (-1) ::
         map (fun o => mkPlace con fl fs (Z.of_nat o)) (List.seq 0 (N.to_nat mats))
     end).
Proof.
  intros con loc s z K L. unfold zone_slot. destruct z as [[pos mats]|].
  - cbn in K. destruct K as [K1 K2]. cbn [ser_czone].
    assert (is_u32 mats) by (unfold is_u32; change (2 ^ 31) with 2147483648 in K2;
                             change (2 ^ 32) with 4294967296; lia).
    eapply reads_bind; [apply reads_1; reflexivity|]. cbn [N.eqb].
    eapply reads_bind; [chunk|].
    assert (E : (if loc =? LOCATION_SPELL_ZONE then fix_spell_loc_seq loc s else (loc, s))
                = core_spot loc s).
    { destruct L as [->|[-> [L1 L2]]].
      - now rewrite core_spot_monster.
      - cbn [N.eqb]. apply fix_spell_spec; [cbn; tauto|auto]. }
    rewrite E. destruct (core_spot loc s) as [fl fs] eqn:C.
    eapply reads_last; [chunk|]. rewrite map_of_nat_seqN by assumption.
    assert (D : mats = 0 \/ (fl, fs) = (loc, s)).
    { destruct L as [->|[-> [L1 L2]]].
      - right. now rewrite <- C, core_spot_monster.
      - destruct (N.leb_spec 5 s) as [G|G]; [left; exact (L2 G)|].
        right. rewrite <- C. apply core_spot_other. now right. }
    destruct D as [->|D]; [apply reads_ret|]. inversion D; subst. apply reads_ret.
  - cbn [ser_czone]. eapply reads_last; [apply reads_1; reflexivity|]. apply reads_ret.
Qed.

Lemma reads_row : forall con loc l s,
  Forall czone_ok l -> (loc = 0x4 \/ loc = 0x8 /\ s + lenN l <= 8 /\ Forall bare (skipn (N.to_nat (5 - s)) l)) ->
  reads (zone_slots con loc (map N.of_nat (List.seq (N.to_nat s) (length l))))
        (flat_map ser_czone l) (row_places con loc s l).
Proof.
  intros con loc l. induction l as [|z l IH]; intros s K L; cbn [length List.seq map zone_slots flat_map row_places].
  - apply reads_ret.
  - inversion K; subst. eapply reads_bind.
    + rewrite N2Nat.id. apply reads_slot; [assumption|].
      destruct L as [->|[-> [L1 L2]]]; [now left|]. right.
      unfold lenN in L1. cbn [length] in L1. repeat split; [lia|].
      intros G. replace (N.to_nat (5 - s)) with 0%nat in L2 by lia. inversion L2; assumption.
    + eapply reads_last; [|apply reads_ret].
      replace (S (N.to_nat s)) with (N.to_nat (s + 1)) by lia. apply IH; [assumption|].
      destruct L as [->|[-> [L1 L2]]]; [now left|]. right.
      unfold lenN in *. cbn [length] in L1. repeat split; [lia|].
      destruct (N.leb_spec 5 s) as [G|G].
      * replace (N.to_nat (5 - s)) with 0%nat in L2 by lia.
        replace (N.to_nat (5 - (s + 1))) with 0%nat by lia. inversion L2; assumption.
      * replace (N.to_nat (5 - s)) with (S (N.to_nat (5 - (s + 1)))) in L2 by lia. exact L2.
Qed.

Lemma reads_side : forall con s, cside_ok s ->
  reads (controller_state con) (ser_cside s) (sd_lp s, side_places con s, side_piles con s).
Proof.
  intros con s K. destruct K as [K1 [K2 K3] [K4 K5] K6 K7]. unpack.
  unfold controller_state, ser_cside.
  eapply reads_bind; [chunk|].
  eapply reads_bind.
  { pose proof (reads_row con 0x4 (sd_monster s) 0 K3 (or_introl eq_refl)) as R.
    rewrite K2 in R. exact R. }
  eapply reads_bind.
  { pose proof (reads_row con 0x8 (sd_spell s) 0 K5) as R. rewrite K4 in R. apply R.
    right. repeat split; [|exact K6]. unfold lenN. rewrite K4. cbn. lia. }
  rd.
Qed.

Lemma testbit_land : forall flags i, negb (N.land flags (2 ^ i) =? 0) = N.testbit flags i.
Proof.
  intros flags i. replace (N.land flags (2 ^ i)) with (if N.testbit flags i then 2 ^ i else 0).
  - destruct (N.testbit flags i); [|reflexivity].
    assert (2 ^ i <> 0) by (apply N.pow_nonzero; lia).
    destruct (N.eqb_spec (2 ^ i) 0); [contradiction|reflexivity].
  - apply N.bits_inj. intros j. rewrite N.land_spec, N.pow2_bits_eqb.
    destruct (N.eqb_spec i j) as [->|E].
    + rewrite andb_true_r. destruct (N.testbit flags j) eqn:T; [|reflexivity].
      now rewrite N.pow2_bits_true.
    + rewrite andb_false_r. destruct (N.testbit flags i); [|reflexivity].
      rewrite N.pow2_bits_eqb. now destruct (N.eqb_spec i j).
Qed.

Lemma reads_reload : forall f s0 s1 l,
  is_u32 f -> cside_ok s0 -> cside_ok s1 -> short4 l -> Forall clink_ok l ->
  reads reload_event (b4 f ++ ser_cside s0 ++ ser_cside s1 ++ seq4 ser_clink l)
        (EvBoard (BoardState (reload_state f s0 s1 l))).
Proof.
  intros f s0 s1 l H1 H2 H3 H4 H5. unfold reload_event.
  eapply reads_bind; [chunk|].
  eapply reads_bind; [now apply reads_side|].
  eapply reads_bind; [now apply reads_side|].
  eapply reads_last.
  - apply reads_list4; [assumption|]. eapply Forall_impl; [|exact H5]. exact reads_chain.
  - cbv beta iota zeta. unfold reload_state, shape_of_flags.
    change 0x400000 with (2 ^ 22). change 0x800 with (2 ^ 11).
    change 0x1000 with (2 ^ 12). change 0x2000 with (2 ^ 13).
    rewrite !testbit_land. apply reads_ret.
Qed.

(** ** Events *)
Lemma hand_bits : forall h0 h1, h0 < 4 -> h1 < 4 ->
  N.land (h0 + 4 * h1) 3 = h0 /\ N.land (N.shiftr (h0 + 4 * h1) 2) 3 = h1.
Proof.
  intros h0 h1 A B.
  assert (h0 = 0 \/ h0 = 1 \/ h0 = 2 \/ h0 = 3) as C by lia.
  assert (h1 = 0 \/ h1 = 1 \/ h1 = 2 \/ h1 = 3) as D by lia.
  decompose [or] C; decompose [or] D; subst; split; reflexivity.
Qed.

Lemma core_place_loc0 : forall c, (p_loc (core_place c) =? 0) = (core_base c =? 0).
Proof.
  intros c. unfold core_place. destruct (N.eqb_spec (core_base c) 0) as [E|E].
  - rewrite E. rewrite core_spot_other by (left; discriminate). reflexivity.
  - destruct (core_spot (core_base c) (cl_seq c)) as [fl fs] eqn:S. cbn [p_loc].
    apply N.eqb_neq. intros ->. apply E.
    destruct (N.eq_dec (core_base c) 8) as [Q|Q].
    + exfalso. rewrite Q in S. unfold core_spot in S.
      destruct (cl_seq c) as [|[[[p|p|]|[p|p|]|]|[[p|p|]|[p|p|]|]|]]; inversion S.
    + rewrite core_spot_other in S by now left. now inversion S.
Qed.

Lemma skip_codes : forall l, lenN (flat_map b4 l) = 4 * lenN l.
Proof. intros l. apply lenN_flat_map. intros x. apply lenN_le. Qed.
Lemma skip_pairs : forall l : list (N * N),
  lenN (flat_map (fun x : N * N => b4 (fst x) ++ b4 (snd x)) l) = 8 * lenN l.
Proof. intros l. apply lenN_flat_map. intros x. now rewrite lenN_app, !lenN_le. Qed.

Lemma event_run : forall m e, core_ok m -> core_event m = Some e ->
  exists k r, kind_of (msg_number m) = Some k /\ event_case k = Some r /\ reads r (payload m) e.
Proof.
  intros m e K E.
  destruct m; try discriminate E.
  all: cbn [core_event] in E; inversion E; subst e; clear E.
  all: eexists; eexists; split; [reflexivity | split; [reflexivity|]].
  all: cbn [payload]; cbn [core_ok] in K.
  all: ands.
  all: unfold confirm_event, shuffle_codes, summoning, status_event, lp_event, selected.
  all: try solve [rds].
  all: try solve [unpack; unfold ser_ccard, ser_ccard4, ser_ccard1; rds].
  - (* ShuffleHand *)
    unfold seq4. rds1. rds1. eapply reads_last; [apply reads_skip, skip_codes | apply reads_ret].
  - (* ShuffleExtra *)
    unfold seq4. rds1. rds1. eapply reads_last; [apply reads_skip, skip_codes | apply reads_ret].
  - (* ShuffleSetCard *)
    rds1. rds1. eapply reads_bind.
    { apply reads_count with (g := core_place); [unfold lenN; now rewrite map_length|].
      apply Forall_map. eapply Forall_impl; [|exact H1]. intros x [A B]. now apply reads_loc. }
    eapply reads_last.
    { apply reads_count with (g := core_place); [unfold lenN; now rewrite map_length|].
      apply Forall_map. eapply Forall_impl; [|exact H1]. intros x [A B]. now apply reads_loc. }
    rewrite !map_map. apply reads_ret.
  - (* FieldDisabled *)
    rds1. rewrite unpack_spec by reflexivity. apply reads_ret.
  - (* Attack *)
    rds1. rds1. rewrite core_place_loc0. apply reads_ret.
  - (* TossCoin *)
    rds1. eapply reads_last.
    { apply reads_list1 with (g := fun b : bool => if b then 1 else 0); [assumption|].
      apply Forall_forall. intros b _. apply reads_1. destruct b; reflexivity. }
    rewrite map_map. rewrite map_ext with (g := fun b : bool => b) by (intros [|]; reflexivity).
    rewrite map_id. apply reads_ret.
  - (* TossDice *)
    rds1. eapply reads_last.
    { apply reads_list1 with (g := fun b : N => b); [assumption|].
      eapply Forall_impl; [|exact H1]. exact reads_1. }
    rewrite map_id. apply reads_ret.
  - (* HandRes *)
    destruct (hand_bits hand0 hand1 H H0) as [A B].
    eapply reads_last; [apply reads_1; unfold is_u8; change (2 ^ 8) with 256; lia|].
    rewrite A, B. apply reads_ret.
  - (* Start *)
    unfold start_event. rds.
  - (* TagSwap *)
    unfold tag_swap_event. do 6 rds1. cbv beta. eapply reads_last; [|apply reads_ret].
    apply reads_skip. rewrite skip_pairs. unfold short4 in *.
    unfold u32, wrap. rewrite N.mod_small; lia.
  - (* ReloadField *)
    now apply reads_reload.
  - (* PlayerHint *)
    destruct add; rds.
Qed.

(** ** Requests *)
Lemma phases_sum : forall (a : bool) (x y : N) (b : bool), N.land x y = 0 ->
  N.lor (if a then x else 0) (if b then y else 0) = (if a then x else 0) + (if b then y else 0).
Proof.
  intros a x y b H. destruct a, b; rewrite ?N.lor_0_r, ?N.lor_0_l, ?N.add_0_r; try reflexivity.
  rewrite <- N.lxor_lor by assumption. symmetry. now apply N.add_nocarry_lxor.
Qed.

Lemma reads_peek : forall A B (m : reader A) (k : A -> reader B) s s0 s1 x y,
  s = s0 ++ s1 -> reads m s0 x -> reads (k x) s y -> reads (rbind (peek m) k) s y.
Proof.
  intros A B m k s s0 s1 x y -> H1 H2 rest. unfold rbind, peek.
  rewrite <- app_assoc, H1. cbn [obind]. rewrite app_assoc. apply H2.
Qed.

Lemma reads_select_card : forall cancel min max l,
  is_u32 min -> is_u32 max -> l <> [] -> short4 l -> Forall ccard_ok l ->
  reads select_card_r (bb cancel ++ b4 min ++ b4 max ++ seq4 ser_ccard l)
    (RqCard (if in_limbo l then ScLimbo cancel min max (map cc_code l)
             else ScUniqueRange cancel min max (codes_at l))).
Proof.
  intros cancel min max l H1 H2 H3 H4 H5. unfold select_card_r, seq4. do 4 rds1. cbv beta.
  eapply reads_lift with (x := tt).
  { unfold lenN. destruct l; [now contradiction H3|]. reflexivity. }
  destruct l as [|c l]; [now contradiction H3|]. cbv beta.
  assert (P : reads (rskip 5 ;;; read 1)
                    ((b4 (cc_code c) ++ b1 (cl_con (cc_loc c))) ++ b1 (cl_loc (cc_loc c)))
                    (cl_loc (cc_loc c))).
  { eapply reads_bind.
    - apply reads_skip. now rewrite lenN_app, !lenN_le.
    - apply reads_1. inversion H5 as [|? ? [_ K] _]. apply K. }
  eapply reads_peek; [|exact P|].
  { cbn [flat_map]. unfold ser_ccard at 1. Transparent ser_loc. unfold ser_loc at 1. Opaque ser_loc.
    rewrite <- !app_assoc. reflexivity. }
  cbn [in_limbo]. destruct (cl_loc (cc_loc c) =? 0); cbn [negb].
  - eapply reads_last; [|apply reads_ret]. apply reads_count; [reflexivity|].
    eapply Forall_impl; [|exact H5]. intros x K. unpack. unfold ser_ccard.
    eapply reads_bind; [chunk|]. eapply reads_last; [apply reads_skip, lenN_loc | apply reads_ret].
  - eapply reads_last; [|apply reads_ret]. apply reads_count; [reflexivity|].
    eapply Forall_impl; [|exact H5]. exact reads_sel.
Qed.

Lemma reads_act : forall a, cact_ok a ->
  reads (rskip 4 ;;; p <- read_loc_info ;; e <- read_effect ;; rskip 1 ;;; rret (mkActCard p e))
        (ser_cact a) (core_act a).
Proof. intros a H. unpack. unfold ser_cact, ser_ccard, core_act. rd. Qed.

Lemma low_bits : forall n, (0 <? N.land n 0x7F) = negb (n mod 128 =? 0).
Proof.
  intros n. change 0x7F with (N.ones 7). rewrite N.land_ones. change (2 ^ 7) with 128.
  destruct (N.eqb_spec (n mod 128) 0) as [->|E]; [reflexivity|].
  apply N.ltb_lt. lia.
Qed.

Lemma request_run : forall m to rq, core_ok m -> core_request m = Some (to, rq) ->
  exists k r p,
    kind_of (msg_number m) = Some k /\ event_case k = None /\ request_case k = Some r /\
    payload m = b1 to ++ p /\ is_u8 to /\ reads (r (Z.of_N to)) p rq.
Proof.
  intros m to rq K E.
  destruct m; try discriminate E.
  all: cbn [core_request] in E; inversion E; subst; clear E.
  all: eexists; eexists; eexists; split; [reflexivity | split; [reflexivity | split; [reflexivity|]]].
  all: cbn [payload]; cbn [core_ok] in K.
  all: ands; cbv beta.
  all: try (split; [reflexivity | split; [assumption|]]).
  all: unfold select_battle_r, select_idle_r.
  all: try solve [rds].
  all: try solve [unpack; unfold ser_ccard, ser_ccard4, ser_ccard1; rds].
  - (* AnnounceNumber *)
    eapply reads_last; [|apply reads_ret]. rewrite <- (map_id l) at 2.
    apply reads_list1 with (g := fun x : N => x); [assumption|].
    eapply Forall_impl; [|eassumption]. exact reads_8.
  - (* SelectCard *)
    now apply reads_select_card.
  - (* SelectTribute *)
    rds1. rds1. rds1. eapply reads_last; [|apply reads_ret]. apply reads_list4; [assumption|].
    eapply Forall_impl; [|eassumption]. intros [c n] [A B]. cbn [fst snd] in *. unpack.
    unfold ser_ccard4. rds.
  - (* SelectOption *)
    eapply reads_last; [|apply reads_ret]. rewrite <- (map_id l) at 2.
    apply reads_list1 with (g := fun x : effect => x); [assumption|].
    eapply Forall_impl; [|eassumption]. exact reads_effect.
  - (* SelectBattlecmd *)
    rds1. eapply reads_bind.
    { apply reads_list4 with
        (g := fun x : ccard * bool => mkAtkCard (core_card_place (cc_loc (fst x))) (snd x));
        [assumption|].
      eapply Forall_impl; [|eassumption]. intros [c b] A. cbn [fst snd] in *.
      eapply reads_bind; [now apply reads_listed1|]. rds. }
    rds1. rds1. rewrite phases_sum by reflexivity. apply reads_ret.
  - (* SelectIdlecmd *)
    do 9 rds1. rewrite phases_sum by reflexivity. apply reads_ret.
  - (* RockPaperScissors *)
    split; [symmetry; apply app_nil_r | split; [assumption | apply reads_ret]].
  - (* SelectChain *)
    rds1. rds1. rewrite app_assoc. eapply reads_bind.
    { apply reads_skip. now rewrite lenN_app, !lenN_le. }
    eapply reads_last.
    { apply reads_list4; [assumption|]. eapply Forall_impl; [|eassumption]. exact reads_act. }
    rewrite low_bits. apply reads_ret.
  - (* SelectPlace *)
    split; [reflexivity | split; [unfold is_u8; change (2 ^ 8) with 256; lia|]].
    rds1. rds1. rewrite N2Z.id, unpack_spec by assumption. apply reads_ret.
  - (* SelectDisfield *)
    split; [reflexivity | split; [unfold is_u8; change (2 ^ 8) with 256; lia|]].
    rds1. rds1. rewrite N2Z.id, unpack_spec by assumption. apply reads_ret.
Qed.
