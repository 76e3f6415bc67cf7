(** C51: exactly which reload messages the board takes. *)
From Verif Require Import Base BaseProofs Place Frame FrameSpec FrameInv Msg Event EventSpec Query QuerySpec.
From Verif Require Import Reader EncodeQuery Encode CoreMsg EncodeSpec ReaderProofs EncodeProofs EncodeQueryProofs EncodeE2E EncodeReload ReloadSpec.

Local Open Scope N_scope.
Local Opaque le_bytes bb bi4.

Lemma fits_ok : forall s, side_fits s -> no_mats_there s -> cside_ok s.
Proof. intros s [] B. split; assumption. Qed.
Lemma bare_dec : forall l, {Forall bare l} + {~ Forall bare l}.
Proof.
  apply Forall_dec. intros [[pos mats]|]; [|left; exact I]. cbn [bare]. apply N.eq_dec.
Qed.

Definition raw_slot (con : Z) (loc s : N) (z : czone) : list place :=
  match z with
  | None => []
  | Some (_, mats) =>
      let '(fl, fs) := core_spot loc s in
      mkPlace con fl fs (-1) :: map (fun o => mkPlace con loc s (Z.of_nat o)) (List.seq 0 (N.to_nat mats))
  end.
Fixpoint raw_row (con : Z) (loc s : N) (l : list czone) : list place :=
  match l with [] => [] | z :: l' => raw_slot con loc s z ++ raw_row con loc (s + 1) l' end.

Lemma reads_raw_slot : forall con loc s z, czone_ok z -> (loc = 0x4 \/ loc = 0x8 /\ s < 8) ->
  reads (zone_slot con loc s) (ser_czone z) (raw_slot con loc s z).
Proof.
  intros con loc s z K L. unfold zone_slot, raw_slot. destruct z as [[pos mats]|].
  - cbn in K. destruct K as [K1 K2]. cbn [ser_czone].
    assert (is_u32 mats) by (unfold is_u32; change (2 ^ 31) with 2147483648 in K2;
                             change (2 ^ 32) with 4294967296; lia).
    eapply reads_bind; [apply reads_1; reflexivity|]. cbn [N.eqb].
    eapply reads_bind; [chunk|].
    assert (E : (if loc =? LOCATION_SPELL_ZONE then fix_spell_loc_seq loc s else (loc, s)) = core_spot loc s).
    { destruct L as [->|[-> L1]].
      - now rewrite core_spot_monster.
      - cbn [N.eqb]. apply fix_spell_spec; [cbn; tauto|auto]. }
    rewrite E. destruct (core_spot loc s) as [fl fs] eqn:C.
    eapply reads_last; [chunk|]. rewrite map_of_nat_seqN by assumption. apply reads_ret.
  - cbn [ser_czone]. eapply reads_last; [apply reads_1; reflexivity|]. apply reads_ret.
Qed.
Lemma reads_raw_row : forall con loc l s, Forall czone_ok l -> (loc = 0x4 \/ loc = 0x8 /\ s + lenN l <= 8) ->
  reads (zone_slots con loc (map N.of_nat (List.seq (N.to_nat s) (length l)))) (flat_map ser_czone l) (raw_row con loc s l).
Proof.
  intros con loc l. induction l as [|z l IH]; intros s K L; cbn [length List.seq map zone_slots flat_map raw_row].
  - apply reads_ret.
  - inversion K; subst. eapply reads_bind.
    + rewrite N2Nat.id. apply reads_raw_slot; [assumption|].
      destruct L as [->|[-> L1]]; [now left|]. right. unfold lenN in L1. cbn [length] in L1. split; [reflexivity|lia].
    + eapply reads_last; [|apply reads_ret].
      replace (S (N.to_nat s)) with (N.to_nat (s + 1)) by lia. apply IH; [assumption|].
      destruct L as [->|[-> L1]]; [now left|]. right. unfold lenN in *. cbn [length] in L1. split; [reflexivity|lia].
Qed.
Definition raw_places (con : Z) (s : cside) : list place :=
  raw_row con 0x4 0 (sd_monster s) ++ raw_row con 0x8 0 (sd_spell s).
Lemma reads_raw_side : forall con s, side_fits s ->
  reads (controller_state con) (ser_cside s) (sd_lp s, raw_places con s, side_piles con s).
Proof.
  intros con s K. destruct K as [K1 [K2 K3] [K4 K5] K7]. unpack.
  unfold controller_state, ser_cside.
  eapply reads_bind; [chunk|].
  eapply reads_bind.
  { pose proof (reads_raw_row con 0x4 (sd_monster s) 0 K3 (or_introl eq_refl)) as R. rewrite K2 in R. exact R. }
  eapply reads_bind.
  { pose proof (reads_raw_row con 0x8 (sd_spell s) 0 K5) as R. rewrite K4 in R. apply R.
    right. split; [reflexivity|]. unfold lenN. rewrite K4. cbn. lia. }
  rd.
Qed.
Definition raw_state (f : N) (s0 s1 : cside) (l : list clink) : board_state :=
  mkBState (shape_of_flags f) (-1) [sd_lp s0; sd_lp s1] (map core_chain l)
    (raw_places 0 s0 ++ raw_places 1 s1) (side_piles 0 s0 ++ side_piles 1 s1).
Lemma reads_raw_reload : forall f s0 s1 l, is_u32 f -> side_fits s0 -> side_fits s1 -> short4 l -> Forall clink_ok l ->
  reads reload_event (b4 f ++ ser_cside s0 ++ ser_cside s1 ++ seq4 ser_clink l) (EvBoard (BoardState (raw_state f s0 s1 l))).
Proof.
  intros f s0 s1 l H1 H2 H3 H4 H5. unfold reload_event.
  eapply reads_bind; [chunk|].
  eapply reads_bind; [now apply reads_raw_side|].
  eapply reads_bind; [now apply reads_raw_side|].
  eapply reads_last.
  - apply reads_list4; [assumption|]. eapply Forall_impl; [|exact H5]. exact reads_chain.
  - cbv beta iota zeta. apply reads_ret.
Qed.
Lemma raw_feed : forall c f s0 s1 l rest, is_u32 f -> side_fits s0 -> side_fits s1 -> short4 l -> Forall clink_ok l ->
  feed c (ser (CmReloadField f s0 s1 l) ++ rest) =
  let! b := pparse card0 (EvBoard (BoardState (raw_state f s0 s1 l))) (cx_board c) in Ok (set_board b c).
Proof.
  intros c f s0 s1 l rest H1 H2 H3 H4 H5. eapply feed_event.
  rewrite (encode_reads (CmReloadField f s0 s1 l) KReloadField c (v_event (EvBoard (BoardState (raw_state f s0 s1 l)))) c); [reflexivity|reflexivity|].
  unfold dispatch. cbn [event_case]. eapply reads_last; [cbn [payload]; now apply reads_raw_reload|apply reads_ret].
Qed.

(** A material of the field zone or a pendulum zone has a place no card can be
    added at. *)
Lemma bad_add : forall con s o (f : frame card), 5 <= s -> forall x, card_add card0 (mkPlace con 0x8 s (Z.of_nat o)) f <> Ok x.
Proof.
  intros con s o f G x H. unfold card_add in H. destruct (construct_card card0 f) as [c f1].
  apply obind_Ok in H. destruct H as (L & E & _). unfold card_insert in E. change (is_pile (mkPlace con 8 s (Z.of_nat o))) with false in E. cbv iota in E.
  apply obind_Ok in E. destruct E as (r & E & _). unfold zone_of, zone_ref in E. cbn [p_con p_loc p_seq] in E.
  apply obind_Ok in E. destruct E as (t & _ & E). apply obind_Ok in E. destruct E as (lim & Li & E). 
  assert (lim = 5) by (vm_compute in Li; congruence). subst lim.
  assert ((s <? 5) = false) as B by (apply N.ltb_ge; exact G). rewrite B in E. discriminate E.
Qed.
Lemma fold_each : forall A S (f : A -> S -> outcome S) l s s', ofold f l s = Ok s' -> forall x, In x l -> exists s1 s2, f x s1 = Ok s2.
Proof.
  induction l as [|y l IH]; intros s s' H x I; [destruct I|]. cbn [ofold] in H. apply obind_Ok in H. destruct H as (s1 & E & H).
  destruct I as [<-|I]; [eauto|]. eapply IH; eassumption.
Qed.
Lemma raw_row_mats : forall con l s k pos mats, nth_error l k = Some (Some (pos, mats)) -> mats <> 0 ->
  In (mkPlace con 0x8 (s + N.of_nat k) (Z.of_nat 0)) (raw_row con 0x8 s l).
Proof.
  induction l as [|z l IH]; intros s k pos mats H N0; [destruct k; discriminate H|]. cbn [raw_row]. apply in_or_app. destruct k as [|k]; cbn [nth_error] in H.
  - left. assert (z = Some (pos, mats)) as -> by congruence. unfold raw_slot. destruct (core_spot 8 s) as [fl fs]. right.
    rewrite N.add_0_r. apply in_map_iff. exists 0%nat. split; [reflexivity|]. apply in_seq. lia.
  - right. replace (s + N.of_nat (S k)) with (s + 1 + N.of_nat k) by lia. eapply IH; eassumption.
Qed.
Lemma not_bare : forall l, ~ Forall bare l -> exists k pos mats, nth_error l k = Some (Some (pos, mats)) /\ mats <> 0.
Proof.
  induction l as [|z l IH]; intros H; [destruct H; constructor|].
  destruct z as [[pos mats]|].
  - destruct (N.eq_dec mats 0) as [->|Ne]; [|exists 0%nat, pos, mats; auto].
    destruct IH as (k & p & m & E & N0); [intros F; apply H; constructor; [reflexivity|exact F]|]. exists (S k), p, m. auto.
  - destruct IH as (k & p & m & E & N0); [intros F; apply H; constructor; [exact I|exact F]|]. exists (S k), p, m. auto.
Qed.
Lemma nth_skipn : forall A n (l : list A) k, nth_error (skipn n l) k = nth_error l (n + k).
Proof. induction n as [|n IH]; intros l k; [reflexivity|]. destruct l as [|x l]; [destruct k; reflexivity|]. cbn [skipn Nat.add nth_error]. apply IH. Qed.
Lemma side_bad : forall con s, ~ no_mats_there s -> exists q, 5 <= q /\ In (mkPlace con 0x8 q (Z.of_nat 0)) (raw_places con s).
Proof.
  intros con s H. apply not_bare in H. destruct H as (k & pos & mats & E & N0). rewrite nth_skipn in E.
  exists (0 + N.of_nat (5 + k)). split; [lia|]. unfold raw_places. apply in_or_app. right. eapply raw_row_mats; eassumption.
Qed.

Theorem reload_takes : forall c f s0 s1 l rest c', is_u32 f -> side_fits s0 -> side_fits s1 -> short4 l -> Forall clink_ok l ->
  feed c (ser (CmReloadField f s0 s1 l) ++ rest) = Ok c' -> no_mats_there s0 /\ no_mats_there s1.
Proof.
  intros c f s0 s1 l rest c' H1 H2 H3 H4 H5 H. rewrite raw_feed in H by assumption. apply obind_Ok in H. destruct H as (b & E & _).
  assert (A : exists x y, ofold (fo_add (plain_fo card0)) (raw_places 0 s0 ++ raw_places 1 s1) x = Ok y).
  { unfold pparse in E. cbn [parse_event] in E. unfold parse_state in E. cbv zeta in E.
    apply obind_Ok in E. destruct E as (? & _ & E). apply obind_Ok in E. destruct E as (? & _ & E).
    apply obind_Ok in E. destruct E as (? & _ & E). apply obind_Ok in E. destruct E as (? & _ & E).
    unfold on_frame in E. apply obind_Ok in E. destruct E as (? & E & _). apply obind_Ok in E. destruct E as (? & _ & E).
    apply obind_Ok in E. destruct E as (y & E & _). unfold do_adds in E. cbn [bs_add raw_state] in E. eauto. }
  destruct A as (x & y & A). pose proof (fold_each _ _ _ _ _ _ A) as Each.
  assert (Bad : forall con q, 5 <= q -> ~ In (mkPlace con 0x8 q (Z.of_nat 0)) (raw_places 0 s0 ++ raw_places 1 s1)).
  { intros con q G I0. destruct (Each _ I0) as (t1 & t2 & X). cbn [plain_fo fo_add] in X. apply obind_Ok in X. destruct X as (z & X & _).
    exact (bad_add _ _ _ _ G _ X). }
  split; (match goal with |- no_mats_there ?s => destruct (bare_dec (skipn 5 (sd_spell s))) as [B|B]; [exact B|exfalso] end).
  - destruct (side_bad 0%Z s0 B) as (q & G & I0). apply (Bad 0%Z _ G). apply in_or_app. left. exact I0.
  - destruct (side_bad 1%Z s1 B) as (q & G & I0). apply (Bad 1%Z _ G). apply in_or_app. right. exact I0.
Qed.
