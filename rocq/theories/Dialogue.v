(** Proofs about dialogues. *)
From Verif Require Import Base BaseProofs BitSpec Place Msg CoreMsg Decode DecodeSpec
  DecodeProofs DialogueSpec.

Set Implicit Arguments.
Local Open Scope N_scope.

(** ** Numbers *)
Lemma u32_heard : forall n, n < 2 ^ 32 -> core_u32 (wrote 4 (Z.of_N n)) = Some n.
Proof. intros n H. unfold core_u32. rewrite wrote_length. cbn [Nat.eqb]. now rewrite uval_nat. Qed.
Lemma i32_heard : forall z, is_i32 z -> core_i32 (wrote 4 z) = Some z.
Proof. intros z H. unfold core_i32. rewrite wrote_length. cbn [Nat.eqb]. now rewrite sval_i32. Qed.
Lemma pass_cards : core_cards (wrote 4 (-1)) = Some Declined.
Proof. reflexivity. Qed.
Lemma pass_one_card : core_one_card (wrote 4 (-1)) = Some Declined.
Proof. reflexivity. Qed.
Lemma pass_order : core_order (wrote 4 (-1)) = Some Declined.
Proof. reflexivity. Qed.
Lemma some_bits_le : forall n avail x, some_bits n avail x -> x <= avail.
Proof. intros n avail x [_ [_ H]]. now apply N.ldiff_le. Qed.
Lemma bit_le : forall k avail, N.testbit avail k = true -> 2 ^ k <= avail.
Proof.
  intros k avail H. destruct (N.le_gt_cases (2 ^ k) avail) as [L|L]; [exact L|].
  destruct (N.eq_dec avail 0) as [->|NZ]; [now rewrite N.bits_0 in H|].
  rewrite N.bits_above_log2 in H; [discriminate|]. apply N.log2_lt_pow2; [lia|exact L].
Qed.
Lemma lenN_map : forall A B (f : A -> B) l, lenN (map f l) = lenN l.
Proof. intros. unfold lenN. now rewrite map_length. Qed.

Lemma chain_heard : forall i, i < 2 ^ 32 - 1 ->
  (match core_i32 (wrote 4 (Z.of_N i)), core_u32 (wrote 4 (Z.of_N i)) with
   | Some z, Some n => Some (if (z =? -1)%Z then MvPass else MvIndex n)
   | _, _ => None
   end) = Some (MvIndex i).
Proof.
  intros i H. rewrite u32_heard by lia. unfold core_i32. rewrite wrote_length. cbn [Nat.eqb].
  assert (S : (sval (wrote 4 (Z.of_N i)) =? -1)%Z = false); [|now rewrite S].
  apply Z.eqb_neq. unfold sval. rewrite uval_nat by (change (2 ^ (8 * N.of_nat 4)) with (2 ^ 32); lia).
  rewrite wrote_length. cbv zeta. change (2 ^ (8 * Z.of_nat 4))%Z with (2 ^ 32)%Z.
  destruct (Z.ltb_spec (2 * Z.of_N i) (2 ^ 32)); lia.
Qed.

(** ** Commands *)
Lemma command_back : forall battle c t, command_code battle c = Some t -> command_of battle t = Some c.
Proof. intros [] [] t H; try discriminate H; inversion H; reflexivity. Qed.
Lemma command_heard : forall ri a c i t out, stands_for a c i -> i < 2 ^ 16 ->
  command_code (si_is_battle_cmd ri) c = Some t ->
  exists bs, decode_one_answer (RqIdle ri) (AnIdle a) out = Ok bs /\
    heard_command (si_is_battle_cmd ri) bs = Some (MvCommand c i).
Proof.
  intros ri a c i t out S I C. destruct (command_run _ _ _ _ _ out S I C) as [bs [D E]].
  exists bs. split; [exact D|]. unfold heard_command. rewrite E. now rewrite (command_back _ _ C).
Qed.

(** ** Zones *)
Lemma zone_heard : forall who b p, who < 2 -> In (b, p) (mask_table who) -> p_loc p = 0x4 \/ p_loc p = 0x8 ->
  exists c l s, wrote_place p = [c; l; s] /\ zone_bit who c l s = Some b.
Proof.
  intros who b p W I P. assert (E : who = 0 \/ who = 1) by lia.
  destruct E; subst who; unfold mask_table in I; cbn in I;
    repeat (destruct I as [I|I]; [inversion I; subst b p; clear I|]); try contradiction;
    try (destruct P as [P|P]; discriminate P); do 3 eexists; split; reflexivity.
Qed.
Lemma zones_heard : forall who ps bs, who < 2 -> Forall2 (fun p b => In (b, p) (mask_table who)) ps bs ->
  Forall (fun p => p_loc p = 0x4 \/ p_loc p = 0x8) ps ->
  heard_zones who (flat_map wrote_place ps) = Some bs.
Proof.
  intros who ps bs W H. induction H as [|p b ps bs I H IH]; intros F; [reflexivity|].
  inversion F as [|? ? P F']; subst. destruct (zone_heard W I P) as [c [l [s [E Z]]]].
  cbn [flat_map]. rewrite E. cbn [app heard_zones]. now rewrite Z, IH.
Qed.
Lemma table_fun : forall who b p p', who < 2 -> In (b, p) (mask_table who) -> In (b, p') (mask_table who) -> p = p'.
Proof.
  intros who b p p' W I J. assert (E : who = 0 \/ who = 1) by lia.
  destruct E; subst who; unfold mask_table in I, J; cbn in I, J;
    repeat (destruct I as [I|I]; [inversion I; subst b p; clear I|]); try contradiction;
    repeat (destruct J as [J|J]; [first [discriminate J | now inversion J]|]); contradiction.
Qed.
Lemma table_inj : forall who b b' p, who < 2 -> In (b, p) (mask_table who) -> In (b', p) (mask_table who) -> b = b'.
Proof.
  intros who b b' p W I J. assert (E : who = 0 \/ who = 1) by lia.
  destruct E; subst who; unfold mask_table in I, J; cbn in I, J;
    repeat (destruct I as [I|I]; [inversion I; subst b p; clear I|]); try contradiction;
    repeat (destruct J as [J|J]; [first [discriminate J | now inversion J]|]); contradiction.
Qed.
Lemma In_right : forall A B (R : A -> B -> Prop) l l' y, Forall2 R l l' -> In y l' -> exists x, In x l /\ R x y.
Proof.
  intros A B R l l' y H. induction H as [|a b l l' X H IH]; intros I; [destruct I|].
  destruct I as [->|I]; [exists a; cbn; auto|]. destruct (IH I) as [x [J K]]. exists x. cbn. auto.
Qed.
Lemma NoDup_right : forall A B (R : A -> B -> Prop), (forall a a' b, R a b -> R a' b -> a = a') ->
  forall l l', Forall2 R l l' -> NoDup l -> NoDup l'.
Proof.
  intros A B R F l l' H. induction H as [|a b l l' X H IH]; intros N; [constructor|].
  inversion N as [|? ? NI N']; subst. constructor; [|auto].
  intros J. destruct (In_right _ H J) as [x [K L]]. rewrite (F _ _ _ X L) in NI. contradiction.
Qed.
Lemma Forall2_lenN : forall A B (R : A -> B -> Prop) l l', Forall2 R l l' -> lenN l = lenN l'.
Proof.
  intros A B R l l' H. unfold lenN. f_equal. induction H; cbn; congruence.
Qed.
Lemma Forall2_swap : forall A B (R : A -> B -> Prop) l l', Forall2 R l l' -> Forall2 (fun b a => R a b) l' l.
Proof. intros A B R l l' H. induction H; auto. Qed.
Lemma clear_in : forall mask who p, In p (clear_zones mask who) ->
  exists b, In (b, p) (mask_table who) /\ N.testbit mask b = false.
Proof.
  intros mask who p H. unfold clear_zones in H. apply in_map_iff in H. destruct H as [[b q] [E I]].
  cbn in E. subst q. apply filter_In in I. destruct I as [I T]. exists b. split; [exact I|].
  now apply Bool.negb_true_iff in T.
Qed.
Lemma in_clear : forall mask who p b, In (b, p) (mask_table who) -> N.testbit mask b = false ->
  In p (clear_zones mask who).
Proof.
  intros mask who p b I T. unfold clear_zones. apply in_map_iff. exists (b, p). split; [reflexivity|].
  apply filter_In. split; [exact I|]. cbn. now rewrite T.
Qed.
Lemma table_bits : forall who, map fst (mask_table who) = map fst (mask_table 0).
Proof. reflexivity. Qed.

Definition free_zones (mask n : N) (bs : list N) : Prop :=
  NoDup bs /\ lenN bs = n /\
  Forall (fun b => In b (map fst (mask_table 0)) /\ N.testbit mask b = false) bs.

Lemma zones_bits : forall mask who n ps, who < 2 ->
  NoDup ps -> lenN ps = n -> Forall (fun p => In p (clear_zones mask who)) ps ->
  exists bs, Forall2 (fun p b => In (b, p) (mask_table who)) ps bs /\ free_zones mask n bs.
Proof.
  intros mask who n ps W ND L F.
  assert (E : exists bs, Forall2 (fun p b => In (b, p) (mask_table who)) ps bs /\
    Forall (fun b => In b (map fst (mask_table 0)) /\ N.testbit mask b = false) bs).
  { clear ND L. induction F as [|p ps I F [bs [H G]]]; [exists []; auto|].
    destruct (clear_in _ _ _ I) as [b [J T]]. exists (b :: bs). split; constructor; auto.
    split; [|exact T]. rewrite <- (table_bits who). change b with (fst (b, p)). now apply in_map. }
  destruct E as [bs [H G]]. exists bs. split; [exact H|]. split; [|split; [|exact G]].
  - revert H ND. apply NoDup_right. intros. eapply table_fun; eauto.
  - now rewrite <- (Forall2_lenN H).
Qed.
Lemma bits_zones : forall mask who n bs, who < 2 -> free_zones mask n bs ->
  exists ps, Forall2 (fun p b => In (b, p) (mask_table who)) ps bs /\
    NoDup ps /\ lenN ps = n /\ Forall (fun p => In p (clear_zones mask who)) ps.
Proof.
  intros mask who n bs W [ND [L F]].
  assert (E : exists ps, Forall2 (fun p b => In (b, p) (mask_table who)) ps bs /\
    Forall (fun p => In p (clear_zones mask who)) ps).
  { clear ND L. induction F as [|b bs [I T] F [ps [H G]]]; [exists []; auto|].
    rewrite <- (table_bits who) in I. apply in_map_iff in I. destruct I as [[b' p] [E I]]. cbn in E. subst b'.
    exists (p :: ps). split; constructor; auto. eapply in_clear; eauto. }
  destruct E as [ps [H G]]. exists ps. split; [exact H|]. split; [|split; [|exact G]].
  - apply Forall2_swap in H. revert H ND. apply NoDup_right. intros. eapply table_inj; eauto.
  - now rewrite (Forall2_lenN H).
Qed.

(** ** Both directions *)
Lemma cards_understood : forall rq l out, l <> [] -> lenN l < 2 ^ 31 -> Forall (fun i => i < 2 ^ 16) l ->
  match rq with RqCard (ScRecursive _ _ _ _ _ _) => False | RqCard _ => True | _ => False end ->
  exists bs, decode_one_answer rq (AnCard (AcIndexes l)) out = Ok bs /\ core_cards bs = Some (Chosen l).
Proof.
  intros rq l out NE L F R. rewrite cards_run by assumption. eexists. split; [reflexivity|].
  now apply core_cards_run.
Qed.
Lemma order_small : forall size l, an_order size l -> lenN l < 255 -> Forall (fun i => i < 256) l.
Proof.
  intros size l [[_ F] E] L. revert F. apply Forall_impl. intros i H. lia.
Qed.
Lemma sort_understood : forall rq size l out, an_order size l -> lenN l < 255 ->
  exists bs, decode_one_answer rq (AnSort (AsIndexes l)) out = Ok bs /\ core_order bs = Some (Chosen l).
Proof.
  intros rq size l out O L. rewrite sort_run. eexists. split; [reflexivity|].
  apply core_order_run; [exact L|]. eapply order_small; eauto.
Qed.

Lemma understood : forall m to rq a out, core_ok m -> core_request m = Some (to, rq) -> picks rq a -> fits a ->
  exists bs v, decode_one_answer rq a out = Ok bs /\ heard m bs = Some v /\ means m a v /\ allowed m v.
Proof.
  intros m who rq a out K E P F.
  destruct m; try discriminate E; cbn [core_request] in E; injection E as <- <-; cbn [core_ok] in K.
  - (* attributes *)
    destruct a; try contradiction P. cbn [picks] in P. cbn [decode_one_answer]. rewrite response_run.
    do 2 eexists. split; [reflexivity|]. cbn [heard]. rewrite u32_heard.
    2: { pose proof (some_bits_le P). destruct K as [_ [_ K]]. unfold is_u32 in K. lia. }
    split; [reflexivity|]. split; [reflexivity|exact P].
  - (* races *)
    destruct a; try contradiction P. cbn [picks] in P. cbn [fits] in F. cbn [decode_one_answer]. rewrite response_run.
    do 2 eexists. split; [reflexivity|]. cbn [heard]. rewrite wrote_length. cbn [Nat.leb].
    rewrite uval_nat by exact F.
    split; [reflexivity|]. split; [reflexivity|exact P].
  - (* numbers *)
    destruct a; try contradiction P. cbn [picks] in P. cbn [decode_one_answer]. rewrite response_run.
    do 2 eexists. split; [reflexivity|]. cbn [heard]. destruct K as [_ [K _]]. unfold short1 in K.
    rewrite u32_heard by lia.
    split; [reflexivity|]. split; [reflexivity|exact P].
  - (* cards *)
    set (rq := if in_limbo cards then _ else _) in P |- *.
    assert (R : match rq with ScRecursive _ _ _ _ _ _ => False | _ => True end).
    { unfold rq. destruct (in_limbo cards); exact Logic.I. }
    assert (Q : match a with
                | AnCard (AcIndexes is) => some_cards (lenN cards) is /\ between min max is
                | AnCard AcCancel => cancel = true
                | _ => False
                end).
    { unfold rq in P. destruct (in_limbo cards), a as [| |[]| | | | | | | | | | | |]; try contradiction P; cbn [picks] in P;
        unfold codes_at in P; rewrite ?lenN_map in P; exact P. }
    destruct a as [| |[| | |is]| | | | | | | | | | | |]; try contradiction Q.
    + cbn [decode_one_answer decode_card]. rewrite response_run. do 2 eexists. split; [reflexivity|].
      cbn [heard]. rewrite pass_cards. split; [reflexivity|]. split; [exact Logic.I|exact Q].
    + destruct F as [F1 [F2 F3]].
      destruct (cards_understood (RqCard rq) out F1 F2 F3) as [bs [D C]]; [destruct rq; auto|].
      do 2 eexists. split; [exact D|]. cbn [heard]. rewrite C. split; [reflexivity|].
      split; [reflexivity|exact Q].
  - (* one card *)
    destruct a as [| |[| | |[|i [|]]]| | | | | | | | | | | |]; try contradiction P; cbn [picks] in P.
    + cbn [decode_one_answer decode_card]. rewrite response_run. do 2 eexists. split; [reflexivity|].
      cbn [heard]. rewrite pass_one_card. split; [reflexivity|]. split; [exact Logic.I|]. right. exact P.
    + cbn [decode_one_answer decode_card]. rewrite response_run. do 2 eexists. split; [reflexivity|].
      cbn [heard]. rewrite pass_one_card. split; [reflexivity|]. split; [exact Logic.I|]. left. exact P.
    + destruct F as [F1 [F2 F3]]. inversion F3 as [|? ? F4 _]; subst. rewrite one_card_run.
      do 2 eexists. split; [reflexivity|]. cbn [heard]. rewrite core_one_card_run by lia.
      split; [reflexivity|]. split; [reflexivity|]. unfold codes_at in P. rewrite !lenN_map in P. exact P.
  - (* tributes *)
    destruct a as [| |[| | |is]| | | | | | | | | | | |]; try contradiction P; cbn [picks] in P.
    + cbn [decode_one_answer decode_card]. rewrite response_run. do 2 eexists. split; [reflexivity|].
      cbn [heard]. rewrite pass_cards. split; [reflexivity|]. split; [exact Logic.I|exact P].
    + destruct F as [F1 [F2 F3]].
      match goal with |- exists bs v, decode_one_answer ?r _ _ = _ /\ _ =>
        destruct (cards_understood r out F1 F2 F3) as [bs [D C]]; [exact Logic.I|] end.
      do 2 eexists. split; [exact D|]. cbn [heard]. rewrite C. split; [reflexivity|]. split; [reflexivity|].
      rewrite lenN_map, map_map in P. exact P.
  - (* options *)
    destruct a; try contradiction P. cbn [picks] in P. cbn [decode_one_answer]. rewrite response_run.
    do 2 eexists. split; [reflexivity|]. cbn [heard]. destruct K as [_ [K _]]. unfold short1 in K.
    rewrite u32_heard by lia.
    split; [reflexivity|]. split; [reflexivity|exact P].
  - (* battle commands *)
    destruct a as [| | | | | |i| | | | | | | |]; try contradiction P. cbn [picks] in P.
    match type of P with context [si_activable ?r] => set (ri := r) in * end.
    assert (Q : exists c x, stands_for i c x /\ x < 2 ^ 16 /\ allowed (CmSelectBattlecmd to acts atks mp2 ep) (MvCommand c x)).
    { subst ri. destruct i as [| |p|act x]; [contradiction|discriminate P| |].
      - destruct P as [I L]. cbn in I. cbn [si_phase] in L.
        destruct I as [<-|[<-|[<-|[]]]]; destruct mp2, ep; cbn in L; try discriminate L;
          (eexists; eexists; split; [constructor|split; [reflexivity|split; reflexivity]]).
      - cbn [fits] in F.
        destruct act as [|[[[]|[]|]|[[]|[]|]|]|]; cbn [si_activable si_summonable si_spsummonable si_repositionable si_msetable si_ssetable si_can_attack] in P; try contradiction P;
          rewrite ?lenN_map in P; try (unfold lenN in P; cbn in P; lia);
          (eexists; eexists; split; [constructor|split; [exact F|exact P]]). }
    destruct Q as [c [x [S [X A]]]].
    assert (C : exists t, command_code (si_is_battle_cmd ri) c = Some t).
    { subst ri. cbn [si_is_battle_cmd]. destruct c; try contradiction A; eexists; reflexivity. }
    destruct C as [t C]. destruct (command_heard ri out S X C) as [bs [D H]].
    exists bs. eexists. split; [exact D|]. split; [exact H|]. split; [exact S|exact A].
  - (* idle commands *)
    destruct a as [| | | | | |i| | | | | | | |]; try contradiction P. cbn [picks] in P.
    match type of P with context [si_activable ?r] => set (ri := r) in * end.
    assert (Q : exists c x, stands_for i c x /\ x < 2 ^ 16 /\
      allowed (CmSelectIdlecmd to summon spsummon repos mset sset acts bp ep shuffle) (MvCommand c x)).
    { subst ri. destruct i as [| |p|act x]; [contradiction| | |].
      - eexists; eexists; split; [constructor|split; [reflexivity|split; [exact P|reflexivity]]].
      - destruct P as [I L]. cbn in I. cbn [si_phase] in L.
        destruct I as [<-|[<-|[<-|[]]]]; destruct bp, ep; cbn in L; try discriminate L;
          (eexists; eexists; split; [constructor|split; [reflexivity|split; reflexivity]]).
      - cbn [fits] in F.
        destruct act as [|[[[]|[]|]|[[]|[]|]|]|]; cbn [si_activable si_summonable si_spsummonable si_repositionable si_msetable si_ssetable si_can_attack] in P; try contradiction P;
          unfold places_of in P;
          rewrite ?lenN_map in P; try (unfold lenN in P; cbn in P; lia);
          (eexists; eexists; split; [constructor|split; [exact F|exact P]]). }
    destruct Q as [c [x [S [X A]]]].
    assert (C : exists t, command_code (si_is_battle_cmd ri) c = Some t).
    { subst ri. cbn [si_is_battle_cmd]. destruct c; try contradiction A; eexists; reflexivity. }
    destruct C as [t C]. destruct (command_heard ri out S X C) as [bs [D H]].
    exists bs. eexists. split; [exact D|]. split; [exact H|]. split; [exact S|exact A].
  - (* positions *)
    destruct a; try contradiction P. cbn [picks] in P. cbn [decode_one_answer]. rewrite response_run.
    do 2 eexists. split; [reflexivity|]. cbn [heard]. rewrite u32_heard.
    2: { destruct P as [k [-> P]]. apply bit_le in P. destruct K as [_ [_ K]]. unfold is_u8 in K. lia. }
    split; [reflexivity|]. split; [reflexivity|exact P].
  - (* rock, paper, scissors *)
    destruct a; try contradiction P. cbn [picks] in P. cbn [decode_one_answer]. rewrite response_run.
    do 2 eexists. split; [reflexivity|]. cbn [heard]. rewrite i32_heard by (unfold is_i32; lia).
    split; [reflexivity|]. split; [reflexivity|exact P].
  - (* chains *)
    destruct a as [| | | | | | | | | | |[| |i]| | |]; try contradiction P; cbn [picks] in P;
      cbn [decode_one_answer]; rewrite response_run.
    + do 2 eexists. split; [reflexivity|]. split; [reflexivity|]. split; [exact Logic.I|exact P].
    + rewrite lenN_map in P. destruct K as [_ [_ [_ [_ [K _]]]]]. unfold short4 in K.
      do 2 eexists. split; [reflexivity|]. cbn [heard]. rewrite chain_heard by lia.
      split; [reflexivity|]. split; [reflexivity|exact P].
  - (* using an effect *)
    destruct a as [| | | | | | | | | | | |b| |]; try contradiction P. cbn [decode_one_answer]. rewrite response_run.
    exists (wrote 4 (if b then 1 else 0)), (MvYes b). destruct b; repeat split.
  - (* yes or no *)
    destruct a as [| | | | | | | | | | | |b| |]; try contradiction P. cbn [decode_one_answer]. rewrite response_run.
    exists (wrote 4 (if b then 1 else 0)), (MvYes b). destruct b; repeat split.
  - (* zones *)
    destruct a; try contradiction P. cbn [picks] in P. destruct P as [P1 [P2 P3]]. destruct K as [W _].
    destruct (zones_bits _ W P1 P2 P3) as [bs [B G]].
    rewrite zone_run. do 2 eexists. split; [reflexivity|]. cbn [heard].
    rewrite (zones_heard W B F). split; [reflexivity|]. split; [exact B|exact G].
  - (* zones to be blocked *)
    destruct a; try contradiction P. cbn [picks] in P. destruct P as [P1 [P2 P3]]. destruct K as [W _].
    destruct (zones_bits _ W P1 P2 P3) as [bs [B G]].
    rewrite zone_run. do 2 eexists. split; [reflexivity|]. cbn [heard].
    rewrite (zones_heard W B F). split; [reflexivity|]. split; [exact B|exact G].
  - (* order of chain links *)
    destruct a as [| | | | | | | | | | | | | |[| |o]]; try contradiction P; cbn [picks] in P.
    + cbn [decode_one_answer decode_sort]. rewrite response_run. do 2 eexists. split; [reflexivity|].
      cbn [heard]. rewrite pass_order. repeat split.
    + unfold places_of in P. rewrite lenN_map in P.
      match goal with |- exists bs v, decode_one_answer ?r _ _ = _ /\ _ =>
        destruct (sort_understood r out P F) as [bs [D C]] end.
      do 2 eexists. split; [exact D|]. cbn [heard]. rewrite C. split; [reflexivity|]. split; [reflexivity|exact P].
  - (* order of cards *)
    destruct a as [| | | | | | | | | | | | | |[| |o]]; try contradiction P; cbn [picks] in P.
    + cbn [decode_one_answer decode_sort]. rewrite response_run. do 2 eexists. split; [reflexivity|].
      cbn [heard]. rewrite pass_order. repeat split.
    + unfold places_of in P. rewrite lenN_map in P.
      match goal with |- exists bs v, decode_one_answer ?r _ _ = _ /\ _ =>
        destruct (sort_understood r out P F) as [bs [D C]] end.
      do 2 eexists. split; [exact D|]. cbn [heard]. rewrite C. split; [reflexivity|]. split; [reflexivity|exact P].
Qed.

Lemma offered : forall m to rq v, core_ok m -> core_request m = Some (to, rq) -> allowed m v ->
  exists a, picks rq a /\ means m a v.
Proof.
  intros m who rq v K E A.
  destruct m; try discriminate E; cbn [core_request] in E; injection E as <- <-; cbn [core_ok] in K;
    destruct v as [x|i|p|h|b| |is|c i|bs|o]; try contradiction A.
  - exists (AnAttribute x). split; [exact A|reflexivity].
  - exists (AnRace x). split; [exact A|reflexivity].
  - exists (AnNumber i). split; [exact A|reflexivity].
  - exists (AnCard AcCancel). split; [|exact Logic.I]. destruct (in_limbo cards); exact A.
  - exists (AnCard (AcIndexes is)). split; [|reflexivity].
    destruct (in_limbo cards); cbn [picks]; unfold codes_at; rewrite lenN_map; exact A.
  - destruct A as [A|A]; [exists (AnCard AcFinish)|exists (AnCard AcCancel)]; split; try exact Logic.I; exact A.
  - destruct is as [|i [|]]; try contradiction A. exists (AnCard (AcIndexes [i])). split; [|reflexivity].
    cbn [picks]. unfold codes_at. rewrite !lenN_map. exact A.
  - exists (AnCard AcCancel). split; [exact A|exact Logic.I].
  - exists (AnCard (AcIndexes is)). split; [|reflexivity]. cbn [picks]. rewrite lenN_map, map_map. exact A.
  - exists (AnEffect i). split; [exact A|reflexivity].
  - destruct c; try contradiction A; cbn [allowed] in A.
    + exists (AnIdle (AiAction 0 i)). split; [|constructor]. cbn. rewrite lenN_map. exact A.
    + exists (AnIdle (AiAction 6 i)). split; [|constructor]. cbn. rewrite lenN_map. exact A.
    + destruct A as [-> ->]. exists (AnIdle (AiPhase 0x100)). split; [|constructor].
      cbn. split; [auto|]. destruct ep; reflexivity.
    + destruct A as [-> ->]. exists (AnIdle (AiPhase 0x200)). split; [|constructor].
      cbn. split; [auto|]. destruct mp2; reflexivity.
  - destruct c; try contradiction A; cbn [allowed] in A.
    + exists (AnIdle (AiAction 0 i)). split; [|constructor]. cbn. rewrite lenN_map. exact A.
    + exists (AnIdle (AiAction 1 i)). split; [|constructor]. cbn. unfold places_of. rewrite lenN_map. exact A.
    + exists (AnIdle (AiAction 2 i)). split; [|constructor]. cbn. unfold places_of. rewrite lenN_map. exact A.
    + exists (AnIdle (AiAction 3 i)). split; [|constructor]. cbn. unfold places_of. rewrite lenN_map. exact A.
    + exists (AnIdle (AiAction 4 i)). split; [|constructor]. cbn. unfold places_of. rewrite lenN_map. exact A.
    + exists (AnIdle (AiAction 5 i)). split; [|constructor]. cbn. unfold places_of. rewrite lenN_map. exact A.
    + destruct A as [-> ->]. exists (AnIdle (AiPhase 0x80)). split; [|constructor].
      cbn. split; [auto|]. destruct ep; reflexivity.
    + destruct A as [-> ->]. exists (AnIdle (AiPhase 0x200)). split; [|constructor].
      cbn. split; [auto|]. destruct bp; reflexivity.
    + destruct A as [-> ->]. exists (AnIdle AiShuffle). split; [reflexivity|constructor].
  - exists (AnPosition p). split; [exact A|reflexivity].
  - exists (AnRps h). split; [exact A|reflexivity].
  - exists (AnToChain (AtIndex i)). split; [|reflexivity]. cbn [picks]. rewrite lenN_map. exact A.
  - exists (AnToChain AtNoOp). split; [exact A|exact Logic.I].
  - exists (AnYesNo b). split; [exact Logic.I|reflexivity].
  - exists (AnYesNo b). split; [exact Logic.I|reflexivity].
  - destruct K as [W _]. destruct (bits_zones W A) as [ps [B G]]. exists (AnZone ps). split; [exact G|exact B].
  - destruct K as [W _]. destruct (bits_zones W A) as [ps [B G]]. exists (AnZone ps). split; [exact G|exact B].
  - exists (AnSort AsSkip). split; exact Logic.I.
  - exists (AnSort (AsIndexes o)). split; [|reflexivity]. cbn [picks]. unfold places_of. rewrite lenN_map. exact A.
  - exists (AnSort AsSkip). split; exact Logic.I.
  - exists (AnSort (AsIndexes o)). split; [|reflexivity]. cbn [picks]. unfold places_of. rewrite lenN_map. exact A.
Qed.

(** An answer has one meaning. *)
Lemma means_one : forall m a v v', core_ok m -> means m a v -> means m a v' -> v = v'.
Proof.
  intros m a v v' K H H'.
  destruct a as [|x|[| | |l]|x|x|x|i|x|x|x|h|[| |x]|b|ps|[| |l]]; destruct v; try contradiction H;
    destruct v'; try contradiction H'; cbn [means] in H, H'; try congruence.
  - destruct H; inversion H'; reflexivity.
  - f_equal.
    assert (Z : forall who, who < 2 -> Forall2 (fun p b => In (b, p) (mask_table who)) ps bits ->
      Forall2 (fun p b => In (b, p) (mask_table who)) ps bits0 -> bits = bits0).
    { clear. intros who W H. revert bits0. induction H as [|p b ps bs I H IH]; intros bs' H'; inversion H'; subst; auto.
      f_equal; [eapply table_inj; eauto|auto]. }
    destruct m; try contradiction H; destruct K as [W _]; eapply Z; eauto.
Qed.

(** ** Bytes *)
Definition bytes (l : list N) : Prop := Forall (fun b => b < 256) l.
Lemma wrote_bytes : forall w v, bytes (wrote w v).
Proof.
  intros w v. unfold wrote. generalize (of_signed (8 * N.of_nat w) v) as n. induction w as [|w IH]; intros n; cbn [le_bytes]; constructor.
  - apply N.mod_lt. discriminate.
  - apply IH.
Qed.
Lemma bytes_app : forall a b, bytes a -> bytes b -> bytes (a ++ b).
Proof. intros. unfold bytes. apply Forall_app. auto. Qed.
Lemma bytes_flat : forall A (f : A -> list N) l, (forall x, bytes (f x)) -> bytes (flat_map f l).
Proof. intros A f l H. induction l; cbn [flat_map]; [constructor|]. apply bytes_app; auto. Qed.
Lemma Ok_inj : forall A (a b : A), Ok a = Ok b -> b = a.
Proof. congruence. Qed.
Lemma decode_bytes : forall rq a out bs, decode_one_answer rq a out = Ok bs -> bytes out -> bytes bs.
Proof.
  intros rq a out bs H B.
  assert (R : forall v o, response_i v out = Ok o -> bytes o).
  { intros v o E. rewrite response_run in E. apply Ok_inj in E. subst o. apply wrote_bytes. }
  destruct a as [|x|c|x|x|x|i|x|x|x|h|[| |x]|b|ps|[| |l]];
    try (cbn [decode_one_answer] in H; first [now apply R in H | now inversion H; subst]).
  - destruct c as [| | |l]; try (cbn [decode_one_answer decode_card] in H; first [now apply R in H | now inversion H; subst]).
    destruct l as [|i l]; [discriminate H|].
    destruct rq as [| |sc| | | | | | | | | | | |]; try discriminate H.
    assert (U : (exists f a mn mx s d, sc = ScRecursive f a mn mx s d) \/
                match RqCard sc with RqCard (ScRecursive _ _ _ _ _ _) => False | RqCard _ => True | _ => False end).
    { destruct sc; auto. left. do 6 eexists. reflexivity. }
    destruct U as [[f [a [mn [mx [s [d ->]]]]]]|U].
    + rewrite one_card_run in H. apply Ok_inj in H. subst bs. apply bytes_app; apply wrote_bytes.
    + rewrite cards_run in H by (first [discriminate | exact U]). apply Ok_inj in H. subst bs.
      apply bytes_app; [apply wrote_bytes|]. apply bytes_app; [apply wrote_bytes|].
      apply bytes_flat. intros x. apply wrote_bytes.
  - cbn [decode_one_answer] in H. unfold decode_idle in H. destruct rq; try discriminate H.
    destruct i as [| |p|act x]; try (first [now apply R in H | now inversion H; subst]).
    + destruct (si_is_battle_cmd i0).
      * destruct (has_flag p DPHASE_MAIN_2); [rewrite response_run in H|];
          cbn [obind] in H; destruct (has_flag p DPHASE_END); rewrite ?response_run in H; inversion H; subst; auto;
          apply wrote_bytes.
      * destruct (has_flag p DPHASE_BATTLE), (has_flag p DPHASE_END); rewrite ?response_run in H; inversion H; subst; auto;
          apply wrote_bytes.
    + destruct (negb (act =? ACTION_SHUFFLE)%Z); [|discriminate H].
      destruct (negb (act =? ACTION_PHASE)%Z); [|discriminate H]. cbn [assert_ obind] in H. now apply R in H.
  - rewrite zone_run in H. apply Ok_inj in H. subst bs. apply bytes_flat. intros p. unfold wrote_place.
    repeat apply bytes_app; apply wrote_bytes.
  - change (decode_one_answer rq (AnSort (AsIndexes [])) out = Ok bs) in H. rewrite sort_run in H. apply Ok_inj in H. subst bs. apply bytes_app; [apply wrote_bytes|].
    constructor.
  - rewrite sort_run in H. apply Ok_inj in H. subst bs. apply bytes_app; [apply wrote_bytes|]. apply bytes_flat. intros. apply wrote_bytes.
Qed.
Lemma uval_lt : forall l, bytes l -> uval l < 256 ^ N.of_nat (length l).
Proof.
  intros l B. induction B as [|x l H B IH]; [reflexivity|]. cbn [uval fold_right length]. fold (uval l).
  rewrite Nat2N.inj_succ, N.pow_succ_r'. nia.
Qed.
Lemma bytes_firstn : forall n l, bytes l -> bytes (firstn n l).
Proof. intros n l B. unfold bytes. rewrite <- (firstn_skipn n l) in B. now apply Forall_app in B. Qed.
Lemma bytes_skipn : forall n l, bytes l -> bytes (skipn n l).
Proof. intros n l B. unfold bytes. rewrite <- (firstn_skipn n l) in B. now apply Forall_app in B. Qed.
Lemma chunks_lt : forall k l, bytes l -> Forall (fun i => i < 2 ^ 16) (chunks k 2 l).
Proof.
  induction k as [|k IH]; intros l B; [constructor|]. cbn [chunks]. destruct l as [|x l]; constructor.
  - assert (L := uval_lt (bytes_firstn 2 B)).
    eapply N.lt_le_trans; [exact L|]. change (2 ^ 16) with (256 ^ 2). apply N.pow_le_mono_r; [discriminate|].
    pose proof (firstn_le_length 2 (x :: l)). lia.
  - apply IH. now apply bytes_skipn.
Qed.
Lemma cards_lt : forall bs l, bytes bs -> core_cards bs = Some (Chosen l) -> Forall (fun i => i < 2 ^ 16) l.
Proof.
  intros bs l B H. unfold core_cards in H. destruct (part 0 4 bs); [|discriminate].
  destruct (sval l0 =? -1)%Z; [discriminate|]. destruct (uval l0 =? 1); [|discriminate].
  destruct (part 4 4 bs); [|discriminate]. destruct (length bs =? _)%nat; [|discriminate].
  assert (E : l = chunks (N.to_nat (uval l1)) 2 (skipn 8 bs)) by congruence. rewrite E.
  apply chunks_lt. now apply bytes_skipn.
Qed.
Lemma cards_none : forall bs, core_cards bs = Some (Chosen []) -> length bs = 8%nat /\ exists t, part 0 4 bs = Some t /\ uval t = 1.
Proof.
  intros bs H. unfold core_cards in H. destruct (part 0 4 bs) as [t|] eqn:P; [|discriminate].
  destruct (sval t =? -1)%Z; [discriminate|]. destruct (N.eqb_spec (uval t) 1); [|discriminate].
  destruct (part 4 4 bs) as [n|]; [|discriminate]. destruct (Nat.eqb_spec (length bs) (8 + 2 * N.to_nat (uval n))) as [L|L]; [|discriminate].
  assert (C : chunks (N.to_nat (uval n)) 2 (skipn 8 bs) = []) by congruence.
  split; [|eauto]. destruct (N.to_nat (uval n)) as [|k]; [lia|].
  cbn [chunks] in C. destruct (skipn 8 bs) as [|y ys] eqn:S; [|discriminate C].
  apply (f_equal (@length N)) in S. rewrite skipn_length in S. cbn in S. lia.
Qed.
Lemma command_lt : forall b bs c i, bytes bs -> heard_command b bs = Some (MvCommand c i) -> i < 2 ^ 16.
Proof.
  intros b bs c i B H. unfold heard_command, core_command, core_u32 in H.
  destruct (Nat.eqb_spec (length bs) 4) as [L|L]; [|discriminate].
  assert (U := uval_lt B). rewrite L in U. change (256 ^ N.of_nat 4) with (2 ^ 16 * 2 ^ 16) in U.
  destruct (command_of b _); [|discriminate]. cbn in H. inversion H. apply N.div_lt_upper_bound; [discriminate|exact U].
Qed.
