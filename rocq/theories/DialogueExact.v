(** C84: exactly which answers the core understands. *)
From Verif Require Import Base BaseProofs BitSpec Place Msg Reader EncodeQuery Encode CoreMsg EncodeQueryProofs
  Decode DecodeSpec DecodeProofs DialogueSpec Dialogue PropsExact.

Set Implicit Arguments.
Local Open Scope N_scope.

(** Selecting or unselecting one card uses 32-bit indexes; see [fits] for all
    other answers. *)
Definition room_for (rq : request) (a : answer) : Prop :=
  match rq, a with
  | RqCard (ScRecursive _ _ _ _ _ _), AnCard (AcIndexes l) => Forall (fun i => i < 2 ^ 32) l
  | _, _ => fits a
  end.

Lemma few_small : forall l k, NoDup l -> Forall (fun i => i < k) l -> lenN l <= k.
Proof.
  intros l k N F.
  assert (L : (length l <= length (map N.of_nat (seq 0 (N.to_nat k))))%nat).
  { apply NoDup_incl_length; [exact N|]. intros i I. apply (proj1 (Forall_forall _ _) F) in I.
    apply in_map_iff. exists (N.to_nat i). split; [lia|]. apply in_seq. lia. }
  rewrite map_length, seq_length in L. unfold lenN. lia.
Qed.

Lemma choice_cards : forall o l, heard_choice MvCards o = Some (MvCards l) -> o = Some (Chosen l).
Proof. intros [[|l']|] l H; cbn in H; congruence. Qed.
Lemma choice_order : forall o l, heard_choice MvOrder o = Some (MvOrder l) -> o = Some (Chosen l).
Proof. intros [[|l']|] l H; cbn in H; congruence. Qed.

Lemma cards_need : forall rq l out bs,
  match rq with RqCard (ScRecursive _ _ _ _ _ _) => False | RqCard _ => True | _ => False end ->
  decode_one_answer rq (AnCard (AcIndexes l)) out = Ok bs -> core_cards bs = Some (Chosen l) -> NoDup l ->
  fits (AnCard (AcIndexes l)).
Proof.
  intros rq l out bs R D C N. destruct l as [|i l]; [discriminate D|].
  rewrite cards_run in D by (discriminate || exact R). apply Ok_inj in D. subst bs.
  assert (F : Forall (fun j => j < 2 ^ 16) (i :: l)).
  { eapply cards_lt; [|exact C]. apply bytes_app; [apply wrote_bytes|]. apply bytes_app; [apply wrote_bytes|].
    apply bytes_flat. intros x. apply wrote_bytes. }
  split; [discriminate|]. split; [|exact F]. pose proof (few_small N F). lia.
Qed.

Lemma zones_need : forall who ps bits, who < 2 ->
  Forall2 (fun p b => In (b, p) (mask_table who)) ps bits ->
  heard_zones who (flat_map wrote_place ps) = Some bits ->
  Forall (fun p => p_loc p = 0x4 \/ p_loc p = 0x8) ps.
Proof.
  intros who ps bits W F. induction F as [|p b ps bits I F IH]; intros H; [constructor|].
  assert (X : (p_loc p = 0x4 \/ p_loc p = 0x8) \/ exists c s, wrote_place p = [c; 0; s]).
  { clear - W I. assert (E : who = 0 \/ who = 1) by lia.
    destruct E; subst who; unfold mask_table in I; cbn in I;
      repeat (destruct I as [I|I]; [inversion I; subst b p; clear I|]); try contradiction;
      first [now (left; left) | now (left; right) | right; do 2 eexists; reflexivity]. }
  assert (L : exists c l s, wrote_place p = [c; l; s]).
  { pose proof (wrote_length 1 (p_con p)) as A. pose proof (wrote_length 1 (Z.of_N (p_loc p))) as B.
    pose proof (wrote_length 1 (Z.of_N (p_seq p))) as D. unfold wrote_place.
    destruct (wrote 1 (p_con p)) as [|? [|]]; try discriminate A.
    destruct (wrote 1 (Z.of_N (p_loc p))) as [|? [|]]; try discriminate B.
    destruct (wrote 1 (Z.of_N (p_seq p))) as [|? [|]]; try discriminate D. do 3 eexists. reflexivity. }
  destruct L as (c & l & s & E). cbn [flat_map] in H. rewrite E in H. cbn [app heard_zones] in H.
  destruct (zone_bit who c l s) as [b'|] eqn:Z; [|discriminate H].
  destruct (heard_zones who (flat_map wrote_place ps)) as [r|]; [|discriminate H].
  assert (r = bits) by congruence. subst r. constructor; [|exact (IH eq_refl)].
  destruct X as [X|(c' & s' & X)]; [exact X|]. rewrite X in E. injection E as <- <- <-.
  unfold zone_bit in Z. cbn in Z. rewrite andb_false_r in Z. discriminate Z.
Qed.

Lemma idle_need : forall rq i out bs b c x, decode_one_answer rq (AnIdle i) out = Ok bs ->
  heard_command b bs = Some (MvCommand c x) -> stands_for i c x -> fits (AnIdle i).
Proof.
  intros rq i out bs b c x D H S. destruct i as [| |p|act j]; try exact Logic.I. cbn [fits].
  assert (j = x) by now inversion S. subst j.
  assert (B : bytes bs).
  { cbn [decode_one_answer] in D. unfold decode_idle in D. destruct rq; try discriminate D.
    destruct (negb (act =? ACTION_SHUFFLE)%Z); [|discriminate D].
    destruct (negb (act =? ACTION_PHASE)%Z); [|discriminate D]. cbn [assert_ obind] in D. rewrite response_run in D.
    apply Ok_inj in D. subst bs. apply wrote_bytes. }
  exact (@command_lt b bs c x B H).
Qed.

Lemma sort_need : forall rq o out bs, decode_one_answer rq (AnSort (AsIndexes o)) out = Ok bs ->
  core_order bs = Some (Chosen o) -> fits (AnSort (AsIndexes o)).
Proof.
  intros rq o out bs D C. destruct (C58_sort_iff_partial rq o out) as (bs' & D' & X).
  assert (bs' = bs) by congruence. subst bs'. now apply X in C.
Qed.

Lemma one_card_need : forall f a mn mx s d i l out bs,
  decode_one_answer (RqCard (ScRecursive f a mn mx s d)) (AnCard (AcIndexes (i :: l))) out = Ok bs ->
  core_one_card bs = Some (Chosen [i]) -> i < 2 ^ 32.
Proof.
  intros f a mn mx s d i l out bs D C. rewrite one_card_run in D. apply Ok_inj in D. subst bs. unfold core_one_card in C.
  destruct (part 0 4 _) as [t|]; [|discriminate C]. destruct (sval t =? -1)%Z; [discriminate C|].
  destruct (uval t =? 1); [|discriminate C].
  pose proof (part_app (wrote 4 1) (wrote 4 (Z.of_N i)) []) as X. rewrite app_nil_r, !wrote_length in X. rewrite X in C.
  assert (U : uval (wrote 4 (Z.of_N i)) = i) by congruence. rewrite <- U.
  pose proof (uval_lt (wrote_bytes 4 (Z.of_N i))) as L. rewrite wrote_length in L. exact L.
Qed.

Lemma needs_room : forall m to rq a out bs v, core_ok m -> core_request m = Some (to, rq) -> picks rq a ->
  decode_one_answer rq a out = Ok bs -> heard m bs = Some v -> means m a v -> room_for rq a.
Proof.
  intros m who rq a out bs v K E P D H M.
  destruct m; try discriminate E; cbn [core_request] in E; injection E as <- <-; cbn [core_ok] in K;
    try (destruct (in_limbo cards));
    destruct a; try contradiction P; try exact Logic.I; cbn [picks] in P; cbn [heard] in H; cbn [room_for].
  - (* races *)
    cbn [decode_one_answer] in D. rewrite response_run in D. apply Ok_inj in D. subst bs.
    rewrite wrote_length in H. cbn [Nat.leb] in H. assert (v = MvMask (uval (wrote 4 (Z.of_N race)))) by congruence. subst v.
    cbn [means] in M. cbn [fits]. rewrite M. pose proof (uval_lt (wrote_bytes 4 (Z.of_N race))) as L. rewrite wrote_length in L. exact L.
  - destruct a as [| | |l]; try exact Logic.I. cbn [means] in M. destruct v; try contradiction M. subst l0.
    eapply cards_need; [|exact D|exact (choice_cards _ H)|apply P]. exact Logic.I.
  - destruct a as [| | |l]; try exact Logic.I. cbn [means] in M. destruct v; try contradiction M. subst l0.
    eapply cards_need; [|exact D|exact (choice_cards _ H)|apply P]. exact Logic.I.
  - destruct a as [| | |l]; try exact Logic.I. cbn [means] in M. destruct v; try contradiction M. subst l0.
    destruct l as [|i [|]]; try contradiction P. constructor; [|constructor].
    eapply one_card_need; [exact D|exact (choice_cards _ H)].
  - destruct a as [| | |l]; try exact Logic.I. cbn [means] in M. destruct v; try contradiction M. subst l0.
    eapply cards_need; [|exact D|exact (choice_cards _ H)|apply P]. exact Logic.I.
  - cbn [means] in M. destruct v; try contradiction M. eapply idle_need; eassumption.
  - cbn [means] in M. destruct v; try contradiction M. eapply idle_need; eassumption.
  - rewrite zone_run in D. apply Ok_inj in D. subst bs. cbn [means] in M. destruct v; try contradiction M.
    destruct (heard_zones to (flat_map wrote_place places)) as [r|] eqn:Z; [|discriminate H]. cbn [option_map] in H.
    assert (r = bits) by congruence. subst r. eapply zones_need; [|exact M|exact Z]; apply K.
  - rewrite zone_run in D. apply Ok_inj in D. subst bs. cbn [means] in M. destruct v; try contradiction M.
    destruct (heard_zones to (flat_map wrote_place places)) as [r|] eqn:Z; [|discriminate H]. cbn [option_map] in H.
    assert (r = bits) by congruence. subst r. eapply zones_need; [|exact M|exact Z]; apply K.
  - destruct a as [| |o]; try exact Logic.I. cbn [means] in M. destruct v; try contradiction M. subst l.
    eapply sort_need; [exact D|exact (choice_order _ H)].
  - destruct a as [| |o]; try exact Logic.I. cbn [means] in M. destruct v; try contradiction M. subst l.
    eapply sort_need; [exact D|exact (choice_order _ H)].
  - destruct a as [| |o]; try exact Logic.I. cbn [means] in M. destruct v; try contradiction M. subst l.
    eapply sort_need; [exact D|exact (choice_order _ H)].
  - destruct a as [| |o]; try exact Logic.I. cbn [means] in M. destruct v; try contradiction M. subst l.
    eapply sort_need; [exact D|exact (choice_order _ H)].
Qed.

Lemma room_understood : forall m to rq a out, core_ok m -> core_request m = Some (to, rq) -> picks rq a -> room_for rq a ->
  exists bs v, decode_one_answer rq a out = Ok bs /\ heard m bs = Some v /\ means m a v /\ allowed m v.
Proof.
  intros m who rq a out K E P F.
  assert (X : fits a \/ exists f ac mn mx s d i, rq = RqCard (ScRecursive f ac mn mx s d) /\ a = AnCard (AcIndexes [i]) /\ i < 2 ^ 32).
  { unfold room_for in F. destruct rq as [| |sc| | | | | | | | | | | |]; try (left; exact F).
    destruct sc; try (left; exact F). destruct a as [| |c| | | | | | | | | | | |]; try (left; exact F).
    destruct c as [| | |l]; try (left; exact F). cbn [picks] in P. destruct l as [|i [|]]; try contradiction P.
    right. do 7 eexists. split; [reflexivity|]. split; [reflexivity|]. now inversion F. }
  destruct X as [X|(f & ac & mn & mx & s & d & i & -> & -> & L)]; [exact (understood m a out K E P X)|].
  destruct m; try discriminate E; cbn [core_request] in E; try (destruct (in_limbo cards); discriminate E).
  injection E as <- <- <- <- <- <- <-. rewrite one_card_run. do 2 eexists. split; [reflexivity|]. cbn [heard].
  rewrite core_one_card_run by exact L. split; [reflexivity|]. split; [reflexivity|].
  cbn [picks] in P. unfold codes_at in P. rewrite !lenN_map in P. exact P.
Qed.
