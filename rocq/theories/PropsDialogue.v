(** C84: questions and answers. *)
From Coq Require Import FinFun.
From Verif Require Import Base BaseProofs BitSpec Place Msg Reader EncodeQuery Encode CoreMsg EncodeQueryProofs
  Decode DecodeSpec DecodeProofs DialogueSpec Dialogue.

Set Implicit Arguments.
Local Open Scope N_scope.

(** ** C84: what a client picks from a request is what the core hears *)

(** The core's question reaches the client as a request; an answer that respects
    the request and fits the format is decoded into bytes from which the core
    reads exactly what the answer means, and that is something the core asked
    for. *)
Theorem C84_understood_partial : forall m c rest, core_ok m -> core_request m <> None ->
  exists to rq,
    encode_one c (ser m ++ rest) =
      Ok (mkResult StOk (lenN (ser m)) (Some (mkMsg (MsgRequest to rq) [])), c) /\
    forall a out, picks rq a -> fits a ->
      exists bs v, decode_one_answer rq a out = Ok bs /\ heard m bs = Some v /\ allowed m v /\
        means m a v /\ (forall v', means m a v' -> v' = v).
Proof.
  intros m c rest K Q. destruct (core_request m) as [[to rq]|] eqn:E; [|congruence].
  exists (Z.of_N to), rq. split; [now apply request_encode|]. intros a out P F.
  destruct (understood m a out K E P F) as [bs [v [D [H [M A]]]]]. exists bs, v.
  repeat (split; [assumption|]). intros v' M'. eapply means_one; eauto.
Qed.
Print Assumptions C84_understood_partial.

(** Everything the core would accept can be picked from the request. *)
Theorem C84_everything_offered : forall m c rest v, core_ok m -> core_request m <> None -> allowed m v ->
  exists to rq a,
    encode_one c (ser m ++ rest) =
      Ok (mkResult StOk (lenN (ser m)) (Some (mkMsg (MsgRequest to rq) [])), c) /\
    picks rq a /\ means m a v.
Proof.
  intros m c rest v K Q A. destruct (core_request m) as [[to rq]|] eqn:E; [|congruence].
  destruct (offered m v K E A) as [a [P M]]. exists (Z.of_N to), rq, a.
  split; [now apply request_encode|auto].
Qed.
Print Assumptions C84_everything_offered.

(** Answers with different meanings never become the same bytes. *)
Theorem C84_told_apart_partial : forall m to rq a a' v v' out out' bs, core_ok m ->
  core_request m = Some (to, rq) -> picks rq a -> fits a -> picks rq a' -> fits a' ->
  means m a v -> means m a' v' ->
  decode_one_answer rq a out = Ok bs -> decode_one_answer rq a' out' = Ok bs -> v = v'.
Proof.
  intros m to rq a a' v v' out out' bs K E P F P' F' M M' D D'.
  destruct (understood m a out K E P F) as [b1 [v1 [D1 [H1 [M1 _]]]]].
  destruct (understood m a' out' K E P' F') as [b2 [v2 [D2 [H2 [M2 _]]]]].
  assert (b1 = bs) by congruence. assert (b2 = bs) by congruence. subst b1 b2.
  rewrite (means_one _ _ _ _ K M M1), (means_one _ _ _ _ K M' M2). congruence.
Qed.
Print Assumptions C84_told_apart_partial.

Ltac okay := repeat match goal with
  | |- _ /\ _ => split
  | |- Forall _ [] => apply Forall_nil
  | |- Forall _ (_ :: _) => apply Forall_cons
  | |- cloc_ok _ => constructor
  | |- cloc1_ok _ => split
  | |- ccard_ok _ => split
  | |- cact_ok _ => unfold cact_ok, effect_ok; cbn [ca_card ca_effect ca_mode]
  | |- _ <> _ => discriminate
  | |- In _ _ => vm_compute; tauto
  | |- _ -> _ => let H := fresh in intros H; vm_compute in H; first [reflexivity | discriminate H | now destruct H]
  | |- _ < _ => reflexivity
  | |- is_u8 _ => reflexivity
  | |- is_u16 _ => reflexivity
  | |- is_u32 _ => reflexivity
  | |- is_u64 _ => reflexivity
  | |- short4 _ => reflexivity
  | |- short1 _ => reflexivity
  | |- True => exact Logic.I
  end.

(** A main phase in which one monster may be summoned or set, an effect may be
    activated and the turn may end; blocking two of three zones. *)
Definition ex_card (con loc seq : N) : ccard := mkCcard 89631139 (mkCloc con loc seq 0x1).
Definition ex_idle : core_msg :=
  CmSelectIdlecmd 0 [ex_card 0 2 1] [] [] [ex_card 0 2 1] []
    [mkCact (ex_card 0 8 2) (mkEffect 4242 1) 0] true true false.
Definition ex_place : core_msg := CmSelectDisfield 1 2 0xFFFDFEFE.
Example C84_ex_idle : core_ok ex_idle /\ core_request ex_idle <> None /\
  (exists to rq, core_request ex_idle = Some (to, rq) /\ picks rq (AnIdle (AiAction 4 0)) /\
     decode_one_answer rq (AnIdle (AiAction 4 0)) [] = Ok [3; 0; 0; 0]) /\
  heard ex_idle [3; 0; 0; 0] = Some (MvCommand DoMset 0) /\
  allowed ex_idle (MvCommand DoMset 0) /\ ~ allowed ex_idle (MvCommand DoSset 0).
Proof.
  split; [|split; [discriminate|split; [|split; [reflexivity|split; [reflexivity|]]]]].
  - cbn [ex_idle core_ok]. okay.
  - do 2 eexists. split; [reflexivity|]. split; reflexivity.
  - intros H. vm_compute in H. discriminate H.
Qed.
Example C84_ex_place : core_ok ex_place /\
  (exists to rq, core_request ex_place = Some (to, rq) /\
     picks rq (AnZone [mkPlace 0 0x4 1 (-1); mkPlace 1 0x8 0 (-1)]) /\
     fits (AnZone [mkPlace 0 0x4 1 (-1); mkPlace 1 0x8 0 (-1)]) /\
     decode_one_answer rq (AnZone [mkPlace 0 0x4 1 (-1); mkPlace 1 0x8 0 (-1)]) [9] = Ok [0; 4; 1; 1; 8; 0]) /\
  heard ex_place [0; 4; 1; 1; 8; 0] = Some (MvZones [17; 8]) /\
  allowed ex_place (MvZones [17; 8]) /\ ~ allowed ex_place (MvZones [17; 9]).
Proof.
  assert (N : forall (A : Type) (a b : A), a <> b -> NoDup [a; b]).
  { intros A a b H. constructor; [|constructor; [intros []|constructor]]. intros [E|[]]; congruence. }
  split; [|split; [|split; [reflexivity|split]]].
  - cbn [ex_place core_ok]. okay.
  - do 2 eexists. split; [reflexivity|]. split; [|split; [|reflexivity]].
    + split; [apply N; discriminate|]. split; [reflexivity|]. repeat (apply Forall_cons; [vm_compute; auto 10|]). apply Forall_nil.
    + repeat (apply Forall_cons; [vm_compute; auto|]). apply Forall_nil.
  - split; [apply N; discriminate|]. split; [reflexivity|]. repeat (apply Forall_cons; [vm_compute; auto 20|]). apply Forall_nil.
  - intros [_ [_ H]]. inversion H as [|? ? _ H']; subst. inversion H' as [|? ? [_ X] _]; subst. vm_compute in X. discriminate X.
Qed.

(** ** What cannot be told *)

(** Choosing no card at all, where none is needed but the choice cannot be
    cancelled: no answer whatsoever says so. *)
Theorem C84_no_card_refuted : exists m to rq, core_ok m /\ core_request m = Some (to, rq) /\
  allowed m (MvCards []) /\
  forall a bs, decode_one_answer rq a [] = Ok bs -> heard m bs <> Some (MvCards []).
Proof.
  exists (CmSelectCard 0 false 0 1 [ex_card 0 4 2]). do 2 eexists. split; [|split; [reflexivity|split]].
  - cbn [core_ok]. okay.
  - split; [split; constructor|]. unfold between, lenN. cbn. lia.
  - intros a bs D H. cbn [heard] in H.
    assert (C : core_cards bs = Some (Chosen [])).
    { destruct (core_cards bs) as [[|l]|]; cbn in H; congruence. }
    apply cards_none in C. destruct C as [L [t [P U]]].
    destruct a as [|x|[| | |l]|x|x|x|i|x|x|x|h|[| |x]|b|ps|[| |l]];
      try (cbn [decode_one_answer decode_card decode_sort] in D; rewrite ?response_run in D; apply Ok_inj in D; subst bs;
           rewrite ?wrote_length in L; discriminate L).
    + destruct l as [|i l]; [discriminate D|].
      rewrite cards_run in D; [|discriminate|exact Logic.I]. apply Ok_inj in D. subst bs.
      rewrite !app_length, !wrote_length, flat_wrote_length in L. cbn [length] in L. lia.
    + discriminate D.
    + rewrite zone_run in D. apply Ok_inj in D. subst bs.
      assert (Z : length (flat_map wrote_place ps) = (3 * length ps)%nat).
      { clear. induction ps as [|p ps IH]; [reflexivity|]. cbn [flat_map]. rewrite app_length, IH.
        unfold wrote_place. rewrite !app_length, !wrote_length. cbn [length]. lia. }
      lia.
    + rewrite sort_run in D. apply Ok_inj in D. subst bs.
      rewrite app_length, wrote_length, flat_wrote_length in L.
      assert (E : length l = 7%nat) by lia. rewrite E in P.
      change (wrote 1 (Z.of_nat 7)) with [7] in P. unfold part in P. cbn [app length] in P.
      destruct (0 + 4 <=? _)%nat; [|discriminate P]. injection P as <-.
      cbn [skipn firstn uval fold_right] in U. lia.
Qed.
Print Assumptions C84_no_card_refuted.

(** The field zone, when it is the only one on offer. *)
Theorem C84_field_zone_refuted : exists m to rq v, core_ok m /\ core_request m = Some (to, rq) /\
  allowed m v /\
  forall a bs, picks rq a -> decode_one_answer rq a [] = Ok bs -> heard m bs <> Some v.
Proof.
  exists (CmSelectPlace 0 1 0xFFFFDFFF). do 2 eexists. exists (MvZones [13]).
  split; [|split; [reflexivity|split]].
  - cbn [core_ok]. okay.
  - split; [repeat constructor; intros []|]. split; [reflexivity|]. repeat (apply Forall_cons; [vm_compute; auto 20|]). apply Forall_nil.
  - intros a bs P D. destruct a; try contradiction P. destruct P as [_ [P2 P3]].
    destruct places as [|p [|]]; try (unfold lenN in P2; cbn in P2; lia).
    inversion P3 as [|? ? I _]; subst. vm_compute in I. destruct I as [I|[]]. subst p.
    vm_compute in D. injection D as <-. vm_compute. discriminate.
Qed.
Print Assumptions C84_field_zone_refuted.

(** Races above the thirty-second. *)
Theorem C84_race_refuted : exists m to rq v, core_ok m /\ core_request m = Some (to, rq) /\
  allowed m v /\
  forall a bs, picks rq a -> decode_one_answer rq a [] = Ok bs -> heard m bs <> Some v.
Proof.
  exists (CmAnnounceRace 0 1 (2 ^ 33)). do 2 eexists. exists (MvMask (2 ^ 33)).
  split; [|split; [reflexivity|split]].
  - cbn [core_ok]. okay.
  - repeat split; reflexivity.
  - intros a bs P D. destruct a; try contradiction P. cbn [decode_one_answer] in D.
    rewrite response_run in D. apply Ok_inj in D. subst bs. cbn [heard]. rewrite wrote_length. cbn [Nat.leb].
    intros H. assert (E : uval (wrote 4 (Z.of_N race)) = 2 ^ 33) by congruence.
    assert (U := uval_lt (wrote_bytes 4 (Z.of_N race))). rewrite wrote_length, E in U. vm_compute in U. discriminate U.
Qed.
Print Assumptions C84_race_refuted.

(** The 65537th card, or the effect of the 65537th card. *)
Theorem C84_far_card_refuted : exists m to rq v, core_ok m /\ core_request m = Some (to, rq) /\
  allowed m v /\
  forall a bs, decode_one_answer rq a [] = Ok bs -> heard m bs <> Some v.
Proof.
  set (l := repeat (ex_card 0 1 0) (N.to_nat (2 ^ 16 + 1))).
  assert (L : lenN l = 2 ^ 16 + 1) by (unfold lenN, l; rewrite repeat_length; apply N2Nat.id).
  exists (CmSelectCard 0 false 1 1 l). do 2 eexists. exists (MvCards [2 ^ 16]).
  split; [|split; [reflexivity|split]].
  - cbn [core_ok]. split; [reflexivity|]. split; [reflexivity|]. split; [reflexivity|].
    split; [intros E; rewrite E in L; discriminate L|].
    split; [unfold short4; rewrite L; reflexivity|].
    apply Forall_forall. intros x I. apply repeat_spec in I. subst x.
    okay.
  - split; [split|]; [repeat constructor; intros []| |].
    + constructor; [rewrite L; reflexivity|constructor].
    + unfold between, lenN. cbn. lia.
  - intros a bs D H. apply decode_bytes in D; [|constructor]. cbn [heard] in H.
    destruct (core_cards bs) as [[|is]|] eqn:C; cbn in H; try discriminate H.
    assert (F := cards_lt D C). injection H as E. rewrite E in F.
    inversion F as [|? ? X _]; subst. vm_compute in X. discriminate X.
Qed.
Print Assumptions C84_far_card_refuted.
Theorem C84_far_command_refuted : exists m to rq v, core_ok m /\ core_request m = Some (to, rq) /\
  allowed m v /\
  forall a bs, decode_one_answer rq a [] = Ok bs -> heard m bs <> Some v.
Proof.
  set (l := repeat (mkCact (ex_card 0 1 0) (mkEffect 4242 1) 0) (N.to_nat (2 ^ 16 + 1))).
  assert (L : lenN l = 2 ^ 16 + 1) by (unfold lenN, l; rewrite repeat_length; apply N2Nat.id).
  exists (CmSelectBattlecmd 0 l [] true true). do 2 eexists. exists (MvCommand DoActivate (2 ^ 16)).
  split; [|split; [reflexivity|split]].
  - cbn [core_ok]. split; [reflexivity|].
    split; [unfold short4; rewrite L; reflexivity|].
    split; [|split; [reflexivity|constructor]].
    apply Forall_forall. intros x I. apply repeat_spec in I. subst x.
    okay.
  - cbn [allowed]. rewrite L. reflexivity.
  - intros a bs D H. apply decode_bytes in D; [|constructor]. cbn [heard] in H.
    apply (command_lt true) in H; [|exact D]. vm_compute in H. discriminate H.
Qed.
Print Assumptions C84_far_command_refuted.

(** An order of 255 cards: it reads as declining. *)
Theorem C84_long_order_refuted : exists m to rq v, core_ok m /\ core_request m = Some (to, rq) /\
  allowed m v /\
  forall a bs, picks rq a -> decode_one_answer rq a [] = Ok bs -> heard m bs = Some MvPass.
Proof.
  set (l := repeat (ex_card 0 0x40 0) 255).
  assert (L : lenN l = 255) by reflexivity.
  exists (CmSortCard 0 l). do 2 eexists. exists (MvOrder (map N.of_nat (seq 0 255))).
  split; [|split; [reflexivity|split]].
  - cbn [core_ok]. split; [reflexivity|]. split; [reflexivity|].
    apply Forall_forall. intros x I. apply repeat_spec in I. subst x. okay.
  - cbn [allowed]. rewrite L. split; [split|reflexivity].
    + apply Injective_map_NoDup; [intros x y E; now apply Nat2N.inj|apply seq_NoDup].
    + apply Forall_forall. intros x I. apply in_map_iff in I. destruct I as [n [<- I]]. apply in_seq in I. lia.
  - intros a bs P D. destruct a as [| | | | | | | | | | | | | |[| |o]]; try contradiction P.
    + cbn [decode_one_answer decode_sort] in D. rewrite response_run in D. apply Ok_inj in D. subst bs. reflexivity.
    + rewrite sort_run in D. apply Ok_inj in D. subst bs. cbn [picks] in P. destruct P as [_ P].
      unfold places_of in P. rewrite Dialogue.lenN_map, L in P. unfold lenN in P.
      assert (E : length o = 255%nat) by lia. rewrite E. reflexivity.
Qed.
Print Assumptions C84_long_order_refuted.
