(** C84, exactly: the answers the core understands. *)
From Verif Require Import Base BaseProofs BitSpec Place Msg Reader EncodeQuery Encode CoreMsg EncodeQueryProofs
  Decode DecodeSpec DecodeProofs DialogueSpec Dialogue DialogueExact PropsDialogue.

Set Implicit Arguments.
Local Open Scope N_scope.

(** Of the answers that respect a request, exactly those the format has room
    for are understood. *)
Theorem C84_understood_iff_partial : forall m c rest, core_ok m -> core_request m <> None ->
  exists to rq,
    encode_one c (ser m ++ rest) =
      Ok (mkResult StOk (lenN (ser m)) (Some (mkMsg (MsgRequest to rq) [])), c) /\
    forall a out, picks rq a ->
      ((exists bs v, decode_one_answer rq a out = Ok bs /\ heard m bs = Some v /\ means m a v /\ allowed m v) <->
       room_for rq a).
Proof.
  intros m c rest K Q. destruct (core_request m) as [[to rq]|] eqn:E; [|congruence].
  exists (Z.of_N to), rq. split; [now apply request_encode|]. intros a out P. split.
  - intros (bs & v & D & H & M & _). exact (needs_room m a out K E P D H M).
  - intros R. exact (room_understood m a out K E P R).
Qed.
Print Assumptions C84_understood_iff_partial.

(** The 65537th card of those to select or unselect can be told, a race above
    the thirty-second cannot. *)
Example C84_understood_iff_ex :
  (exists m to rq, core_ok m /\ core_request m = Some (to, rq) /\ picks rq (AnCard (AcIndexes [2 ^ 16])) /\
     room_for rq (AnCard (AcIndexes [2 ^ 16])) /\ ~ fits (AnCard (AcIndexes [2 ^ 16]))) /\
  (exists m to rq, core_ok m /\ core_request m = Some (to, rq) /\ picks rq (AnRace (2 ^ 33)) /\
     ~ room_for rq (AnRace (2 ^ 33))).
Proof.
  split.
  - set (l := repeat (ex_card 0 1 0) (N.to_nat (2 ^ 16 + 1))).
    assert (L : lenN l = 2 ^ 16 + 1) by (unfold lenN, l; rewrite repeat_length; apply N2Nat.id).
    exists (CmSelectUnselectCard 0 true true 1 1 l []). do 2 eexists.
    split; [|split; [reflexivity|split; [|split; [repeat constructor|]]]].
    + cbn [core_ok]. do 3 (split; [reflexivity|]). split; [unfold short4; rewrite L; reflexivity|].
      split; [|split; [reflexivity|constructor]].
      apply Forall_forall. intros x I. apply repeat_spec in I. subst x. okay.
    + cbn [picks]. unfold codes_at. rewrite !Dialogue.lenN_map, L. reflexivity.
    + intros (_ & _ & F). inversion F as [|? ? X _]; subst. vm_compute in X. discriminate X.
  - exists (CmAnnounceRace 0 1 (2 ^ 33)). do 2 eexists. split; [cbn [core_ok]; okay|]. split; [reflexivity|].
    split; [repeat split; reflexivity|vm_compute; discriminate].
Qed.
