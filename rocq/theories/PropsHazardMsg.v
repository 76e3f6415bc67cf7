(** C88: what the messages of the core can do to the server. *)
From Verif Require Import Base Place Frame FrameSpec Msg Event Encode CoreMsg EncodeSpec HazardSpec HazardProofs
  HazardMsgSpec HazardMsgTop ShuffleWild HazardShuffle.

Local Open Scope N_scope.

(** Every well-formed message, shown to a server that has been shown nothing
    else, is either processed or stopped by an assertion, except for those that
    are listed. *)
Theorem C88_message_partial : forall c m rest, served c -> core_ok m -> ~ perilous c m rest ->
  (exists c', feed c (ser m ++ rest) = Ok c') \/ feed c (ser m ++ rest) = Abort.
Proof. intros c m rest S K. exact (proj1 (message_feed c m rest S K)). Qed.
Print Assumptions C88_message_partial.

(** The list has no false alarms, apart from shuffles to a pile and piles of
    more than 2^32 cards. *)
Theorem C88_undefined_partial : forall c m rest, served c -> core_ok m -> fatal c m rest ->
  feed c (ser m ++ rest) = UB.
Proof. intros c m rest S K. exact (proj2 (message_feed c m rest S K)). Qed.
Print Assumptions C88_undefined_partial.

(** Shuffles exactly: those that get to a card that goes to a pile. *)
Theorem C88_shuffle_partial : forall c loc l rest, served c -> core_ok (CmShuffleSetCard loc l) ->
  (feed c (ser (CmShuffleSetCard loc l) ++ rest) = UB <->
   shuffle_fatal (map (fun x => core_place (fst x)) l) (map (fun x => core_place (snd x)) l) (ctx_layout c)).
Proof. exact shuffle_feed. Qed.
Print Assumptions C88_shuffle_partial.

(** Whole duels. *)
Theorem C88_stream_partial : forall s ms, s = ctx_value_init \/ s = ctx_default_init -> Forall core_ok ms ->
  safe_along s ms -> (exists c', feed_all s ms = Ok c') \/ feed_all s ms = Abort.
Proof.
  intros s ms Hs F Sf. apply (stream_feed ms s); auto. exists s, []. split; [exact Hs|constructor].
Qed.
Print Assumptions C88_stream_partial.

(** ** Each of the dangers exists *)
Ltac okm := repeat match goal with
  | |- _ /\ _ => split
  | |- Forall _ _ => constructor
  | |- cloc_ok _ => constructor
  | |- _ => progress cbn
  end; try reflexivity; try discriminate; try tauto; try lia.

Definition start_msg : core_msg := CmStart 0 8000 8000 3 2 3 2.
Definition on_field (seq : N) : cloc := mkCloc 0 0x4 seq 1.
Definition summon (seq : N) : core_msg := CmMove 7 (mkCloc 0 0x1 0 1) (on_field seq) 0.

Definition played (ms : list core_msg) (c : ctx) : Prop :=
  Forall core_ok ms /\ feed_all ctx_value_init ms = Ok c.
Lemma played_served : forall ms c, played ms c -> served c.
Proof.
  intros ms c [F E]. exists ctx_value_init, ms. split; [now left|].
  apply (EncodeE2E.feed_all_heard ms ctx_value_init ctx_value_init [] c); [constructor|exact F|exact E].
Qed.

(** The life points of a third player: any damage message with that number. *)
Theorem C88_refuted : exists c m, served c /\ core_ok m /\ feed c (ser m) = UB.
Proof.
  exists ctx_value_init, (CmDamage 2 100). split; [exists ctx_value_init, []; split; [now left|constructor]|].
  split; [okm|]. vm_compute. reflexivity.
Qed.
Print Assumptions C88_refuted.

(** A duel in which the core's own rules are broken only once. *)
Example C88_ex_dangers :
  exists c, played [start_msg; summon 2] c /\
    (* the end of a chain link that never began *)
    perilous c (CmChainSolved 1) [] /\ feed c (ser (CmChainSolved 1)) = UB /\
    (* a material of a deck card *)
    perilous c (CmMove 7 (mkCloc 0 0x81 0 0) (mkCloc 0 0x10 0 1) 0) [] /\
    feed c (ser (CmMove 7 (mkCloc 0 0x81 0 0) (mkCloc 0 0x10 0 1) 0)) = UB /\
    (* a shuffle of nothing, and one to a pile *)
    feed c (ser (CmShuffleSetCard 4 [])) = UB /\
    feed c (ser (CmShuffleSetCard 4 [(on_field 2, mkCloc 0 0x1 0 0)])) = UB /\
    (* a win, when the context was not value-initialised *)
    feed ctx_default_init (ser (CmWin 0 1)) = UB.
Proof.
  eexists. split; [split; [okm|vm_compute; reflexivity]|].
  split; [reflexivity|]. split; [vm_compute; reflexivity|]. split.
  { cbn [perilous]. split; [split; [vm_compute; discriminate|apply Z.le_refl]|]. split; [vm_compute; discriminate|].
    split; [|intros z []]. unfold in_pile, as_material. split; [intros _ X; now apply X|intros _; vm_compute; discriminate]. }
  repeat split; vm_compute; reflexivity.
Qed.
Example C88_ex_extra : exists c,
  played [start_msg; CmMove 7 (mkCloc 0 0x1 0 1) (mkCloc 0 0x10 0 1) 0] c /\
  (* the card of the graveyard goes to the extra deck, of two cards *)
  ~ perilous c (CmSwapGraveDeck 0 2 [1]) [] /\ (exists c', feed c (ser (CmSwapGraveDeck 0 2 [1])) = Ok c') /\
  perilous c (CmSwapGraveDeck 0 3 [1]) [] /\ feed c (ser (CmSwapGraveDeck 0 3 [1])) = UB /\
  perilous c (CmSwapGraveDeck 0 2 []) [] /\ feed c (ser (CmSwapGraveDeck 0 2 [])) = UB /\
  feed c (ser (CmSwapGraveDeck 2 2 [1])) = Abort.
Proof.
  eexists. split; [split; [okm|vm_compute; reflexivity]|].
  split.
  { cbn. intros (who & E & H). inversion E; subst. cbv in H. destruct H as [H|[H _]]; discriminate H. }
  split; [eexists; vm_compute; reflexivity|]. split.
  { cbn. exists false. split; [reflexivity|]. right. split; [reflexivity|]. exists 0%nat.
    split; [cbn; lia|reflexivity]. }
  split; [vm_compute; reflexivity|]. split.
  { cbn. exists false. split; [reflexivity|]. left. reflexivity. }
  split; vm_compute; reflexivity.
Qed.
(** A stream without danger, and what a misplaced message does: it stops. *)
Example C88_ex_safe : exists c, played [start_msg; summon 2] c /\
  Forall core_ok [start_msg; summon 2; summon 2] /\
  safe_along ctx_value_init [start_msg; summon 2; summon 2] /\
  feed_all ctx_value_init [start_msg; summon 2; summon 2] = Abort.
Proof.
  eexists. split; [split; [okm|vm_compute; reflexivity]|].
  split; [okm|]. split; [|vm_compute; reflexivity].
  cbn [safe_along]. split; [intros []|]. intros c1 E1. split.
  { intros [[_ X] _]. now apply X. }
  intros c2 E2. split; [|intros; exact Logic.I]. intros [[_ X] _]. now apply X.
Qed.
(** A shuffle of two cards in which one goes to the deck, undefined; and one
    stopped before it gets there. *)
Example C88_ex_shuffle : exists c, played [start_msg; summon 2; summon 3] c /\
  let shuffle a b := [(on_field 2, a); (on_field 3, b)] in
  let deck := mkCloc 0 0x1 0 0 in
  core_ok (CmShuffleSetCard 4 (shuffle (on_field 3) deck)) /\
  shuffle_fatal [core_place (on_field 2); core_place (on_field 3)]
    [core_place (on_field 3); core_place deck] (ctx_layout c) /\
  feed c (ser (CmShuffleSetCard 4 (shuffle (on_field 3) deck))) = UB /\
  core_ok (CmShuffleSetCard 4 (shuffle (on_field 7) deck)) /\
  feed c (ser (CmShuffleSetCard 4 (shuffle (on_field 7) deck))) = Abort.
Proof.
  eexists. split; [split; [okm|vm_compute; reflexivity]|]. cbv zeta.
  split; [okm|]. split.
  { right. exists 1%nat. split; [cbn; lia|]. split; [split; [cbn; lia|discriminate]|].
    eexists. vm_compute. reflexivity. }
  split; [vm_compute; reflexivity|]. split; [okm|]. vm_compute. reflexivity.
Qed.
