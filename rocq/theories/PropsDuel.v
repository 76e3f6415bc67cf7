(** C80-C82: the board against the duel the core plays. *)
From Verif Require Import Base BaseProofs Place Frame FrameSpec Msg Event EventSpec Query QuerySpec.
From Verif Require Import Encode CoreMsg EncodeSpec EncodeE2E Duel DuelMsg DuelRun DuelFree DuelFreeProofs.

Local Open Scope N_scope.

Definition at_ (con loc seq : N) : cloc := mkCloc con loc seq 0.
Definition under (con loc seq k : N) : cloc := mkCloc con (0x80 + loc) seq k.
Definition nowhere : cloc := mkCloc 0 0 0 0.

Ltac okay := repeat match goal with
  | |- _ /\ _ => split
  | |- Forall _ [] => apply Forall_nil
  | |- Forall _ (_ :: _) => apply Forall_cons
  | |- cloc_ok _ => constructor
  | |- cloc1_ok _ => split
  | |- ccard_ok _ => split
  | |- In _ _ => cbn; tauto
  | |- _ < _ => reflexivity
  | |- is_u8 _ => reflexivity
  | |- is_u16 _ => reflexivity
  | |- is_u32 _ => reflexivity
  | |- short4 _ => reflexivity
  | |- item_ok _ => split; [reflexivity|cbn]
  | |- slot_ok _ => unfold slot_ok
  | |- is_i32 _ => split; [discriminate|reflexivity]
  | |- True => exact Logic.I
  | |- _ -> _ => let H := fresh in intros H; vm_compute in H; try congruence
  end; cbn [fst snd].

(** A duel with draws, an xyz summon, an attached and a detached material, the
    xyz monster leaving before its materials, queries, and a swap of deck and
    graveyard. *)
Definition ex_duel : list core_msg := [
  CmStart 5 8000 8000 6 2 3 1;
  CmDraw 0 [(1, 8); (2, 8); (3, 8)]; CmDraw 1 [(9, 8)];
  CmNewTurn 0; CmNewPhase 4;
  CmMove 1 (at_ 0 0x2 0) (at_ 0 0x4 0) 0x10;
  CmMove 2 (at_ 0 0x2 0) (at_ 0 0x4 1) 0x800;
  CmMove 1 (at_ 0 0x4 0) (under 0 0x40 0 0) 0x8;
  CmMove 2 (at_ 0 0x4 1) (under 0 0x40 0 1) 0x8;
  CmMove 7 (at_ 0 0x40 0) (at_ 0 0x4 5) 0x800;
  CmMove 3 (at_ 0 0x2 0) (under 0 0x4 5 2) 0x8;
  CmUpdateCard (at_ 0 0x4 5) [ICode 7; IAtk 2500; IOverlay [1; 2; 3]];
  CmMove 1 (under 0 0x4 5 0) (at_ 0 0x10 0) 0x80;
  CmDamage 1 2500;
  CmMove 7 (at_ 0 0x4 5) (at_ 0 0x10 1) 0x40;
  CmMove 2 (under 0 0x10 1 0) (at_ 0 0x10 2) 0x40;
  CmMove 3 (under 0 0x10 1 0) (at_ 0 0x10 3) 0x40;
  CmUpdateData 0 0x10 [None; Some [ICode 7]];
  CmSwapGraveDeck 0 0 [2]; CmReverseDeck ].

Lemma ex_duel_ok : Forall core_ok ex_duel.
Proof. unfold ex_duel, at_, under. repeat (apply Forall_cons || apply Forall_nil); cbn [core_ok]; okay. Qed.

(** C80.  Whatever the core announces, as long as the duel specification
    follows, the encoder accepts and the board shows the duel. *)
Theorem C80_board_mirrors_duel : forall ms D, Forall core_ok ms -> duel_run ms duel0 = Some D ->
  exists c, feed_all ctx_value_init ms = Ok c /\ (d_doing D = None -> shows D c).
Proof.
  intros ms D K H. destruct (stream_follows _ _ _ _ mirrors0 K H) as (c & E & M).
  exists c. split; [exact E|]. intros G. now apply mirrors_shows.
Qed.
Print Assumptions C80_board_mirrors_duel.

(** What the specification does to the cards is plain bookkeeping; its
    conditions only restrict what it follows. *)
Theorem C80_duel_is_bookkeeping : forall ms D, duel_run ms duel0 = Some D ->
  free_run ms (no_cards 0) = Some (d_cards D).
Proof. intros ms D H. exact (run_free ms duel0 D H). Qed.
Print Assumptions C80_duel_is_bookkeeping.

Example C80_ex : Forall core_ok ex_duel /\ exists D, duel_run ex_duel duel0 = Some D /\
  d_doing D = None /\ at_rest (d_cards D) = true /\
  map (fun l => k_pile (d_cards D) (false, l)) [LDeck; LHand; LGrave; LBan; LExtra] =
    [[3; 4; 5]; []; [0; 1; 2]; []; [6; 7]] /\
  map (fun x => k_field (d_cards D) x F_code) [5; 4; 3; 6] = [VN 1; VN 2; VN 3; VN 7] /\
  d_lp D true = 5500.
Proof. split; [apply ex_duel_ok|]. eexists. split; [vm_compute; reflexivity|]. vm_compute. repeat split. Qed.

(** C81.  The claim: the cards of the board are those of the bookkeeping, for
    every stream the bookkeeping makes sense of. *)
Theorem C81_board_keeps_books_partial : forall ms D K, Forall core_ok ms ->
  duel_run ms duel0 = Some D -> d_doing D = None -> free_run ms (no_cards 0) = Some K ->
  exists c, feed_all ctx_value_init ms = Ok c /\ shows_cards K c.
Proof.
  intros ms D K F H N G. destruct (C80_board_mirrors_duel ms D F H) as (c & E & S). specialize (S N).
  assert (B := C80_duel_is_bookkeeping _ _ H). rewrite B in G. injection G as <-.
  exists c. split; [exact E|]. constructor; [apply S|apply S|apply S|apply S].
Qed.
Print Assumptions C81_board_keeps_books_partial.

Example C81_ex : exists D K, duel_run ex_duel duel0 = Some D /\ d_doing D = None /\
  free_run ex_duel (no_cards 0) = Some K /\ k_pile K (true, LHand) = [10] /\ k_pile K (false, LDeck) = [3; 4; 5].
Proof.
  eexists. eexists. split; [vm_compute; reflexivity|]. split; [reflexivity|].
  split; [vm_compute; reflexivity|]. vm_compute. split; reflexivity.
Qed.

Ltac runs := unfold at_, under, nowhere; cbn [app]; repeat (apply Forall_cons || apply Forall_nil); cbn [core_ok]; okay.

(** Two monsters become materials of an xyz monster in main monster zone 2. *)
Definition xyz : list core_msg := [
  CmStart 5 8000 8000 2 2 0 0;
  CmMove 1 nowhere (at_ 0 0x4 0) 0x10; CmMove 2 nowhere (at_ 0 0x4 1) 0x10;
  CmMove 1 (at_ 0 0x4 0) (under 0 0x40 0 0) 0x8; CmMove 2 (at_ 0 0x4 1) (under 0 0x40 0 1) 0x8;
  CmMove 7 (at_ 0 0x40 0) (at_ 0 0x4 2) 0x800 ].
Definition z2 : zref := ((false, ZMonster), 2%nat).

(** Ranking up: the materials of the lower xyz monster, then the monster
    itself, go under the higher one, which is summoned to the same zone.  The
    board swaps the first two materials. *)
Definition rank_up : list core_msg := xyz ++ [
  CmMove 1 (under 0 0x4 2 0) (under 0 0x40 0 0) 0x8; CmMove 2 (under 0 0x4 2 0) (under 0 0x40 0 1) 0x8;
  CmMove 7 (at_ 0 0x4 2) (under 0 0x40 0 2) 0x8; CmMove 8 (at_ 0 0x40 0) (at_ 0 0x4 2) 0x800 ].
Theorem C81_rank_up_refuted : exists K c x y z, Forall core_ok rank_up /\
  free_run rank_up (no_cards 0) = Some K /\ at_rest K = true /\ mats_of z2 K = [x; y; z] /\
  feed_all ctx_value_init rank_up = Ok c /\
  contents (CMats z2) (ctx_layout c) = [Some y; Some x; Some z] /\ x <> y.
Proof.
  do 5 eexists. split; [unfold rank_up, xyz; runs|]. split; [vm_compute; reflexivity|].
  split; [vm_compute; reflexivity|]. split; [vm_compute; reflexivity|].
  split; [vm_compute; reflexivity|]. split; [vm_compute; reflexivity|discriminate].
Qed.
Print Assumptions C81_rank_up_refuted.

(** A material leaves the duel after its xyz monster went to the graveyard: the
    board removes the monster from the graveyard and keeps the material. *)
Definition token_mat : list core_msg := xyz ++ [
  CmMove 7 (at_ 0 0x4 2) (at_ 0 0x10 0) 0x1; CmMove 1 (under 0 0x10 0 0) nowhere 0x1 ].
Theorem C81_leaving_material_refuted : exists K c x, Forall core_ok token_mat /\
  free_run token_mat (no_cards 0) = Some K /\ k_pile K (false, LGrave) = [x] /\
  feed_all ctx_value_init token_mat = Ok c /\ contents (CPile (false, LGrave)) (ctx_layout c) = [].
Proof.
  do 3 eexists. split; [unfold token_mat, xyz; runs|].
  split; [vm_compute; reflexivity|]. split; [vm_compute; reflexivity|].
  split; [vm_compute; reflexivity|vm_compute; reflexivity].
Qed.
Print Assumptions C81_leaving_material_refuted.

(** An xyz monster leaves the duel with its materials: they stay on the board,
    under an empty zone. *)
Definition token_xyz : list core_msg := xyz ++ [CmMove 7 (at_ 0 0x4 2) nowhere 0x1].
Theorem C81_leaving_holder_refuted : exists K c x y, Forall core_ok token_xyz /\
  free_run token_xyz (no_cards 0) = Some K /\ at_rest K = true /\ mats_of z2 K = [] /\
  feed_all ctx_value_init token_xyz = Ok c /\
  contents (CCard z2) (ctx_layout c) = [] /\ contents (CMats z2) (ctx_layout c) = [Some x; Some y].
Proof.
  do 4 eexists. split; [unfold token_xyz, xyz; runs|]. split; [vm_compute; reflexivity|].
  split; [vm_compute; reflexivity|]. split; [vm_compute; reflexivity|].
  split; [vm_compute; reflexivity|]. split; vm_compute; reflexivity.
Qed.
Print Assumptions C81_leaving_holder_refuted.

(** A card moved to the zone it is in: the assertion about the old card fires. *)
Definition same_zone : list core_msg := xyz ++ [CmMove 7 (at_ 0 0x4 2) (at_ 0 0x4 2) 0x1].
Theorem C81_same_zone_refuted : exists K, Forall core_ok same_zone /\
  free_run same_zone (no_cards 0) = Some K /\ feed_all ctx_value_init same_zone = Abort.
Proof.
  eexists. split; [unfold same_zone, xyz; runs|]. split; vm_compute; reflexivity.
Qed.
Print Assumptions C81_same_zone_refuted.

(** A card is put below an xyz monster that has just gone to the graveyard: the
    encoder no longer finds the zone its materials are in. *)
Definition below : list core_msg := xyz ++ [
  CmMove 7 (at_ 0 0x4 2) (at_ 0 0x10 0) 0x1; CmMove 9 (at_ 0 0x1 1) (at_ 0 0x10 0) 0x1;
  CmMove 1 (under 0 0x10 1 0) (at_ 0 0x10 2) 0x1 ].
Theorem C81_card_below_refuted : exists K, Forall core_ok below /\
  free_run below (no_cards 0) = Some K /\ feed_all ctx_value_init below = UB.
Proof.
  eexists. split; [unfold below, xyz; runs|]. split; vm_compute; reflexivity.
Qed.
Print Assumptions C81_card_below_refuted.

(** A material of an xyz monster that has just gone to the graveyard is put on
    the field. *)
Definition onto_field : list core_msg := xyz ++ [
  CmMove 7 (at_ 0 0x4 2) (at_ 0 0x10 0) 0x1; CmMove 1 (under 0 0x10 0 0) (at_ 0 0x4 3) 0x1 ].
Theorem C81_material_to_field_refuted : exists K, Forall core_ok onto_field /\
  free_run onto_field (no_cards 0) = Some K /\ feed_all ctx_value_init onto_field = Abort.
Proof.
  eexists. split; [unfold onto_field, xyz; runs|]. split; vm_compute; reflexivity.
Qed.
Print Assumptions C81_material_to_field_refuted.

(** A tag swap: the hand of the partner looks like the one before. *)
Definition tag_swap : list core_msg := [
  CmStart 5 8000 8000 2 0 0 0; CmDraw 0 [(1, 8)]; CmUpdateData 0 0x2 [Some [ICode 1]];
  CmTagSwap 0 2 0 0 1 0 [(5, 8)] ].
Theorem C81_tag_swap_refuted : exists K c x y v, Forall core_ok tag_swap /\
  free_run tag_swap (no_cards 0) = Some K /\
  k_pile K (false, LHand) = [x] /\ k_field K x F_code = VN 0 /\
  feed_all ctx_value_init tag_swap = Ok c /\
  contents (CPile (false, LHand)) (ctx_layout c) = [Some y] /\
  card_of (b_frame (cx_board c)) y = Some v /\ card_field F_code v = VN 1.
Proof.
  do 5 eexists. split; [unfold tag_swap; runs; reflexivity|]. split; [vm_compute; reflexivity|].
  split; [vm_compute; reflexivity|]. split; [vm_compute; reflexivity|].
  split; [vm_compute; reflexivity|]. split; [vm_compute; reflexivity|]. split; vm_compute; reflexivity.
Qed.
Print Assumptions C81_tag_swap_refuted.

(** C82.  The claim: MSG_START gives [fresh_duel] whatever the context was used
    for before.  Turn player, phase, blocked zones and deferred moves survive. *)
Theorem C82_start_is_fresh_partial : forall c r lp0 lp1 md0 ed0 md1 ed1, ctx_sound c ->
  core_ok (CmStart r lp0 lp1 md0 ed0 md1 ed1) ->
  exists c', feed c (ser (CmStart r lp0 lp1 md0 ed0 md1 ed1)) = Ok c' /\
    fresh_field lp0 lp1 (deck_sizes md0 ed0 md1 ed1) c' /\
    b_turn_controller (cx_board c') = b_turn_controller (cx_board c) /\
    b_phase (cx_board c') = b_phase (cx_board c) /\ b_blocked (cx_board c') = b_blocked (cx_board c) /\
    cx_deferred c' = cx_deferred c.
Proof. intros. now apply start_field. Qed.
Print Assumptions C82_start_is_fresh_partial.

Theorem C82_first_start : forall c r lp0 lp1 md0 ed0 md1 ed1, c = ctx_value_init ->
  core_ok (CmStart r lp0 lp1 md0 ed0 md1 ed1) ->
  exists c', feed c (ser (CmStart r lp0 lp1 md0 ed0 md1 ed1)) = Ok c' /\
    fresh_duel lp0 lp1 (deck_sizes md0 ed0 md1 ed1) c'.
Proof.
  intros c r lp0 lp1 md0 ed0 md1 ed1 -> K.
  destruct (start_field _ r lp0 lp1 md0 ed0 md1 ed1 (mi_sound _ _ mirrors0) K) as (c' & E & F & A & B & C & G).
  exists c'. split; [exact E|]. constructor; [exact F|rewrite A|rewrite B|rewrite C|rewrite G]; reflexivity.
Qed.
Print Assumptions C82_first_start.

Definition old_duel : list core_msg := [
  CmStart 5 8000 8000 2 2 1 0; CmNewTurn 1; CmNewPhase 0x80; CmFieldDisabled 0xFFFFFFFE;
  CmMove 1 nowhere (at_ 0 0x4 0) 0x10; CmMove 1 (at_ 0 0x4 0) (under 0 0x40 0 0) 0x8 ].
Example C82_ex : exists c c', feed_all ctx_value_init old_duel = Ok c /\ cx_deferred c <> [] /\
  feed c (ser (CmStart 0 4000 4000 3 0 0 1)) = Ok c' /\
  contents (CPile (false, LDeck)) (ctx_layout c') = map Some [6; 7; 8].
Proof.
  do 2 eexists. split; [vm_compute; reflexivity|]. split; [vm_compute; discriminate|].
  split; vm_compute; reflexivity.
Qed.

(** A duel played with the context of another one: it starts in the end phase
    of the other player, with a blocked zone and a material waiting. *)
Theorem C82_start_is_fresh_refuted : exists c c', Forall core_ok old_duel /\
  feed_all ctx_value_init old_duel = Ok c /\
  feed c (ser (CmStart 0 4000 4000 3 0 0 1)) = Ok c' /\
  b_turn_controller (cx_board c') = 1%Z /\ b_phase (cx_board c') = 0x80 /\
  b_blocked (cx_board c') = [mkPlace 0 0x4 0 (-1)] /\ cx_deferred c' <> [].
Proof.
  do 2 eexists. split; [unfold old_duel; runs|]. split; [vm_compute; reflexivity|].
  split; [vm_compute; reflexivity|]. split; [reflexivity|]. split; [reflexivity|]. split; [reflexivity|].
  vm_compute; discriminate.
Qed.
Print Assumptions C82_start_is_fresh_refuted.
