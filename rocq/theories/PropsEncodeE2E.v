(** C47-C53: encoding followed by parsing, and the memory of the encoder. *)
From Verif Require Import Base BaseProofs Place Frame FrameSpec Msg Event EventSpec Query QuerySpec.
From Verif Require Import Reader EncodeQuery Encode CoreMsg EncodeSpec ReaderProofs EncodeProofs
  EncodeQueryProofs EncodeState EncodeE2E EncodeReload EncodeHistory.

Local Open Scope N_scope.

(** A small duel: two cards of player 0 are in the graveyard, one in the hand. *)
Definition spot (con loc seq : N) : cloc := mkCloc con loc seq 0.
Definition mat_of (con loc seq i : N) : cloc := mkCloc con (loc + 0x80) seq i.
Definition opening : list core_msg :=
  [CmStart 5 8000 7000 6 3 4 2; CmDraw 0 [(1, 8); (2, 8); (3, 8)]].
Definition duel_stream : list core_msg :=
  opening ++ [CmMove 1 (spot 0 0x2 0) (spot 0 0x10 0) 0; CmMove 2 (spot 0 0x2 0) (spot 0 0x10 1) 0].
Definition after (ms : list core_msg) : ctx :=
  match feed_all ctx_value_init ms with Ok c => c | _ => ctx_value_init end.
Definition duel : ctx := after duel_stream.
Lemma duel_ok : feed_all ctx_value_init duel_stream = Ok duel.
Proof. vm_compute. reflexivity. Qed.
Lemma duel_sound : ctx_sound duel.
Proof. exact (feed_all_sound _ _ _ sound_value duel_ok). Qed.
Example duel_piles :
  pile_now duel false LDeck = [Some 0; Some 1; Some 2] /\
  pile_now duel false LHand = [Some 3] /\
  pile_now duel false LGrave = [Some 5; Some 4] /\
  pile_now duel false LExtra = [Some 6; Some 7; Some 8].
Proof. vm_compute. auto. Qed.

(** Histories with xyz materials and match kills. *)
Definition xyz_stream : list core_msg := opening ++
  [CmMove 1 (spot 0 0x2 0) (spot 0 0x4 0) 0; CmMove 2 (spot 0 0x2 0) (spot 0 0x4 1) 0;
   CmMove 1 (spot 0 0x4 0) (mat_of 0 0x40 0 0) 0; CmMove 2 (spot 0 0x4 1) (mat_of 0 0x40 0 1) 0].
Definition stolen_stream : list core_msg := opening ++
  [CmMove 1 (spot 0 0x2 0) (spot 0 0x4 0) 0; CmMove 1 (spot 0 0x4 0) (mat_of 0 0x40 0 0) 0].
Definition left_stream : list core_msg := xyz_stream ++ [CmMove 7 (spot 0 0x40 0) (spot 0 0x4 2) 0x800].
Definition gone : core_msg := CmMove 7 (spot 0 0x4 2) (spot 0 0x10 0) 0x40.
Definition kill_stream : list core_msg := opening ++ [CmMatchKill 5; CmNewTurn 0; CmMatchKill 9; CmNewTurn 1].

(** C47 *)
Theorem C47_draw : forall c con who l rest, ctx_sound c ->
  side_of_con (Z.of_N con) = Some who -> core_ok (CmDraw con l) ->
  (length l <= length (pile_now c who LDeck))%nat ->
  lenN (pile_now c who LDeck) < 2 ^ 32 -> lenN (pile_now c who LHand) < 2 ^ 32 ->
  exists c', feed c (ser (CmDraw con l) ++ rest) = Ok c' /\ only_moved c c' /\
    others_kept [CPile (who, LDeck); CPile (who, LHand)] c c' /\
    exists drawn, pile_now c who LDeck = pile_now c' who LDeck ++ drawn /\
      length drawn = length l /\ pile_now c' who LHand = pile_now c who LHand ++ rev drawn.
Proof. exact draw_e2e. Qed.
Print Assumptions C47_draw.

Example C47_ex :
  core_ok (CmDraw 0 [(7, 8); (8, 8)]) /\ (length (pile_now duel false LDeck) = 3)%nat /\
  exists c', feed duel (ser (CmDraw 0 [(7, 8); (8, 8)]) ++ [90; 1]) = Ok c' /\
    pile_now c' false LDeck = [Some 0] /\ pile_now c' false LHand = [Some 3; Some 2; Some 1].
Proof.
  split; [repeat (split || constructor)|]. split; [vm_compute; reflexivity|].
  eexists. split; [vm_compute; reflexivity|]. vm_compute. auto.
Qed.

(** The event says that the cards were drawn: reason.hpp:39. *)
Theorem C47_reason : forall c con who l rest, side_of_con (Z.of_N con) = Some who -> core_ok (CmDraw con l) ->
  exists n sps, encode_one c (ser (CmDraw con l) ++ rest) =
    Ok (mkResult StOk n (Some (mkMsg (MsgEvent (EvPile 0x2000000 (PileSplice sps))) [])), c) /\
    map sp_count sps = [lenN l].
Proof. intros c con who l rest W K. do 2 eexists. rewrite (draw_encode c con who l rest W K). split; reflexivity. Qed.
Print Assumptions C47_reason.

(** C48 *)
Theorem C48_reverse_decks : forall c rest, ctx_sound c ->
  (forall who, lenN (pile_now c who LDeck) < 2 ^ 32) ->
  exists c', feed c (ser CmReverseDeck ++ rest) = Ok c' /\ only_moved c c' /\
    others_kept [CPile (false, LDeck); CPile (true, LDeck)] c c' /\
    forall who, pile_now c' who LDeck = rev (pile_now c who LDeck).
Proof. exact reverse_e2e. Qed.
Print Assumptions C48_reverse_decks.

(** By an effect: reason.hpp:22. *)
Theorem C48_reason : forall c rest, exists n sps, encode_one c (ser CmReverseDeck ++ rest) =
  Ok (mkResult StOk n (Some (mkMsg (MsgEvent (EvPile 0x40 (PileSplice sps))) [])), c) /\ length sps = 2%nat.
Proof. intros c rest. do 2 eexists. rewrite (reverse_encode c rest). split; reflexivity. Qed.
Print Assumptions C48_reason.

Example C48_ex :
  (forall who, lenN (pile_now duel who LDeck) < 2 ^ 32) /\
  exists c', feed duel (ser CmReverseDeck) = Ok c' /\
    pile_now c' false LDeck = [Some 2; Some 1; Some 0] /\
    pile_now c' true LDeck = [Some 12; Some 11; Some 10; Some 9].
Proof.
  split; [intros []; vm_compute; reflexivity|].
  eexists. split; [vm_compute; reflexivity|]. vm_compute. auto.
Qed.

(** C49 *)
Theorem C49_swap_grave_deck : forall c con who pos bits rest, ctx_sound c ->
  side_of_con (Z.of_N con) = Some who -> core_ok (CmSwapGraveDeck con pos bits) ->
  lenN (pile_now c who LGrave) <= 8 * lenN bits ->
  pos <= lenN (pile_now c who LExtra) ->
  lenN (pile_now c who LExtra) + lenN (pile_now c who LGrave) < 2 ^ 32 ->
  lenN (pile_now c who LDeck) < 2 ^ 32 ->
  exists c', feed c (ser (CmSwapGraveDeck con pos bits) ++ rest) = Ok c' /\ only_moved c c' /\
    others_kept [CPile (who, LDeck); CPile (who, LGrave); CPile (who, LExtra)] c c' /\
    pile_now c' who LGrave = pile_now c who LDeck /\
    pile_now c' who LDeck = pick (fun i => negb (flag_at bits i)) 0 (pile_now c who LGrave) /\
    pile_now c' who LExtra = firstn (N.to_nat pos) (pile_now c who LExtra)
      ++ pick (flag_at bits) 0 (pile_now c who LGrave) ++ skipn (N.to_nat pos) (pile_now c who LExtra).
Proof. exact swap_e2e. Qed.
Print Assumptions C49_swap_grave_deck.

Example C49_ex :
  core_ok (CmSwapGraveDeck 0 1 [2]) /\ lenN (pile_now duel false LGrave) <= 8 * lenN [2] /\
  exists c', feed duel (ser (CmSwapGraveDeck 0 1 [2])) = Ok c' /\
    pile_now c' false LGrave = [Some 0; Some 1; Some 2] /\
    pile_now c' false LDeck = [Some 5] /\
    pile_now c' false LExtra = [Some 6; Some 4; Some 7; Some 8].
Proof.
  split; [repeat (split || constructor)|]. split; [vm_compute; discriminate|].
  eexists. split; [vm_compute; reflexivity|]. vm_compute. auto.
Qed.

(** C50 *)
Theorem C50_start : forall c rule lp0 lp1 md0 ed0 md1 ed1 rest, ctx_sound c ->
  core_ok (CmStart rule lp0 lp1 md0 ed0 md1 ed1) ->
  exists c', feed c (ser (CmStart rule lp0 lp1 md0 ed0 md1 ed1) ++ rest) = Ok c' /\
    b_turn (cx_board c') = 0 /\ b_lp (cx_board c') = (lp0, lp1) /\ b_chain (cx_board c') = [] /\
    (forall k, lenN (contents k (ctx_layout c')) = start_count md0 ed0 md1 ed1 k) /\
    (forall id x, In (id, x) (f_heap (b_frame (cx_board c'))) -> x = card0) /\
    agree_but [MLp; MChain; MFrame; MTurn] (cx_board c) (cx_board c') /\
    cx_mwr c' = cx_mwr c /\ cx_left c' = cx_left c /\ cx_deferred c' = cx_deferred c.
Proof.
  intros c rule lp0 lp1 md0 ed0 md1 ed1 rest S K.
  destruct (core_event (CmStart rule lp0 lp1 md0 ed0 md1 ed1)) as [e|] eqn:E; [|discriminate].
  pose proof E as E'. cbn [core_event] in E'. inversion E'; subst e.
  destruct (start_ok _ _ _ _ _ _ _ _ E) as (So & Lp & Ch & Tn & Co).
  destruct (state_feed _ c _ rest S K E So) as (c' & l0 & l1 & l & F & L & Lp' & Ch' & T & N & H & A & M).
  exists c'. rewrite Lp in L. inversion L; subst l0 l1. rewrite Ch in Ch'. rewrite Tn in T.
  do 4 (split; [assumption|]). split; [intros k; unfold lenN; rewrite N, Co; lia|]. auto.
Qed.
Print Assumptions C50_start.

Example C50_ex : core_ok (CmStart 5 8000 7000 6 3 4 2) /\
  exists c', feed duel (ser (CmStart 5 4000 5000 2 1 3 0)) = Ok c' /\
    b_lp (cx_board c') = (4000, 5000) /\ lenN (pile_now c' true LDeck) = 3 /\
    pile_now c' false LGrave = [].
Proof.
  split; [repeat (split || constructor)|].
  eexists. split; [vm_compute; reflexivity|]. vm_compute. auto.
Qed.

(** C51.  Pile sizes, zones, materials, life points and links are those of the
    message; whose turn it is and the phase are not in the message and stay. *)
Theorem C51_reload_partial : forall c flags s0 s1 chains rest, ctx_sound c ->
  core_ok (CmReloadField flags s0 s1 chains) ->
  exists c', feed c (ser (CmReloadField flags s0 s1 chains) ++ rest) = Ok c' /\
    b_lp (cx_board c') = (sd_lp s0, sd_lp s1) /\
    b_chain (cx_board c') = map core_chain chains /\
    (forall k, lenN (contents k (ctx_layout c')) = reload_count s0 s1 k) /\
    (forall id x, In (id, x) (f_heap (b_frame (cx_board c'))) -> x = card0) /\
    agree_but [MLp; MChain; MFrame] (cx_board c) (cx_board c') /\
    cx_mwr c' = cx_mwr c /\ cx_left c' = cx_left c /\ cx_deferred c' = cx_deferred c.
Proof.
  intros c flags s0 s1 chains rest S K. pose proof K as [_ [K0 [K1 _]]].
  destruct (reload_ok flags s0 s1 chains K0 K1) as [So Co].
  destruct (state_feed _ c _ rest S K eq_refl So) as (c' & l0 & l1 & l & F & L & Lp' & Ch' & T & N & H & A & M).
  exists c'. cbn [reload_state bs_lps bs_chains bs_turn_counter] in *. inversion L; subst l0 l1.
  split; [exact F|]. split; [exact Lp'|]. split; [exact Ch'|].
  split; [intros k; unfold lenN; rewrite N, Co; lia|]. split; [exact H|]. split; [|exact M].
  destruct A as (A1 & A2 & A3 & A4 & A5 & A6 & A7).
  assert (X : forall a ms, a <> MTurn -> ~ In a ms -> ~ In a (ms ++ [MTurn])).
  { intros a ms Na Ni Ha. apply in_app_or in Ha. destruct Ha as [Ha|[Ha|[]]]; auto. }
  split; [intros I; apply A1; now apply (X MFrame [MLp; MChain; MFrame])|].
  split; [intros I; apply A2; now apply (X MChain [MLp; MChain; MFrame])|].
  split; [intros _; exact T|].
  split; [intros I; apply A4; now apply (X MTurnController [MLp; MChain; MFrame])|].
  split; [intros I; apply A5; now apply (X MLp [MLp; MChain; MFrame])|].
  split; [intros I; apply A6; now apply (X MPhase [MLp; MChain; MFrame])|].
  intros I; apply A7; now apply (X MBlocked [MLp; MChain; MFrame]).
Qed.
Print Assumptions C51_reload_partial.

Definition empty_row (n : nat) : list czone := repeat None n.
Definition some_side : cside :=
  mkCside 8000 (Some (1, 2) :: empty_row 6) (empty_row 5 ++ [Some (5, 0); None; Some (5, 0)]) 3 1 0 0 2 0.
Lemma some_side_ok : cside_ok some_side.
Proof. split; repeat (split || constructor). Qed.
Example C51_ex : core_ok (CmReloadField 0 some_side some_side []) /\
  exists c', feed duel (ser (CmReloadField 0 some_side some_side [])) = Ok c' /\
    lenN (contents (CMats (true, ZMonster, 0%nat)) (ctx_layout c')) = 2 /\
    lenN (contents (CCard (false, ZField, 0%nat)) (ctx_layout c')) = 1 /\
    lenN (contents (CCard (false, ZPend, 1%nat)) (ctx_layout c')) = 1 /\
    pile_now c' false LGrave = [].
Proof.
  split; [split; [reflexivity|split; [apply some_side_ok|split; [apply some_side_ok|repeat (split || constructor)]]]|].
  eexists. split; [vm_compute; reflexivity|]. vm_compute. auto.
Qed.

(** Missing: a card with materials in the field zone (or a pendulum zone); its
    materials are announced at the core's own number of that zone, which the
    board does not have. *)
Definition field_with_material : cside :=
  mkCside 8000 (empty_row 7) (empty_row 5 ++ [Some (5, 1); None; None]) 0 0 0 0 0 0.
Theorem C51_reload_refuted : exists s0 s1,
  cside_ok s1 /\ Forall czone_ok (sd_monster s0) /\ Forall czone_ok (sd_spell s0) /\
  length (sd_monster s0) = 7%nat /\ length (sd_spell s0) = 8%nat /\
  forall c', feed ctx_value_init (ser (CmReloadField 0 s0 s1 [])) <> Ok c'.
Proof.
  exists field_with_material, some_side. split; [apply some_side_ok|].
  do 2 (split; [repeat (split || constructor)|]). do 2 (split; [reflexivity|]).
  intros c'. vm_compute. discriminate.
Qed.
Print Assumptions C51_reload_refuted.

(** C52.  Full claim: the materials announced for a card outside the field, and
    no others, are attached to that card when it reaches the field.  Proved: all
    waiting materials, in order, follow the next card that reaches the field. *)
Definition moves_to (q : place) (l : list place) (p : place) (reason : N) : msg :=
  mkMsg (MsgEvent (EvCard reason (CardMove (attach_moves q 0 l ++ [mkPair p q])))) [].
Theorem C52_attach_partial : forall start c ms l code p q reason rest,
  start = ctx_value_init \/ start = ctx_default_init ->
  heard start c ms -> waiting ms l -> core_ok (CmMove code p q reason) ->
  fields (core_place p) (core_place q) ->
  exists r c', encode_one c (ser (CmMove code p q reason) ++ rest) = Ok (r, c') /\
    r_msg r = Some (moves_to (core_place q) l (core_place p) reason).
Proof.
  intros start c ms l code p q reason rest S H W K F.
  destruct (field_encode c l code p q reason rest K F) as [c' E].
  - eapply heard_waiting; [exact H| |exact W]. destruct S; subst; reflexivity.
  - do 2 eexists. split; [exact E|reflexivity].
Qed.
Print Assumptions C52_attach_partial.

Lemma stream_heard : forall ms c, Forall core_ok ms -> feed_all ctx_value_init ms = Ok c ->
  heard ctx_value_init c ms.
Proof. intros ms c F E. exact (feed_all_heard ms _ _ [] _ (heard_new _) F E). Qed.
Ltac okay := repeat match goal with
  | |- _ /\ _ => split
  | |- Forall _ [] => apply Forall_nil
  | |- Forall _ (_ :: _) => apply Forall_cons
  | |- cloc_ok _ => constructor
  | |- cloc1_ok _ => split
  | |- ccard_ok _ => split
  | |- effect_ok _ => split
  | |- In _ _ => cbn; tauto
  | |- _ < _ => reflexivity
  | |- is_u8 _ => reflexivity
  | |- is_u16 _ => reflexivity
  | |- is_u32 _ => reflexivity
  | |- short4 _ => reflexivity
  | |- _ -> _ => let H := fresh in intros H; vm_compute in H; try congruence
  end; cbn [fst snd].
Ltac streams := unfold kill_stream, left_stream, gone, stolen_stream, xyz_stream, opening, spot, mat_of; cbn [app];
  repeat (apply Forall_cons || apply Forall_nil); cbn [core_ok]; okay.

Example C52_attach_ex :
  heard ctx_value_init (after xyz_stream) xyz_stream /\
  waiting xyz_stream [mkPlace 0 0x4 0 (-1); mkPlace 0 0x4 1 (-1)] /\
  exists r c', encode_one (after xyz_stream) (ser (CmMove 7 (spot 0 0x40 0) (spot 0 0x4 1) 0x800)) = Ok (r, c') /\
    r_msg r = Some (mkMsg (MsgEvent (EvCard 0x800 (CardMove
      [mkPair (mkPlace 0 0x4 0 (-1)) (mkPlace 0 0x4 1 0); mkPair (mkPlace 0 0x4 1 (-1)) (mkPlace 0 0x4 1 1);
       mkPair (mkPlace 0 0x40 0 (-1)) (mkPlace 0 0x4 1 (-1))]))) []).
Proof.
  split; [|split].
  - apply stream_heard; [streams|vm_compute; reflexivity].
  - change xyz_stream with ((((((([] ++ [CmStart 5 8000 7000 6 3 4 2]) ++ [CmDraw 0 [(1, 8); (2, 8); (3, 8)]])
      ++ [CmMove 1 (spot 0 0x2 0) (spot 0 0x4 0) 0]) ++ [CmMove 2 (spot 0 0x2 0) (spot 0 0x4 1) 0])
      ++ [CmMove 1 (spot 0 0x4 0) (mat_of 0 0x40 0 0) 0]) ++ [CmMove 2 (spot 0 0x4 1) (mat_of 0 0x40 0 1) 0])).
    apply wait_attach with (l := [mkPlace 0 0x4 0 (-1)]); [apply wait_attach with (l := [])|]; cycle 1.
    1, 2: repeat split; vm_compute; discriminate.
    apply wait_field with (l := []); [apply wait_field with (l := [])|]; cycle 1.
    1, 2: repeat split; vm_compute; congruence.
    apply wait_other; [apply wait_other; [apply wait_nil|]|]; discriminate.
  - do 2 eexists. split; vm_compute; reflexivity.
Qed.

(** A material announced for one card is attached to another that reaches the
    field first. *)
Theorem C52_attach_refuted : exists ms c code p q mat holding reason r c',
  heard ctx_value_init c (ms ++ [CmMove 1 mat holding 0]) /\
  attaches (core_place mat) (core_place holding) /\
  core_ok (CmMove code p q reason) /\ fields (core_place p) (core_place q) /\
  core_place p <> holder (core_place holding) /\
  encode_one c (ser (CmMove code p q reason)) = Ok (r, c') /\
  r_msg r = Some (mkMsg (MsgEvent (EvCard reason (CardMove
    [mkPair (core_place mat) (material_of (core_place q) 0); mkPair (core_place p) (core_place q)]))) []).
Proof.
  exists (opening ++ [CmMove 1 (spot 0 0x2 0) (spot 0 0x4 0) 0]), (after stolen_stream), 2,
    (spot 0 0x2 0), (spot 0 0x4 1), (spot 0 0x4 0), (mat_of 0 0x40 0 0), 0.
  do 2 eexists. split; [apply stream_heard; [streams|vm_compute; reflexivity]|].
  split; [repeat split; vm_compute; discriminate|]. split; [streams|].
  split; [repeat split; vm_compute; congruence|]. split; [vm_compute; discriminate|].
  split; vm_compute; reflexivity.
Qed.
Print Assumptions C52_attach_refuted.

(** Full claim: every later move of a material of a card that left a zone is
    announced as a move from that zone.  Proved for moves that do not put the
    material on the field or below another card outside the field. *)
Theorem C52_detach_partial : forall c code p q reason z rest r c1 c2 ms code' p' q' reason' rest',
  ctx_sound c -> core_ok (CmMove code p q reason) ->
  zone_named (core_place p) = Some z -> contents (CMats z) (ctx_layout c) <> [] ->
  in_pile (core_place q) -> ~ as_material (core_place q) ->
  encode_one c (ser (CmMove code p q reason) ++ rest) = Ok (r, c1) ->
  heard c1 c2 ms ->
  (forall code p' q' reason, In (CmMove code p' q' reason) ms ->
     core_place q' = core_place q -> zone_named (core_place p') = None) ->
  core_ok (CmMove code' p' q' reason') -> as_material (core_place p') ->
  holder (core_place p') = core_place q ->
  ~ outside (core_place q') -> ~ attaches (core_place p') (core_place q') ->
  ~ fields (core_place p') (core_place q') ->
  exists r' c3, encode_one c2 (ser (CmMove code' p' q' reason') ++ rest') = Ok (r', c3) /\
    r_msg r' = Some (mkMsg (MsgEvent (EvCard reason' (CardMove
      [mkPair (mkPlace (p_con (core_place p)) (p_loc (core_place p)) (p_seq (core_place p))
                       (p_oseq (core_place p'))) (core_place q')]))) []).
Proof.
  intros c code p q reason z rest r c1 c2 ms code' p' q' reason' rest' S K Z M P Nm E H Nw K' Am Ho No Na Nf.
  pose proof (left_encode _ _ _ _ _ _ _ _ _ S K Z M P Nm E) as L.
  pose proof (left_kept _ _ _ _ _ H P Nw L) as L2. rewrite <- Ho in L2.
  assert (P' : in_pile (core_place p')).
  { unfold in_pile in *. rewrite <- Ho in P. exact P. }
  do 2 eexists. split; [eapply detach_encode; eassumption|reflexivity].
Qed.
Print Assumptions C52_detach_partial.

Example C52_detach_ex :
  ctx_sound (after left_stream) /\ core_ok gone /\
  zone_named (core_place (spot 0 0x4 2)) = Some (false, ZMonster, 2%nat) /\
  contents (CMats (false, ZMonster, 2%nat)) (ctx_layout (after left_stream)) = [Some 5; Some 4] /\
  exists r' c3, encode_one (after (left_stream ++ [gone])) (ser (CmMove 2 (mat_of 0 0x10 0 1) (spot 0 0x10 1) 0)) = Ok (r', c3) /\
    r_msg r' = Some (mkMsg (MsgEvent (EvCard 0 (CardMove
      [mkPair (mkPlace 0 0x4 2 1) (mkPlace 0 0x10 1 (-1))]))) []).
Proof.
  split; [apply (feed_all_sound left_stream _ _ sound_value); vm_compute; reflexivity|].
  split; [streams|]. do 2 (split; [vm_compute; reflexivity|]).
  do 2 eexists. split; vm_compute; reflexivity.
Qed.

(** A material put on the field by its holder's removal is announced as coming
    from the pile, and the board stops. *)
Theorem C52_detach_refuted : exists ms c code p q p' q' z,
  heard ctx_value_init c (ms ++ [CmMove code p q 0x40]) /\
  zone_named (core_place p) = Some z /\ contents (CMats z) (ctx_layout c) <> [] /\
  in_pile (core_place q) /\ core_ok (CmMove 1 p' q' 0) /\ as_material (core_place p') /\
  holder (core_place p') = core_place q /\ fields (core_place p') (core_place q') /\
  (exists r c', encode_one c (ser (CmMove 1 p' q' 0)) = Ok (r, c') /\
     r_msg r = Some (mkMsg (MsgEvent (EvCard 0 (CardMove
       [mkPair (core_place p') (core_place q')]))) [])) /\
  feed c (ser (CmMove 1 p' q' 0)) = Abort.
Proof.
  exists left_stream, (after (left_stream ++ [gone])), 7, (spot 0 0x4 2), (spot 0 0x10 0),
    (mat_of 0 0x10 0 0), (spot 0 0x4 3), (false, ZMonster, 2%nat).
  split; [apply stream_heard; [streams|vm_compute; reflexivity]|].
  split; [vm_compute; reflexivity|]. split; [vm_compute; discriminate|].
  split; [vm_compute; discriminate|]. split; [streams|]. split; [vm_compute; discriminate|].
  split; [vm_compute; reflexivity|]. split; [repeat split; vm_compute; congruence|].
  split; [|vm_compute; reflexivity]. do 2 eexists. split; vm_compute; reflexivity.
Qed.
Print Assumptions C52_detach_refuted.

(** C53.  Missing: a context without initializer, whose reason is indeterminate
    until the first match-kill message. *)
Definition said_kill (ms : list core_msg) : N :=
  match last_kill ms with Some w => w | None => 0 end.
Theorem C53_win_reason_partial : forall c ms p reason rest,
  heard ctx_value_init c ms -> core_ok (CmWin p reason) ->
  exists r, encode_one c (ser (CmWin p reason) ++ rest) = Ok (r, c) /\
    r_msg r = Some (mkMsg (MsgEvent (EvFinish reason (said_kill ms)
      (if p =? 2 then FinishDraw true else FinishWinner (Z.of_N p)))) []).
Proof.
  intros c ms p reason rest H [Kp Kr]. apply heard_mwr in H.
  eexists. split; [apply win_encode; [exact Kp|exact Kr|]|reflexivity].
  rewrite H. unfold said_kill. now destruct (last_kill ms).
Qed.
Print Assumptions C53_win_reason_partial.

(** Without initializer it holds from the first match-kill message on. *)
Theorem C53_win_reason_default_partial : forall c ms w p reason rest,
  heard ctx_default_init c ms -> last_kill ms = Some w -> core_ok (CmWin p reason) ->
  exists r, encode_one c (ser (CmWin p reason) ++ rest) = Ok (r, c) /\
    r_msg r = Some (mkMsg (MsgEvent (EvFinish reason w
      (if p =? 2 then FinishDraw true else FinishWinner (Z.of_N p)))) []).
Proof.
  intros c ms w p reason rest H L [Kp Kr]. apply heard_mwr in H. rewrite L in H.
  eexists. split; [apply win_encode; [exact Kp|exact Kr|exact H]|reflexivity].
Qed.
Print Assumptions C53_win_reason_default_partial.

Example C53_ex :
  heard ctx_value_init (after kill_stream) kill_stream /\ last_kill kill_stream = Some 9 /\
  last_kill opening = None /\
  exists r, encode_one (after kill_stream) (ser (CmWin 1 3)) = Ok (r, after kill_stream) /\
    r_msg r = Some (mkMsg (MsgEvent (EvFinish 3 9 (FinishWinner 1))) []).
Proof.
  split; [apply stream_heard; [streams|vm_compute; reflexivity]|]. do 2 (split; [reflexivity|]).
  eexists. split; vm_compute; reflexivity.
Qed.

Theorem C53_win_reason_refuted : exists c ms, heard ctx_default_init c ms /\ last_kill ms = None /\
  encode_one c (ser (CmWin 0 1)) = UB.
Proof.
  exists ctx_default_init, []. split; [constructor|]. split; [reflexivity|]. vm_compute. reflexivity.
Qed.
Print Assumptions C53_win_reason_refuted.
