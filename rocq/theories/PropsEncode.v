(** C35-C46: the encoder, message by message. *)
From Verif Require Import Base BaseProofs Place Frame FrameSpec Msg Event Query QuerySpec.
From Verif Require Import Reader EncodeQuery Encode CoreMsg EncodeSpec ReaderProofs EncodeProofs
  EncodeQueryProofs EncodeLocal EncodeFrame EncodeFacts EncodeState StreamSpec StreamProofs.

Local Open Scope N_scope.

(** A context in the middle of a duel: a start, two draws, a card set, an xyz
    material, cards in the graveyard. *)
Definition at_ (con loc seq : N) : cloc := mkCloc con loc seq 0.
Definition ex_stream : list core_msg := [
  CmStart 5 8000 8000 40 15 40 15;
  CmDraw 0 [(1, 8); (2, 8); (3, 8); (4, 8); (5, 8)];
  CmDraw 1 [(1, 8); (2, 8)];
  CmNewTurn 0; CmNewPhase 4;
  CmMove 1 (at_ 0 0x2 0) (at_ 0 0x4 2) 0x10;
  CmMove 2 (at_ 0 0x40 0) (at_ 0 0x4 3) 0x800;
  CmMove 1 (at_ 0 0x4 2) (mkCloc 0 0x84 3 0) 0x8;
  CmMove 3 (at_ 0 0x2 0) (at_ 0 0x8 6) 0;
  CmMove 4 (at_ 0 0x2 0) (at_ 0 0x10 0) 0;
  CmMatchKill 9 ].
Definition ex_ctx : ctx :=
  match feed_all ctx_value_init ex_stream with Ok c => c | _ => ctx_value_init end.
Lemma ex_ctx_ok : feed_all ctx_value_init ex_stream = Ok ex_ctx.
Proof. vm_compute. reflexivity. Qed.

(** C35 *)
Theorem C35_encode_one_terminates : forall c bs, encode_one c bs <> Diverge.
Proof. exact encode_halts. Qed.
Print Assumptions C35_encode_one_terminates.

Theorem C35_result_discipline : forall c bs r c', encode_one c bs = Ok (r, c') ->
  1 <= r_bytes_read r <= lenN bs /\ (r_msg r <> None <-> r_state r = StOk).
Proof.
  intros c bs r c' H. pose proof (encode_ok _ _ _ _ H) as [b [tl [_ [_ [-> _]]]]].
  apply encode_known in H. tauto.
Qed.
Print Assumptions C35_result_discipline.

(** Encoding never touches the board; only parsing does. *)
Theorem C35_board_untouched : forall c bs r c', encode_one c bs = Ok (r, c') ->
  cx_board c' = cx_board c.
Proof. exact encode_board. Qed.
Print Assumptions C35_board_untouched.

Example C35_ex :
  (exists r, encode_one ex_ctx [90; 0; 1; 0; 0; 0; 7; 0; 0; 0; 8; 0; 0; 0; 99] = Ok (r, ex_ctx) /\
     r_state r = StOk /\ r_bytes_read r = 14) /\
  encode_one ex_ctx [1; 2; 3] = Ok (mkResult StSwallowed 1 None, ex_ctx) /\
  encode_one ex_ctx [255; 2] = Ok (mkResult StUnknown 1 None, ex_ctx) /\
  encode_one ex_ctx [90; 0] = UB.
Proof. split; [eexists; split; [vm_compute; reflexivity|split; reflexivity]|]. vm_compute. auto. Qed.

(** C36 *)
Lemma handled_iff : forall b, In b handled <-> finished b = true.
Proof.
  intros b. split.
  - intros H. unfold handled in H. cbn [In] in H.
    repeat destruct H as [<-|H]; try reflexivity. contradiction.
  - unfold finished. destruct (kind_of b) as [k|] eqn:K; [|discriminate].
    apply kind_of_In in K. intros U. unfold kind_table in K. cbn [In] in K.
    repeat destruct K as [K|K]; try contradiction; inversion K; subst; try discriminate U; cbn; tauto.
Qed.
Lemma unhandled_iff : forall b, ~ In b handled <-> finished b = false.
Proof. intros b. rewrite handled_iff. destruct (finished b); intuition congruence. Qed.

Theorem C36_unknown_iff : forall c b tl r c', encode_one c (b :: tl) = Ok (r, c') ->
  (r_state r = StUnknown <-> ~ In b handled).
Proof. intros c b tl r c' H. rewrite unhandled_iff. now apply encode_known in H. Qed.
Print Assumptions C36_unknown_iff.

Theorem C36_unknown_one_byte : forall c b tl, ~ In b handled ->
  encode_one c (b :: tl) = Ok (mkResult StUnknown 1 None, c).
Proof. intros c b tl H. apply encode_unknown. now apply unhandled_iff. Qed.
Print Assumptions C36_unknown_one_byte.

Example C36_ex : ~ In 22 handled /\ ~ In 142 handled /\ ~ In 0 handled /\ In 90 handled /\
  length handled = 82%nat.
Proof. cbn. intuition discriminate. Qed.

(** C37 as stated fails for MSG_SWAP_GRAVE_DECK: the flags of a graveyard
    larger than the announced buffer are read behind the message. *)
Definition nine_graves : msg :=
  mkMsg (MsgEvent (EvBoard (BoardExchange (mkBExchange 0 [] [] [mkResize (mkPlace 0 0x10 0 (-1)) 9])))) [].
Definition ex_big_grave : ctx :=
  match ctx_parse nine_graves ctx_value_init with Ok c => c | _ => ctx_value_init end.
Theorem C37_local_refuted : exists bs r rest', ctx_sound ex_big_grave /\
  encode_one ex_big_grave bs = Ok (r, ex_big_grave) /\
  encode_one ex_big_grave (firstn (N.to_nat (r_bytes_read r)) bs ++ rest') <> Ok (r, ex_big_grave).
Proof.
  exists [35; 0; 0; 0; 0; 0; 1; 0; 0; 0; 0; 1]. eexists. exists [0].
  split; [eapply (sound_parse nine_graves sound_value); vm_compute; reflexivity|].
  split; [vm_compute; reflexivity|]. vm_compute. discriminate.
Qed.
Print Assumptions C37_local_refuted.

(** Everything else only depends on the reported bytes; missing are only those
    buffers: flags_cover speaks of the announced size, the four bytes after
    the insertion position. *)
Theorem C37_local_partial : forall c bs r c', encode_one c bs = Ok (r, c') ->
  (forall con p0 p1 p2 p3 n0 n1 n2 n3 tl,
     bs = 35 :: con :: p0 :: p1 :: p2 :: p3 :: n0 :: n1 :: n2 :: n3 :: tl ->
     flags_cover c (Z.of_N con) (n0 + 256 * (n1 + 256 * (n2 + 256 * n3)))) ->
  forall rest', encode_one c (firstn (N.to_nat (r_bytes_read r)) bs ++ rest') = Ok (r, c').
Proof.
  intros c bs r c' H F. eapply encode_local; [exact H|].
  intros con p0 p1 p2 p3 n0 n1 n2 n3 tl who E W. exact (F _ _ _ _ _ _ _ _ _ _ E who W).
Qed.
Print Assumptions C37_local_partial.

Example C37_ex : exists r, encode_one ex_ctx [35; 0; 0; 0; 0; 0; 1; 0; 0; 0; 1; 77; 88] = Ok (r, ex_ctx) /\
  r_bytes_read r = 11 /\ flags_cover ex_ctx 0 1.
Proof.
  eexists. split; [vm_compute; reflexivity|]. split; [reflexivity|].
  intros who W. inversion W; subst. vm_compute. discriminate.
Qed.

(** C38 *)
Theorem C38_frames : forall m c rest r c', core_ok m ->
  encode_one c (ser m ++ rest) = Ok (r, c') -> r_bytes_read r = lenN (ser m).
Proof. exact encode_frames. Qed.
Print Assumptions C38_frames.

(** Every message is accepted when the context has what it needs. *)
Theorem C38_accepts : forall m c rest, core_ok m -> ctx_sound c -> ready c m ->
  exists r c', encode_one c (ser m ++ rest) = Ok (r, c') /\ r_bytes_read r = lenN (ser m).
Proof.
  intros m c rest K S R. destruct (ready_encode m c rest K S R) as [r [c' E]].
  exists r, c'. split; [exact E|]. eapply encode_frames; eauto.
Qed.
Print Assumptions C38_accepts.

(** A caller that advances by bytes_read sees exactly the messages, whatever
    it does to the context in between. *)
Theorem C38_stream : forall f ms fuel c l, Forall core_ok ms ->
  drain f fuel c (flat_map ser ms) = Ok l ->
  map r_bytes_read l = map (fun m => lenN (ser m)) ms.
Proof. exact drain_splits. Qed.
Print Assumptions C38_stream.
Theorem C38_stream_accepts : forall f ms c, Forall core_ok ms -> ctx_sound c -> well_fed f c ms ->
  exists l d, drain f (length ms) c (flat_map ser ms) = Ok l /\ length l = length ms /\
    one_by_one f c ms = Ok (l, d).
Proof.
  intros f ms c K S W. destruct (stream_alone f ms c K S W) as (l & d & O & _ & D & M).
  exists l, d. split; [exact D|]. split; [|exact O].
  rewrite <- (map_length r_bytes_read), M. apply map_length.
Qed.
Print Assumptions C38_stream_accepts.
(** A caller that only follows the duel ends with what feeding the messages
    one at a time gives. *)
Theorem C38_stream_follows : forall ms c, Forall core_ok ms -> ctx_sound c -> well_fed follow c ms ->
  exists l d, drain follow (length ms) c (flat_map ser ms) = Ok l /\ length l = length ms /\
    one_by_one follow c ms = Ok (l, d) /\ feed_all c ms = Ok d.
Proof.
  intros ms c K S W. destruct (C38_stream_accepts follow ms c K S W) as (l & d & D & L & O).
  exists l, d. split; [exact D|]. split; [exact L|]. split; [exact O|]. exact (follow_feeds ms c l d O).
Qed.
Print Assumptions C38_stream_follows.

Ltac okay := repeat match goal with
  | |- _ /\ _ => split
  | |- Forall _ [] => apply Forall_nil
  | |- Forall _ (_ :: _) => apply Forall_cons
  | |- cloc_ok _ => constructor
  | |- cloc1_ok _ => split
  | |- ccard_ok _ => split
  | |- effect_ok _ => split
  | |- In _ _ => cbn; tauto
  | |- _ < _ => reflexivity
  | |- is_u8 _ => reflexivity
  | |- is_u16 _ => reflexivity
  | |- is_u32 _ => reflexivity
  | |- short4 _ => reflexivity
  | |- _ -> _ => let H := fresh in intros H; vm_compute in H; try congruence
  end; cbn [fst snd].

Lemma ex_stream_ok : Forall core_ok ex_stream.
Proof. unfold ex_stream, at_. repeat (apply Forall_cons || apply Forall_nil); cbn [core_ok]; okay. Qed.

Example C38_ex :
  (exists l, drain follow 11 ctx_value_init (flat_map ser ex_stream) = Ok l /\ length l = 11%nat /\
     map r_bytes_read l = map (fun m => lenN (ser m)) ex_stream) /\
  Forall core_ok ex_stream /\ ready ex_ctx (CmWin 0 1) /\ ready ex_ctx (CmDraw 1 [(1, 8)]) /\
  ready ex_ctx (CmSwapGraveDeck 0 0 [1]) /\ ready ex_ctx (CmMove 4 (at_ 0 0x8 6) (at_ 0 0x10 0) 0).
Proof.
  split; [eexists; split; [vm_compute; reflexivity|split; vm_compute; reflexivity]|].
  split; [exact ex_stream_ok|]. cbn [ready]. split; [vm_compute; discriminate|]. split; [reflexivity|].
  split.
  - split; [reflexivity|]. intros who W. inversion W; subst. vm_compute. discriminate.
  - split; [right; right; discriminate|]. intros [H _]. vm_compute in H. congruence.
Qed.

Ltac fed S := eapply fed_step; [exact S
  | cbn [ready]; first [exact Logic.I | reflexivity | split;
    [ right; (left; vm_compute; discriminate) || (right; vm_compute; discriminate)
    | let H := fresh in intros [_ H]; vm_compute in H; congruence ] ]
  | vm_compute; reflexivity | vm_compute; reflexivity | clear S; intros S; try exact Logic.I ].
Example C38_ex_fed : well_fed follow ctx_value_init ex_stream.
Proof. unfold ex_stream, at_. pose proof sound_value as S. repeat fed S. Qed.

(** C39: core_event (CoreMsg.v) says what each message stands for. *)
Theorem C39_events : forall m e, core_ok m -> core_event m = Some e ->
  forall c rest, encode_one c (ser m ++ rest) =
    Ok (mkResult StOk (lenN (ser m)) (Some (mkMsg (MsgEvent e) [])), c).
Proof. exact event_encode. Qed.
Print Assumptions C39_events.

(** A card shown on the deck is counted from the top. *)
Theorem C39_deck_top : forall c con who s code pos rest, side_of_con (Z.of_N con) = Some who ->
  core_ok (CmDeckTop con s code pos) ->
  s < lenN (contents (CPile (who, LDeck)) (ctx_layout c)) < 2 ^ 32 ->
  exists i, i + s + 1 = lenN (contents (CPile (who, LDeck)) (ctx_layout c)) /\
  encode_one c (ser (CmDeckTop con s code pos) ++ rest) =
    Ok (mkResult StOk (lenN (ser (CmDeckTop con s code pos)))
         (Some (mkMsg (MsgEvent (EvMeta (MetaUpdate 0 [mkPlace (Z.of_N con) 0x1 i (-1)]))) [])), c).
Proof.
  intros c con who s code pos rest W [K1 [K2 [K3 K4]]] L.
  exists (size_of c who LDeck - 1 - s). unfold size_of. split; [lia|].
  rewrite (deck_top_encode c con who s code pos rest W K1 K2 K3 K4). unfold size_of.
  unfold of_signed. repeat f_equal. rewrite Z.mod_small by lia. lia.
Qed.
Print Assumptions C39_deck_top.

(** Messages without a counterpart are swallowed. *)
Theorem C39_silent : forall m, core_ok m -> core_silent m = true ->
  forall c rest, encode_one c (ser m ++ rest) = Ok (mkResult StSwallowed (lenN (ser m)) None, c).
Proof. exact silent_encode. Qed.
Print Assumptions C39_silent.

Definition ex_event_msg : core_msg :=
  CmChaining (mkClink (mkCcard 55144522 (mkCloc 1 0x84 2 1)) (at_ 1 0x8 5) (mkEffect 55144522 3)) 1.
Example C39_ex : core_ok ex_event_msg /\
  core_event ex_event_msg = Some (EvChainStack (ChainPush (mkChain (mkPlace 1 0x4 2 1)
    (mkPlace 1 0x100 0 (-1)) (mkEffect 55144522 3)))) /\
  (exists r, encode_one ex_ctx (ser ex_event_msg ++ [4; 5]) = Ok (r, ex_ctx) /\ r_bytes_read r = 33) /\
  core_ok (CmDeckTop 0 3 5 1) /\ core_silent (CmHint 1 0 7) = true.
Proof.
  split; [unfold ex_event_msg, at_; cbn [core_ok]; unfold clink_ok; okay|].
  split; [reflexivity|]. split; [eexists; split; vm_compute; reflexivity|]. cbn [core_ok]. okay. reflexivity.
Qed.

(** C40: core_request (CoreMsg.v) says who is asked for what. *)
Theorem C40_requests : forall m to rq, core_ok m -> core_request m = Some (to, rq) ->
  forall c rest, encode_one c (ser m ++ rest) =
    Ok (mkResult StOk (lenN (ser m)) (Some (mkMsg (MsgRequest (Z.of_N to) rq) [])), c).
Proof. exact request_encode. Qed.
Print Assumptions C40_requests.

Definition ex_request_msg : core_msg :=
  CmSelectCard 1 true 1 2 [mkCcard 10 (at_ 1 0x2 0); mkCcard 20 (at_ 1 0x8 7); mkCcard 30 (at_ 0 0x4 6)].
Example C40_ex : core_ok ex_request_msg /\
  core_request ex_request_msg = Some (1, RqCard (ScUniqueRange true 1 2
    [mkSelCard (mkPlace 1 0x2 0 (-1)) 10; mkSelCard (mkPlace 1 0x200 1 (-1)) 20;
     mkSelCard (mkPlace 0 0x4 6 (-1)) 30])) /\
  exists r, encode_one ex_ctx (ser ex_request_msg ++ [4; 5]) = Ok (r, ex_ctx) /\ r_bytes_read r = 57.
Proof.
  split; [unfold ex_request_msg, at_; cbn [core_ok]; okay; discriminate|].
  split; [reflexivity|]. eexists. split; vm_compute; reflexivity.
Qed.

(** A flag of the core is true when its byte is not 0, whatever else it is;
    here the cancel flag of MSG_SELECT_CARD. *)
Theorem C40_flag_bytes : forall c to n rest, n <> 0 ->
  encode_one c (15 :: to :: n :: rest) = encode_one c (15 :: to :: 1 :: rest).
Proof.
  intros c to n rest Hn.
  assert (R : forall b l, read 1 (b :: l) = Ok (b + 256 * 0, l)).
  { intros b l. unfold read, rbind, rbytes. unfold lenN.
    destruct (N.leb_spec 1 (N.of_nat (length (b :: l)))) as [_|X]; [reflexivity|cbn [length] in X; lia]. }
  assert (B : forall m l, m <> 0 -> read_bool (m :: l) = Ok (true, l)).
  { intros m l Hm. unfold read_bool, rbind. rewrite R. cbn [obind rret].
    destruct (N.eqb_spec (m + 256 * 0) 0); [lia|reflexivity]. }
  assert (E : forall m l, m <> 0 -> select_card_r (m :: l) = select_card_r (1 :: l)).
  { intros m l Hm. unfold select_card_r, rbind. rewrite (B m), (B 1); auto. discriminate. }
  assert (K : kind_of (15 + 256 * 0) = Some KSelectCard) by reflexivity.
  unfold encode_one. rewrite !R. cbn [obind]. rewrite K. unfold dispatch.
  cbn [event_case request_case]. unfold read_con, rbind. rewrite !R.
  cbn [obind rret]. rewrite (E n); auto.
Qed.
Print Assumptions C40_flag_bytes.
Example C40_flag_ex : exists r, encode_one ex_ctx (15 :: 1 :: 77 :: skipn 3 (ser ex_request_msg)) = Ok (r, ex_ctx) /\
  r_state r = StOk.
Proof. eexists. split; vm_compute; reflexivity. Qed.

(** C41 *)
Theorem C41_query : forall l rest, Forall item_ok l ->
  exists d, encode_one_query qdata0 (ser_query l ++ rest) = Ok ((d, query_overlays l), rest) /\
    forall x, query_field x d = query_says x l.
Proof. intros l rest K. destruct (query_run l K) as [d [R S]]. exists d. split; [apply R | exact S]. Qed.
Print Assumptions C41_query.

Definition ex_items : list qitem :=
  [ICode 5; IOther 0x1000 [1; 2; 3]; IAtk (-7); IOverlay [11; 22]; ITargets [at_ 0 0x8 5]; ICode 6;
   ICounters [mkCounter 1 2; mkCounter 3 4]].
Example C41_ex : Forall item_ok ex_items /\ query_overlays ex_items = [11; 22] /\
  query_says F_code ex_items = Some (VN 6) /\ query_says F_atk ex_items = Some (VZ (-7)) /\
  query_says F_targets ex_items = Some (VPs [mkPlace 0 0x100 0 (-1)]) /\
  query_says F_def ex_items = None /\
  exists d, encode_one_query qdata0 (ser_query ex_items ++ [9; 9]) = Ok ((d, [11; 22]), [9; 9]).
Proof.
  split.
  { unfold ex_items, at_. repeat (apply Forall_cons || apply Forall_nil); (split; [reflexivity|]); cbn [item_ok]; okay.
    all: try (unfold is_i32; lia). all: try (vm_compute; reflexivity).
    { cbn. intuition discriminate. } all: split; reflexivity. }
  vm_compute. repeat split. eexists. reflexivity.
Qed.

(** C42: core_queries (CoreMsg.v) says which place each query belongs to. *)
Theorem C42_batches : forall m xs, core_ok m -> core_queries m = Some xs ->
  exists qs, Forall2 query_matches qs xs /\
  forall c rest, encode_one c (ser m ++ rest) =
    Ok (mkResult StOk (lenN (ser m)) (Some (mkMsg MsgNotSet qs)), c).
Proof. exact queries_encode. Qed.
Print Assumptions C42_batches.

Definition ex_batch : core_msg :=
  CmUpdateData 1 0x8 [Some [ICode 1]; None; None; None; None; Some ex_items; Some [ICode 3]].
Example C42_ex : core_ok ex_batch /\ exists xs, core_queries ex_batch = Some xs /\
  map fst xs = [mkPlace 1 0x8 0 (-1); mkPlace 1 0x100 0 (-1); mkPlace 1 0x100 0 0; mkPlace 1 0x100 0 1;
                mkPlace 1 0x200 0 (-1)].
Proof.
  split.
  - unfold ex_batch. cbn [core_ok]. split; [reflexivity|]. split; [cbn; tauto|].
    split; [intros _; vm_compute; discriminate|]. split; [|vm_compute; reflexivity].
    assert (O : forall n, n < 2 ^ 32 -> slot_ok (Some [ICode n])).
    { intros n H. apply Forall_cons; [split; [reflexivity | exact H] | apply Forall_nil]. }
    apply Forall_cons; [now apply O|]. do 4 (apply Forall_cons; [exact I|]).
    apply Forall_cons; [exact (proj1 C41_ex)|]. apply Forall_cons; [now apply O | apply Forall_nil].
  - eexists. split; reflexivity.
Qed.

(** C43: a zone is listed exactly when its bit (mask_table, CoreMsg.v) is
    clear; each listed zone exists and is listed once. *)
Definition zones_of (mask who : N) (l : list place) : Prop :=
  (forall b p, In (b, p) (mask_table who) -> (In p l <-> N.testbit mask b = false)) /\
  (forall p, In p l -> (exists b, In (b, p) (mask_table who)) /\ slot p <> None) /\ NoDup l.
Lemma zones_of_clear : forall mask who, who < 2 -> zones_of mask who (clear_zones mask who).
Proof.
  intros mask who W. split; [|split].
  - intros b p. now apply clear_zones_iff.
  - intros p H. apply clear_zones_only in H. split; [exact H|]. destruct H as [b H].
    eapply mask_valid; eauto.
  - now apply clear_zones_nodup.
Qed.
Theorem C43_zone_masks : forall mask, mask < 2 ^ 32 -> forall c rest,
  (exists l, zones_of mask 0 l /\ encode_one c (ser (CmFieldDisabled mask) ++ rest) =
     Ok (mkResult StOk 5 (Some (mkMsg (MsgEvent (EvZoneBlock l)) [])), c)) /\
  forall to n, to < 2 -> n < 256 ->
  (exists l, zones_of mask to l /\ encode_one c (ser (CmSelectPlace to n mask) ++ rest) =
     Ok (mkResult StOk 7 (Some (mkMsg (MsgRequest (Z.of_N to) (RqZone false n l)) [])), c)) /\
  (exists l, zones_of mask to l /\ encode_one c (ser (CmSelectDisfield to n mask) ++ rest) =
     Ok (mkResult StOk 7 (Some (mkMsg (MsgRequest (Z.of_N to) (RqZone true n l)) [])), c)).
Proof.
  intros mask M c rest. split; [|intros to n T N0; split].
  - exists (clear_zones mask 0). split; [now apply zones_of_clear|].
    rewrite (event_encode (CmFieldDisabled mask) _ M eq_refl). reflexivity.
  - exists (clear_zones mask to). split; [now apply zones_of_clear|].
    rewrite (request_encode (CmSelectPlace to n mask) _ _ (conj T (conj N0 M)) eq_refl). reflexivity.
  - exists (clear_zones mask to). split; [now apply zones_of_clear|].
    rewrite (request_encode (CmSelectDisfield to n mask) _ _ (conj T (conj N0 M)) eq_refl). reflexivity.
Qed.
Print Assumptions C43_zone_masks.

Example C43_ex : length (mask_table 1) = 30%nat /\
  clear_zones 0xDF9FFFFE 1 = [mkPlace 1 0x4 0 (-1); mkPlace 0 0x4 5 (-1); mkPlace 0 0x4 6 (-1);
    mkPlace 0 0x100 0 (-1)].
Proof. split; reflexivity. Qed.

(** C44 *)
Theorem C44_spell_sequences : forall con seq, con < 2 -> seq < 8 -> exists p,
  (forall rest, read_place4 (b1 con ++ b1 0x8 ++ b4 seq ++ rest) = Ok (p, rest)) /\
  p_con p = Z.of_N con /\ p_oseq p = (-1)%Z /\
  (seq <= 4 /\ p_loc p = 0x8 /\ p_seq p = seq \/
   seq = 5 /\ p_loc p = 0x100 /\ p_seq p = 0 \/
   6 <= seq /\ p_loc p = 0x200 /\ p_seq p = seq - 6) /\
  slot p <> None.
Proof.
  intros con seq C S. assert (R := reads_place4_any con 0x8 seq). unfold is_u8, is_u32 in R.
  eexists. split.
  { intros rest. rewrite !app_assoc. rewrite <- (app_assoc (b1 con)). apply R; [lia|reflexivity|lia]. }
  assert (E : seq = 0 \/ seq = 1 \/ seq = 2 \/ seq = 3 \/ seq = 4 \/ seq = 5 \/ seq = 6 \/ seq = 7) by lia.
  assert (D : con = 0 \/ con = 1) by lia.
  repeat destruct E as [->|E]; try subst seq; destruct D; subst con; vm_compute;
    (split; [reflexivity|]; split; [reflexivity|]; split; [|discriminate]);
    first [ left; split; [discriminate | split; reflexivity]
          | right; left; split; [reflexivity | split; reflexivity]
          | right; right; split; [discriminate | split; reflexivity] ].
Qed.
Print Assumptions C44_spell_sequences.

(** Locations without the spell zone bit are left alone. *)
Theorem C44_others_untouched : forall con loc seq rest, con < 256 -> loc < 128 -> seq < 2 ^ 32 ->
  N.testbit loc 3 = false ->
  read_place4 (b1 con ++ b1 loc ++ b4 seq ++ rest) = Ok (mkPlace (Z.of_N con) loc seq (-1), rest).
Proof.
  intros con loc seq rest C L S T.
  assert (E : N.ldiff loc 0x80 = loc).
  { apply N.bits_inj. intros n. rewrite N.ldiff_spec. change 0x80 with (2 ^ 7).
    rewrite N.pow2_bits_eqb. destruct (N.eqb_spec 7 n) as [<-|]; [|apply andb_true_r].
    rewrite andb_false_r. symmetry. destruct loc as [|l]; [reflexivity|].
    apply N.bits_above_log2. apply N.log2_lt_pow2; lia. }
  assert (R := reads_place4_any con loc seq). unfold is_u8, is_u32 in R.
  rewrite E, (fix_spell_other _ _ T) in R.
  rewrite !app_assoc. rewrite <- (app_assoc (b1 con)). apply R; [lia|lia|lia].
Qed.
Print Assumptions C44_others_untouched.

(** Different cards of the core have different places. *)
Theorem C44_injective : forall c c', cloc_ok c -> cloc_ok c' ->
  exists p p', (forall rest, read_place4 (ser_loc4 c ++ rest) = Ok (p, rest)) /\
    (forall rest, read_place4 (ser_loc4 c' ++ rest) = Ok (p', rest)) /\
    (p = p' -> cl_con c = cl_con c' /\ core_base c = core_base c' /\ cl_seq c = cl_seq c').
Proof.
  intros c c' K K'. exists (core_card_place c), (core_card_place c').
  split; [apply (reads_loc4 c K)|]. split; [apply (reads_loc4 c' K')|].
  unfold core_card_place. intros E.
  destruct (core_spot (core_base c) (cl_seq c)) as [l s] eqn:A.
  destruct (core_spot (core_base c') (cl_seq c')) as [l' s'] eqn:B.
  inversion E as [[E1 E2 E3]]. subst l' s'. split; [lia|].
  destruct K as [_ I _ _ S _ _]. destruct K' as [_ I' _ _ S' _ _].
  apply core_spot_inj; auto. congruence.
Qed.
Print Assumptions C44_injective.

Example C44_ex : cloc_ok (at_ 1 0x8 6) /\ cloc_ok (at_ 1 0x4 6) /\
  read_place4 [1; 0x8; 6; 0; 0; 0; 7] = Ok (mkPlace 1 0x200 0 (-1), [7]) /\
  read_place4 [1; 0x4; 6; 0; 0; 0; 7] = Ok (mkPlace 1 0x4 6 (-1), [7]).
Proof. unfold at_. split; [okay|]. split; [okay|]. split; reflexivity. Qed.

(** C45 as stated fails: codes have 44 bits in the descriptor and 32 in the
    message. *)
Theorem C45_effect_refuted : exists d d' e, d < 2 ^ 64 /\ d' < 2 ^ 64 /\ d <> d' /\
  read_effect (b8 d) = Ok (e, []) /\ read_effect (b8 d') = Ok (e, []).
Proof. exists 0, (2 ^ 52). eexists. repeat split. discriminate. Qed.
Print Assumptions C45_effect_refuted.

(** With codes below 2^32 nothing is lost; missing are only the descriptors
    from 2^52. *)
Theorem C45_effect_partial : forall d rest, d < 2 ^ 52 ->
  exists e, read_effect (b8 d ++ rest) = Ok (e, rest) /\ d = e_code e * 2 ^ 20 + e_index e /\
    e_code e < 2 ^ 32 /\ e_index e < 2 ^ 20.
Proof.
  intros d rest H. assert (D : d < 2 ^ 64) by (eapply N.lt_trans; [exact H | reflexivity]).
  eexists. split; [apply (effect_word d D)|]. cbn [e_code e_index].
  assert (Q : d / 2 ^ 20 < 2 ^ 32) by (apply N.div_lt_upper_bound; [discriminate | exact H]).
  rewrite N.mod_small by exact Q. pose proof (N.div_mod d (2 ^ 20)) as M.
  pose proof (N.mod_lt d (2 ^ 20)) as L. split; [|split; [exact Q | apply L; discriminate]].
  rewrite N.mul_comm. apply M. discriminate.
Qed.
Print Assumptions C45_effect_partial.

Theorem C45_counter : forall d rest, d < 2 ^ 32 ->
  exists c, read_counter (b4 d ++ rest) = Ok (c, rest) /\ d = ct_type c + ct_count c * 2 ^ 16 /\
    ct_type c < 2 ^ 16 /\ ct_count c < 2 ^ 16.
Proof.
  intros d rest H. eexists. split; [apply (counter_word d H)|]. cbn [ct_type ct_count].
  assert (Q : d / 2 ^ 16 < 2 ^ 16) by (apply N.div_lt_upper_bound; [discriminate | exact H]).
  pose proof (N.div_mod d (2 ^ 16)) as M. pose proof (N.mod_lt d (2 ^ 16)) as L.
  split; [|split; [apply L; discriminate | exact Q]]. rewrite N.add_comm, N.mul_comm. apply M. discriminate.
Qed.
Print Assumptions C45_counter.

Example C45_ex : read_effect (b8 (55144522 * 2 ^ 20 + 3)) = Ok (mkEffect 55144522 3, []) /\
  read_counter (b4 (0x1015 + 4 * 2 ^ 16)) = Ok (mkCounter 0x1015 4, []).
Proof. split; reflexivity. Qed.

(** C46 as stated fails: an index from 2^31 becomes negative. *)
Theorem C46_overlay_refuted : exists con loc seq pos p, con < 256 /\ 0x80 <= loc < 256 /\
  seq < 2 ^ 32 /\ pos < 2 ^ 32 /\
  read_loc_info (b1 con ++ b1 loc ++ b4 seq ++ b4 pos) = Ok (p, []) /\ (p_oseq p < 0)%Z.
Proof.
  exists 0, 0x84, 2, (2 ^ 31). eexists. split; [reflexivity|]. split; [split; [discriminate | reflexivity]|].
  split; [reflexivity|]. split; [reflexivity|]. split; [vm_compute; reflexivity | reflexivity].
Qed.
Print Assumptions C46_overlay_refuted.

(** Missing are only those. *)
Theorem C46_overlay_partial : forall con loc seq pos rest, con < 256 -> loc < 128 -> seq < 2 ^ 32 ->
  pos < 2 ^ 32 -> exists l s,
  read_loc_info (b1 con ++ b1 loc ++ b4 seq ++ b4 pos ++ rest) = Ok (mkPlace (Z.of_N con) l s (-1), rest) /\
  (pos < 2 ^ 31 ->
   read_loc_info (b1 con ++ b1 (loc + 0x80) ++ b4 seq ++ b4 pos ++ rest) =
   Ok (mkPlace (Z.of_N con) l s (Z.of_N pos), rest)) /\
  read_place4 (b1 con ++ b1 loc ++ b4 seq ++ rest) = Ok (mkPlace (Z.of_N con) l s (-1), rest).
Proof.
  intros con loc seq pos rest C L S P.
  assert (B : forall n, 7 <= n -> N.testbit loc n = false).
  { intros n Hn. destruct loc as [|x]; [reflexivity|]. apply N.bits_above_log2.
    assert (N.log2 (N.pos x) < 7) by (apply N.log2_lt_pow2; lia). lia. }
  assert (E : N.ldiff loc 0x80 = loc).
  { apply N.bits_inj. intros n. rewrite N.ldiff_spec. change 0x80 with (2 ^ 7).
    rewrite N.pow2_bits_eqb. destruct (N.eqb_spec 7 n) as [<-|]; [|apply andb_true_r].
    rewrite (B 7) by lia. reflexivity. }
  assert (A : loc + 0x80 = N.lor loc 0x80).
  { rewrite <- N.lxor_lor; [apply N.add_nocarry_lxor|]; apply N.bits_inj_0; intros n;
      rewrite N.land_spec; change 0x80 with (2 ^ 7); rewrite N.pow2_bits_eqb;
      (destruct (N.eqb_spec 7 n) as [<-|]; [now rewrite (B 7) by lia | apply andb_false_r]). }
  assert (E' : N.ldiff (loc + 0x80) 0x80 = loc).
  { rewrite A. apply N.bits_inj. intros n. rewrite N.ldiff_spec, N.lor_spec. change 0x80 with (2 ^ 7).
    rewrite N.pow2_bits_eqb. destruct (N.eqb_spec 7 n) as [<-|].
    - rewrite (B 7) by lia. reflexivity.
    - now rewrite orb_false_r, andb_true_r. }
  assert (T : N.testbit (loc + 0x80) 7 = true).
  { rewrite A, N.lor_spec. apply orb_true_r. }
  assert (R1 := reads_loc_any con loc seq pos). assert (R2 := reads_loc_any con (loc + 0x80) seq pos).
  assert (R3 := reads_place4_any con loc seq). unfold is_u8, is_u32 in *.
  rewrite E in R1, R3. rewrite E' in R2. rewrite (B 7) in R1 by lia. rewrite T in R2.
  destruct (fix_spell_loc_seq loc seq) as [l s]. exists l, s. split; [|split].
  - rewrite !app_assoc. rewrite <- (app_assoc (b1 con)), <- (app_assoc (b1 con)), <- (app_assoc (b1 loc)).
    apply R1; lia.
  - intros Q. rewrite !app_assoc.
    rewrite <- (app_assoc (b1 con)), <- (app_assoc (b1 con)), <- (app_assoc (b1 (loc + 0x80))).
    rewrite (to_signed_small pos Q) in R2. apply R2; lia.
  - rewrite !app_assoc. rewrite <- (app_assoc (b1 con)). apply R3; lia.
Qed.
Print Assumptions C46_overlay_partial.

Example C46_ex :
  read_loc_info [0; 0x84; 2; 0; 0; 0; 1; 0; 0; 0; 9] = Ok (mkPlace 0 0x4 2 1, [9]) /\
  read_loc_info [0; 0x4; 2; 0; 0; 0; 1; 0; 0; 0; 9] = Ok (mkPlace 0 0x4 2 (-1), [9]).
Proof. split; reflexivity. Qed.
