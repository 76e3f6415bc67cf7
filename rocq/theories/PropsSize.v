(** C100: how large the encoder's messages get. *)
From Verif Require Import Base BaseProofs Place PlaceProofs Frame FrameSpec Msg Reader ReaderProofs EncodeQuery Encode
  CoreMsg EncodeSpec EncodeProofs EncodeWildSpec EncodeWild SizeSpec SizeProofs PropsEncode PropsDuel.

Local Open Scope N_scope.

Lemma encode_inv c b bs r c' : encode_one c (b :: bs) = Ok (r, c') ->
  match kind_of b with
  | Some k => exists v rest, dispatch k c bs = Ok ((v, c'), rest) /\ r_msg r = v_msg v /\
      r_bytes_read r = lenN (b :: bs) - lenN rest
  | None => r_msg r = None /\ c' = c /\ r_bytes_read r = 1
  end.
Proof.
  unfold encode_one. intros E. apply obind_Ok in E as ((b', rest) & E1 & E).
  assert (b' = b /\ rest = bs) as [-> ->].
  { unfold read, rbind, rbytes in E1. destruct (N.leb_spec 1 (lenN (b :: bs))) as [L|L]; [|discriminate].
    cbn in E1. injection E1 as <- <-. split; [destruct b; reflexivity|reflexivity]. }
  apply obind_Ok in E as (((v, c1), rest') & E2 & E).
  assert (r = mkResult (v_state v) (lenN (b :: bs) - lenN rest') (v_msg v)) as -> by congruence.
  assert (c1 = c') as -> by congruence. clear E. cbn [r_msg r_bytes_read].
  destruct (kind_of b) as [k|].
  - exists v, rest'. auto.
  - assert (v = v_none) as -> by congruence. assert (c' = c) as -> by congruence. assert (rest' = bs) as -> by congruence.
    split; [reflexivity|]. split; [reflexivity|]. unfold lenN. cbn [length]. lia.
Qed.
Lemma encode_nil c r c' : encode_one c [] <> Ok (r, c').
Proof. discriminate. Qed.
Lemma kind_reload b : kind_of b = Some KReloadField -> b = 162.
Proof.
  unfold kind_of, kind_table. cbn [lookup_kind].
  repeat match goal with |- context [b =? ?n] => destruct (N.eqb_spec b n); [intros; try discriminate; assumption|] end.
  discriminate.
Qed.
Lemma kind_swap b : kind_of b = Some KSwapGraveDeck -> b = 35.
Proof.
  unfold kind_of, kind_table. cbn [lookup_kind].
  repeat match goal with |- context [b =? ?n] => destruct (N.eqb_spec b n); [intros; try discriminate; assumption|] end.
  discriminate.
Qed.

(** A message has at most 25 entries more than it had bytes; places set aside
    for a later message count from the start, and no longer once they have been
    sent.  The types left out are MSG_RELOAD_FIELD and MSG_SWAP_GRAVE_DECK. *)
Theorem C100_message_partial : forall c bs r c', encode_one c bs = Ok (r, c') ->
  hd_error bs <> Some 162 -> hd_error bs <> Some 35 ->
  size_of (r_msg r) + lenN (cx_deferred c') <= lenN (cx_deferred c) + r_bytes_read r + 25.
Proof.
  intros c bs r c' E N1 N2. destruct bs as [|b bs]; [now apply encode_nil in E|].
  apply encode_inv in E. destruct (kind_of b) as [k|] eqn:K.
  - destruct E as (v & rest & E & -> & ->). apply sp_dispatch in E.
    + unfold sized, verdict_size, waiting_len, len, lenN in *. cbn [fst snd length] in *. lia.
    + intros ->. apply N1. cbn [hd_error]. now rewrite (kind_reload b K).
    + intros ->. apply N2. cbn [hd_error]. now rewrite (kind_swap b K).
  - destruct E as (-> & -> & ->). cbn [size_of]. lia.
Qed.
Print Assumptions C100_message_partial.

(** A duel: buffers are encoded one after the other and each result is followed.
    [sent] and [used] are the entries sent and the bytes read so far. *)
Inductive stream : ctx -> list (list N) -> N -> N -> ctx -> Prop :=
| st_end : forall c, stream c [] 0 0 c
| st_next : forall c bs l r c1 c2 sent used c', encode_one c bs = Ok (r, c1) -> follow r c1 = Ok c2 ->
    stream c2 l sent used c' -> stream c (bs :: l) (size_of (r_msg r) + sent) (r_bytes_read r + used) c'.

Lemma follow_deferred r c c' : follow r c = Ok c' -> cx_deferred c' = cx_deferred c.
Proof.
  unfold follow. destruct (r_msg r) as [m|]; [|intros E; now injection E as <-]. unfold ctx_parse. intros E.
  apply obind_Ok in E as (c1 & E1 & E2).
  assert (A : cx_deferred c1 = cx_deferred c).
  { destruct (m_t m); try (injection E1 as <-; reflexivity). apply obind_Ok in E1 as (b & _ & F). now injection F as <-. }
  rewrite <- A. clear A E1. revert c1 E2. induction (m_queries m) as [|q l IH]; intros c1 E2.
  - now injection E2 as <-.
  - cbn [ofold] in E2. apply obind_Ok in E2 as (c2 & Q & E2). apply IH in E2. rewrite E2.
    unfold ctx_query in Q. apply obind_Ok in Q as ((h, f) & _ & F). now injection F as <-.
Qed.

(** Over a whole stream the number of entries sent is proportional to the
    number of bytes read. *)
Theorem C100_stream_partial : forall c l sent used c', stream c l sent used c' ->
  (forall bs, In bs l -> hd_error bs <> Some 162 /\ hd_error bs <> Some 35) ->
  sent + lenN (cx_deferred c') <= lenN (cx_deferred c) + used + 25 * lenN l /\ lenN l <= used.
Proof.
  intros c l sent used c' H. induction H as [c|c bs l r c1 c2 sent used c' E F H IH]; intros A.
  - cbn. lia.
  - destruct IH as [I1 I2]; [intros x X; apply A; now right|]. destruct (A bs (or_introl eq_refl)) as [A1 A2].
    pose proof (C100_message_partial _ _ _ _ E A1 A2). apply follow_deferred in F.
    destruct (C35_result_discipline _ _ _ _ E) as [R _]. rewrite F in *.
    unfold lenN in *. cbn [length]. lia.
Qed.
Print Assumptions C100_stream_partial.

(** Swapping graveyard and deck: one operation for every run of flags in the
    graveyard. *)
Theorem C100_swap_partial : forall c con bs r c', encode_one c (35 :: con :: bs) = Ok (r, c') ->
  exists gy, pile_size c (Z.of_N con) LOCATION_GRAVEYARD = Ok gy /\ c' = c /\ 2 * size_of (r_msg r) <= gy + 5.
Proof.
  intros c con bs r c' E. apply encode_inv in E. change (kind_of 35) with (Some KSwapGraveDeck) in E.
  destruct E as (v & rest & E & -> & _). apply swap_size in E as (gy & G & -> & L). exists gy.
  unfold verdict_size in L. split; [exact G|]. split; [reflexivity|]. lia.
Qed.
Print Assumptions C100_swap_partial.

(** A reload: everything but the materials is paid for. *)
Theorem C100_reload_partial : forall c bs r c', bytes bs -> encode_one c (162 :: bs) = Ok (r, c') ->
  size_of (r_msg r) <= r_bytes_read r + materials_of (r_msg r).
Proof.
  intros c bs r c' B E. apply encode_inv in E. change (kind_of 162) with (Some KReloadField) in E.
  destruct E as (v & rest & E & -> & ->). unfold dispatch in E. cbn [event_case] in E. unfold rbind in E.
  apply obind_Ok in E as ((e, bs1) & E1 & E). apply spb_reload in E1 as [E1 _]; [|exact B].
  assert (v = v_event e) as -> by (unfold rret in E; congruence). assert (bs1 = rest) as -> by (unfold rret in E; congruence).
  cbn [v_event v_msg size_of materials_of m_t]. unfold msg_size. cbn [m_t m_queries queries_size].
  unfold len, lenN in *. cbn [length]. lia.
Qed.
Print Assumptions C100_reload_partial.

(** ... and the materials are not: a hundred bytes can make a message with any
    number of entries. *)
Definition crowded (n : N) : core_msg :=
  let row (k : nat) : list czone := repeat None k in
  CmReloadField 0 (mkCside 0 (Some (1, n) :: row 6%nat) (row 8%nat) 0 0 0 0 0 0)
    (mkCside 0 (row 7%nat) (row 8%nat) 0 0 0 0 0 0) [].
Theorem C100_size_refuted : exists c, forall n, n < 2 ^ 31 -> exists r m,
  core_ok (crowded n) /\ lenN (ser (crowded n)) = 100 /\ encode_one c (ser (crowded n)) = Ok (r, c) /\
  r_msg r = Some m /\ msg_size m = n + 13.
Proof.
  exists ctx_value_init. intros n L.
  assert (K : core_ok (crowded n)).
  { cbn. repeat (split || constructor || reflexivity || exact L). }
  pose proof (C39_events (crowded n) _ K eq_refl ctx_value_init []) as E. rewrite app_nil_r in E.
  do 2 eexists. split; [exact K|]. split; [reflexivity|]. split; [exact E|]. split; [reflexivity|].
  unfold msg_size. cbn [m_t m_queries queries_size event_size reload_state bs_lps bs_chains bs_add bs_resize map].
  unfold side_places, side_piles. cbn [sd_monster sd_spell repeat row_places]. 
  change (core_spot 4 0) with (4, 0). cbv iota.
  rewrite !app_nil_r. cbn [app]. unfold lenN. cbn [length]. rewrite map_length, seq_length. lia.
Qed.
Print Assumptions C100_size_refuted.

(** The bound is reached by the five bytes that free all zones; a material that
    was set aside goes with a later move; a swap; a reload with three materials. *)
Definition overlay_moves : list (list N) :=
  map ser [ CmStart 5 8000 8000 2 1 2 0; CmMove 1 nowhere (at_ 0 0x4 0) 0x10;
            CmMove 1 (at_ 0 0x4 0) (under 0 0x40 0 0) 0x8; CmMove 2 (at_ 0 0x40 0) (at_ 0 0x4 1) 0x10 ].
Definition nine_flags : list N := [35; 0; 0; 0; 0; 0; 2; 0; 0; 0; 0x55; 0x1].
Definition three_mats : list N := ser (crowded 3).
Example C100_ex :
  (exists r, encode_one ctx_value_init [56; 0; 0; 0; 0] = Ok (r, ctx_value_init) /\ r_bytes_read r = 5 /\
     size_of (r_msg r) = 30) /\
  (exists sent used c', stream ctx_value_init overlay_moves sent used c' /\ sent = 9 /\ used = 105 /\
     cx_deferred c' = []) /\
  (exists r, encode_one ex_big_grave nine_flags = Ok (r, ex_big_grave) /\ size_of (r_msg r) = 6) /\
  (exists r, encode_one ctx_value_init three_mats = Ok (r, ctx_value_init) /\
     size_of (r_msg r) = 16 /\ materials_of (r_msg r) = 3).
Proof.
  split; [eexists; split; [vm_compute; reflexivity|]; split; reflexivity|].
  split.
  { do 3 eexists. split.
    - unfold overlay_moves; cbn [map].
      do 4 (eapply st_next; [vm_compute; reflexivity|vm_compute; reflexivity|]). apply st_end.
    - split; [vm_compute; reflexivity|]. split; vm_compute; reflexivity. }
  split; (eexists; split; [vm_compute; reflexivity|]; try split; vm_compute; reflexivity).
Qed.
