(** Proofs about encode_one_query and the messages made of queries. *)
From Verif Require Import Base BaseProofs Place Frame Msg Event Query QuerySpec.
From Verif Require Import Reader EncodeQuery Encode CoreMsg ReaderProofs EncodeProofs.

Local Open Scope N_scope.

Local Opaque le_bytes ser_loc ser_loc4 ser_loc1 ser_loc44 ser_effect ser_counter bb bi4.

(** The effect of an item on what has been read so far. *)
Definition put_item (i : qitem) (st : qstate) : qstate :=
  let '(d, ov) := st in
  match i with
  | ICode n => (qset_code (Some n) d, ov)
  | IPosition n => (qset_position (Some n) d, ov)
  | IAlias n => (qset_alias (Some n) d, ov)
  | IType n => (qset_type (Some n) d, ov)
  | ILevel n => (qset_level (Some n) d, ov)
  | IRank n => (qset_xyz_rank (Some n) d, ov)
  | IAttribute n => (qset_attribute (Some n) d, ov)
  | IRace n => (qset_race (Some n) d, ov)
  | IAtk n => (qset_atk (Some n) d, ov)
  | IDef n => (qset_def (Some n) d, ov)
  | IBaseAtk n => (qset_base_atk (Some n) d, ov)
  | IBaseDef n => (qset_base_def (Some n) d, ov)
  | IEquip c => (qset_equipped_to (Some (core_place c)) d, ov)
  | ITargets l => (qset_targets (qappend (q_targets d) (map core_place l)) d, ov)
  | ICounters l => (qset_counters (qappend (q_counters d) l) d, ov)
  | IOwner n => (qset_owner (Some (Z.of_N n)) d, ov)
  | IStatus n => (qset_status (Some n) d, ov)
  | IPublic b => (qset_is_public (Some b) d, ov)
  | ILscale n => (qset_pend_l_scale (Some n) d, ov)
  | IRscale n => (qset_pend_r_scale (Some n) d, ov)
  | ILink r a => (qset_link_arrow (Some a) (qset_link_rate (Some r) d), ov)
  | IHidden b => (qset_is_hidden (Some b) d, ov)
  | ICover n => (qset_cover (Some n) d, ov)
  | IOverlay l => (d, l)
  | IOther _ _ => (d, ov)
  end.

Lemma short_seq : forall A (f : A -> list N) l, 4 + lenN (seq4 f l) < 2 ^ 16 ->
  (forall x, 1 <= lenN (f x)) -> short4 l.
Proof.
  intros A f l H F. unfold seq4 in H. rewrite lenN_app in H.
  assert (lenN l <= lenN (flat_map f l)).
  { clear H. induction l as [|x l IH]; [reflexivity|]. cbn [flat_map]. rewrite lenN_app.
    specialize (F x). unfold lenN in *. cbn [length]. lia. }
  unfold short4. change (2 ^ 16) with 65536 in H. change (2 ^ 32) with 4294967296. lia.
Qed.

Lemma lenN_counter : forall c, lenN (ser_counter c) = 4.
Proof. reflexivity. Qed.

Ltac flags :=
  progress cbv [N.eqb Pos.eqb QUERY_CODE QUERY_POSITION QUERY_ALIAS QUERY_TYPE QUERY_LEVEL
    QUERY_RANK QUERY_ATTRIBUTE QUERY_RACE QUERY_ATTACK QUERY_DEFENSE QUERY_BASE_ATTACK
    QUERY_BASE_DEFENSE QUERY_EQUIP_CARD QUERY_TARGET_CARD QUERY_OVERLAY_CARD QUERY_COUNTERS
    QUERY_OWNER QUERY_STATUS QUERY_IS_PUBLIC QUERY_LSCALE QUERY_RSCALE QUERY_LINK
    QUERY_IS_HIDDEN QUERY_COVER].

Lemma reads_item : forall i st, item_ok i ->
  reads (query_item (4 + lenN (item_payload i)) (item_flag i) st) (item_payload i) (put_item i st).
Proof.
  intros i [d ov] [K1 K2]. unfold query_item.
  destruct i; cbn [item_payload item_flag put_item] in *; [flags .. | idtac]; ands; try solve [rds].
  - (* targets *)
    eapply reads_last; [|apply reads_ret]. apply reads_locs; [|assumption].
    eapply short_seq; [exact K1|]. intros x. now rewrite lenN_loc.
  - (* counters *)
    eapply reads_last; [|apply reads_ret]. rewrite <- (map_id l) at 2.
    apply reads_list4 with (g := fun c : counter => c).
    + eapply short_seq; [exact K1|]. intros x. now rewrite lenN_counter.
    + eapply Forall_impl; [|exact K2]. exact reads_counter.
  - (* overlays *)
    eapply reads_last; [|apply reads_ret]. rewrite <- (map_id codes) at 2.
    apply reads_list4 with (g := fun c : N => c).
    + eapply short_seq; [exact K1|]. intros x. now rewrite lenN_le.
    + eapply Forall_impl; [|exact K2]. exact reads_4.
  - (* other *)
    assert (F : forall k, In k known_flags -> (flag =? k) = false).
    { intros k I. apply N.eqb_neq. intros ->. contradiction. }
    rewrite !F by (cbn; tauto). clear F.
    replace (4 + lenN payload <? 4) with false by (symmetry; apply N.ltb_ge; lia).
    eapply reads_last; [|apply reads_ret]. apply reads_skip. lia.
Qed.

Lemma item_not_end : forall i, item_ok i -> (item_flag i =? QUERY_END) = false.
Proof.
  intros i [_ K]. destruct i; cbn [item_flag]; try reflexivity.
  destruct K as [_ [K _]]. apply N.eqb_neq. intros ->. apply K. cbn. tauto.
Qed.
Lemma item_flag_u32 : forall i, item_ok i -> is_u32 (item_flag i).
Proof. intros i [_ K]. destruct i; cbn [item_flag]; try reflexivity. apply K. Qed.

Lemma reads_loop : forall l st fuel, Forall item_ok l -> (length l < fuel)%nat ->
  reads (query_loop fuel st) (ser_query l) (fold_left (fun s i => put_item i s) l st).
Proof.
  intros l. induction l as [|i l IH]; intros st fuel K F.
  - destruct fuel as [|fuel]; [cbn in F; lia|]. unfold ser_query. cbn [flat_map fold_left app query_loop].
    eapply reads_bind; [apply reads_2; reflexivity|]. cbv beta.
    eapply reads_last; [apply reads_4; reflexivity|]. cbv beta.
    change (0x80000000 =? QUERY_END) with true. cbv iota. apply reads_ret.
  - destruct fuel as [|fuel]; [cbn in F; lia|]. cbn [length] in F. inversion K as [|? ? K1 K2]; subst.
    assert (E : ser_query (i :: l) =
      b2 (4 + lenN (item_payload i)) ++ b4 (item_flag i) ++ item_payload i ++ ser_query l).
    { unfold ser_query, ser_item. cbn [flat_map]. now rewrite <- !app_assoc. }
    rewrite E. cbn [query_loop fold_left].
    eapply reads_bind; [apply reads_2, K1|]. cbv beta.
    eapply reads_bind; [apply reads_4; now apply item_flag_u32|]. cbv beta.
    rewrite item_not_end by assumption.
    eapply reads_bind; [now apply reads_item|]. apply IH; [assumption | lia].
Qed.

Lemma query_length : forall l, (length l < S (length (ser_query l)))%nat.
Proof.
  intros l. unfold ser_query. rewrite app_length.
  assert (length l <= length (flat_map ser_item l))%nat; [|lia].
  induction l as [|i l IH]; cbn [flat_map length]; [lia|]. rewrite app_length.
  assert (1 <= length (ser_item i))%nat; [|lia].
  unfold ser_item. rewrite !app_length, le_bytes_length. lia.
Qed.

Lemma reads_query : forall l d, Forall item_ok l ->
  reads (encode_one_query d) (ser_query l) (fold_left (fun s i => put_item i s) l (d, [])).
Proof.
  intros l d K rest. unfold encode_one_query. apply reads_loop; [assumption|].
  pose proof (query_length l). rewrite app_length. lia.
Qed.

(** ** What a query says *)
Lemma put_says : forall i d ov x,
  query_field x (fst (put_item i (d, ov))) = and_then (query_field x d) (item_says x i).
Proof.
  intros i d ov x. destruct d as [a b c e f g h j k l m n o p q r s t u w z y v xx].
  destruct x, i; cbn; try reflexivity;
    match goal with |- context [option_map _ ?z] => destruct z; reflexivity end.
Qed.
Lemma put_overlay : forall i d ov,
  snd (put_item i (d, ov)) = match i with IOverlay o => o | _ => ov end.
Proof. intros i d ov. now destruct i. Qed.

Lemma puts_say : forall l st x,
  query_field x (fst (fold_left (fun s i => put_item i s) l st)) =
  fold_left (fun v i => and_then v (item_says x i)) l (query_field x (fst st)).
Proof.
  induction l as [|i l IH]; intros [d ov] x; cbn [fold_left]; [reflexivity|].
  now rewrite IH, put_says.
Qed.
Lemma puts_overlay : forall l st,
  snd (fold_left (fun s i => put_item i s) l st) =
  fold_left (fun v i => match i with IOverlay o => o | _ => v end) l (snd st).
Proof.
  induction l as [|i l IH]; intros [d ov]; cbn [fold_left]; [reflexivity|].
  now rewrite IH, put_overlay.
Qed.

Lemma query_run : forall l, Forall item_ok l ->
  exists d, reads (encode_one_query qdata0) (ser_query l) (d, query_overlays l) /\ reads_as d l.
Proof.
  intros l K. pose proof (reads_query l qdata0 K) as R.
  destruct (fold_left (fun (s : qstate) (i : qitem) => put_item i s) l (qdata0, [])) as [d ov] eqn:E. exists d.
  pose proof (puts_overlay l (qdata0, [])) as O. rewrite E in O. cbn [snd] in O. subst ov.
  split; [exact R|]. intros x. pose proof (puts_say l (qdata0, []) x) as P. rewrite E in P.
  cbn [fst] in P. rewrite P. unfold query_says.
  replace (query_field x qdata0) with (@None fval); [reflexivity|]. now destruct x.
Qed.

(** ** Query messages *)
Lemma overlays_short : forall l, Forall item_ok l -> lenN (query_overlays l) < 2 ^ 16.
Proof.
  intros l K. unfold query_overlays.
  assert (G : forall v, lenN v < 2 ^ 16 ->
    lenN (fold_left (fun v i => match i with IOverlay o => o | _ => v end) l v) < 2 ^ 16).
  { induction K as [|i l K1 _ IH]; intros v H; cbn [fold_left]; [exact H|]. apply IH.
    destruct i; try exact H. destruct K1 as [K1 _]. cbn [item_payload] in K1.
    unfold seq4 in K1. rewrite lenN_app, lenN_le, (lenN_flat_map _ _ 4) in K1; [|intros; apply lenN_le].
    lia. }
  apply G. reflexivity.
Qed.

Lemma code_says : forall c, reads_as (qset_code (Some c) qdata0) [ICode c].
Proof. intros c x. now destruct x. Qed.

Lemma overlay_matches : forall p codes k, N.of_nat k + lenN codes < 2 ^ 31 ->
  Forall2 query_matches (overlay_queries p (N.of_nat k) codes)
    (map (fun x : nat * N =>
            (mkPlace (p_con p) (p_loc p) (p_seq p) (Z.of_nat (fst x)), [ICode (snd x)]))
         (combine (List.seq k (length codes)) codes)).
Proof.
  intros p codes. induction codes as [|c codes IH]; intros k H; cbn [overlay_queries length List.seq combine map].
  - constructor.
  - unfold lenN in H. cbn [length] in H. constructor.
    + split; cbn [qr_place qr_data fst snd].
      * rewrite to_signed_small by lia. now rewrite nat_N_Z.
      * apply code_says.
    + replace (N.of_nat k + 1) with (N.of_nat (S k)) by lia. apply IH. unfold lenN. lia.
Qed.

Lemma card_queries_run : forall con loc i l fl fs,
  Forall item_ok l -> core_spot loc i = (fl, fs) ->
  exists qs, reads (card_queries (mkPlace (Z.of_N con) fl fs (-1))) (ser_query l) qs /\
             Forall2 query_matches qs (slot_queries con loc i l).
Proof.
  intros con loc i l fl fs K E. destruct (query_run l K) as [d [R1 R2]].
  eexists. split.
  - unfold card_queries. eapply reads_last; [exact R1 | apply reads_ret].
  - unfold slot_queries. rewrite E. constructor.
    + now split.
    + cbn [snd]. apply (overlay_matches (mkPlace (Z.of_N con) fl fs (-1)) _ 0).
      pose proof (overlays_short l K) as H. change (2 ^ 16) with 65536 in H.
      change (2 ^ 31) with 2147483648. lia.
Qed.

Lemma reads_counted : forall A (m : reader A) s x, reads m s x -> reads (counted m) s (x, lenN s).
Proof.
  intros A m s x H rest. unfold counted. rewrite H. cbn [obind]. rewrite lenN_app.
  now replace (lenN s + lenN rest - lenN rest) with (lenN s) by lia.
Qed.

Lemma query_head : forall l, exists n t, ser_query l = b2 n ++ t /\ n <> 0 /\ (Forall item_ok l -> is_u16 n).
Proof.
  intros [|i l].
  - exists 4, (b4 0x80000000). repeat split. discriminate.
  - unfold ser_query, ser_item. cbn [flat_map]. rewrite <- !app_assoc.
    eexists _, _. split; [reflexivity|]. split; [lia|].
    intros K. inversion K as [|? ? K1 _]. apply K1.
Qed.

Lemma slot_length : forall s, 2 <= lenN (ser_slot s).
Proof.
  intros [l|]; cbn [ser_slot].
  - destruct (query_head l) as [n [t [-> _]]]. rewrite lenN_app, lenN_le. lia.
  - now rewrite lenN_le.
Qed.
Lemma slots_length : forall l, 2 * lenN l <= lenN (flat_map ser_slot l).
Proof.
  induction l as [|s l IH]; [reflexivity|]. cbn [flat_map]. rewrite lenN_app.
  pose proof (slot_length s). unfold lenN in *. cbn [length]. lia.
Qed.

Lemma update_loop_run : forall con loc total slots i rs,
  In loc locs -> (loc = 8 -> i + lenN slots <= 8) -> Forall slot_ok slots ->
  total = rs + lenN (flat_map ser_slot slots) -> total < 2 ^ 32 -> i <= rs ->
  exists qs,
    (forall fuel, (length slots <= fuel)%nat ->
     reads (update_loop fuel (Z.of_N con) loc total i rs) (flat_map ser_slot slots) qs) /\
    Forall2 query_matches qs (batch_queries con loc i slots).
Proof.
  intros con loc total slots. induction slots as [|s slots IH]; intros i rs L1 L2 K T B I.
  - cbn [flat_map] in *. unfold lenN in T. cbn in T. exists []. split; [|constructor].
    intros fuel _. unfold update_loop. destruct fuel; replace (rs <? total) with false
      by (symmetry; apply N.ltb_ge; lia); apply reads_ret.
  - inversion K as [|? ? K1 K2]; subst x l. cbn [flat_map] in *. rewrite lenN_app in T.
    pose proof (slot_length s) as SL.
    assert (W1 : u32 (i + 1) = i + 1) by (unfold u32, wrap; rewrite N.mod_small; lia).
    assert (W2 : u32 (rs + lenN (ser_slot s)) = rs + lenN (ser_slot s))
      by (unfold u32, wrap; rewrite N.mod_small; lia).
    destruct (IH (i + 1) (rs + lenN (ser_slot s))) as [qs [R Q]]; try assumption; try lia.
    { intros Z. specialize (L2 Z). unfold lenN in *. cbn [length] in L2. lia. }
    assert (G : (rs <? total) = true) by (apply N.ltb_lt; lia).
    cbn [batch_queries]. destruct s as [l|]; cbn [ser_slot] in *.
    + destruct (query_head l) as [n [t [E1 [E2 E3]]]].
      destruct (core_spot loc i) as [fl fs] eqn:C.
      destruct (card_queries_run con loc i l fl fs K1 C) as [q0 [R0 Q0]].
      exists (q0 ++ qs). split; [|now apply Forall2_app].
      intros fuel F. cbn [length] in F. destruct fuel as [|fuel]; [lia|]. cbn [update_loop].
      rewrite G.
      eapply reads_peek with (s0 := b2 n) (s1 := t ++ flat_map ser_slot slots).
      { rewrite E1. now rewrite <- app_assoc. }
      { apply reads_2. now apply E3. }
      cbv beta. apply N.eqb_neq in E2. rewrite E2.
      rewrite (fix_spell_spec loc i), C by
        (try assumption; intros Z; specialize (L2 Z); unfold lenN in L2; cbn [length] in L2; lia).
      eapply reads_bind; [apply reads_counted; exact R0|]. cbv beta iota.
      rewrite W1, W2. eapply reads_last; [apply R; lia | apply reads_ret].
    + exists qs. split; [|exact Q].
      intros fuel F. cbn [length] in F. destruct fuel as [|fuel]; [lia|]. cbn [update_loop].
      rewrite G.
      eapply reads_peek with (s0 := b2 0) (s1 := flat_map ser_slot slots).
      { reflexivity. } { now apply reads_2. }
      cbv beta. change (0 =? 0) with true. cbv iota.
      eapply reads_bind; [apply reads_skip; apply lenN_le|]. cbv beta.
      rewrite lenN_le in W2, R. change (N.of_nat 2) with 2 in *. rewrite W1, W2. apply R. lia.
Qed.

Lemma queries_run : forall m xs, core_ok m -> core_queries m = Some xs ->
  exists k qs, kind_of (msg_number m) = Some k /\ Forall2 query_matches qs xs /\
    forall c, reads (dispatch k c) (payload m) (v_queries qs, c).
Proof.
  intros m xs K E. destruct m; try discriminate E.
  all: cbn [core_queries] in E; inversion E; subst xs; clear E.
  all: cbn [core_ok] in K; cbn [payload].
  - destruct K as [K1 [K2 [K3 [K4 K5]]]].
    destruct (update_loop_run con loc (lenN (flat_map ser_slot slots)) slots 0 0)
      as [qs [R Q]]; try assumption; try lia.
    exists KUpdateData, qs. split; [reflexivity | split; [exact Q|]].
    intros c. unfold dispatch. cbn [event_case request_case].
    eapply reads_last; [|apply reads_ret]. unfold update_data.
    eapply reads_bind; [now apply reads_con|]. eapply reads_bind.
    { apply reads_1. cbn in K2. repeat (destruct K2 as [<-|K2]; [reflexivity|]). contradiction. }
    eapply reads_bind; [now apply reads_4|]. cbv beta. intros rest. apply R.
    pose proof (slots_length slots) as SL. rewrite app_length. unfold lenN in SL. lia.
  - destruct K as [K1 K2]. assert (K3 := K1). destruct K3 as [[A B C D F G H] I].
    unfold core_queries. destruct (core_spot (core_base c) (cl_seq c)) as [fl fs] eqn:S.
    destruct (card_queries_run (cl_con c) (core_base c) (cl_seq c) items fl fs K2 S) as [qs [R Q]].
    exists KUpdateCard, qs. split; [reflexivity | split; [exact Q|]].
    intros x. unfold dispatch. cbn [event_case request_case].
    eapply reads_last; [|apply reads_ret]. unfold update_card.
    eapply reads_bind; [now apply reads_loc1|]. unfold core_card_place. rewrite S. exact R.
Qed.

(** ** Messages without a counterpart *)
Lemma silent_run : forall m, core_ok m -> core_silent m = true ->
  exists k, kind_of (msg_number m) = Some k /\
    forall c, reads (dispatch k c) (payload m) (v_swallowed, c).
Proof.
  intros m K E. destruct m; try discriminate E.
  all: eexists; split; [reflexivity|]; intros cx; unfold dispatch; cbn [event_case request_case payload].
  all: cbn [core_ok] in K; ands.
  all: try solve [rds].
  all: unfold CORE_LOC_INFO_SIZE.
  all: try solve [eapply reads_bind; [apply reads_skip, lenN_loc|]; rds].
  - (* Battle *)
    eapply reads_bind; [apply reads_skip, lenN_loc|].
    eapply reads_eq with
      (s := (b4 atk ++ b4 def ++ b1 flag) ++ ser_loc b ++ (b4 atk' ++ b4 def' ++ b1 flag'));
      [| now rewrite <- !app_assoc | reflexivity].
    eapply reads_bind; [apply reads_skip; now rewrite !lenN_app, !lenN_le|].
    eapply reads_bind; [apply reads_skip, lenN_loc|].
    eapply reads_last; [apply reads_skip; now rewrite !lenN_app, !lenN_le | apply reads_ret].
  - (* Equip *)
    eapply reads_bind; [apply reads_skip, lenN_loc|].
    eapply reads_last; [apply reads_skip, lenN_loc | apply reads_ret].
  - (* AiName *)
    eapply reads_bind; [apply reads_2; assumption|].
    eapply reads_last; [|apply reads_ret]. apply reads_skip.
    rewrite lenN_app, (lenN_flat_map _ _ 1), lenN_le by (intros; apply lenN_le). lia.
Qed.

(** ** encode_one on a message *)
Lemma read1_cons : forall n l, read 1 (n :: l) = Ok (n, l).
Proof.
  intros n l. unfold read, rbind, rbytes, lenN. cbn [length].
  replace (1 <=? N.of_nat (S (length l))) with true by (symmetry; apply N.leb_le; lia).
  unfold rret, obind. cbn [firstn skipn N.to_nat Pos.to_nat Pos.iter_op le].
  change (Pos.to_nat 1) with 1%nat. cbn [firstn skipn le]. now rewrite N.mul_0_r, N.add_0_r.
Qed.

Lemma encode_reads : forall m k c v c', kind_of (msg_number m) = Some k ->
  reads (dispatch k c) (payload m) (v, c') ->
  forall rest, encode_one c (ser m ++ rest) =
    Ok (mkResult (v_state v) (lenN (ser m)) (v_msg v), c').
Proof.
  intros m k c v c' K R rest. unfold encode_one, ser. cbn [app]. rewrite read1_cons.
  cbn [obind]. rewrite K, R. cbn [obind].
  replace (lenN (msg_number m :: payload m ++ rest) - lenN rest)
    with (lenN (msg_number m :: payload m)); [reflexivity|].
  unfold lenN. cbn [length]. rewrite app_length. lia.
Qed.

Lemma event_encode : forall m e, core_ok m -> core_event m = Some e ->
  forall c rest, encode_one c (ser m ++ rest) =
    Ok (mkResult StOk (lenN (ser m)) (Some (mkMsg (MsgEvent e) [])), c).
Proof.
  intros m e K E c rest. destruct (event_run m e K E) as [k [r [A [B C]]]].
  eapply (encode_reads m k c (v_event e)); [exact A|]. unfold dispatch. rewrite B.
  eapply reads_last; [exact C | apply reads_ret].
Qed.
Lemma request_encode : forall m to rq, core_ok m -> core_request m = Some (to, rq) ->
  forall c rest, encode_one c (ser m ++ rest) =
    Ok (mkResult StOk (lenN (ser m)) (Some (mkMsg (MsgRequest (Z.of_N to) rq) [])), c).
Proof.
  intros m to rq K E c rest. destruct (request_run m to rq K E) as [k [r [p [A [B [C [D [F G]]]]]]]].
  eapply (encode_reads m k c (mkVerdict StOk _)); [exact A|]. unfold dispatch. rewrite B, C, D.
  eapply reads_bind; [now apply reads_con|].
  eapply reads_last; [exact G | apply reads_ret].
Qed.
Lemma queries_encode : forall m xs, core_ok m -> core_queries m = Some xs ->
  exists qs, Forall2 query_matches qs xs /\
  forall c rest, encode_one c (ser m ++ rest) =
    Ok (mkResult StOk (lenN (ser m)) (Some (mkMsg MsgNotSet qs)), c).
Proof.
  intros m xs K E. destruct (queries_run m xs K E) as [k [qs [A [B C]]]].
  exists qs. split; [exact B|]. intros c rest. now apply (encode_reads m k c (v_queries qs)).
Qed.
Lemma silent_encode : forall m, core_ok m -> core_silent m = true ->
  forall c rest, encode_one c (ser m ++ rest) =
    Ok (mkResult StSwallowed (lenN (ser m)) None, c).
Proof.
  intros m K E c rest. destruct (silent_run m K E) as [k [A C]].
  now apply (encode_reads m k c v_swallowed).
Qed.
