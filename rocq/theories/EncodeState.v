(** The messages that need the state of the duel. *)
From Verif Require Import Base BaseProofs Place PlaceProofs Frame FrameSpec FrameProofs FrameInv FrameShuffle FrameFacts
  Msg Event EventProofs Query QuerySpec QueryProofs.
From Verif Require Import Reader EncodeQuery Encode CoreMsg ReaderProofs EncodeProofs EncodeQueryProofs
  EncodeSpec EncodeLocal EncodeFrame EncodeFacts.

Local Open Scope N_scope.

Local Opaque le_bytes ser_loc ser_loc4 ser_loc1 ser_loc44 ser_effect ser_counter bb bi4.

Definition size_of (c : ctx) (who : bool) (l : ploc) : N := lenN (contents (CPile (who, l)) (ctx_layout c)).

Lemma pile_size_run : forall c con who, side_of_con con = Some who ->
  pile_size c con LOCATION_MAIN_DECK = Ok (size_of c who LDeck) /\
  pile_size c con LOCATION_HAND = Ok (size_of c who LHand) /\
  pile_size c con LOCATION_GRAVEYARD = Ok (size_of c who LGrave).
Proof.
  intros c con who H. destruct con as [|[]|]; try discriminate H; inversion H; subst;
    repeat split; reflexivity.
Qed.
Lemma con_who : forall con, con < 2 -> exists who, side_of_con (Z.of_N con) = Some who.
Proof. intros con H. assert (E : con = 0 \/ con = 1) by lia. destruct E; subst; eexists; reflexivity. Qed.

Lemma reads_lift : forall A B (o : outcome A) (k : A -> reader B) a s x,
  o = Ok a -> reads (k a) s x -> reads (rbind (rlift o) k) s x.
Proof. intros A B o k a s x -> H rest. unfold rbind, rlift. cbn [obind]. apply H. Qed.

Lemma win_encode : forall c p r mr rest, is_u8 p -> is_u8 r -> cx_mwr c = Some mr ->
  encode_one c (ser (CmWin p r) ++ rest) =
  Ok (mkResult StOk (lenN (ser (CmWin p r))) (Some (mkMsg (MsgEvent
    (EvFinish r mr (if p =? 2 then FinishDraw true else FinishWinner (Z.of_N p)))) [])), c).
Proof.
  intros c p r mr rest H1 H2 E.
  eapply (encode_reads (CmWin p r) KWin c (v_event _)); [reflexivity|].
  unfold dispatch. cbn [event_case request_case payload]. unfold win_case.
  eapply reads_bind; [now apply (reads_read 1)|]. eapply reads_last; [now apply (reads_read 1)|].
  eapply reads_lift; [unfold get_match_win_reason; rewrite E; reflexivity|].
  replace (if negb (p =? 2) then FinishWinner (Z.of_N p) else FinishDraw true)
    with (if p =? 2 then FinishDraw true else FinishWinner (Z.of_N p)) by (destruct (p =? 2); reflexivity).
  apply reads_ret.
Qed.

Lemma match_kill_encode : forall c r rest, is_u32 r ->
  encode_one c (ser (CmMatchKill r) ++ rest) =
  Ok (mkResult StSwallowed (lenN (ser (CmMatchKill r))) None, match_win_reason r c).
Proof.
  intros c r rest H.
  eapply (encode_reads (CmMatchKill r) KMatchKill c v_swallowed); [reflexivity|].
  unfold dispatch. cbn [event_case request_case payload].
  eapply reads_last; [now apply (reads_read 4)|]. apply reads_ret.
Qed.

Lemma deck_top_encode : forall c con who s code pos rest, side_of_con (Z.of_N con) = Some who ->
  is_u8 con -> is_u32 s -> is_u32 code -> is_u32 pos ->
  encode_one c (ser (CmDeckTop con s code pos) ++ rest) =
  Ok (mkResult StOk (lenN (ser (CmDeckTop con s code pos))) (Some (mkMsg (MsgEvent
    (EvMeta (MetaUpdate 0 [mkPlace (Z.of_N con) LOCATION_MAIN_DECK
       (of_signed 32 (Z.of_N (size_of c who LDeck) - 1 - Z.of_N s)) (-1)]))) [])), c).
Proof.
  intros c con who s code pos rest W H1 H2 H3 H4.
  eapply (encode_reads (CmDeckTop con s code pos) KDeckTop c (v_event _)); [reflexivity|].
  unfold dispatch. cbn [event_case request_case payload]. unfold deck_top_case.
  eapply reads_bind; [now apply reads_con|].
  eapply reads_lift; [apply (pile_size_run c _ _ W)|].
  eapply reads_bind; [now apply (reads_read 4)|].
  eapply reads_bind; [apply reads_skip, lenN_le|].
  eapply reads_last; [apply reads_skip, lenN_le|]. apply reads_ret.
Qed.

Lemma draw_encode : forall c con who l rest, side_of_con (Z.of_N con) = Some who ->
  core_ok (CmDraw con l) ->
  encode_one c (ser (CmDraw con l) ++ rest) =
  Ok (mkResult StOk (lenN (ser (CmDraw con l))) (Some (mkMsg (MsgEvent
    (EvPile REASON_DRAW (PileSplice [mkSplice
       (mkPlace (Z.of_N con) LOCATION_MAIN_DECK
          (of_signed 32 (Z.of_N (size_of c who LDeck) - Z.of_N (lenN l))) (-1))
       (lenN l) (mkPlace (Z.of_N con) LOCATION_HAND (u32 (size_of c who LHand)) (-1)) true]))) [])), c).
Proof.
  intros c con who l rest W [H1 [H2 H3]].
  eapply (encode_reads (CmDraw con l) KDraw c (v_event _)); [reflexivity|].
  unfold dispatch. cbn [event_case request_case payload]. unfold draw_case, seq4.
  eapply reads_bind; [now apply reads_con|].
  eapply reads_bind; [now apply (reads_read 4)|].
  eapply reads_last; [apply reads_skip, skip_pairs|].
  eapply reads_lift; [apply (pile_size_run c _ _ W)|].
  eapply reads_lift; [apply (pile_size_run c _ _ W)|]. apply reads_ret.
Qed.

Lemma reverse_encode : forall c rest,
  encode_one c (ser CmReverseDeck ++ rest) =
  Ok (mkResult StOk (lenN (ser CmReverseDeck)) (Some (mkMsg (MsgEvent
    (EvPile REASON_EFFECT (PileSplice
      [mkSplice (mkPlace 0 LOCATION_MAIN_DECK 0 (-1)) (u32 (size_of c false LDeck))
                (mkPlace 0 LOCATION_MAIN_DECK 0 (-1)) true;
       mkSplice (mkPlace 1 LOCATION_MAIN_DECK 0 (-1)) (u32 (size_of c true LDeck))
                (mkPlace 1 LOCATION_MAIN_DECK 0 (-1)) true]))) [])), c).
Proof.
  intros c rest. eapply (encode_reads CmReverseDeck KReverseDeck c (v_event _)); [reflexivity|].
  unfold dispatch. cbn [event_case request_case payload]. unfold reverse_deck_case.
  eapply reads_lift; [apply (pile_size_run c 0%Z false eq_refl)|].
  eapply reads_lift; [apply (pile_size_run c 1%Z true eq_refl)|]. apply reads_ret.
Qed.

Lemma move_encode : forall c code p q reason v c' rest, core_ok (CmMove code p q reason) ->
  move_verdict (core_place p) (core_place q) reason c = Ok (v, c') ->
  encode_one c (ser (CmMove code p q reason) ++ rest) =
  Ok (mkResult (v_state v) (lenN (ser (CmMove code p q reason))) (v_msg v), c').
Proof.
  intros c code p q reason v c' rest [H1 [H2 [H3 H4]]] E.
  eapply (encode_reads (CmMove code p q reason) KMove c v); [reflexivity|].
  unfold dispatch. cbn [event_case request_case payload]. unfold move_case.
  eapply reads_bind; [apply reads_skip, lenN_le|].
  eapply reads_bind; [now apply reads_loc|]. eapply reads_bind; [now apply reads_loc|].
  eapply reads_last; [now apply (reads_read 4)|].
  intros r. unfold rlift. rewrite E. reflexivity.
Qed.
Lemma move_encode_inv : forall c code p q reason r c' rest, core_ok (CmMove code p q reason) ->
  encode_one c (ser (CmMove code p q reason) ++ rest) = Ok (r, c') ->
  exists v, move_verdict (core_place p) (core_place q) reason c = Ok (v, c') /\
    r = mkResult (v_state v) (lenN (ser (CmMove code p q reason))) (v_msg v).
Proof.
  intros c code p q reason r c' rest K E.
  destruct (move_verdict (core_place p) (core_place q) reason c) as [[v c1]| | |] eqn:M.
  - rewrite (move_encode _ _ _ _ _ _ _ _ K M) in E. inversion E; subst. eauto.
  - exfalso. revert E. destruct K as [H1 [H2 [H3 H4]]].
    unfold encode_one, ser. cbn [app]. rewrite read1_cons. cbn [obind].
    change (kind_of (msg_number (CmMove code p q reason))) with (Some KMove).
    unfold dispatch. cbn [event_case request_case payload]. unfold move_case, rbind.
    rewrite <- !app_assoc.
    rewrite (reads_skip (b4 code) 4) by apply lenN_le. cbn [obind].
    rewrite (reads_loc p H2). cbn [obind]. rewrite (reads_loc q H3). cbn [obind].
    change 4 with (N.of_nat 4). rewrite (reads_read 4 reason H4). cbn [obind].
    unfold rlift. rewrite M. discriminate.
  - exfalso. revert E. destruct K as [H1 [H2 [H3 H4]]].
    unfold encode_one, ser. cbn [app]. rewrite read1_cons. cbn [obind].
    change (kind_of (msg_number (CmMove code p q reason))) with (Some KMove).
    unfold dispatch. cbn [event_case request_case payload]. unfold move_case, rbind.
    rewrite <- !app_assoc.
    rewrite (reads_skip (b4 code) 4) by apply lenN_le. cbn [obind].
    rewrite (reads_loc p H2). cbn [obind]. rewrite (reads_loc q H3). cbn [obind].
    change 4 with (N.of_nat 4). rewrite (reads_read 4 reason H4). cbn [obind].
    unfold rlift. rewrite M. discriminate.
  - exfalso. eapply move_verdict_halts, M.
Qed.

(** The loop over the flags of the graveyard only looks at the announced
    bytes. *)
Lemma swap_encode : forall c con who pos l ops rest, side_of_con (Z.of_N con) = Some who ->
  core_ok (CmSwapGraveDeck con pos l) -> size_of c who LGrave <= 8 * lenN l ->
  extra_loop (Z.of_N con) pos l (seqN (size_of c who LGrave)) 0 0 0 = Ok ops ->
  encode_one c (ser (CmSwapGraveDeck con pos l) ++ rest) =
  Ok (mkResult StOk (lenN (ser (CmSwapGraveDeck con pos l))) (Some (mkMsg (MsgEvent
    (EvPile 0 (PileSplice (
       (if 0 <? size_of c who LGrave then
          [mkSplice (pile_place (Z.of_N con) LOCATION_GRAVEYARD) (u32 (size_of c who LGrave))
                    (pile_place (Z.of_N con) LOCATION_MAIN_DECK) false] else [])
       ++ (if 0 <? size_of c who LDeck then
          [mkSplice (mkPlace (Z.of_N con) LOCATION_MAIN_DECK (u32 (size_of c who LGrave)) (-1))
                    (u32 (size_of c who LDeck))
                    (pile_place (Z.of_N con) LOCATION_GRAVEYARD) false] else [])
       ++ ops)))) [])), c).
Proof.
  intros c con who pos l ops rest W [H1 [H2 [H3 H4]]] G E.
  eapply (encode_reads (CmSwapGraveDeck con pos l) KSwapGraveDeck c (v_event _)); [reflexivity|].
  unfold dispatch. cbn [event_case request_case payload]. unfold swap_grave_deck_case, seq4.
  eapply reads_bind; [now apply reads_con|].
  eapply reads_bind; [now apply (reads_read 4)|].
  eapply reads_bind; [now apply (reads_read 4)|].
  eapply reads_lift; [apply (pile_size_run c _ _ W)|].
  eapply reads_lift; [apply (pile_size_run c _ _ W)|].
  intros r. unfold rbind at 1.
  assert (F : flat_map b1 l = l).
  { clear - H4. induction H4 as [|x l Hx _ IH]; [reflexivity|]. cbn [flat_map]. rewrite IH.
    Transparent le_bytes. cbn [le_bytes]. rewrite N.mod_small by exact Hx. reflexivity. }
  rewrite F.
  assert (L : forall l', extra_loop (Z.of_N con) pos (l ++ l') (seqN (size_of c who LGrave)) 0 0 0 = Ok ops).
  { intros l'. rewrite <- E. apply extra_loop_local. intros i I. apply seqN_In in I.
    rewrite nth_error_app1; [reflexivity|]. unfold lenN in G.
    assert (i / 8 < N.of_nat (length l)) by (apply N.div_lt_upper_bound; lia). lia. }
  rewrite L. cbn [obind].
  assert (S : reads (rskip (lenN l)) l tt) by (apply reads_skip; reflexivity).
  unfold rbind. rewrite S. cbn [obind]. reflexivity.
Qed.

(** ** When a message is accepted *)
Lemma core_locs : forall c, cloc_ok c ->
  In (p_loc (core_place c)) [0; 0x1; 0x2; 0x4; 0x8; 0x10; 0x20; 0x40; 0x100; 0x200].
Proof.
  intros c K. destruct K as [_ K _ _ S _ _]. unfold core_place.
  assert (G : forall l s, In l [0; 0x1; 0x2; 0x4; 0x8; 0x10; 0x20; 0x40] -> (l = 8 -> s < 8) ->
    In (fst (core_spot l s)) [0; 0x1; 0x2; 0x4; 0x8; 0x10; 0x20; 0x40; 0x100; 0x200]).
  { intros l s I H. cbn [In] in I. repeat destruct I as [<-|I]; try contradiction; try (cbn; tauto).
    specialize (H eq_refl).
    assert (E : s = 0 \/ s = 1 \/ s = 2 \/ s = 3 \/ s = 4 \/ s = 5 \/ s = 6 \/ s = 7) by lia.
    repeat destruct E as [->|E]; try subst; cbn; tauto. }
  specialize (G _ _ K S). destruct (core_spot (core_base c) (cl_seq c)) as [l s]. exact G.
Qed.
Lemma core_is_pile : forall p,
  In (p_loc p) [0; 0x1; 0x2; 0x4; 0x8; 0x10; 0x20; 0x40; 0x100; 0x200] ->
  is_pile p = match assocN (p_loc p) pile_table with Some _ => true | None => false end.
Proof.
  intros [con loc seq oseq]. unfold is_pile. cbn [p_loc In]. intros I.
  repeat destruct I as [<-|I]; try contradiction; reflexivity.
Qed.

Lemma extra_loop_ok : forall con pos data is sseq ssize sent,
  (forall i, In i is -> i < 8 * lenN data) -> exists ops, extra_loop con pos data is sseq ssize sent = Ok ops.
Proof.
  intros con pos data is. induction is as [|i is IH]; intros sseq ssize sent H; cbn [extra_loop]; [eauto|].
  assert (I : i < 8 * lenN data) by (apply H; now left).
  assert (H' : forall j, In j is -> j < 8 * lenN data) by (intros j J; apply H; now right).
  destruct (nth_error data (N.to_nat (i / 8))) as [b|] eqn:E.
  2:{ apply nth_error_None in E. unfold lenN in I.
      assert (i / 8 < N.of_nat (length data)) by (apply N.div_lt_upper_bound; lia). lia. }
  cbn [or_ub obind]. destruct (N.testbit b (i mod 8)); [apply IH, H'|].
  destruct (0 <? ssize); [|apply IH, H'].
  destruct (IH sseq 0 (u32 (sent + ssize)) H') as [l ->]. cbn [obind]. eauto.
Qed.

Lemma move_board : forall p q r c v, move_verdict p q r c = Ok v -> cx_board (snd v) = cx_board c.
Proof.
  intros prev curr reason c v H. unfold move_verdict, take_deferred_xyz_mat in H.
  repeat match type of H with
  | context [if ?b then _ else _] => destruct b; cbn [obind or_ub] in H
  end;
  try (apply obind_Ok in H; destruct H as [had [_ H]]);
  repeat match type of H with context [if ?b then _ else _] => destruct b end;
  inversion H; subst; reflexivity.
Qed.
Lemma board_dispatch : forall k c, yields (fun v => cx_board (snd v) = cx_board c) (dispatch k c).
Proof.
  intros k c. unfold dispatch. destruct (event_case k) as [r|] eqn:E.
  - apply yields_bind. intros e. now apply yields_ret.
  - destruct (request_case k) as [r|] eqn:F.
    + apply yields_bind. intros z. apply yields_bind. intros q. now apply yields_ret.
    + destruct k; try discriminate;
        unfold win_case, deck_top_case, swap_grave_deck_case, draw_case, reverse_deck_case, move_case;
        repeat (apply yields_bind; intros ?); try (now apply yields_ret).
      intros bs v rest H. unfold rlift in H. apply obind_Ok in H. destruct H as [w [H I]].
      inversion I; subst. eapply move_board, H.
Qed.
Lemma encode_board : forall c bs r c', encode_one c bs = Ok (r, c') -> cx_board c' = cx_board c.
Proof.
  intros c bs r c' H. apply encode_ok in H. destruct H as [b [tl [v [rest [_ [_ [_ D]]]]]]].
  destruct (kind_of b) as [k|].
  - exact (board_dispatch k c _ _ _ D).
  - now destruct D as [_ [-> _]].
Qed.

(** Sound contexts have sound boards. *)
Lemma query_inv : forall use q f hits f', inv card f -> parse_query use q f = Ok (hits, f') -> inv card f'.
Proof.
  intros use q f hits f' [I1 I2 I3 I4] H.
  destruct (QueryProofs.query_run _ _ _ _ _ H) as (id & c & _ & _ & L & Nx & Ids & _).
  constructor.
  - now rewrite L.
  - intros x. rewrite L, I2. unfold hcnt. now rewrite Ids.
  - now rewrite Ids.
  - intros x. rewrite Ids, Nx. apply I4.
Qed.
Lemma queries_inv : forall qs c c', inv card (b_frame (cx_board c)) -> ofold ctx_query qs c = Ok c' ->
  inv card (b_frame (cx_board c')).
Proof.
  induction qs as [|q qs IH]; intros c c' I H; cbn [ofold] in H; [inversion H; subst; exact I|].
  apply obind_Ok in H. destruct H as [c1 [E H]]. eapply IH; [|exact H].
  unfold ctx_query in E. apply obind_Ok in E. destruct E as [[hits f] [E F]].
  inversion F; subst. cbn [set_board cx_board set_frame b_frame]. eapply query_inv; eauto.
Qed.
Lemma parse_inv : forall m c c', inv card (b_frame (cx_board c)) -> ctx_parse m c = Ok c' ->
  inv card (b_frame (cx_board c')).
Proof.
  intros m c c' I H. unfold ctx_parse in H. apply obind_Ok in H. destruct H as [c1 [E H]].
  eapply queries_inv; [|exact H]. destruct (m_t m); try (inversion E; subst; exact I).
  apply obind_Ok in E. destruct E as [b [E F]]. inversion F; subst. cbn [set_board cx_board].
  eapply pparse_inv; eauto.
Qed.
Lemma sound_inv : forall c, ctx_sound c -> inv card (b_frame (cx_board c)).
Proof.
  intros c S. induction S as [| |c bs r c' S IH E|c m c' S IH E]; try apply inv0.
  - now rewrite (encode_board _ _ _ _ E).
  - eapply parse_inv; eauto.
Qed.

Lemma has_xyz_ok : forall c p, ctx_sound c -> zone_named p <> None ->
  exists r, zone_named p = Some r /\
    has_xyz_mat c p = Ok (negb (is_nil (contents (CMats r) (ctx_layout c)))).
Proof.
  intros c p S Z. destruct (zone_named p) as [r|] eqn:E; [|congruence]. exists r. split; [reflexivity|].
  apply zone_of_named in E. unfold has_xyz_mat. rewrite E. cbn [obind].
  assert (V := valid_zone_some p r (ctx_layout c)). unfold read_zone. cbn [contents].
  destruct (get_zone r (ctx_layout c)) as [z|]; [reflexivity|]. exfalso. apply V; auto.
  apply sound_inv in S. apply S.
Qed.
Lemma find_left_In : forall p z l, In (p, z) l -> exists z', find_left p l = Some z'.
Proof.
  intros p z l. induction l as [|[k v] l IH]; [contradiction|]. cbn [find_left In].
  destruct (place_eqb k p) eqn:E; [eauto|]. intros [H|H]; [|auto].
  inversion H; subst. rewrite (proj2 (place_eqb_eq p p) eq_refl) in E. discriminate.
Qed.

Lemma move_ready : forall c p q reason, ctx_sound c -> cloc_ok p -> cloc_ok q ->
  movable (core_place p) ->
  (pile_material (core_place p) -> exists z, In (holder (core_place p), z) (cx_left c)) ->
  exists v, move_verdict (core_place p) (core_place q) reason c = Ok v.
Proof.
  intros c p q reason S P Q M L. apply core_locs in P, Q.
  assert (IP := core_is_pile _ P). assert (IQ := core_is_pile _ Q).
  set (pp := core_place p) in *. set (qq := core_place q) in *. unfold move_verdict.
  assert (X : is_pile pp = false -> p_loc pp <> 0 -> exists b, has_xyz_mat c pp = Ok b).
  { intros A B. destruct M as [M|[M|M]]; [contradiction| |].
    - rewrite A in IP. destruct (assocN (p_loc pp) pile_table); [discriminate | congruence].
    - destruct (has_xyz_ok c pp S M) as [r [_ E]]. eauto. }
  unfold LOCATION_UNSPECIFIED. destruct (N.eqb_spec (p_loc pp) 0) as [Z|Z]; cbn [andb].
  - destruct (p_loc qq =? 0); eauto.
  - destruct (p_loc qq =? 0).
    + destruct (is_pile pp) eqn:E; cbn [negb obind]; [eauto|].
      destruct (X eq_refl Z) as [b ->]. cbn [obind]. eauto.
    + destruct (negb (not_mat qq) && is_pile qq); [eauto|].
      destruct (not_mat qq && negb (is_pile qq)); [unfold take_deferred_xyz_mat; eauto|].
      destruct (negb (not_mat pp) && is_pile pp) eqn:E.
      * apply andb_true_iff in E. destruct E as [E1 E2]. apply negb_true_iff in E1.
        destruct L as [z L].
        { split; [|unfold not_mat in E1; lia]. rewrite E2 in IP.
          destruct (assocN (p_loc pp) pile_table); congruence. }
        apply find_left_In in L. destruct L as [z' L]. unfold get_xyz_left, set_oseq, OSEQ_INVALID.
        unfold holder in L. rewrite L. cbn [or_ub obind]. eauto.
      * destruct (is_pile pp) eqn:F; cbn [negb andb obind]; [eauto|].
        destruct (is_pile qq); cbn [obind]; [|eauto].
        destruct (X eq_refl Z) as [b ->]. cbn [obind]. eauto.
Qed.

Lemma ready_encode : forall m c rest, core_ok m -> ctx_sound c -> ready c m ->
  exists r c', encode_one c (ser m ++ rest) = Ok (r, c').
Proof.
  intros m c rest K S R.
  destruct (core_cases m) as [[e E]|[[to [rq E]]|[[xs E]|[E|E]]]].
  - rewrite (event_encode m e K E). eauto.
  - rewrite (request_encode m to rq K E). eauto.
  - destruct (queries_encode m xs K E) as [qs [_ Q]]. rewrite Q. eauto.
  - rewrite (silent_encode m K E). eauto.
  - destruct m; try discriminate E; cbn [ready] in R.
    + destruct (cx_mwr c) eqn:M; [|congruence]. destruct K. erewrite win_encode by eassumption. eauto.
    + destruct (con_who _ R) as [who W]. destruct K as [? [? [? ?]]].
      erewrite deck_top_encode by eassumption. eauto.
    + destruct K as [K1 [K2 [K3 K4]]]. destruct R as [R1 R2].
      destruct (move_ready c prev cur reason S K2 K3 R1 R2) as [[v c'] V].
      erewrite move_encode; [eauto | split; auto | exact V].
    + destruct R as [R1 R2]. destruct (con_who _ R1) as [who W]. specialize (R2 _ W).
      destruct (extra_loop_ok (Z.of_N con) pos bits (seqN (size_of c who LGrave)) 0 0 0) as [ops O].
      { intros i I. apply seqN_In in I. unfold size_of in I. lia. }
      erewrite swap_encode; eauto.
    + destruct (con_who _ R) as [who W]. erewrite draw_encode by eassumption. eauto.
    + rewrite reverse_encode. eauto.
    + rewrite match_kill_encode by exact K. eauto.
Qed.

(** ** The board is only changed by the parser *)
Lemma drain_total : forall f ms fuel c,
  (forall r c, ctx_sound c -> exists c', f r c = Ok c' /\ ctx_sound c') ->
  Forall core_ok ms -> Forall (fun m => forall c, ready c m) ms -> ctx_sound c ->
  (length ms <= fuel)%nat -> exists l, drain f fuel c (flat_map ser ms) = Ok l /\ length l = length ms.
Proof.
  intros f ms. induction ms as [|m ms IH]; intros fuel c F K R S L.
  - exists []. destruct fuel; split; reflexivity.
  - inversion K as [|? ? K1 K2]; subst. inversion R as [|? ? R1 R2]; subst. cbn [flat_map].
    destruct fuel as [|fuel]; [cbn [length] in L; lia|].
    destruct (ready_encode m c (flat_map ser ms) K1 S (R1 c)) as [r [c1 E]].
    pose proof (encode_frames _ _ _ _ _ K1 E) as B.
    assert (S1 : ctx_sound c1) by (eapply sound_encode; eauto).
    destruct (F r c1 S1) as [c2 [E2 S2]].
    assert (X : exists b t, ser m ++ flat_map ser ms = b :: t) by (unfold ser; cbn; eauto).
    destruct X as [b [t X]]. cbn [drain]. rewrite X. rewrite <- X. rewrite E. cbn [obind].
    rewrite E2. cbn [obind]. rewrite B. unfold lenN. rewrite Nat2N.id.
    rewrite skipn_app, skipn_all, Nat.sub_diag. cbn [skipn app].
    destruct (IH fuel c2 F K2 R2 S2) as [l [D N]]; [cbn [length] in L; lia|].
    rewrite D. cbn [obind]. exists (r :: l). cbn [length]. split; congruence.
Qed.
