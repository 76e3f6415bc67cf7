(** What messages do to the duel: encode_one followed by the parser. *)
From Verif Require Import Base BaseProofs Place PlaceProofs Frame FrameSpec FrameLens FrameProofs FrameMove FrameOps FramePiles FrameInv FrameShuffle FrameFacts
  Msg Event EventSpec EventProofs Query QuerySpec QueryProofs.
From Verif Require Import Reader EncodeQuery Encode CoreMsg ReaderProofs EncodeProofs EncodeQueryProofs
  EncodeSpec EncodeLocal EncodeFrame EncodeFacts EncodeState.

Local Open Scope N_scope.

Local Opaque le_bytes ser_loc ser_loc4 ser_loc1 ser_loc44 ser_effect ser_counter bb bi4.

Lemma feed_event : forall c bs st n e, encode_one c bs = Ok (mkResult st n (Some (mkMsg (MsgEvent e) [])), c) ->
  feed c bs = let! b := pparse card0 e (cx_board c) in Ok (set_board b c).
Proof.
  intros c bs st n e H. unfold feed. rewrite H. cbn [obind]. unfold follow. cbn [r_msg].
  unfold ctx_parse. cbn [m_t m_queries]. destruct (pparse card0 e (cx_board c)); reflexivity.
Qed.

(** ** Splices *)
Lemma app_inj_pre : forall A (a a' b b' : list A), a ++ b = a' ++ b' -> length a = length a' ->
  a = a' /\ b = b'.
Proof.
  induction a as [|x a IH]; intros [|y a'] b b' E L; try discriminate L; [auto|].
  cbn [app length] in *. inversion E; subst. destruct (IH a' b b') as [-> ->]; auto.
Qed.
Definition moved (f f' : frame card) (v : cont -> list ptr) : Prop :=
  inv card f' /\ f_heap f' = f_heap f /\ forall x, view (f_lay f') x = v x.

Lemma splice_step : forall f from count to rv r1 r2 s t before cut after b2 a2, inv card f ->
  slot from = Some (CPile r1, s) -> slot to = Some (CPile r2, t) ->
  view (f_lay f) (CPile r1) = before ++ cut ++ after -> length before = s -> length cut = N.to_nat count ->
  view_set (CPile r1) (before ++ after) (view (f_lay f)) (CPile r2) = b2 ++ a2 -> length b2 = t ->
  exists f', lift (pile_splice from count to rv) f = Ok f' /\
    moved f f' (view_set (CPile r2) (b2 ++ (if rv then rev cut else cut) ++ a2)
                 (view_set (CPile r1) (before ++ after) (view (f_lay f)))).
Proof.
  intros f from count to rv r1 r2 s t before cut after b2 a2 I S1 S2 E Ls Lc E2 Lt.
  assert (NN : nonull (f_lay f)) by apply (inv_lay _ _ I).
  assert (T : (t <= length (contents (CPile r2) (f_lay f)) -
                 (if pref_eq_dec r1 r2 then N.to_nat count else 0))%nat).
  { assert (Q := f_equal (@length _) E2). unfold view_set in Q. rewrite app_length in Q.
    assert (Q2 := f_equal (@length _) E). rewrite !app_length in Q2. unfold view in Q2.
    destruct (cont_eq_dec (CPile r2) (CPile r1)) as [X|X].
    - injection X as ->. rewrite app_length in Q. destruct (pref_eq_dec r1 r1); [|congruence]. lia.
    - destruct (pref_eq_dec r1 r2) as [->|]; [congruence|]. unfold view in Q. lia. }
  assert (H1 : (s + N.to_nat count <= length (contents (CPile r1) (f_lay f)))%nat).
  { assert (Q2 := f_equal (@length _) E). rewrite !app_length in Q2. unfold view in Q2. lia. }
  destruct (pile_splice_succeeds from count to rv (f_lay f) r1 r2 s t NN S1 S2 H1 T) as [L' P].
  assert (St : lift (pile_splice from count to rv) f = Ok (with_lay f L')) by (unfold lift; rewrite P; reflexivity).
  exists (with_lay f L'). split; [exact St|]. split; [|split; [reflexivity|]].
  - eapply (inv_step card card0 (OpSplice from count to rv)); [exact I|exact St].
  - destruct (pile_splice_view _ _ _ _ _ _ P) as (q1 & q2 & s' & t' & Q1 & Q2 & b & cu & a & Ev & Lb & Lcu & V).
    rewrite S1 in Q1. rewrite S2 in Q2. injection Q1 as <- <-. injection Q2 as <- <-.
    unfold view in E. rewrite E in Ev.
    apply app_inj_pre in Ev; [|lia]. destruct Ev as [<- Ev]. apply app_inj_pre in Ev; [|lia].
    destruct Ev as [<- <-]. cbv zeta in V. destruct V as (b2' & a2' & E2' & Lb2 & V).
    rewrite E2 in E2'. apply app_inj_pre in E2'; [|lia]. destruct E2' as [<- <-]. exact V.
Qed.

Lemma feed_splices : forall c bs st n reason ops f',
  encode_one c bs = Ok (mkResult st n (Some (mkMsg (MsgEvent (EvPile reason (PileSplice ops))) [])), c) ->
  do_splices (plain_fo card0) ops (b_frame (cx_board c)) = Ok f' ->
  f_heap f' = f_heap (b_frame (cx_board c)) ->
  exists c', feed c bs = Ok c' /\ only_moved c c' /\ ctx_layout c' = f_lay f'.
Proof.
  intros c bs st n reason ops f' E D H. exists (set_board (set_frame f' (cx_board c)) c).
  rewrite (feed_event _ _ _ _ _ E). unfold pparse. cbn [parse_event]. unfold on_frame. rewrite D.
  cbn [obind]. split; [reflexivity|]. split; [|reflexivity].
  split; [agree|]. split; [exact H|]. repeat split.
Qed.

Lemma con_cases : forall con who, side_of_con (Z.of_N con) = Some who ->
  Z.of_N con = con_of who /\ side_of_con (con_of who) = Some who.
Proof.
  intros con who H. destruct con as [|p]; [inversion H; now split|].
  destruct p; try discriminate H. inversion H; now split.
Qed.
Lemma slot_pile : forall con who loc l s o, side_of_con con = Some who -> assocN loc pile_table = Some l ->
  slot (mkPlace con loc s o) = Some (CPile (who, l), N.to_nat s).
Proof. intros con who loc l s o H1 H2. unfold slot. cbn [p_con p_loc p_seq]. now rewrite H1, H2. Qed.

Lemma u32_small : forall n, n < 2 ^ 32 -> u32 n = n.
Proof. intros n H. unfold u32, wrap. now apply N.mod_small. Qed.
Lemma of_signed_diff : forall a b, b <= a -> a < 2 ^ 32 -> of_signed 32 (Z.of_N a - Z.of_N b) = a - b.
Proof.
  intros a b H1 H2. unfold of_signed. rewrite Z.mod_small; [lia|].
  change (2 ^ Z.of_N 32)%Z with (Z.of_N (2 ^ 32)). lia.
Qed.

Lemma draw_e2e : forall c con who l rest, ctx_sound c -> side_of_con (Z.of_N con) = Some who ->
  core_ok (CmDraw con l) -> (length l <= length (pile_now c who LDeck))%nat ->
  lenN (pile_now c who LDeck) < 2 ^ 32 -> lenN (pile_now c who LHand) < 2 ^ 32 ->
  exists c', feed c (ser (CmDraw con l) ++ rest) = Ok c' /\ only_moved c c' /\
    others_kept [CPile (who, LDeck); CPile (who, LHand)] c c' /\
    exists drawn, pile_now c who LDeck = pile_now c' who LDeck ++ drawn /\ length drawn = length l /\
      pile_now c' who LHand = pile_now c who LHand ++ rev drawn.
Proof.
  intros c con who l rest S W K Le Ld Lh. unfold pile_now in *. apply sound_inv in S.
  set (deck := contents (CPile (who, LDeck)) (ctx_layout c)) in *.
  set (hand := contents (CPile (who, LHand)) (ctx_layout c)) in *.
  set (n := (length deck - length l)%nat).
  pose (f := b_frame (cx_board c)).
  pose proof (draw_encode c con who l rest W K) as E.
  rewrite of_signed_diff in E; [|unfold size_of; fold deck; unfold lenN; lia|exact Ld].
  rewrite u32_small in E by exact Lh.
  destruct (con_cases _ _ W) as [Ec Sc].
  destruct (splice_step f (mkPlace (Z.of_N con) LOCATION_MAIN_DECK (size_of c who LDeck - lenN l) (-1))
              (lenN l) (mkPlace (Z.of_N con) LOCATION_HAND (size_of c who LHand) (-1)) true
              (who, LDeck) (who, LHand) n (length hand) (firstn n deck) (skipn n deck) [] hand [])
    as [f' [P [I' [H V]]]]; try exact S.
  - rewrite Ec. erewrite slot_pile by (eauto; reflexivity). do 3 f_equal. unfold size_of. fold deck.
    unfold n, lenN. lia.
  - rewrite Ec. erewrite slot_pile by (eauto; reflexivity). do 3 f_equal. unfold size_of. fold hand.
    unfold lenN. lia.
  - rewrite app_nil_r. symmetry. apply firstn_skipn.
  - rewrite firstn_length. lia.
  - rewrite skipn_length. unfold lenN. lia.
  - rewrite !app_nil_r. unfold view_set. destruct (cont_eq_dec _ _) as [X|_]; [discriminate|reflexivity].
  - reflexivity.
  - destruct (feed_splices _ _ _ _ _ _ f' E) as [c' [F [O L]]].
    + unfold do_splices. cbn [ofold fo_splice plain_fo sp_from sp_count sp_to sp_reverse].
      fold f. rewrite P. reflexivity.
    + exact H.
    + exists c'. split; [exact F|]. split; [exact O|]. split.
      * intros k Nk. rewrite L. change (view (f_lay f') k = view (f_lay f) k). rewrite V. unfold view_set.
        destruct (cont_eq_dec k _) as [->|_]; [exfalso; apply Nk; cbn; tauto|].
        destruct (cont_eq_dec k _) as [->|_]; [exfalso; apply Nk; cbn; tauto|]. reflexivity.
      * exists (skipn n deck). rewrite L.
        change (contents (CPile (who, LDeck)) (f_lay f')) with (view (f_lay f') (CPile (who, LDeck))).
        change (contents (CPile (who, LHand)) (f_lay f')) with (view (f_lay f') (CPile (who, LHand))).
        rewrite !V. unfold view_set.
        repeat match goal with |- context [cont_eq_dec ?a ?b] =>
          destruct (cont_eq_dec a b); try congruence end.
        rewrite !app_nil_r. split; [symmetry; apply firstn_skipn|]. split; [|reflexivity].
        rewrite skipn_length. unfold n. lia.
Qed.

(** A splice of the whole pile onto itself. *)
Lemma reverse_step : forall f con who loc l o, inv card f -> side_of_con con = Some who ->
  assocN loc pile_table = Some l -> 
  exists f', lift (pile_splice (mkPlace con loc 0 o) (lenN (view (f_lay f) (CPile (who, l))))
                               (mkPlace con loc 0 o) true) f = Ok f' /\
    moved f f' (view_set (CPile (who, l)) (rev (view (f_lay f) (CPile (who, l)))) (view (f_lay f))).
Proof.
  intros f con who loc l o I W A. set (d := view (f_lay f) (CPile (who, l))).
  destruct (splice_step f (mkPlace con loc 0 o) (lenN d) (mkPlace con loc 0 o) true
    (who, l) (who, l) 0%nat 0%nat [] d [] [] []) as [f' [P [I' [H V]]]]; auto.
  - now apply slot_pile.
  - now apply slot_pile.
  - now rewrite app_nil_r.
  - unfold lenN. lia.
  - unfold view_set. destruct (cont_eq_dec _ _); [reflexivity|congruence].
  - exists f'. split; [exact P|]. split; [exact I'|]. split; [exact H|].
    intros x. rewrite V. unfold view_set. cbn [app]. rewrite app_nil_r.
    destruct (cont_eq_dec x _); reflexivity.
Qed.

Lemma reverse_e2e : forall c rest, ctx_sound c ->
  (forall who, lenN (pile_now c who LDeck) < 2 ^ 32) ->
  exists c', feed c (ser CmReverseDeck ++ rest) = Ok c' /\ only_moved c c' /\
    others_kept [CPile (false, LDeck); CPile (true, LDeck)] c c' /\
    forall who, pile_now c' who LDeck = rev (pile_now c who LDeck).
Proof.
  intros c rest S B. apply sound_inv in S. pose proof (reverse_encode c rest) as E.
  rewrite !u32_small in E by apply B. set (f := b_frame (cx_board c)) in *.
  destruct (reverse_step f 0 false LOCATION_MAIN_DECK LDeck (-1) S eq_refl eq_refl) as [f1 [P1 [I1 [H1 V1]]]].
  destruct (reverse_step f1 1 true LOCATION_MAIN_DECK LDeck (-1) I1 eq_refl eq_refl) as [f2 [P2 [I2 [H2 V2]]]].
  assert (Q : view (f_lay f1) (CPile (true, LDeck)) = view (f_lay f) (CPile (true, LDeck))).
  { rewrite V1. unfold view_set. destruct (cont_eq_dec _ _); [congruence|reflexivity]. }
  rewrite Q in P2. rewrite Q in V2.
  destruct (feed_splices _ _ _ _ _ _ f2 E) as [c' [F [O L]]].
  - unfold do_splices. cbn [ofold fo_splice plain_fo sp_from sp_count sp_to sp_reverse].
    fold f. unfold size_of, ctx_layout. fold f. unfold view in P1, P2. rewrite P1. cbn [obind].
    rewrite P2. reflexivity.
  - fold f. now rewrite H2.
  - exists c'. split; [exact F|]. split; [exact O|].
    assert (X : forall k, contents k (ctx_layout c') = view (f_lay f2) k) by (intros k; now rewrite L).
    split.
    + intros k Nk. rewrite X, V2. unfold view_set.
      destruct (cont_eq_dec k _) as [->|_]; [exfalso; apply Nk; cbn; tauto|]. rewrite V1. unfold view_set.
      destruct (cont_eq_dec k _) as [->|_]; [exfalso; apply Nk; cbn; tauto|]. reflexivity.
    + intros who. unfold pile_now. rewrite X, V2. unfold view_set.
      destruct who; (destruct (cont_eq_dec _ _); try congruence); [reflexivity|].
      rewrite V1. unfold view_set. destruct (cont_eq_dec _ _); [reflexivity|congruence].
Qed.

(** ** Graveyard and deck *)
Ltac dec := repeat match goal with |- context [cont_eq_dec ?a ?b] =>
  destruct (cont_eq_dec a b); try congruence end.

Lemma extra_op_step : forall f con who pos sseq sent kept run R pre snt post, inv card f ->
  side_of_con con = Some who ->
  view (f_lay f) (CPile (who, LDeck)) = kept ++ run ++ R ->
  view (f_lay f) (CPile (who, LExtra)) = pre ++ snt ++ post ->
  lenN pre = pos -> lenN snt = sent -> sent <= sseq -> sseq < 2 ^ 32 -> pos + sent < 2 ^ 32 ->
  lenN kept = sseq - sent ->
  let o := extra_op con pos sseq (lenN run) sent in
  exists f', lift (pile_splice (sp_from o) (sp_count o) (sp_to o) (sp_reverse o)) f = Ok f' /\
    moved f f' (view_set (CPile (who, LExtra)) (pre ++ (snt ++ run) ++ post)
                 (view_set (CPile (who, LDeck)) (kept ++ R) (view (f_lay f)))).
Proof.
  intros f con who pos sseq sent kept run R pre snt post I W D X Lp Ls Le Lq Lt Lk o.
  unfold o, extra_op. cbn [sp_from sp_count sp_to sp_reverse].
  rewrite of_signed_diff by assumption. rewrite u32_small by assumption.
  destruct (splice_step f (mkPlace con LOCATION_MAIN_DECK (sseq - sent) OSEQ_INVALID) (lenN run)
     (mkPlace con LOCATION_EXTRA_DECK (pos + sent) OSEQ_INVALID) false (who, LDeck) (who, LExtra)
     (length kept) (length (pre ++ snt)) kept run R (pre ++ snt) post) as [f' [P M]]; auto.
  - erewrite slot_pile by (eauto; reflexivity). do 2 f_equal. unfold lenN in *. lia.
  - erewrite slot_pile by (eauto; reflexivity). do 2 f_equal. rewrite app_length. unfold lenN in *. lia.
  - unfold lenN. lia.
  - unfold view_set. dec. rewrite X. now rewrite app_assoc.
  - exists f'. split; [exact P|]. destruct M as [I' [H V]]. split; [exact I'|]. split; [exact H|].
    intros x. rewrite V. unfold view_set. dec. now rewrite <- !app_assoc.
Qed.

Lemma flag_at_byte : forall data i b, nth_error data (N.to_nat (N.of_nat i / 8)) = Some b ->
  flag_at data i = N.testbit b (N.of_nat i mod 8).
Proof.
  intros data i b H. unfold flag_at.
  assert (E : N.to_nat (N.of_nat i / 8) = (i / 8)%nat).
  { rewrite N2Nat.inj_div, Nat2N.id. reflexivity. }
  rewrite E in H. rewrite (nth_error_nth _ _ _ H). f_equal.
  change 8 with (N.of_nat 8). now rewrite Nat2N.inj_mod.
Qed.

Lemma extra_run : forall con who pos data pre post R i sseq ssize sent ops f kept run snt,
  inv card f -> side_of_con con = Some who ->
  extra_loop con pos data (map N.of_nat (List.seq i (length R))) sseq ssize sent = Ok ops ->
  view (f_lay f) (CPile (who, LDeck)) = kept ++ run ++ R ->
  view (f_lay f) (CPile (who, LExtra)) = pre ++ snt ++ post ->
  lenN pre = pos -> lenN snt = sent -> lenN run = ssize ->
  (length kept + length snt + length run = i)%nat ->
  (ssize = 0 \/ sseq = N.of_nat i - ssize) ->
  pos + N.of_nat i + lenN R < 2 ^ 32 ->
  exists f', do_splices (plain_fo card0) ops f = Ok f' /\
    moved f f' (view_set (CPile (who, LExtra)) (pre ++ (snt ++ run ++ pick (flag_at data) i R) ++ post)
                 (view_set (CPile (who, LDeck)) (kept ++ pick (fun j => negb (flag_at data j)) i R)
                   (view (f_lay f)))).
Proof.
  intros con who pos data pre post R. induction R as [|x R IH];
    intros i sseq ssize sent ops f kept run snt I W E D X Lp Ls Lr Li Sq B;
    cbn [length List.seq map extra_loop pick] in *.
  - inversion E; subst ops. clear E. rewrite !app_nil_r in *.
    destruct (N.ltb_spec 0 ssize) as [P|P].
    + destruct (extra_op_step f con who pos sseq sent kept run [] pre snt post) as [f' [Q M]]; auto;
        try (unfold lenN in *; lia).
      { now rewrite app_nil_r. }
      exists f'. unfold do_splices. cbn [ofold fo_splice plain_fo]. subst ssize.
      rewrite Q. split; [reflexivity|].
      destruct M as [I' [H V]]. split; [exact I'|]. split; [exact H|].
      intros y. rewrite V. now rewrite !app_nil_r.
    + exists f. split; [reflexivity|]. split; [exact I|]. split; [reflexivity|].
      assert (run = []) by (destruct run; [auto|unfold lenN in Lr; cbn [length] in Lr; lia]). subst run.
      intros y. unfold view_set. rewrite !app_nil_r in *. dec; subst; auto.
  - apply obind_Ok in E. destruct E as [b [Nb E]].
    destruct (nth_error data (N.to_nat (N.of_nat i / 8))) as [b'|] eqn:Nd; [|discriminate].
    inversion Nb; subst b'. clear Nb. rewrite (flag_at_byte _ _ _ Nd).
    assert (Lx : lenN (x :: R) = 1 + lenN R) by (unfold lenN; cbn [length]; lia).
    destruct (N.testbit b (N.of_nat i mod 8)).
    + destruct (IH (S i) _ _ _ ops f kept (run ++ [x]) snt I W E) as [f' [Q M]]; auto.
      * rewrite <- app_assoc. exact D.
      * rewrite u32_small by (unfold lenN in *; lia). unfold lenN in *. rewrite app_length. cbn [length]. lia.
      * rewrite app_length. cbn [length]. lia.
      * right. rewrite u32_small by (unfold lenN in *; lia).
        destruct (N.eqb_spec ssize 0) as [Z|Z]; [|destruct Sq as [Sq|Sq]; [congruence|]]; unfold lenN in *; lia.
      * lia.
      * exists f'. split; [exact Q|]. destruct M as [I' [H V]]. split; [exact I'|]. split; [exact H|].
        intros y. rewrite V. cbn [negb app]. now rewrite <- !app_assoc.
    + destruct (N.ltb_spec 0 ssize) as [P|P].
      * apply obind_Ok in E. destruct E as [l [E F]]. inversion F; subst ops. clear F.
        destruct (extra_op_step f con who pos sseq sent kept run (x :: R) pre snt post) as [f1 [Q1 [I1 [H1 V1]]]]; auto;
          try (unfold lenN in *; lia).
        destruct (IH (S i) _ _ _ l f1 (kept ++ [x]) [] (snt ++ run) I1 W E) as [f' [Q [I' [H V]]]]; auto.
        -- rewrite V1. unfold view_set. dec. now rewrite <- app_assoc.
        -- rewrite V1. unfold view_set. dec.
        -- rewrite u32_small by (unfold lenN in *; lia). unfold lenN in *. rewrite app_length. lia.
        -- rewrite !app_length. cbn [length]. lia.
        -- lia.
        -- exists f'. split.
           ++ unfold do_splices in *. cbn [ofold fo_splice plain_fo]. subst ssize. rewrite Q1. exact Q.
           ++ split; [exact I'|]. split; [congruence|]. intros y. rewrite V. cbn [negb app].
              unfold view_set. dec; rewrite <- ?app_assoc; auto.
              rewrite V1. unfold view_set. dec.
      * assert (run = []) by (destruct run; [auto|unfold lenN in Lr; cbn [length] in Lr; lia]). subst run.
        destruct (IH (S i) _ _ _ ops f (kept ++ [x]) [] snt I W E) as [f' [Q [I' [H V]]]]; auto.
        -- rewrite <- app_assoc. exact D.
        -- rewrite !app_length. cbn [length] in *. lia.
        -- lia.
        -- exists f'. split; [exact Q|]. split; [exact I'|]. split; [exact H|].
           intros y. rewrite V. cbn [negb app]. now rewrite <- !app_assoc.
Qed.

Lemma splices_app : forall a b f, do_splices (plain_fo card0) (a ++ b) f =
  let! f1 := do_splices (plain_fo card0) a f in do_splices (plain_fo card0) b f1.
Proof. intros a b f. unfold do_splices. apply ofold_app. Qed.
Lemma moved_trans : forall f f1 f2 v, f_heap f1 = f_heap f -> moved f1 f2 v -> moved f f2 v.
Proof. intros f f1 f2 v H [I [H2 V]]. split; [exact I|]. split; [congruence|exact V]. Qed.

(** Putting a whole pile, if it is not empty, in front of another. *)
Lemma whole_step : forall f con who loc l s loc2 l2, inv card f -> side_of_con con = Some who ->
  assocN loc pile_table = Some l -> assocN loc2 pile_table = Some l2 -> l <> l2 ->
  forall kept cut, view (f_lay f) (CPile (who, l)) = kept ++ cut -> lenN kept = s ->
  exists f', do_splices (plain_fo card0)
      (if 0 <? lenN cut then [mkSplice (mkPlace con loc s (-1)) (lenN cut) (mkPlace con loc2 0 (-1)) false] else []) f
      = Ok f' /\
    moved f f' (view_set (CPile (who, l2)) (cut ++ view (f_lay f) (CPile (who, l2)))
                 (view_set (CPile (who, l)) kept (view (f_lay f)))).
Proof.
  intros f con who loc l s loc2 l2 I W A A2 Ne kept cut E Ls.
  destruct (N.ltb_spec 0 (lenN cut)) as [P|P].
  - destruct (splice_step f (mkPlace con loc s (-1)) (lenN cut) (mkPlace con loc2 0 (-1)) false
      (who, l) (who, l2) (N.to_nat s) 0%nat kept cut [] [] (view (f_lay f) (CPile (who, l2))))
      as [f' [Q M]]; auto using slot_pile.
    + now apply (slot_pile con who loc2 l2 0).
    + now rewrite app_nil_r.
    + unfold lenN in Ls. lia.
    + unfold lenN. lia.
    + unfold view_set. dec. reflexivity.
    + exists f'. unfold do_splices. cbn [ofold fo_splice plain_fo sp_from sp_count sp_to sp_reverse].
      rewrite Q. split; [reflexivity|]. rewrite app_nil_r in M. exact M.
  - assert (cut = []) by (destruct cut; [auto|unfold lenN in P; cbn [length] in P; lia]). subst cut.
    exists f. split; [reflexivity|]. split; [exact I|]. split; [reflexivity|].
    intros x. unfold view_set. rewrite app_nil_r in E. dec; subst; auto.
Qed.

Lemma swap_e2e : forall c con who pos bits rest, ctx_sound c -> side_of_con (Z.of_N con) = Some who ->
  core_ok (CmSwapGraveDeck con pos bits) -> lenN (pile_now c who LGrave) <= 8 * lenN bits ->
  pos <= lenN (pile_now c who LExtra) ->
  lenN (pile_now c who LExtra) + lenN (pile_now c who LGrave) < 2 ^ 32 ->
  lenN (pile_now c who LDeck) < 2 ^ 32 ->
  exists c', feed c (ser (CmSwapGraveDeck con pos bits) ++ rest) = Ok c' /\ only_moved c c' /\
    others_kept [CPile (who, LDeck); CPile (who, LGrave); CPile (who, LExtra)] c c' /\
    pile_now c' who LGrave = pile_now c who LDeck /\
    pile_now c' who LDeck = pick (fun i => negb (flag_at bits i)) 0 (pile_now c who LGrave) /\
    pile_now c' who LExtra = firstn (N.to_nat pos) (pile_now c who LExtra)
      ++ pick (flag_at bits) 0 (pile_now c who LGrave) ++ skipn (N.to_nat pos) (pile_now c who LExtra).
Proof.
  intros c con who pos bits rest S W K G Lp Le Ld. apply sound_inv in S.
  destruct (extra_loop_ok (Z.of_N con) pos bits (seqN (size_of c who LGrave)) 0 0 0) as [ops Eo].
  { intros i Hi. apply seqN_In in Hi. unfold size_of, pile_now in *. lia. }
  pose proof (swap_encode c con who pos bits ops rest W K G Eo) as E.
  set (f := b_frame (cx_board c)) in *.
  set (g := pile_now c who LGrave) in *. set (d := pile_now c who LDeck) in *.
  set (x := pile_now c who LExtra) in *.
  change (size_of c who LGrave) with (lenN g) in *. change (size_of c who LDeck) with (lenN d) in *.
  rewrite (u32_small (lenN g)) in E by lia. rewrite (u32_small (lenN d)) in E by lia.
  destruct (whole_step f (Z.of_N con) who LOCATION_GRAVEYARD LGrave 0 LOCATION_MAIN_DECK LDeck S W
    eq_refl eq_refl ltac:(discriminate) [] g eq_refl eq_refl) as [f1 [Q1 [I1 [H1 V1]]]].
  assert (D1 : view (f_lay f1) (CPile (who, LDeck)) = g ++ d).
  { rewrite V1. unfold view_set. dec. reflexivity. }
  destruct (whole_step f1 (Z.of_N con) who LOCATION_MAIN_DECK LDeck (lenN g) LOCATION_GRAVEYARD LGrave I1 W
    eq_refl eq_refl ltac:(discriminate) g d D1 eq_refl) as [f2 [Q2 [I2 [H2 V2]]]].
  assert (D2 : view (f_lay f2) (CPile (who, LDeck)) = [] ++ [] ++ g).
  { rewrite V2. unfold view_set. dec. reflexivity. }
  assert (X2 : view (f_lay f2) (CPile (who, LExtra)) =
    firstn (N.to_nat pos) x ++ [] ++ skipn (N.to_nat pos) x).
  { cbn [app]. rewrite firstn_skipn. rewrite V2. unfold view_set. dec. rewrite V1. unfold view_set. dec.
    reflexivity. }
  destruct (extra_run (Z.of_N con) who pos bits (firstn (N.to_nat pos) x) (skipn (N.to_nat pos) x) g
    0%nat 0 0 0 ops f2 [] [] [] I2 W) as [f3 [Q3 [I3 [H3 V3]]]]; auto.
  { unfold seqN in Eo. unfold lenN in Eo. rewrite Nat2N.id in Eo. exact Eo. }
  { unfold lenN in *. rewrite firstn_length. lia. }
  { lia. }
  destruct (feed_splices _ _ _ _ _ _ f3 E) as [c' [F [O L]]].
  - rewrite splices_app. unfold pile_place. change OSEQ_INVALID with (-1)%Z. fold f. rewrite Q1.
    cbn [obind]. rewrite splices_app, Q2. cbn [obind]. exact Q3.
  - fold f. now rewrite H3, H2.
  - assert (Vw : forall k, contents k (ctx_layout c') = view (f_lay f3) k) by (intros k; now rewrite L).
    exists c'. split; [exact F|]. split; [exact O|]. unfold pile_now. split; [|split; [|split]].
    + intros k Nk. rewrite Vw, V3. unfold view_set.
      destruct (cont_eq_dec k _) as [->|_]; [exfalso; apply Nk; cbn; tauto|].
      destruct (cont_eq_dec k _) as [->|_]; [exfalso; apply Nk; cbn; tauto|]. rewrite V2. unfold view_set.
      destruct (cont_eq_dec k _) as [->|_]; [exfalso; apply Nk; cbn; tauto|].
      destruct (cont_eq_dec k _) as [->|_]; [exfalso; apply Nk; cbn; tauto|]. rewrite V1. unfold view_set.
      destruct (cont_eq_dec k _) as [->|_]; [exfalso; apply Nk; cbn; tauto|].
      destruct (cont_eq_dec k _) as [->|_]; [exfalso; apply Nk; cbn; tauto|]. reflexivity.
    + rewrite Vw, V3. unfold view_set. dec. rewrite V2. unfold view_set. dec. rewrite V1. unfold view_set.
      dec. apply app_nil_r.
    + rewrite Vw, V3. unfold view_set. dec. reflexivity.
    + rewrite Vw, V3. unfold view_set. dec. reflexivity.
Qed.

(** ** Histories *)
Lemma feed_sound : forall c bs c', ctx_sound c -> feed c bs = Ok c' -> ctx_sound c'.
Proof.
  intros c bs c' S H. unfold feed in H. apply obind_Ok in H. destruct H as [[r c1] [E H]].
  assert (S1 : ctx_sound c1) by (eapply sound_encode; eauto). unfold follow in H.
  destruct (r_msg r) as [m|]; [eapply sound_parse; eauto|inversion H; now subst].
Qed.
Lemma feed_all_sound : forall ms c c', ctx_sound c -> feed_all c ms = Ok c' -> ctx_sound c'.
Proof.
  unfold feed_all. induction ms as [|m ms IH]; intros c c' S H; cbn [ofold] in H; [inversion H; now subst|].
  apply obind_Ok in H. destruct H as [c1 [E H]]. eapply IH; [|exact H]. eapply feed_sound; eauto.
Qed.
Lemma feed_all_heard : forall ms s c h c', heard s c h -> Forall core_ok ms -> feed_all c ms = Ok c' ->
  heard s c' (h ++ ms).
Proof.
  unfold feed_all. induction ms as [|m ms IH]; intros s c h c' S F H; cbn [ofold] in H.
  - inversion H; subst. now rewrite app_nil_r.
  - apply obind_Ok in H. destruct H as [c1 [E H]]. inversion F; subst.
    replace (h ++ m :: ms) with ((h ++ [m]) ++ ms) by now rewrite <- app_assoc.
    eapply IH; [|assumption|exact H]. unfold feed in E. apply obind_Ok in E. destruct E as [[r c2] [E G]].
    assert (X : heard s c2 (h ++ [m])).
    { eapply heard_msg with (rest := []); [exact S|assumption|]. rewrite app_nil_r. exact E. }
    unfold follow in G. destruct (r_msg r); [eapply heard_parse; eauto|inversion G; now subst].
Qed.
