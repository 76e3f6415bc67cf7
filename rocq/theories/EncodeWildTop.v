(** The moves of a wild buffer, and the theorems about all buffers. *)
From Verif Require Import Base BaseProofs Place PlaceProofs Frame FrameSpec FrameInv Msg Event Query QuerySpec.
From Verif Require Import Reader EncodeQuery Encode CoreMsg EncodeSpec ReaderProofs EncodeProofs EncodeQueryProofs
  EncodeLocal EncodeState EncodeWildSpec EncodeWild EncodeWildRead.
From Verif Require Import HazardSpec HazardProofs.

Local Open Scope N_scope.

(** ** Moves *)
Lemma in_pile_spec : forall p, in_pile p <-> is_pile p = true.
Proof.
  intros p. unfold in_pile, is_pile. rewrite loc_is_pile_bits. split.
  - intros (b & I & T). exists b. split; [exact T|]. cbn [In] in I. unfold pile_locs.
    repeat destruct I as [<-|I]; try (exfalso; exact I); cbn; tauto.
  - intros (k & T & I). exists k. split; [|exact T].
    assert (X : forall j, 2 ^ k = 2 ^ j -> k = j) by (intros j; apply N.pow_inj_r; reflexivity).
    cbn [In pile_locs] in I.
    repeat destruct I as [I|I]; try (exfalso; exact I).
    all: match type of I with ?v = _ => let j := eval vm_compute in (N.log2 v) in
           assert (k = j) as -> by (apply X; rewrite <- I; reflexivity) end; cbn; tauto.
Qed.
Lemma is_mat_spec : forall p, is_mat p <-> not_mat p = false.
Proof. intros p. unfold is_mat, not_mat. rewrite Z.ltb_ge. tauto. Qed.

Lemma raw_cases : forall c, raw_ok c -> (0 <= p_con (raw_place c))%Z /\
  (is_pile (raw_place c) = true \/
   is_pile (raw_place c) = false /\ In (p_loc (raw_place c)) [0; 0xC; 0x4; 0x8; 0x100; 0x200]).
Proof.
  intros c [K1 K2 K3 K4]. destruct (overlay_raw _ K2) as (_ & _ & _ & L). unfold raw_place. cbv zeta.
  destruct (N.testbit (cl_loc c mod 128) 3 && (4 <? cl_seq c)).
  - destruct (cl_seq c =? 5); cbn [p_con p_loc]; (split; [lia|right]; split; [reflexivity|cbn; tauto]).
  - cbn [p_con p_loc]. split; [lia|]. destruct L as [L|L].
    + left. now apply in_pile_spec.
    + right. unfold is_pile. cbn [p_loc]. cbn [In] in L.
      repeat destruct L as [L|L]; try (exfalso; exact L); rewrite <- L; (split; [reflexivity|cbn; tauto]).
Qed.
Lemma has_xyz_orderly : forall c p, ctx_sound c -> (0 <= p_con p)%Z ->
  In (p_loc p) [0x4; 0x8; 0x100; 0x200; 0x400] \/ (1 < p_con p)%Z -> orderly (has_xyz_mat c p).
Proof.
  intros c p S Hc H. unfold has_xyz_mat. destruct H as [H|H].
  - apply ord_bind; [now apply zone_ref_orderly|]. intros r Hr.
    apply ord_bind; [|intros; apply ord_ok]. eapply read_zone_of; [|exact Hr]. apply sound_inv in S. apply S.
  - unfold zone_of, zone_ref. destruct (Z.leb_spec (p_con p) 1); [lia|]. apply ord_abort.
Qed.
Lemma find_left_None : forall p l, find_left p l = None <-> forall v, ~ In (p, v) l.
Proof.
  intros p l. split.
  - intros H v I. apply find_left_In in I. destruct I as [z I]. congruence.
  - induction l as [|[k v] l IH]; intros H; [reflexivity|]. cbn [find_left].
    destruct (place_eqb k p) eqn:E.
    + apply place_eqb_eq in E. subst. exfalso. apply (H v). now left.
    + apply IH. intros v' I. apply (H v'). now right.
Qed.
Lemma not_pile_12 : forall p, p_loc p = 0xC -> is_pile p = false.
Proof. intros p H. unfold is_pile. now rewrite H. Qed.
Lemma has_xyz_both : forall c p, p_loc p = 0xC -> (p_con p <= 1)%Z -> has_xyz_mat c p = UB.
Proof.
  intros c p H Hc. unfold has_xyz_mat, zone_of, zone_ref. destruct (Z.leb_spec (p_con p) 1); [|lia]. now rewrite H.
Qed.

Lemma move_orderly : forall c p q reason, ctx_sound c -> raw_ok p -> raw_ok q ->
  wild_move c (raw_place p) (raw_place q) \/ orderly (move_verdict (raw_place p) (raw_place q) reason c).
Proof.
  intros c p q reason S Hp Hq. destruct (raw_cases _ Hp) as [Cp Lp]. destruct (raw_cases _ Hq) as [Cq Lq].
  set (P := raw_place p) in *. set (Q := raw_place q) in *. clearbody P Q.
  unfold move_verdict. unfold LOCATION_UNSPECIFIED.
  destruct (N.eqb_spec (p_loc P) 0) as [P0|P0]; cbn [andb].
  { right. destruct (p_loc Q =? 0); apply ord_ok. }
  assert (X : is_pile P = false -> wild_move c P Q \/ orderly (has_xyz_mat c P) \/ ~ (p_loc Q = 0 \/ in_pile Q /\ ~ is_mat Q)).
  { intros E. destruct Lp as [Lp|[_ Lp]]; [congruence|].
    destruct (Z.leb_spec (p_con P) 1) as [C1|C1].
    2: { right. left. apply has_xyz_orderly; auto. }
    destruct (N.eq_dec (p_loc P) 0xC) as [P12|P12].
    - destruct (N.eq_dec (p_loc Q) 0) as [Q0|Q0]; [left; now apply wm_both; auto|].
      destruct (is_pile Q) eqn:Eq.
      + destruct (not_mat Q) eqn:Em.
        * left. apply wm_both; auto. right. split; [now apply in_pile_spec|]. rewrite is_mat_spec. congruence.
        * right. right. intros [Z|[_ Z]]; [contradiction|]. apply Z. now apply is_mat_spec.
      + right. right. intros [Z|[Z _]]; [contradiction|]. apply in_pile_spec in Z. congruence.
    - right. left. apply has_xyz_orderly; auto. left. cbn [In] in *.
      destruct Lp as [Lp|[Lp|Lp]]; try (exfalso; congruence); tauto. }
  destruct (N.eqb_spec (p_loc Q) 0) as [Q0|Q0].
  { destruct (is_pile P) eqn:E; cbn [negb obind]; [right; apply ord_ok|].
    destruct (X eq_refl) as [W|[O|Z]]; [now left| |exfalso; apply Z; now left].
    right. apply ord_bind; [exact O|]. intros. apply ord_ok. }
  destruct (is_pile Q) eqn:Eq; destruct (not_mat Q) eqn:Em; cbn [negb andb]; try (right; apply ord_ok).
  - (* to a pile *)
    destruct (is_pile P) eqn:E; cbn [negb andb].
    + destruct (not_mat P) eqn:Ep; cbn [negb andb]; [right; apply ord_ok|].
      unfold get_xyz_left. destruct (find_left _ _) as [v|] eqn:Fl; [right; apply ord_ok|]. left.
      apply wm_stray; auto; [now apply in_pile_spec|now apply is_mat_spec| |].
      * rewrite in_pile_spec, is_mat_spec. split; congruence.
      * exact (proj1 (find_left_None _ _) Fl).
    + rewrite andb_false_r. destruct (X eq_refl) as [W|[O|Z]]; [now left| |].
      * right. apply ord_bind; [exact O|]. intros. apply ord_ok.
      * exfalso. apply Z. right. split; [now apply in_pile_spec|]. rewrite is_mat_spec. congruence.
  - (* onto a zone, as a material *)
    destruct (is_pile P) eqn:E; cbn [negb andb].
    + destruct (not_mat P) eqn:Ep; cbn [negb andb]; [right; apply ord_ok|].
      unfold get_xyz_left. destruct (find_left _ _) as [v|] eqn:Fl; [right; apply ord_ok|]. left.
      apply wm_stray; auto; [now apply in_pile_spec|now apply is_mat_spec| |].
      * rewrite in_pile_spec, is_mat_spec. split; congruence.
      * exact (proj1 (find_left_None _ _) Fl).
    + rewrite andb_false_r. right. apply ord_ok.
Qed.
Lemma move_wild : forall c P Q reason, wild_move c P Q -> move_verdict P Q reason c = UB.
Proof.
  intros c P Q reason W. unfold move_verdict, LOCATION_UNSPECIFIED.
  destruct W as [P12 Pc H|H1 H2 H3 H4 H5].
  - rewrite P12. cbn [N.eqb Pos.eqb andb].
    rewrite (not_pile_12 _ P12), (has_xyz_both c P P12 Pc). cbn [negb andb obind].
    destruct H as [H|[H1 H2]]; [rewrite H; reflexivity|]. apply in_pile_spec in H1. rewrite is_mat_spec in H2.
    rewrite H1. apply not_false_is_true in H2. rewrite H2. cbn [negb andb obind]. rewrite ?andb_false_r. cbn [obind].
    destruct (p_loc Q =? 0); reflexivity.
  - apply in_pile_spec in H1. apply is_mat_spec in H2. rewrite in_pile_spec, is_mat_spec in H4.
    destruct (N.eqb_spec (p_loc P) 0) as [P0|_].
    { unfold is_pile in H1. rewrite P0 in H1. discriminate. }
    destruct (N.eqb_spec (p_loc Q) 0) as [Q0|_]; [contradiction|]. cbn [andb].
    rewrite H1, H2. cbn [negb andb]. unfold get_xyz_left.
    change (set_oseq OSEQ_INVALID P) with (mkPlace (p_con P) (p_loc P) (p_seq P) (-1)).
    rewrite (proj2 (find_left_None _ _) H5). cbn [or_ub obind].
    destruct (is_pile Q), (not_mat Q); cbn [negb andb]; try reflexivity; exfalso.
    + destruct H4 as [H4 _]. now apply H4.
    + destruct H4 as [_ H4]. discriminate H4. discriminate.
Qed.

(** Any bytes are the fields of a move. *)
Lemma word_of : forall l, bytes l -> length l = 4%nat -> b4 (le l) = l /\ is_u32 (le l).
Proof.
  intros l B L. pose proof (le_bytes_le l B) as X. pose proof (le_bound l B) as Y. rewrite L in X.
  split; [exact X|]. unfold lenN in Y. rewrite L in Y. exact Y.
Qed.
Lemma cut : forall n m (l : list N), length l = (n + m)%nat -> exists a b, l = a ++ b /\ length a = n /\ length b = m.
Proof.
  intros n m l L. exists (firstn n l), (skipn n l). rewrite firstn_length, skipn_length.
  split; [symmetry; apply firstn_skipn|]. lia.
Qed.
Lemma loc_of : forall l, bytes l -> length l = 10%nat -> exists c, raw_ok c /\ ser_loc c = l.
Proof.
  intros l B L. destruct l as [|con [|loc l]]; try discriminate L.
  destruct (cut 4 4 l) as (a & b & -> & La & Lb); [cbn in L; lia|].
  inversion B as [|x1 l1 Hx1 B1]; subst. inversion B1 as [|x2 l2 Hx2 B2]; subst. apply bytes_app in B2. destruct B2 as [Ba Bb].
  destruct (word_of a Ba La) as [Wa Ua]. destruct (word_of b Bb Lb) as [Wb Ub].
  exists (mkCloc con loc (le a) (le b)). split; [constructor; assumption|].
  unfold ser_loc. cbn [cl_con cl_loc cl_seq cl_pos]. rewrite Wa, Wb.
  unfold b1. cbn [le_bytes]. rewrite !N.mod_small by assumption. reflexivity.
Qed.
Lemma move_fields : forall s, bytes s -> length s = 28%nat -> exists code p q reason,
  s = b4 code ++ ser_loc p ++ ser_loc q ++ b4 reason /\ is_u32 code /\ is_u32 reason /\ raw_ok p /\ raw_ok q.
Proof.
  intros s B L. destruct (cut 4 24 s L) as (a & s1 & -> & La & L1). destruct (cut 10 14 s1 L1) as (b & s2 & -> & Lb & L2).
  destruct (cut 10 4 s2 L2) as (d & e & -> & Ld & Le).
  rewrite !bytes_app in B. destruct B as (Ba & Bb & Bd & Be).
  destruct (word_of a Ba La) as [Wa Ua]. destruct (word_of e Be Le) as [We Ue].
  destruct (loc_of b Bb Lb) as (p & Kp & <-). destruct (loc_of d Bd Ld) as (q & Kq & <-).
  exists (le a), p, q, (le e). rewrite Wa, We. auto.
Qed.
Lemma move_reads : forall c code p q reason rest, is_u32 code -> is_u32 reason -> raw_ok p -> raw_ok q ->
  move_case c (b4 code ++ ser_loc p ++ ser_loc q ++ b4 reason ++ rest) =
  let! v := move_verdict (raw_place p) (raw_place q) reason c in Ok (v, rest).
Proof.
  intros c code p q reason rest Hc Hr Hp Hq. unfold move_case.
  unfold rbind at 1. rewrite reads_skip by apply lenN_le. cbn [obind].
  unfold rbind at 1. rewrite reads_raw by exact Hp. cbn [obind].
  unfold rbind at 1. rewrite reads_raw by exact Hq. cbn [obind].
  unfold rbind at 1. rewrite reads_4 by exact Hr. cbn [obind]. reflexivity.
Qed.

(** ** One message *)
Lemma lookup_In : forall b k l, lookup_kind b l = Some k -> In (b, k) l.
Proof.
  intros b k l. induction l as [|[v k'] l IH]; [discriminate|]. cbn [lookup_kind].
  destruct (N.eqb_spec b v) as [->|_]; intros H; [inversion H; now left|right; auto].
Qed.
Lemma kind_byte : forall b k, kind_of b = Some k ->
  match k with KWin => b = 5 | KUpdateData => b = 6 | KUpdateCard => b = 7 | KMove => b = 50 | KSwapGraveDeck => b = 35 | _ => True end.
Proof.
  intros b k H. apply lookup_In in H. unfold kind_table in H. cbn [In] in H.
  repeat destruct H as [H|H]; try (exfalso; exact H); inversion H; subst; try reflexivity; exact Logic.I.
Qed.
Lemma first_byte : forall b l, read 1 (b :: l) = Ok (b, l).
Proof.
  intros b l. unfold read, rbind, rbytes. destruct (N.leb_spec 1 (lenN (b :: l))) as [_|X].
  2: { unfold lenN in X. cbn [length] in X. lia. }
  change (N.to_nat 1) with 1%nat. unfold rret. cbn [firstn skipn obind le]. do 2 f_equal. lia.
Qed.
Lemma encode_kind : forall c b l k, kind_of b = Some k ->
  (dispatch k c l = UB -> encode_one c (b :: l) = UB) /\ (orderly (dispatch k c l) -> orderly (encode_one c (b :: l))).
Proof.
  intros c b l k K. unfold encode_one. rewrite first_byte. cbn [obind]. rewrite K. split.
  - now intros ->.
  - intros O. apply ord_bind; [exact O|]. intros [[v c'] r] _. apply ord_ok.
Qed.

Lemma data_reads : forall con loc total l, total < 2 ^ 32 ->
  update_data (con :: loc :: b4 total ++ l) = update_loop (S (length l)) (Z.of_N con) loc total 0 0 l.
Proof.
  intros con loc total l Ht. unfold update_data.
  assert (C : read_con (con :: loc :: b4 total ++ l) = Ok (Z.of_N con, loc :: b4 total ++ l)).
  { unfold read_con, rbind. now rewrite first_byte. }
  unfold rbind at 1. rewrite C. cbn [obind]. unfold rbind at 1. rewrite first_byte. cbn [obind].
  unfold rbind at 1. rewrite reads_4 by exact Ht. reflexivity.
Qed.
Lemma card_reads : forall con loc sq l, exists p, update_card (con :: loc :: sq :: l) = card_queries p l.
Proof.
  intros con loc sq l. unfold update_card, read_place1, read_loc_info_, rbind.
  assert (C : read_con (con :: loc :: sq :: l) = Ok (Z.of_N con, loc :: sq :: l)).
  { unfold read_con, rbind. now rewrite first_byte. }
  rewrite C. cbn [obind]. rewrite first_byte. cbn [obind]. rewrite first_byte. cbn [obind].
  destruct (fix_spell_loc_seq _ _) as [fl fs]. unfold rret. cbn [obind]. eexists. reflexivity.
Qed.

(** *** The wild ones cannot be read *)
Theorem wild_encode : forall c bs, wild_message c bs -> encode_one c bs = UB.
Proof.
  intros c bs W. destruct W as [w r rest H|con loc total us n w Ht U Ln Ww Fw|con loc sq w Ww|code p q reason rest Hc Hr Hp Hq W].
  - apply (encode_kind c 5 _ KWin eq_refl). change (dispatch KWin c) with (win_case c). unfold win_case.
    unfold rbind at 1. rewrite first_byte. cbn [obind]. unfold rbind at 1. rewrite first_byte. cbn [obind].
    unfold rbind, rlift, get_match_win_reason. now rewrite H.
  - apply (encode_kind c 6 _ KUpdateData eq_refl). unfold dispatch. cbn [event_case request_case]. unfold rbind.
    rewrite data_reads by exact Ht. rewrite (updates_wild total 0 us n w); auto. rewrite app_length. lia.
  - apply (encode_kind c 7 _ KUpdateCard eq_refl). unfold dispatch. cbn [event_case request_case]. unfold rbind.
    destruct (card_reads con loc sq w) as [p ->]. now rewrite queries_wild.
  - apply (encode_kind c 50 _ KMove eq_refl). change (dispatch KMove c) with (move_case c).
    rewrite move_reads by assumption. now rewrite move_wild.
Qed.

Lemma wild_query_more : forall w more, wild_query w -> wild_query (w ++ more).
Proof.
  intros w more W. inversion W as [items size f rest F S Hs]; subst.
  rewrite <- !app_assoc. now constructor.
Qed.
Lemma wild_query_first : forall w more, wild_query w -> firstn 2 (w ++ more) = firstn 2 w.
Proof.
  intros w more W. assert (L : (2 <= length w)%nat).
  { inversion W; subst. rewrite !app_length, !le_bytes_length. lia. }
  destruct w as [|a [|b w]]; try (cbn in L; lia). reflexivity.
Qed.
Theorem wild_more : forall c bs more, wild_message c bs -> wild_message c (bs ++ more).
Proof.
  intros c bs more W. destruct W as [w r rest H|con loc total us n w Ht U Ln Ww Fw|con loc sq w Ww|code p q reason rest Hc Hr Hp Hq W].
  - now apply wild_win.
  - replace ((6 :: con :: loc :: b4 total ++ us ++ w) ++ more) with (6 :: con :: loc :: b4 total ++ us ++ (w ++ more))
      by (cbn [app]; now rewrite <- !app_assoc).
    apply wild_data with (n := n); auto; [now apply wild_query_more|]. now rewrite wild_query_first.
  - cbn [app]. apply wild_card. now apply wild_query_more.
  - replace ((50 :: b4 code ++ ser_loc p ++ ser_loc q ++ b4 reason ++ rest) ++ more)
      with (50 :: b4 code ++ ser_loc p ++ ser_loc q ++ b4 reason ++ (rest ++ more))
      by (cbn [app]; now rewrite <- !app_assoc).
    now apply wild_moving.
Qed.

(** *** All others can, as far as they go *)
Theorem readable : forall c bs, ctx_sound c -> bytes bs ->
  exists pad, bytes pad /\ (orderly (encode_one c (bs ++ pad)) \/ wild_message c (bs ++ pad)).
Proof.
  intros c bs Sc Hb. destruct bs as [|b l].
  { exists [1]. split; [repeat constructor|]. left. left. eexists. reflexivity. }
  assert (Hl : bytes l) by now inversion Hb.
  destruct (kind_of b) as [k|] eqn:K.
  2: { exists []. split; [constructor|]. left. rewrite app_nil_r. unfold encode_one. rewrite first_byte. cbn [obind].
       rewrite K. cbn [obind]. apply ord_ok. }
  assert (Good : (exists pad, bytes pad /\ orderly (dispatch k c (l ++ pad))) ->
    exists pad, bytes pad /\ (orderly (encode_one c ((b :: l) ++ pad)) \/ wild_message c ((b :: l) ++ pad))).
  { intros (pad & Bp & O). exists pad. split; [exact Bp|]. left. cbn [app]. now apply (encode_kind c b _ k K). }
  assert (T : touchy k \/ ~ touchy k).
  { unfold touchy. destruct k; try (left; cbn; tauto); right; cbn; intros T; repeat destruct T as [T|T]; try discriminate T; exact T. }
  destruct T as [T|T]; [|apply Good; apply padded_tight; [now apply tight_dispatch|exact Hl]].
  pose proof (kind_byte b k K) as Kb. unfold touchy in T. cbn [In] in T.
  repeat destruct T as [T|T]; try (exfalso; exact T); subst k; subst b.
  - (* MSG_WIN *)
    destruct (fill 2 l) as (pad & s & rest & Bp & E & L & _). exists pad. split; [exact Bp|]. cbn [app]. rewrite E.
    destruct s as [|w [|r [|]]]; try discriminate L. cbn [app]. destruct (cx_mwr c) as [m|] eqn:M.
    + left. apply (encode_kind c 5 _ KWin K). change (dispatch KWin c) with (win_case c). unfold win_case.
      unfold rbind at 1. rewrite first_byte. cbn [obind]. unfold rbind at 1. rewrite first_byte. cbn [obind].
      unfold rbind, rlift, get_match_win_reason. rewrite M. cbn [or_ub obind]. apply ord_ok.
    + right. now apply wild_win.
  - (* MSG_UPDATE_DATA *)
    destruct (fill 6 l) as (p1 & s & r & B1 & E1 & L1 & _).
    destruct s as [|con [|loc t]]; try discriminate L1.
    assert (Bs : bytes ((con :: loc :: t) ++ r)) by (rewrite <- E1; apply bytes_app; auto).
    apply bytes_app in Bs. destruct Bs as [Bs Br]. inversion Bs as [|x1 l1 Hx1 B2]; subst. inversion B2 as [|x2 l2 Hx2 B3]; subst.
    destruct (word_of t B3) as [Wt Ut]; [cbn in L1; lia|].
    destruct (updates_pad_rec (le t) Ut (length r) r 0) as (p2 & B2' & R); [lia|exact Br|reflexivity|].
    exists (p1 ++ p2). split; [apply bytes_app; auto|].
    assert (E : (6 :: l) ++ p1 ++ p2 = 6 :: con :: loc :: b4 (le t) ++ (r ++ p2)).
    { cbn [app]. rewrite app_assoc, E1, Wt. cbn [app]. now rewrite <- app_assoc. }
    rewrite E. destruct R as [(us & rest & n & Eu & U & Le)|(us & n & w & Eu & U & Ln & Ww & Fw)]; rewrite Eu.
    + left. apply (encode_kind c 6 _ KUpdateData K). unfold dispatch. cbn [event_case request_case]. unfold rbind.
      rewrite data_reads by exact Ut.
      destruct (updates_reads (le t) 0 us n U Le (S (length (us ++ rest))) (Z.of_N con) loc 0) as [y Y]; [rewrite app_length; lia|].
      rewrite Y. cbn [obind]. apply ord_ok.
    + right. now apply wild_data with (n := n).
  - (* MSG_UPDATE_CARD *)
    destruct (fill 3 l) as (p1 & s & r & B1 & E1 & L1 & _).
    destruct s as [|con [|loc [|sq [|]]]]; try discriminate L1.
    assert (Br : bytes r).
    { assert (X : bytes ([con; loc; sq] ++ r)) by (rewrite <- E1; apply bytes_app; auto). now apply bytes_app in X. }
    destruct (query_pad r Br) as (p2 & B2 & R).
    exists (p1 ++ p2). split; [apply bytes_app; auto|].
    assert (E : (7 :: l) ++ p1 ++ p2 = 7 :: con :: loc :: sq :: (r ++ p2)).
    { cbn [app]. rewrite app_assoc, E1. reflexivity. }
    rewrite E. destruct R as [W|(q & rest & Eq & W & _)]; [right; now apply wild_card|].
    left. apply (encode_kind c 7 _ KUpdateCard K). unfold dispatch. cbn [event_case request_case]. unfold rbind.
    destruct (card_reads con loc sq (r ++ p2)) as [p ->]. rewrite Eq.
    destruct (queries_reads p q W) as [x X]. rewrite X. cbn [obind]. apply ord_ok.
  - (* MSG_MOVE *)
    destruct (fill 28 l) as (pad & s & rest & Bp & E & L & _). exists pad. split; [exact Bp|]. cbn [app]. rewrite E.
    assert (Bs : bytes s).
    { assert (X : bytes (s ++ rest)) by (rewrite <- E; apply bytes_app; auto). now apply bytes_app in X. }
    destruct (move_fields s Bs L) as (code & p & q & reason & -> & Hc & Hr & Hp & Hq).
    rewrite <- !app_assoc. destruct (move_orderly c p q reason Sc Hp Hq) as [W|O]; [right; now apply wild_moving|].
    left. apply (encode_kind c 50 _ KMove K). change (dispatch KMove c) with (move_case c).
    rewrite move_reads by assumption. apply ord_bind; [exact O|]. intros. apply ord_ok.
  - (* MSG_SWAP_GRAVE_DECK *)
    apply Good. change (dispatch KSwapGraveDeck c) with (swap_grave_deck_case c). now apply padded_swap.
Qed.
