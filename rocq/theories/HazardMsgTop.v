(** Proofs about the dangers of the core's messages: what the context
    remembers, and message by message. *)
From Verif Require Import Base BaseProofs Place PlaceProofs Frame FrameSpec FrameLens FrameProofs FramePiles FrameFacts
  Limbo LimboSpec Msg Event EventSpec Query QuerySpec.
From Verif Require Import FrameInv EventProofs QueryProofs.
From Verif Require Import Reader EncodeQuery Encode CoreMsg EncodeSpec ReaderProofs EncodeProofs EncodeQueryProofs
  EncodeLocal EncodeState EncodeFrame EncodeHistory EncodeE2E.
From Verif Require Import HazardSpec HazardProofs HazardEvent.
From Verif Require EncodeWildSpec EncodeWildRead EncodeWildTop.
From Verif Require Import HazardMsgSpec HazardMsgProofs.

Local Open Scope N_scope.

(** ** What the context remembers *)
Definition memory_ok (c : ctx) : Prop :=
  Forall regular (cx_deferred c) /\
  forall k v, In (k, v) (cx_left c) -> is_pile k = true -> regular v.

Lemma outside_dec : forall p, outside p \/ ~ outside p.
Proof. intros p. unfold outside. destruct (N.eq_dec (p_loc p) 0); auto. Qed.

Lemma move_memory : forall p q reason c v c', cloc_ok p -> cloc_ok q -> memory_ok c ->
  move_verdict (core_place p) (core_place q) reason c = Ok (v, c') -> memory_ok c'.
Proof.
  intros p q reason c v c' Kp Kq [D L] H. unfold move_verdict in H.
  destruct (N.eqb_spec (p_loc (core_place p)) LOCATION_UNSPECIFIED) as [P0|P0]; cbn [andb] in H.
  { destruct (p_loc (core_place q) =? LOCATION_UNSPECIFIED); inversion H; subst; split; assumption. }
  assert (Rp : regular (core_place p)) by (apply core_regular; auto).
  destruct (N.eqb_spec (p_loc (core_place q)) LOCATION_UNSPECIFIED) as [Q0|Q0].
  { destruct (is_pile (core_place p)) eqn:Ip; cbn [negb obind] in H; [inversion H; subst; split; assumption|].
    apply obind_Ok in H. destruct H as [had [_ H]]. inversion H; subst. destruct had; [|split; assumption].
    split; [exact D|]. intros k w [E|I] Pk; [|exact (L k w I Pk)]. inversion E; subst. congruence. }
  destruct (negb (not_mat (core_place q)) && is_pile (core_place q)).
  { inversion H; subst. split; [|exact L]. cbn [xyz_mat_defer cx_deferred]. apply Forall_app. auto. }
  destruct (not_mat (core_place q) && negb (is_pile (core_place q))).
  { unfold take_deferred_xyz_mat in H. inversion H; subst. split; [constructor|exact L]. }
  destruct (negb (not_mat (core_place p)) && is_pile (core_place p)).
  { apply obind_Ok in H. destruct H as [had [_ H]]. inversion H; subst. split; assumption. }
  apply obind_Ok in H. destruct H as [had [_ H]]. inversion H; subst. destruct had; [|split; assumption].
  split; [exact D|]. intros k w [E|I] Pk; [|exact (L k w I Pk)]. inversion E; subst. exact Rp.
Qed.
Lemma heard_memory : forall s c ms, heard s c ms -> memory_ok s -> memory_ok c.
Proof.
  intros s c ms H M. induction H as [|c ms m rest r c' H IH K E|c ms m c' H IH E]; [exact M| |].
  - apply encode_effect in E; [|exact K]. destruct m; try (subst; exact IH).
    + destruct E as [v E]. cbn [core_ok] in K. destruct K as (_ & Kp & Kq & _). exact (move_memory _ _ _ _ _ _ Kp Kq IH E).
  - apply parse_memory in E. destruct E as (_ & E1 & E2). unfold memory_ok. now rewrite E1, E2.
Qed.
Lemma heard_sound : forall s c ms, heard s c ms -> ctx_sound s -> ctx_sound c.
Proof.
  intros s c ms H S. induction H as [|c ms m rest r c' H IH K E|c ms m c' H IH E]; [exact S| |].
  - eapply sound_encode; eauto.
  - eapply sound_parse; eauto.
Qed.
Lemma served_ok : forall c, served c -> ctx_sound c /\ memory_ok c.
Proof.
  intros c (s & ms & Hs & H). split.
  - eapply heard_sound; [exact H|]. destruct Hs; subst; constructor.
  - eapply heard_memory; [exact H|]. destruct Hs; subst; (split; [constructor|intros ? ? []]).
Qed.
Lemma served_feed : forall c m c', served c -> core_ok m -> feed c (ser m) = Ok c' -> served c'.
Proof.
  intros c m c' (s & ms & Hs & H) K F. exists s, (ms ++ [m]). split; [exact Hs|].
  apply (feed_all_heard [m] s c ms c' H); [constructor; auto|]. unfold feed_all. cbn [ofold]. now rewrite F.
Qed.

(** ** Moves *)
Lemma core_raw : forall c, cloc_ok c -> EncodeWildSpec.raw_place c = core_place c.
Proof.
  intros c [K1 K2 K3 K4 K5 K6 K7]. unfold EncodeWildSpec.raw_place, core_place. cbv zeta.
  assert (B : cl_loc c mod 0x80 = core_base c).
  { unfold core_base in *. unfold is_u8 in K3. destruct (N.leb_spec 0x80 (cl_loc c)) as [H|H].
    - symmetry. apply (N.mod_unique _ _ 1); lia.
    - apply N.mod_small. exact H. }
  rewrite B. assert (O : (if 0x80 <=? cl_loc c
     then if cl_pos c <? 2 ^ 31 then Z.of_N (cl_pos c) else (Z.of_N (cl_pos c) - 2 ^ 32)%Z else (-1)%Z) =
     (if 0x80 <=? cl_loc c then Z.of_N (cl_pos c) else (-1)%Z)).
  { destruct (N.leb_spec 0x80 (cl_loc c)) as [H|H]; [|reflexivity]. apply K7 in H.
    destruct (N.ltb_spec (cl_pos c) (2 ^ 31)); [reflexivity|lia]. }
  rewrite O. clear O B. generalize dependent (core_base c). intros b K2 K5. cbn [In] in K2.
  repeat destruct K2 as [<-|K2]; try contradiction; try reflexivity.
  specialize (K5 eq_refl). generalize dependent (cl_seq c). intros s _ K5.
  assert (E : s = 0 \/ s = 1 \/ s = 2 \/ s = 3 \/ s = 4 \/ s = 5 \/ s = 6 \/ s = 7) by lia.
  repeat destruct E as [->|E]; try subst; reflexivity.
Qed.
Lemma raw_core : forall c, cloc_ok c -> EncodeWildSpec.raw_ok c.
Proof. intros c [K1 K2 K3 K4 K5 K6 K7]. constructor; assumption. Qed.

Lemma wild_core : forall c p q, cloc_ok p -> cloc_ok q ->
  EncodeWildSpec.wild_move c (core_place p) (core_place q) <->
  pile_material (core_place p) /\ ~ outside (core_place q) /\
  (in_pile (core_place q) <-> ~ as_material (core_place q)) /\
  forall z, ~ In (holder (core_place p), z) (cx_left c).
Proof.
  intros c p q Kp Kq.
  assert (Ep : EncodeWildSpec.in_pile (core_place p) <-> in_pile (core_place p)).
  { rewrite EncodeWildTop.in_pile_spec. now apply in_pile_iff. }
  assert (Eq : EncodeWildSpec.in_pile (core_place q) <-> in_pile (core_place q)).
  { rewrite EncodeWildTop.in_pile_spec. now apply in_pile_iff. }
  unfold pile_material, outside, as_material, holder, EncodeWildSpec.is_mat in *. split.
  - intros [W _ _|W1 W2 W3 W4 W5].
    + exfalso. apply core_locs in Kp. rewrite W in Kp. cbn [In] in Kp.
      repeat destruct Kp as [Kp|Kp]; try discriminate Kp. exact Kp.
    + split; [split; [now apply Ep|exact W2]|]. split; [exact W3|]. split; [now rewrite <- Eq|exact W5].
  - intros ((W1 & W2) & W3 & W4 & W5). apply EncodeWildSpec.wm_stray; auto; [now apply Ep|now rewrite Eq].
Qed.

Lemma move_any : forall c code p q reason rest, core_ok (CmMove code p q reason) ->
  encode_one c (ser (CmMove code p q reason) ++ rest) =
  (let! (v, c') := move_verdict (core_place p) (core_place q) reason c in
   Ok (mkResult (v_state v) (lenN (ser (CmMove code p q reason))) (v_msg v), c')).
Proof.
  intros c code p q reason rest K.
  destruct (move_verdict (core_place p) (core_place q) reason c) as [[v c1]| | |] eqn:M.
  { exact (move_encode _ _ _ _ _ _ _ _ K M). }
  all: destruct K as [H1 [H2 [H3 H4]]];
    unfold encode_one, ser; cbn [app]; rewrite read1_cons; cbn [obind];
    change (kind_of (msg_number (CmMove code p q reason))) with (Some KMove);
    unfold dispatch; cbn [event_case request_case payload]; unfold move_case, rbind;
    rewrite <- !app_assoc;
    rewrite (reads_skip (b4 code) 4) by apply lenN_le; cbn [obind];
    rewrite (reads_loc p H2); cbn [obind]; rewrite (reads_loc q H3); cbn [obind];
    change 4 with (N.of_nat 4); rewrite (reads_read 4 reason H4); cbn [obind];
    unfold rlift; rewrite M; reflexivity.
Qed.

(** Everything a move sends has places on the board. *)
Lemma set_oseq_regular : forall o p, regular p -> regular (set_oseq o p).
Proof. intros o p R. exact R. Qed.
Lemma deferred_regular : forall q l i, regular q -> Forall regular l ->
  Forall (fun o => regular (po_a o) /\ regular (po_b o)) (deferred_moves q i l).
Proof.
  intros q l. induction l as [|d l IH]; intros i R F; cbn [deferred_moves]; [constructor|].
  apply Forall_cons_iff in F as [Rd F]. specialize (IH (i + 1)%Z R F).
  repeat match goal with |- context [if ?b then _ else _] => destruct b end; cbn [app]; auto;
    constructor; auto.
Qed.
Lemma find_left_In_inv : forall p l v, find_left p l = Some v -> In (p, v) l.
Proof.
  intros p l v. induction l as [|[k w] l IH]; cbn [find_left]; [discriminate|].
  destruct (place_eqb k p) eqn:E.
  - intros H. inversion H; subst. apply place_eqb_eq in E. subst. now left.
  - intros H. right. auto.
Qed.
Lemma move_sends : forall c p q reason v c', memory_ok c -> cloc_ok p -> cloc_ok q ->
  move_verdict (core_place p) (core_place q) reason c = Ok (v, c') ->
  v_msg v = None \/
  exists e, v_msg v = Some (mkMsg (MsgEvent e) []) /\ regular_event e /\ Forall gentle (event_acts e) /\
    match e with EvCard _ _ => True | _ => False end.
Proof.
  intros c p q reason v c' [D L] Kp Kq H. unfold move_verdict in H.
  assert (Mv : forall l, Forall (fun o => regular (po_a o) /\ regular (po_b o)) l ->
    exists e, v_msg (v_event (EvCard reason (CardMove l))) = Some (mkMsg (MsgEvent e) []) /\ regular_event e /\
      Forall gentle (event_acts e) /\ match e with EvCard _ _ => True | _ => False end).
  { intros l F. eexists. split; [reflexivity|]. split; [|split; [|exact Logic.I]].
    - split; [|exact Logic.I]. cbn [event_acts]. apply Forall_map. exact F.
    - cbn [event_acts]. apply Forall_map, Forall_forall. intros; exact Logic.I. }
  destruct (N.eqb_spec (p_loc (core_place p)) LOCATION_UNSPECIFIED) as [P0|P0]; cbn [andb] in H.
  { destruct (N.eqb_spec (p_loc (core_place q)) LOCATION_UNSPECIFIED) as [Q0|Q0]; inversion H; subst; [now left|].
    right. eexists. split; [reflexivity|]. assert (Rq : regular (core_place q)) by (apply core_regular; auto).
    split; [split; [cbn; auto|exact Logic.I]|]. split; [|exact Logic.I]. cbn. constructor; [exact Logic.I|constructor]. }
  assert (Rp : regular (core_place p)) by (apply core_regular; auto).
  destruct (N.eqb_spec (p_loc (core_place q)) LOCATION_UNSPECIFIED) as [Q0|Q0].
  { right. apply obind_Ok in H. destruct H as [had [_ H]]. inversion H; subst.
    eexists. split; [reflexivity|]. split; [split; [cbn; auto|exact Logic.I]|]. split; [|exact Logic.I].
    cbn. constructor; [exact Logic.I|constructor]. }
  assert (Rq : regular (core_place q)) by (apply core_regular; auto).
  destruct (negb (not_mat (core_place q)) && is_pile (core_place q)).
  { inversion H; subst. now left. }
  right. destruct (not_mat (core_place q) && negb (is_pile (core_place q))).
  { unfold take_deferred_xyz_mat in H. inversion H; subst. apply Mv. apply Forall_app. split; [|auto].
    now apply deferred_regular. }
  destruct (negb (not_mat (core_place p)) && is_pile (core_place p)) eqn:E.
  { apply obind_Ok in H. destruct H as [had [G H]]. inversion H; subst. apply Mv. constructor; [|constructor].
    split; [|exact Rq]. cbn [po_a]. apply set_oseq_regular. unfold get_xyz_left in G.
    destruct (find_left _ _) as [z|] eqn:Fl; [|discriminate]. cbn [or_ub] in G. inversion G; subst.
    apply find_left_In_inv in Fl. apply (L _ _ Fl). apply andb_true_iff in E. apply E. }
  apply obind_Ok in H. destruct H as [had [_ H]]. inversion H; subst. apply Mv. constructor; [|constructor]. auto.
Qed.

Lemma ord_board : forall c (m : outcome (pboard card)), orderly m -> orderly (let! b := m in Ok (set_board b c)).
Proof. intros c m H. apply ord_bind; [exact H|]. intros; apply ord_ok. Qed.

Lemma move_feed : forall c code p q reason rest, served c -> core_ok (CmMove code p q reason) ->
  (~ perilous c (CmMove code p q reason) rest -> orderly (feed c (ser (CmMove code p q reason) ++ rest))) /\
  (perilous c (CmMove code p q reason) rest -> feed c (ser (CmMove code p q reason) ++ rest) = UB).
Proof.
  intros c code p q reason rest Sv K. destruct (served_ok c Sv) as [S M].
  pose proof K as (_ & Kp & Kq & _). unfold feed. rewrite (move_any _ _ _ _ _ _ K). cbn [perilous].
  rewrite <- (wild_core c p q Kp Kq). split.
  - intros NW. pose proof (EncodeWildTop.move_orderly c p q reason S (raw_core p Kp) (raw_core q Kq)) as O.
    rewrite (core_raw p Kp), (core_raw q Kq) in O. destruct O as [O|O]; [contradiction|].
    apply ord_bind; [apply ord_bind; [exact O|intros [v c'] _; apply ord_ok]|].
    intros [r c'] E. apply obind_Ok in E. destruct E as [[v c1] [E F]]. inversion F; subst.
    unfold follow. cbn [r_msg]. destruct (move_sends c p q reason v c' M Kp Kq E) as [->|(e & -> & Re & Ge & Ve)].
    + apply ord_ok.
    + unfold ctx_parse. cbn [m_t m_queries]. apply ord_bind; [|intros; apply ord_ok]. apply ord_board.
      assert (I : inv card (b_frame (cx_board c'))).
      { apply sound_inv. eapply sound_encode; [exact S|]. rewrite (move_any c code p q reason rest K), E. reflexivity. }
      destruct e; try contradiction Ve. apply gentle_orderly; auto.
  - intros W. rewrite (EncodeWildTop.move_wild _ _ _ _ W). reflexivity.
Qed.

(** ** Splices *)
Notation bad := (fun a (f : frame card) => wild (plain_act a) (f_lay f)).
Notation act := (fun a => fstep card0 (plain_act a)).
Notation splice_act := (fun o => LSplice (sp_from o) (sp_count o) (sp_to o) (sp_reverse o)).

Lemma trips_app : forall l l' (f : frame card), trips bad act (l ++ l') f ->
  trips bad act l f \/ exists f', ofold act l f = Ok f' /\ trips bad act l' f'.
Proof.
  induction l as [|a l IH]; intros l' f T; cbn [app trips ofold] in *; [right; eauto|].
  destruct T as [T|(f1 & E & T)]; [now left; left|]. destruct (IH _ _ T) as [T'|(f' & E' & T')].
  - left. right. eauto.
  - right. exists f'. rewrite E. auto.
Qed.
Lemma app_trips : forall l l' (f f' : frame card), ofold act l f = Ok f' -> trips bad act l' f' ->
  trips bad act (l ++ l') f.
Proof.
  induction l as [|a l IH]; intros l' f f' E T; cbn [app trips ofold] in *; [inversion E; now subst|].
  apply obind_Ok in E. destruct E as [f1 [E1 E]]. right. exists f1. split; [exact E1|]. eapply IH; eauto.
Qed.

Lemma splice_act_do : forall l f, ofold act (map splice_act l) f = do_splices (plain_fo card0) l f.
Proof.
  unfold do_splices. induction l as [|o l IH]; intros f; cbn [map ofold]; [reflexivity|].
  cbn [plain_act fstep fo_splice plain_fo]. destruct (lift _ f); cbn [obind]; auto.
Qed.

(** A splice to the bottom of a pile is never dangerous. *)
Lemma bottom_trips : forall l f, Forall (fun o => p_seq (sp_to o) = 0) l -> ~ trips bad act (map splice_act l) f.
Proof.
  induction l as [|o l IH]; intros f F T; cbn [map trips] in T; [exact T|].
  apply Forall_cons_iff in F as [Z F]. destruct T as [T|(f' & _ & T)]; [|exact (IH _ F T)].
  cbn [plain_act wild] in T. destruct T as (r1 & r2 & s & t & _ & S2 & _ & Lt).
  destruct (slot_inv _ _ _ S2) as [(r & _ & _ & _ & ->)|(r & _ & _ & E)].
  - rewrite Z in Lt. cbn in Lt. lia.
  - unfold zslot in E. destruct (not_mat (sp_to o)); discriminate.
Qed.

Lemma splice_sizes : forall from n to rv (f f' : frame card), lift (pile_splice from n to rv) f = Ok f' ->
  exists r1 r2, pile_of from = Ok r1 /\ pile_of to = Ok r2 /\
    (r1 <> r2 -> lenN (get_pile r2 (f_lay f')) = lenN (get_pile r2 (f_lay f)) + n) /\
    forall r, r <> r1 -> r <> r2 -> get_pile r (f_lay f') = get_pile r (f_lay f).
Proof.
  intros from n to rv f f' H. unfold lift in H. apply obind_Ok in H. destruct H as [L [H E]].
  inversion E; subst f'. clear E. cbn [with_lay f_lay]. unfold pile_splice in H.
  apply obind_Ok in H. destruct H as [_ [_ H]]. apply obind_Ok in H. destruct H as [_ [_ H]].
  apply obind_Ok in H. destruct H as [r1 [E1 H]]. cbv zeta in H.
  apply obind_Ok in H. destruct H as [u0 [B H]].
  apply obind_Ok in H. destruct H as [_ [_ H]]. apply obind_Ok in H. destruct H as [r2 [E2 H]].
  destruct (N.leb_spec (p_seq to) (lenN (get_pile r2 (set_pile r1 (firstn (N.to_nat (p_seq from)) (get_pile r1 (f_lay f)) ++
    skipn (N.to_nat (p_seq from) + N.to_nat n) (get_pile r1 (f_lay f))) (f_lay f))))) as [T|_]; [|discriminate].
  apply obind_Ok in H. destruct H as [_ [_ H]]. inversion H; subst L. clear H.
  exists r1, r2. split; [exact E1|]. split; [exact E2|].
  destruct (N.leb_spec (n + p_seq from) (lenN (get_pile r1 (f_lay f)))) as [B'|_]; [|discriminate].
  split.
  - intros Ne. rewrite get_set_pile_same. rewrite get_set_pile_other in * by exact Ne.
    unfold lenN in *. rewrite !app_length, firstn_length, skipn_length.
    assert (X : length (if rv then rev (firstn (N.to_nat n) (skipn (N.to_nat (p_seq from)) (get_pile r1 (f_lay f))))
      else firstn (N.to_nat n) (skipn (N.to_nat (p_seq from)) (get_pile r1 (f_lay f)))) = N.to_nat n).
    { destruct rv; rewrite ?rev_length, firstn_length, skipn_length; lia. }
    rewrite X. lia.
  - intros r N1 N2. rewrite !get_set_pile_other by congruence. reflexivity.
Qed.

Lemma con_pile : forall con who loc l s o, side_of_con con = Some who -> assocN loc pile_table = Some l ->
  pile_of (mkPlace con loc s o) = Ok (who, l).
Proof.
  intros con who loc l s o H1 H2. pose proof (slot_pile con who loc l s o H1 H2) as S.
  destruct (slot_inv _ _ _ S) as [(r & _ & E & K & _)|(r & _ & _ & E)].
  - inversion K; subst r. exact E.
  - unfold zslot in E. destruct (not_mat _); discriminate.
Qed.

(** The cards for the extra deck, when the position is in range. *)
Lemma extra_trips : forall con who pos data, side_of_con con = Some who ->
  forall is sseq ssize sent ops (f : frame card), extra_loop con pos data is sseq ssize sent = Ok ops ->
  pos + sent <= lenN (get_pile (who, LExtra) (f_lay f)) -> ~ trips bad act (map splice_act ops) f.
Proof.
  intros con who pos data W.
  assert (Op : forall sseq ssize sent l (f : frame card), pos + sent <= lenN (get_pile (who, LExtra) (f_lay f)) ->
    (forall f', pos + u32 (sent + ssize) <= lenN (get_pile (who, LExtra) (f_lay f')) -> ~ trips bad act (map splice_act l) f') ->
    ~ trips bad act (map splice_act (extra_op con pos sseq ssize sent :: l)) f).
  { intros sseq ssize sent l f B K T. cbn [map trips] in T.
    assert (U : forall x, u32 x <= x) by (intros x; unfold u32, wrap; apply N.mod_le; discriminate).
    destruct T as [T|(f' & E & T)].
    - cbn [plain_act wild extra_op sp_from sp_to sp_count sp_reverse] in T.
      destruct T as (r1 & r2 & s & t & S1 & S2 & _ & Lt).
      unfold LOCATION_EXTRA_DECK, LOCATION_MAIN_DECK in *.
      rewrite (slot_pile con who 0x1 LDeck) in S1 by auto. rewrite (slot_pile con who 0x40 LExtra) in S2 by auto.
      inversion S1; inversion S2; subst. cbn [contents] in Lt. unfold lenN in B. specialize (U (pos + sent)).
      destruct (pref_eq_dec (who, LDeck) (who, LExtra)) as [X|_]; [discriminate X|]. lia.
    - cbn [plain_act fstep extra_op sp_from sp_to sp_count sp_reverse] in E.
      destruct (splice_sizes _ _ _ _ _ _ E) as (r1 & r2 & E1 & E2 & Sz & _).
      unfold LOCATION_EXTRA_DECK, LOCATION_MAIN_DECK in *.
      rewrite (con_pile con who 0x1 LDeck) in E1 by auto. rewrite (con_pile con who 0x40 LExtra) in E2 by auto.
      inversion E1; inversion E2; subst. apply (K f'); [|exact T].
      rewrite Sz by discriminate. specialize (U (sent + ssize)). lia. }
  induction is as [|i is IH]; intros sseq ssize sent ops f E B; cbn [extra_loop] in E.
  - destruct (0 <? ssize); inversion E; subst; [|intros []]. apply Op; [exact B|]. intros f' _ [].
  - apply obind_Ok in E. destruct E as [b [_ E]]. destruct (N.testbit b (i mod 8)); [eapply IH; eauto|].
    destruct (0 <? ssize).
    + apply obind_Ok in E. destruct E as [l [E G]]. inversion G; subst. apply Op; [exact B|].
      intros f' B'. eapply IH; eauto.
    + eapply IH; eauto.
Qed.

Lemma extra_ops_regular : forall con pos data, (0 <= con)%Z -> forall is sseq ssize sent ops,
  extra_loop con pos data is sseq ssize sent = Ok ops ->
  Forall (fun o => regular (sp_from o) /\ regular (sp_to o)) ops.
Proof.
  intros con pos data Hc.
  assert (Op : forall a b d, regular (sp_from (extra_op con pos a b d)) /\ regular (sp_to (extra_op con pos a b d))).
  { intros. split; (split; [exact Hc|cbn; tauto]). }
  induction is as [|i is IH]; intros sseq ssize sent ops E; cbn [extra_loop] in E.
  - destruct (0 <? ssize); inversion E; subst; auto.
  - apply obind_Ok in E. destruct E as [b [_ E]]. destruct (N.testbit b (i mod 8)); [eapply IH; eauto|].
    destruct (0 <? ssize); [|eapply IH; eauto].
    apply obind_Ok in E. destruct E as [l [E G]]. inversion G; subst. constructor; [apply Op|eapply IH; eauto].
Qed.

(** The first of them. *)
Lemma extra_first : forall con pos data k i sseq ssize ops,
  extra_loop con pos data (map N.of_nat (List.seq i k)) sseq ssize 0 = Ok ops ->
  N.of_nat (i + k) < 2 ^ 32 -> (ssize = 0 \/ 0 < ssize /\ sseq + ssize = N.of_nat i) ->
  (0 < ssize \/ exists j, (i <= j < i + k)%nat /\ flag_at data j = true) ->
  exists s n l, ops = extra_op con pos s n 0 :: l /\ s + n <= N.of_nat (i + k).
Proof.
  intros con pos data k. induction k as [|k IH]; intros i sseq ssize ops E B R H; cbn [List.seq map extra_loop] in E.
  - assert (P : 0 < ssize) by (destruct H as [H|(j & J & _)]; lia).
    destruct (N.ltb_spec 0 ssize); [|lia]. inversion E; subst. do 3 eexists. split; [reflexivity|]. lia.
  - apply obind_Ok in E. destruct E as [b [Eb E]].
    assert (Nb : nth_error data (N.to_nat (N.of_nat i / 8)) = Some b)
      by (destruct (nth_error _ _); inversion Eb; reflexivity).
    pose proof (flag_at_byte _ _ _ Nb) as Fb. rewrite <- Fb in E.
    replace (i + S k)%nat with (S i + k)%nat in * by lia.
    destruct (flag_at data i) eqn:Fi.
    + apply (IH _ _ _ _ E B).
      * right. unfold u32, wrap. rewrite N.mod_small by (destruct R as [->|R]; [cbn; lia|lia]).
        destruct (N.eqb_spec ssize 0); lia.
      * left. unfold u32, wrap. rewrite N.mod_small by (destruct R as [->|R]; [cbn; lia|lia]). lia.
    + destruct (N.ltb_spec 0 ssize) as [P|P].
      * apply obind_Ok in E. destruct E as [l [_ E]]. inversion E; subst. do 3 eexists. split; [reflexivity|]. lia.
      * apply (IH _ _ _ _ E B); [left; lia|]. right. destruct H as [H|(j & J & Fj)]; [lia|].
        exists j. split; [|exact Fj]. assert (j <> i) by congruence. lia.
Qed.

Lemma extra_loop_short : forall con pos data is sseq ssize sent,
  (exists i, In i is /\ 8 * lenN data <= i) -> extra_loop con pos data is sseq ssize sent = UB.
Proof.
  intros con pos data is. induction is as [|i is IH]; intros sseq ssize sent (j & J & B); [destruct J|].
  cbn [extra_loop]. destruct (nth_error data (N.to_nat (i / 8))) as [b|] eqn:E; [|reflexivity]. cbn [or_ub obind].
  assert (Ne : i <> j).
  { intros ->. assert (nth_error data (N.to_nat (j / 8)) <> None) by congruence.
    apply nth_error_Some in H. unfold lenN in B.
    assert (N.of_nat (length data) <= j / 8) by (apply N.div_le_lower_bound; lia). lia. }
  assert (Ex : exists x, In x is /\ 8 * lenN data <= x) by (exists j; split; [destruct J; congruence|exact B]).
  destruct (N.testbit b (i mod 8)); [now apply IH|]. destruct (0 <? ssize); [|now apply IH].
  rewrite IH by exact Ex. reflexivity.
Qed.

Definition grave_ops (con : Z) (gy deck : N) : list splice_op :=
  (if 0 <? gy then
     [mkSplice (pile_place con LOCATION_GRAVEYARD) (u32 gy) (pile_place con LOCATION_MAIN_DECK) false] else [])
  ++ (if 0 <? deck then
     [mkSplice (mkPlace con LOCATION_MAIN_DECK (u32 gy) OSEQ_INVALID) (u32 deck)
               (pile_place con LOCATION_GRAVEYARD) false] else []).

Lemma swap_any : forall c con pos bits rest, core_ok (CmSwapGraveDeck con pos bits) ->
  encode_one c (ser (CmSwapGraveDeck con pos bits) ++ rest) =
  match side_of_con (Z.of_N con) with
  | None => Abort
  | Some who =>
      let gy := lenN (pile_now c who LGrave) in
      let! ops := extra_loop (Z.of_N con) pos (bits ++ rest) (seqN gy) 0 0 0 in
      Ok (mkResult StOk (lenN (ser (CmSwapGraveDeck con pos bits))) (Some (mkMsg (MsgEvent
        (EvPile 0 (PileSplice (grave_ops (Z.of_N con) gy (lenN (pile_now c who LDeck)) ++ ops)))) [])), c)
  end.
Proof.
  intros c con pos l rest [H1 [H2 [H3 H4]]].
  assert (F : flat_map b1 l = l).
  { clear - H4. induction H4 as [|x l Hx _ IH]; [reflexivity|]. cbn [flat_map]. rewrite IH.
    unfold b1. cbn [le_bytes]. rewrite N.mod_small by exact Hx. reflexivity. }
  unfold encode_one, ser. cbn [app]. rewrite read1_cons. cbn [obind].
  change (kind_of (msg_number (CmSwapGraveDeck con pos l))) with (Some KSwapGraveDeck).
  unfold dispatch. cbn [event_case request_case payload]. unfold swap_grave_deck_case, seq4, rbind.
  rewrite F. rewrite <- !app_assoc. rewrite (reads_con con H1). cbn [obind].
  change 4 with (N.of_nat 4). rewrite (reads_read 4 pos H2). cbn [obind].
  rewrite (reads_read 4 (lenN l) H3). cbn [obind]. change (N.of_nat 4) with 4. unfold rlift.
  destruct (side_of_con (Z.of_N con)) as [who|] eqn:W.
  - destruct (pile_size_run c _ _ W) as (P1 & _ & P3). unfold size_of in *. unfold pile_now.
    rewrite P3, P1. cbn [obind]. cbv zeta.
    destruct (extra_loop (Z.of_N con) pos (l ++ rest) _ 0 0 0) as [ops| | |]; cbn [obind]; try reflexivity.
    rewrite (reads_skip l (lenN l) eq_refl). cbn [obind]. unfold rret. cbn [obind v_state v_msg v_event].
    unfold grave_ops. rewrite <- app_assoc.
    do 3 f_equal. unfold lenN. cbn [length]. rewrite !app_length. lia.
  - assert (N : (Z.of_N con <=? 1)%Z = false).
    { destruct (Z.leb_spec (Z.of_N con) 1) as [X|X]; [|reflexivity]. exfalso.
      assert (con = 0 \/ con = 1) as [->| ->] by lia; discriminate W. }
    unfold pile_size, pile_ref. rewrite N. reflexivity.
Qed.

Lemma splices_regular : forall reason l, Forall (fun o => regular (sp_from o) /\ regular (sp_to o)) l ->
  regular_event (EvPile reason (PileSplice l)).
Proof. intros reason l F. split; [|exact Logic.I]. cbn [event_acts]. apply Forall_map. exact F. Qed.
Lemma splices_orderly : forall reason l (b : pboard card), inv card (b_frame b) ->
  Forall (fun o => regular (sp_from o) /\ regular (sp_to o)) l ->
  ~ trips bad act (map splice_act l) (b_frame b) -> orderly (pparse card0 (EvPile reason (PileSplice l)) b).
Proof.
  intros reason l b I F T. apply pparse_orderly; [exact I|now apply splices_regular|].
  intros [[]|[[]|W]]. exact (T W).
Qed.

Lemma grave_ops_regular : forall con gy deck, (0 <= con)%Z ->
  Forall (fun o => regular (sp_from o) /\ regular (sp_to o)) (grave_ops con gy deck).
Proof.
  intros con gy deck H. unfold grave_ops. apply Forall_app.
  split; [destruct (0 <? gy)|destruct (0 <? deck)]; constructor; auto; split; (split; [exact H|cbn; tauto]).
Qed.
Lemma grave_ops_bottom : forall con gy deck, Forall (fun o => p_seq (sp_to o) = 0) (grave_ops con gy deck).
Proof.
  intros con gy deck. unfold grave_ops. apply Forall_app.
  split; [destruct (0 <? gy)|destruct (0 <? deck)]; constructor; auto.
Qed.
Lemma grave_ops_extra : forall con who gy deck (f f' : frame card), side_of_con con = Some who ->
  ofold act (map splice_act (grave_ops con gy deck)) f = Ok f' ->
  get_pile (who, LExtra) (f_lay f') = get_pile (who, LExtra) (f_lay f).
Proof.
  intros con who gy deck f f' W. unfold grave_ops.
  assert (K : forall l, Forall (fun o => exists a b, pile_of (sp_from o) = Ok a /\ pile_of (sp_to o) = Ok b /\
      a <> (who, LExtra) /\ b <> (who, LExtra)) l ->
    forall f f', ofold act (map splice_act l) f = Ok f' ->
      get_pile (who, LExtra) (f_lay f') = get_pile (who, LExtra) (f_lay f)).
  { induction l as [|o l IH]; intros F g g' H; cbn [map ofold] in H; [inversion H; now subst|].
    apply Forall_cons_iff in F as [(a & b & Ea & Eb & Na & Nb) F].
    apply obind_Ok in H. destruct H as [g1 [E H]]. rewrite (IH F _ _ H).
    cbn [plain_act fstep] in E. destruct (splice_sizes _ _ _ _ _ _ E) as (r1 & r2 & E1 & E2 & _ & Sm).
    apply Sm; congruence. }
  apply K. unfold pile_place, LOCATION_GRAVEYARD, LOCATION_MAIN_DECK.
  apply Forall_app. split; [destruct (0 <? gy)|destruct (0 <? deck)]; constructor; auto; do 2 eexists;
    cbn [sp_from sp_to]; (split; [apply (con_pile _ who); [exact W|reflexivity]|]);
    (split; [apply (con_pile _ who); [exact W|reflexivity]|]); split; discriminate.
Qed.

Lemma swap_feed : forall c con pos bits rest, ctx_sound c -> core_ok (CmSwapGraveDeck con pos bits) ->
  (~ perilous c (CmSwapGraveDeck con pos bits) rest -> orderly (feed c (ser (CmSwapGraveDeck con pos bits) ++ rest))) /\
  (fatal c (CmSwapGraveDeck con pos bits) rest -> feed c (ser (CmSwapGraveDeck con pos bits) ++ rest) = UB).
Proof.
  intros c con pos bits rest S K. apply sound_inv in S. unfold fatal. cbn [perilous].
  pose proof (swap_any c con pos bits rest K) as E. set (bs := ser _ ++ rest) in *.
  destruct (side_of_con (Z.of_N con)) as [who|] eqn:W.
  2: { split; [intros _|intros [(who & X & _) _]; discriminate X]. unfold feed. rewrite E. apply ord_abort. }
  cbv zeta in E. set (g := pile_now c who LGrave) in *. set (d := pile_now c who LDeck) in *.
  destruct (N.ltb_spec (8 * lenN (bits ++ rest)) (lenN g)) as [Short|Long].
  { rewrite extra_loop_short in E.
    2: { exists (lenN g - 1). split; [apply EncodeWildRead.seqN_In'; lia|lia]. }
    split.
    - intros N. exfalso. apply N. exists who. split; [reflexivity|]. now left.
    - intros _. unfold feed. rewrite E. reflexivity. }
  destruct (extra_loop_ok (Z.of_N con) pos (bits ++ rest) (seqN (lenN g)) 0 0 0) as [ops Eo].
  { intros i Hi. apply seqN_In in Hi. lia. }
  rewrite Eo in E. cbn [obind] in E. rewrite (feed_event _ _ _ _ _ E).
  set (f := b_frame (cx_board c)) in *.
  assert (Hc : (0 <= Z.of_N con)%Z) by lia.
  assert (Rg : Forall (fun o => regular (sp_from o) /\ regular (sp_to o))
    (grave_ops (Z.of_N con) (lenN g) (lenN d) ++ ops)).
  { apply Forall_app. split; [now apply grave_ops_regular|]. eapply extra_ops_regular; eauto. }
  assert (Flag : (exists i, (i < length g)%nat /\ flag_at (bits ++ rest) i = true) \/
                 forall i, (i < length g)%nat -> flag_at (bits ++ rest) i = false).
  { induction (length g) as [|n IH]; [right; intros; lia|].
    destruct IH as [(i & I & Fi)|N]; [left; exists i; split; [lia|exact Fi]|].
    destruct (flag_at (bits ++ rest) n) eqn:Fn; [left; exists n; split; [lia|exact Fn]|].
    right. intros i I. destruct (Nat.eq_dec i n); [now subst|]. apply N. lia. }
  split.
  - intros N. apply ord_board. apply splices_orderly; [exact S|exact Rg|]. rewrite map_app. intros T.
    apply trips_app in T. destruct T as [T|(f2 & E2 & T)]; [eapply bottom_trips; [apply grave_ops_bottom|exact T]|].
    pose proof (grave_ops_extra _ _ _ _ _ _ W E2) as X2.
    destruct (N.leb_spec pos (lenN (pile_now c who LExtra))) as [Lp|Lp].
    + eapply extra_trips; [exact W|exact Eo| |exact T]. rewrite X2. unfold pile_now in Lp. cbn [contents] in Lp.
      fold f in Lp. unfold ctx_layout in Lp. fold f in Lp. rewrite N.add_0_r. exact Lp.
    + destruct Flag as [Fl|Fl].
      * apply N. exists who. split; [reflexivity|]. right. split; [exact Lp|exact Fl].
      * assert (ops = []) as ->; [|exact T].
        clear - Eo Fl. unfold seqN in Eo. unfold lenN in Eo. rewrite Nat2N.id in Eo.
        assert (X : forall k i sseq, (i + k <= length g)%nat ->
          extra_loop (Z.of_N con) pos (bits ++ rest) (map N.of_nat (List.seq i k)) sseq 0 0 = Ok ops -> ops = []).
        { induction k as [|k IH]; intros i sseq B H; cbn [List.seq map extra_loop] in H; [now inversion H|].
          apply obind_Ok in H. destruct H as [b [Eb H]].
          assert (Nb : nth_error (bits ++ rest) (N.to_nat (N.of_nat i / 8)) = Some b)
            by (destruct (nth_error _ _); inversion Eb; reflexivity).
          rewrite <- (flag_at_byte _ _ _ Nb), Fl in H by lia. change (0 <? 0) with false in H.
          eapply IH; [|exact H]. lia. }
        eapply (X (length g) 0%nat); [lia|exact Eo].
  - intros [(who' & W' & P) Sz]. inversion W'; subst who'. destruct (Sz who eq_refl) as [Sg Sd].
    fold g in Sg, P. fold d in Sd. destruct P as [P|[Lp (i & I & Fi)]]; [lia|].
    assert (U : pparse card0 (EvPile 0 (PileSplice (grave_ops (Z.of_N con) (lenN g) (lenN d) ++ ops))) (cx_board c) = UB).
    { apply pparse_ub; [exact S|now apply splices_regular|reflexivity|]. right. right. cbn [event_acts].
      fold f. rewrite map_app.
      destruct (whole_step f (Z.of_N con) who LOCATION_GRAVEYARD LGrave 0 LOCATION_MAIN_DECK LDeck S W
        eq_refl eq_refl ltac:(discriminate) [] g eq_refl eq_refl) as [f1 [Q1 [I1 [H1 V1]]]].
      assert (D1 : view (f_lay f1) (CPile (who, LDeck)) = g ++ d).
      { rewrite V1. unfold view_set. dec. reflexivity. }
      destruct (whole_step f1 (Z.of_N con) who LOCATION_MAIN_DECK LDeck (lenN g) LOCATION_GRAVEYARD LGrave I1 W
        eq_refl eq_refl ltac:(discriminate) g d D1 eq_refl) as [f2 [Q2 [I2 [H2 V2]]]].
      assert (D2 : view (f_lay f2) (CPile (who, LDeck)) = g).
      { rewrite V2. unfold view_set. dec. }
      assert (X2 : view (f_lay f2) (CPile (who, LExtra)) = pile_now c who LExtra).
      { rewrite V2. unfold view_set. dec. rewrite V1. unfold view_set. dec. reflexivity. }
      apply app_trips with (f' := f2).
      { rewrite splice_act_do. unfold grave_ops. rewrite splices_app. unfold pile_place.
        change OSEQ_INVALID with (-1)%Z. rewrite (u32_small (lenN g)) by exact Sg.
        rewrite (u32_small (lenN d)) by exact Sd. rewrite Q1. cbn [obind]. exact Q2. }
      unfold seqN in Eo. unfold lenN in Eo. rewrite Nat2N.id in Eo.
      destruct (extra_first _ _ _ _ _ _ _ _ Eo) as (s & n & l & -> & B).
      { unfold lenN in Sg. exact Sg. }
      { now left. }
      { right. exists i. split; [lia|exact Fi]. }
      cbn [map trips]. left. cbn [plain_act wild extra_op sp_from sp_to sp_count sp_reverse].
      assert (Hs : of_signed 32 (Z.of_N s - Z.of_N 0) = s).
      { rewrite of_signed_diff; [lia|lia|]. unfold lenN in Sg. cbn [Nat.add] in B. lia. }
      assert (Hp : u32 (pos + 0) = pos).
      { rewrite N.add_0_r. apply u32_small. destruct K as (_ & Kp & _). exact Kp. }
      rewrite Hs, Hp. exists (who, LDeck), (who, LExtra), (N.to_nat s), (N.to_nat pos).
      split; [now apply slot_pile|]. split; [now apply slot_pile|].
      change (contents (CPile (who, LDeck)) (f_lay f2)) with (view (f_lay f2) (CPile (who, LDeck))).
      change (contents (CPile (who, LExtra)) (f_lay f2)) with (view (f_lay f2) (CPile (who, LExtra))).
      rewrite D2, X2. destruct (pref_eq_dec (who, LDeck) (who, LExtra)) as [Z|_]; [discriminate Z|].
      cbn [Nat.add] in B. unfold lenN in Lp. split; lia. }
    rewrite U. reflexivity.
Qed.

(** ** Messages that are events by themselves *)
Lemma piles_gentle : forall l, Forall gentle (resize_acts l).
Proof. intros l. unfold resize_acts. apply Forall_map, Forall_forall. intros; exact Logic.I. Qed.
Lemma piles_regular : forall l, Forall (fun o => regular (rz_place o)) l -> Forall regular_act (resize_acts l).
Proof. intros l F. unfold resize_acts. apply Forall_map. exact F. Qed.
Lemma side_piles_regular : forall con s, (0 <= con)%Z -> Forall (fun o => regular (rz_place o)) (side_piles con s).
Proof.
  intros con s H. unfold side_piles. repeat constructor; cbn [rz_place whole_pile p_con p_loc]; auto; cbn; tauto.
Qed.

Lemma state_regular : forall sh n lps ch add rz, Forall regular add -> Forall (fun o => regular (rz_place o)) rz ->
  regular_event (EvBoard (BoardState (mkBState sh n lps ch add rz))) /\
  Forall gentle (event_acts (EvBoard (BoardState (mkBState sh n lps ch add rz)))).
Proof.
  intros sh n lps ch add rz Fa Fr. split; [split; [|exact Logic.I]|]; cbn [event_acts bs_add bs_resize]; constructor;
    try exact Logic.I; apply Forall_app; split; auto using adds_regular, adds_gentle, piles_regular, piles_gentle.
Qed.

Lemma shuffle_wild : forall l, Forall (fun x : cloc * cloc => cloc_ok (fst x) /\ cloc_ok (snd x)) l ->
  wild_shuffle (map (fun x : cloc * cloc => core_place (fst x)) l) (map (fun x : cloc * cloc => core_place (snd x)) l) <->
  l = [] \/ Exists (fun x : cloc * cloc => in_pile (core_place (snd x))) l.
Proof.
  intros l F. unfold wild_shuffle. rewrite !map_length.
  assert (E : firstn (length l) (map (fun x : cloc * cloc => core_place (snd x)) l) =
              map (fun x : cloc * cloc => core_place (snd x)) l).
  { rewrite <- (map_length (fun x : cloc * cloc => core_place (snd x)) l) at 1. apply firstn_all. }
  rewrite E, Exists_map. unfold in_pile. split.
  - intros [H|[H|H]]; [left; now destruct l|lia|now right].
  - intros [->|H]; [now left|right; now right].
Qed.

Lemma event_feed : forall c m e rest, served c -> core_ok m -> core_event m = Some e ->
  (~ perilous c m rest -> orderly (feed c (ser m ++ rest))) /\
  (fatal c m rest -> feed c (ser m ++ rest) = UB).
Proof.
  intros c m e rest Sv K E. destruct (served_ok c Sv) as [S _]. apply sound_inv in S.
  rewrite (feed_event _ _ _ _ _ (event_encode m e K E c rest)). unfold fatal.
  assert (G : regular_event e -> Forall gentle (event_acts e) -> ~ wild_values e ->
    match e with EvChainStack (ChainPop _) => b_chain (cx_board c) <> [] | _ => True end ->
    orderly (let! b := pparse card0 e (cx_board c) in Ok (set_board b c))).
  { intros H1 H2 H3 H4. apply ord_board. now apply gentle_orderly. }
  assert (Q : event_acts e = [] -> match e with EvLp _ _ => False | _ => True end -> ~ wild_values e ->
    match e with EvChainStack (ChainPop _) => b_chain (cx_board c) <> [] | _ => True end ->
    orderly (let! b := pparse card0 e (cx_board c) in Ok (set_board b c))).
  { intros H1 H2 H3 H4. apply G; auto; rewrite ?H1; [|constructor]. split; [rewrite H1; constructor|].
    destruct e; auto. contradiction. }
  assert (Lp : forall con n, is_u8 con -> e = EvLp (Z.of_N con) n ->
    (con <> 2 -> orderly (let! b := pparse card0 e (cx_board c) in Ok (set_board b c))) /\
    (con = 2 -> (let! b := pparse card0 e (cx_board c) in Ok (set_board b c)) = UB)).
  { intros con n Hc ->. assert (R : regular_event (EvLp (Z.of_N con) n)).
    { split; [constructor|]. unfold is_u8 in Hc. lia. }
    split.
    - intros Ne. apply G; auto; [constructor|]. cbn [wild_values]. lia.
    - intros ->. rewrite pparse_ub; [reflexivity|exact S|exact R|reflexivity|]. left. reflexivity. }
  destruct m; try discriminate E; cbn [core_event] in E; inversion E; subst e; clear E; cbn [perilous] in *;
    cbn [core_ok] in K;
    try (match goal with H : context [EvLp] |- _ => destruct (Lp _ _ (proj1 K) eq_refl) as [L1 L2];
           split; [exact L1|intros [X _]; exact (L2 X)] end);
    try (split; [intros _; apply Q; [reflexivity|exact Logic.I|intros []|exact Logic.I]|intros [[] _]]; fail).
  - (* shuffle *)
    destruct K as (_ & _ & F). rewrite <- (shuffle_wild _ F). unfold pparse. cbn [parse_event]. unfold on_frame.
    cbn [fo_shuffle plain_fo]. unfold lift. split.
    + intros N. apply ord_board. apply ord_bind; [|intros; apply ord_ok]. apply ord_bind; [|intros; apply ord_ok].
      apply shuffle_tame; [apply S| | |exact N]; apply Forall_map; (eapply Forall_impl; [|exact F]);
        intros [a b] [Ka Kb]; now apply core_tame.
    + intros [_ ->]. reflexivity.
  - (* swap *)
    destruct K as [[_ Ka] [_ Kb]]. unfold pparse. cbn [parse_event]. unfold on_frame, do_swaps.
    cbn [ofold fo_swap plain_fo po_a po_b]. unfold lift. fold (ctx_layout c). split.
    + intros N. apply ord_board. apply ord_bind; [|intros; apply ord_ok]. apply ord_bind; [|intros; apply ord_ok].
      apply ord_bind; [|intros; apply ord_ok].
      apply swap_tame; [apply (inv_lay _ _ S)|now apply core_tame|now apply core_tame|exact N].
    + intros [W _]. pose proof (swap_ub (proj1 (inv_lay _ _ S)) W) as Us. change (f_lay (b_frame (cx_board c))) with (ctx_layout c) in Us. rewrite Us. reflexivity.
  - (* chain solved *)
    split.
    + intros N. apply Q; [reflexivity|exact Logic.I|intros []|exact N].
    + intros [W _]. rewrite pparse_ub; [reflexivity|exact S| |reflexivity|].
      * split; [constructor|exact Logic.I].
      * right. left. exact W.
  - (* start *)
    split; [intros _|intros [[] _]].
    match goal with |- context [mkBState ?a ?b ?d ?f ?g ?h] => destruct (state_regular a b d f g h) as [R1 R2] end.
    + constructor.
    + repeat constructor; cbn; lia || tauto.
    + apply G; auto. cbn. lia.
  - (* tag swap *)
    split; [intros _|intros [[] _]]. apply G; [split; [|exact Logic.I]| |intros []|exact Logic.I]; cbn [event_acts bx_resize bx_remove bx_add map app].
    + rewrite app_nil_r. apply piles_regular. repeat constructor; cbn; lia || tauto.
    + rewrite app_nil_r. apply piles_gentle.
  - (* reload *)
    split; [intros _|intros [[] _]]. destruct K as (_ & K0 & K1 & _). unfold reload_state in *.
    match goal with |- context [mkBState ?a ?b ?d ?f ?g ?h] => destruct (state_regular a b d f g h) as [R1 R2] end.
    + apply Forall_app. split; apply side_regular; auto; lia.
    + apply Forall_app. split; apply side_piles_regular; lia.
    + apply G; auto. cbn. lia.
Qed.

(** ** The others *)
Lemma no_side : forall con, side_of_con (Z.of_N con) = None -> (Z.of_N con <=? 1)%Z = false.
Proof.
  intros con W. destruct (Z.leb_spec (Z.of_N con) 1) as [X|X]; [|reflexivity]. exfalso.
  assert (con = 0 \/ con = 1) as [->| ->] by lia; discriminate W.
Qed.
Lemma win_wild : forall c p r rest, is_u8 p -> is_u8 r -> cx_mwr c = None ->
  encode_one c (ser (CmWin p r) ++ rest) = UB.
Proof.
  intros c p r rest H1 H2 E. unfold encode_one, ser. cbn [app]. rewrite read1_cons. cbn [obind].
  change (kind_of (msg_number (CmWin p r))) with (Some KWin).
  unfold dispatch. cbn [event_case request_case payload]. unfold win_case, rbind. rewrite <- !app_assoc.
  change 1 with (N.of_nat 1). rewrite (reads_read 1 p H1). cbn [obind]. rewrite (reads_read 1 r H2). cbn [obind].
  unfold rlift, get_match_win_reason. rewrite E. reflexivity.
Qed.
Lemma deck_top_none : forall c con s code pos rest, is_u8 con -> side_of_con (Z.of_N con) = None ->
  encode_one c (ser (CmDeckTop con s code pos) ++ rest) = Abort.
Proof.
  intros c con s code pos rest H1 W. unfold encode_one, ser. cbn [app]. rewrite read1_cons. cbn [obind].
  change (kind_of (msg_number (CmDeckTop con s code pos))) with (Some KDeckTop).
  unfold dispatch. cbn [event_case request_case payload]. unfold deck_top_case, rbind. rewrite <- !app_assoc.
  rewrite (reads_con con H1). cbn [obind]. unfold rlift, pile_size, pile_ref. rewrite (no_side _ W). reflexivity.
Qed.
Lemma draw_none : forall c con l rest, core_ok (CmDraw con l) -> side_of_con (Z.of_N con) = None ->
  encode_one c (ser (CmDraw con l) ++ rest) = Abort.
Proof.
  intros c con l rest [H1 [H2 H3]] W. unfold encode_one, ser. cbn [app]. rewrite read1_cons. cbn [obind].
  change (kind_of (msg_number (CmDraw con l))) with (Some KDraw).
  unfold dispatch. cbn [event_case request_case payload]. unfold draw_case, rbind, seq4. rewrite <- !app_assoc.
  rewrite (reads_con con H1). cbn [obind]. change (read 4) with (read (N.of_nat 4)). rewrite (reads_read 4 _ H2). cbn [obind].
  rewrite reads_skip by apply skip_pairs. cbn [obind].
  unfold rlift, pile_size, pile_ref. rewrite (no_side _ W). reflexivity.
Qed.

Lemma message_feed : forall c m rest, served c -> core_ok m ->
  (~ perilous c m rest -> orderly (feed c (ser m ++ rest))) /\
  (fatal c m rest -> feed c (ser m ++ rest) = UB).
Proof.
  intros c m rest Sv K. destruct (served_ok c Sv) as [S _].
  destruct (core_cases m) as [[e E]|[(to & rq & E)|[(xs & E)|[E|E]]]].
  - now apply event_feed with (e := e).
  - split; [|intros [X _]; destruct m; try discriminate E; destruct X].
    intros _. unfold feed. rewrite (request_encode m to rq K E). apply ord_ok.
  - split; [|intros [X _]; destruct m; try discriminate E; destruct X].
    intros _. destruct (queries_encode m xs K E) as (qs & F & H). unfold feed. rewrite H. cbn [obind].
    unfold follow. cbn [r_msg]. unfold ctx_parse. cbn [m_t m_queries obind].
    apply queries_tame; [now apply sound_inv|]. pose proof (core_queries_tame m xs K E) as T.
    clear - F T. induction F as [|q x qs xs [M _] F IH]; [constructor|].
    apply Forall_cons_iff in T as [T1 T]. constructor; [now rewrite M|auto].
  - split; [|intros [X _]; destruct m; try discriminate E; destruct X].
    intros _. unfold feed. rewrite (silent_encode m K E). apply ord_ok.
  - destruct m; try discriminate E; clear E.
    + (* win *)
      cbn [core_ok] in K. destruct K as [K1 K2]. unfold fatal. cbn [perilous]. split.
      * intros N. destruct (cx_mwr c) as [mr|] eqn:M; [|congruence].
        rewrite (feed_event _ _ _ _ _ (win_encode c _ _ mr rest K1 K2 M)). apply ord_ok.
      * intros [N _]. unfold feed. rewrite (win_wild c _ _ rest K1 K2 N). reflexivity.
    + (* deck top *)
      split; [intros _|intros [[] _]]. cbn [core_ok] in K. destruct K as (K1 & K2 & K3 & K4).
      destruct (side_of_con (Z.of_N con)) as [who|] eqn:W.
      * rewrite (feed_event _ _ _ _ _ (deck_top_encode c _ who _ _ _ rest W K1 K2 K3 K4)). apply ord_ok.
      * unfold feed. rewrite deck_top_none by assumption. apply ord_abort.
    + destruct (move_feed c code prev cur reason rest Sv K) as [A B]. split; [exact A|]. intros [W _]. exact (B W).
    + now apply swap_feed.
    + (* draw *)
      split; [intros _|intros [[] _]]. destruct (side_of_con (Z.of_N con)) as [who|] eqn:W.
      * rewrite (feed_event _ _ _ _ _ (draw_encode c con who cards rest W K)). apply ord_board.
        apply splices_orderly; [now apply sound_inv| |].
        { constructor; [|constructor]. split; (split; [cbn; lia|cbn; tauto]). }
        cbn [map trips]. intros [T|(f' & _ & [])]. cbn [plain_act wild sp_from sp_to sp_count sp_reverse] in T.
        destruct T as (r1 & r2 & s & t & S1 & S2 & _ & Lt).
        unfold LOCATION_HAND, LOCATION_MAIN_DECK in *.
        rewrite (slot_pile _ who 0x1 LDeck) in S1 by auto. rewrite (slot_pile _ who 0x2 LHand) in S2 by auto.
        inversion S1; inversion S2; subst.
        destruct (pref_eq_dec (who, LDeck) (who, LHand)) as [X|_]; [discriminate X|].
        unfold size_of, lenN in Lt. fold (ctx_layout c) in Lt.
        assert (U : forall x, u32 x <= x) by (intros x; unfold u32, wrap; apply N.mod_le; discriminate).
        specialize (U (N.of_nat (length (contents (CPile (who, LHand)) (ctx_layout c))))). lia.
      * unfold feed. rewrite draw_none by assumption. apply ord_abort.
    + (* reverse *)
      split; [intros _|intros [[] _]].
      rewrite (feed_event _ _ _ _ _ (reverse_encode c rest)). apply ord_board.
      apply splices_orderly; [now apply sound_inv| |].
      { repeat constructor; cbn; lia || tauto. }
      apply bottom_trips. repeat constructor.
    + (* match kill *)
      split; [intros _|intros [[] _]]. cbn [core_ok] in K. unfold feed. rewrite match_kill_encode by exact K. apply ord_ok.
Qed.

Lemma stream_feed : forall ms c, served c -> Forall core_ok ms -> safe_along c ms -> orderly (feed_all c ms).
Proof.
  unfold feed_all. induction ms as [|m ms IH]; intros c Sv F Sf; cbn [ofold]; [apply ord_ok|].
  apply Forall_cons_iff in F as [K F]. cbn [safe_along] in Sf. destruct Sf as [N Sf].
  destruct (message_feed c m [] Sv K) as [O _]. rewrite app_nil_r in O. apply ord_bind; [exact (O N)|].
  intros c1 E. apply IH; auto. eapply served_feed; eauto.
Qed.
