(** What the context remembers of earlier messages. *)
From Verif Require Import Base BaseProofs Place PlaceProofs Frame FrameSpec FrameProofs FrameInv FrameShuffle FrameFacts Msg Event EventSpec Query QuerySpec.
From Verif Require Import Reader EncodeQuery Encode CoreMsg ReaderProofs EncodeProofs EncodeQueryProofs
  EncodeSpec EncodeLocal EncodeFrame EncodeFacts EncodeState.

Local Open Scope N_scope.
Local Opaque le_bytes ser_loc ser_loc4 ser_loc1 ser_loc44 ser_effect ser_counter bb bi4.

Lemma pure_dispatch : forall k c, k <> KMove -> k <> KMatchKill ->
  yields (fun v => snd v = c) (dispatch k c).
Proof.
  intros k c N1 N2. unfold dispatch. destruct (event_case k) as [r|] eqn:E.
  - apply yields_bind. intros e. now apply yields_ret.
  - destruct (request_case k) as [r|] eqn:F.
    + apply yields_bind. intros z. apply yields_bind. intros q. now apply yields_ret.
    + destruct k; try discriminate; try congruence;
        unfold win_case, deck_top_case, swap_grave_deck_case, draw_case, reverse_deck_case;
        repeat (apply yields_bind; intros ?); now apply yields_ret.
Qed.

(** What a message does to the context. *)
Lemma encode_effect : forall c m rest r c', core_ok m -> encode_one c (ser m ++ rest) = Ok (r, c') ->
  match m with
  | CmMatchKill w => c' = match_win_reason w c
  | CmMove _ p q reason => exists v, move_verdict (core_place p) (core_place q) reason c = Ok (v, c')
  | _ => c' = c
  end.
Proof.
  intros c m rest r c' K H.
  assert (G : msg_number m <> 50 -> msg_number m <> 170 -> c' = c).
  { intros N1 N2. apply encode_ok in H. destruct H as (b & tl & v & r1 & E & _ & _ & D).
    unfold ser in E. cbn [app] in E. inversion E; subst b tl. clear E.
    destruct (kind_of (msg_number m)) as [k|] eqn:Kd.
    - assert (k <> KMove /\ k <> KMatchKill) as [M1 M2].
      { apply kind_of_In in Kd. split; intros ->; unfold kind_table in Kd; cbn [In] in Kd;
          repeat destruct Kd as [Kd|Kd]; try contradiction; inversion Kd; congruence. }
      exact (pure_dispatch k c M1 M2 _ _ _ D).
    - now destruct D as [_ [-> _]]. }
  destruct m; try (apply G; discriminate).
  - destruct (move_encode_inv _ _ _ _ _ _ _ _ K H) as [v [M _]]. eauto.
  - cbn [core_ok] in K. rewrite match_kill_encode in H by exact K. now inversion H.
Qed.

Lemma parse_memory : forall m c c', ctx_parse m c = Ok c' ->
  cx_mwr c' = cx_mwr c /\ cx_left c' = cx_left c /\ cx_deferred c' = cx_deferred c.
Proof.
  intros m c c' H. unfold ctx_parse in H. apply obind_Ok in H. destruct H as [c1 [E H]].
  assert (M1 : cx_mwr c1 = cx_mwr c /\ cx_left c1 = cx_left c /\ cx_deferred c1 = cx_deferred c).
  { destruct (m_t m); try (inversion E; subst; auto). apply obind_Ok in E. destruct E as [b [_ E]].
    inversion E; subst. auto. }
  destruct M1 as [<- [<- <-]]. clear E. revert c1 H. induction (m_queries m) as [|q qs IH]; intros c1 H; cbn [ofold] in H.
  - inversion H; subst. auto.
  - apply obind_Ok in H. destruct H as [c2 [E H]]. destruct (IH _ H) as [-> [-> ->]].
    unfold ctx_query in E. apply obind_Ok in E. destruct E as [[hits f] [_ E]]. inversion E; subst. auto.
Qed.

Lemma move_mwr : forall p q reason c v c', move_verdict p q reason c = Ok (v, c') -> cx_mwr c' = cx_mwr c.
Proof.
  intros p q reason c v c' H. unfold move_verdict, take_deferred_xyz_mat in H.
  repeat match type of H with
  | context [if ?b then _ else _] => destruct b; cbn [obind or_ub] in H
  end;
  try (apply obind_Ok in H; destruct H as [had [_ H]]);
  repeat match type of H with context [if ?b then _ else _] => destruct b end;
  inversion H; subst; reflexivity.
Qed.

(** ** Match win reason *)
Lemma heard_mwr : forall start c ms, heard start c ms ->
  cx_mwr c = match last_kill ms with Some r => Some r | None => cx_mwr start end.
Proof.
  intros start c ms H. induction H as [|c ms m rest r c' H IH K E|c ms m c' H IH E].
  - reflexivity.
  - apply encode_effect in E; [|exact K]. unfold last_kill. rewrite fold_left_app.
    fold (last_kill ms). cbn [fold_left].
    destruct m; try (subst c'; exact IH).
    + destruct E as [v E]. apply move_mwr in E. congruence.
    + subst c'. reflexivity.
  - destruct (parse_memory _ _ _ E) as [-> _]. exact IH.
Qed.

(** ** Materials *)
Lemma core_oseq : forall c, cloc_ok c -> as_material (core_place c) \/ p_oseq (core_place c) = (-1)%Z.
Proof.
  intros c _. unfold as_material, core_place. destruct (core_spot (core_base c) (cl_seq c)) as [l s].
  cbn [p_oseq]. destruct (0x80 <=? cl_loc c); [left; lia|now right].
Qed.

Lemma not_mat_iff : forall p, not_mat p = true <-> ~ as_material p.
Proof. intros p. unfold not_mat, as_material. rewrite Z.ltb_lt. lia. Qed.
Lemma in_pile_iff : forall c, cloc_ok c -> is_pile (core_place c) = true <-> in_pile (core_place c).
Proof.
  intros c K. rewrite (core_is_pile _ (core_locs c K)). unfold in_pile.
  destruct (assocN _ _); split; congruence.
Qed.

Lemma move_cases : forall p q reason c v c', cloc_ok p -> cloc_ok q ->
  move_verdict (core_place p) (core_place q) reason c = Ok (v, c') ->
  (attaches (core_place p) (core_place q) /\ v = v_swallowed /\ c' = xyz_mat_defer (core_place p) c) \/
  (fields (core_place p) (core_place q) /\ c' = snd (take_deferred_xyz_mat c) /\
     v = v_event (EvCard reason (CardMove
           (deferred_moves (core_place q) 0 (cx_deferred c) ++ [mkPair (core_place p) (core_place q)])))) \/
  (~ attaches (core_place p) (core_place q) /\ ~ fields (core_place p) (core_place q) /\
     cx_deferred c' = cx_deferred c).
Proof.
  intros p q reason c v c' Kp Kq H. unfold move_verdict in H.
  assert (A := in_pile_iff q Kq). assert (B := not_mat_iff (core_place q)).
  assert (Op : (p_loc (core_place p) =? LOCATION_UNSPECIFIED) = true <-> outside (core_place p))
    by apply N.eqb_eq.
  assert (Oq : (p_loc (core_place q) =? LOCATION_UNSPECIFIED) = true <-> outside (core_place q))
    by apply N.eqb_eq.
  assert (Pq : in_pile (core_place q) -> ~ outside (core_place q)).
  { unfold in_pile, outside. intros X Y. rewrite Y in X. now apply X. }
  unfold attaches, fields.
  assert (Dm : as_material (core_place q) \/ ~ as_material (core_place q)) by (unfold as_material; lia).
  destruct (p_loc (core_place p) =? LOCATION_UNSPECIFIED), (p_loc (core_place q) =? LOCATION_UNSPECIFIED);
    cbn [andb] in H.
  - inversion H; subst. right; right. intuition.
  - inversion H; subst. right; right. intuition.
  - apply obind_Ok in H. destruct H as [had [_ H]]. inversion H; subst. right; right.
    destruct had; cbn [cx_deferred xyz_left]; intuition.
  - destruct (not_mat (core_place q)), (is_pile (core_place q)); cbn [negb andb] in H.
    + right; right. split; [intuition|]. split; [intuition|].
      destruct (negb (not_mat (core_place p)) && is_pile (core_place p)).
      * apply obind_Ok in H. destruct H as [had [_ H]]. inversion H; subst. reflexivity.
      * apply obind_Ok in H. destruct H as [had [_ H]]. inversion H; subst. destruct had; reflexivity.
    + right; left. unfold take_deferred_xyz_mat in *. inversion H; subst. split; [|split; reflexivity].
      intuition discriminate.
    + left. inversion H; subst. intuition discriminate.
    + right; right. split; [intuition discriminate|]. split; [intuition discriminate|].
      destruct (negb (not_mat (core_place p)) && is_pile (core_place p)).
      * apply obind_Ok in H. destruct H as [had [_ H]]. inversion H; subst. reflexivity.
      * apply obind_Ok in H. destruct H as [had [_ H]]. inversion H; subst. destruct had; reflexivity.
Qed.

Lemma app_last_inv : forall A (a b : list A) x y, a ++ [x] = b ++ [y] -> a = b /\ x = y.
Proof. intros A a b x y H. now apply app_inj_tail. Qed.

Lemma heard_waiting : forall start c ms, heard start c ms -> cx_deferred start = [] ->
  forall l, waiting ms l -> cx_deferred c = l.
Proof.
  intros start c ms H S. induction H as [|c ms m rest r c' H IH K E|c ms m c' H IH E]; intros l W.
  - inversion W; subst; try exact S; try (destruct ms; discriminate).
  - apply encode_effect in E; [|exact K].
    assert (X : exists l0, waiting ms l0 /\
      ((exists code p q reason, m = CmMove code p q reason /\ attaches (core_place p) (core_place q) /\
          l = l0 ++ [core_place p]) \/
       (exists code p q reason, m = CmMove code p q reason /\ fields (core_place p) (core_place q) /\ l = []) \/
       ((forall code p q reason, m = CmMove code p q reason ->
          ~ attaches (core_place p) (core_place q) /\ ~ fields (core_place p) (core_place q)) /\ l = l0))).
    { inversion W as [E0|ms1 l0 code p q reason W1 A E0|ms1 l0 code p q reason W1 A E0|ms1 l0 m0 W1 A E0]; subst.
      - destruct ms; discriminate.
      - apply app_last_inv in E0. destruct E0 as [-> <-]. exists l0. split; [exact W1|].
        left. repeat eexists; apply A.
      - apply app_last_inv in E0. destruct E0 as [-> <-]. exists l0. split; [exact W1|].
        right; left. repeat eexists; apply A.
      - apply app_last_inv in E0. destruct E0 as [-> <-]. exists l. split; [exact W1|].
        right; right. auto. }
    destruct X as [l0 [W0 X]]. specialize (IH l0 W0).
    destruct m; try (destruct X as [(? & ? & ? & ? & X & _)|[(? & ? & ? & ? & X & _)|[_ ->]]]; try discriminate X;
      subst c'; exact IH).
    destruct E as [v E]. cbn [core_ok] in K. destruct K as [_ [Kp [Kq _]]].
    destruct (move_cases _ _ _ _ _ _ Kp Kq E) as [[A [_ ->]]|[[A [-> _]]|[A [B D]]]].
    + destruct X as [(? & ? & ? & ? & X & _ & ->)|[(? & ? & ? & ? & X & F & _)|[X _]]].
      * inversion X; subst. cbn [xyz_mat_defer cx_deferred]. reflexivity.
      * inversion X; subst. destruct A as [_ [A1 A2]]. destruct F as [_ [_ [F1 F2]]]. contradiction.
      * destruct (X _ _ _ _ eq_refl) as [X1 _]. contradiction.
    + destruct X as [(? & ? & ? & ? & X & F & _)|[(? & ? & ? & ? & X & _ & ->)|[X _]]].
      * inversion X; subst. destruct F as [_ [F1 F2]]. destruct A as [_ [_ [A1 A2]]]. contradiction.
      * reflexivity.
      * destruct (X _ _ _ _ eq_refl) as [_ X1]. contradiction.
    + destruct X as [(? & ? & ? & ? & X & F & _)|[(? & ? & ? & ? & X & F & _)|[_ ->]]].
      * inversion X; subst. contradiction.
      * inversion X; subst. contradiction.
      * congruence.
  - destruct (parse_memory _ _ _ E) as [_ [_ ->]]. now apply IH.
Qed.

Lemma deferred_attach : forall q l i, deferred_moves q (Z.of_nat i) l = attach_moves q i l.
Proof.
  intros q l. induction l as [|d l IH]; intros i; cbn [deferred_moves attach_moves]; [reflexivity|].
  replace (Z.of_nat i + 1)%Z with (Z.of_nat (S i)) by lia. rewrite IH.
  destruct d as [dc dl ds dO], q as [qc ql qs qO]. unfold material_of, set_oseq. cbn [p_con p_loc p_seq p_oseq].
  destruct (place_eq_dec _ _) as [X|X].
  - inversion X; subst. rewrite !Z.eqb_refl, !N.eqb_refl. reflexivity.
  - destruct (Z.eqb_spec dc qc), (N.eqb_spec dl ql), (N.eqb_spec ds qs), (Z.eqb_spec dO (Z.of_nat i));
      cbn [andb app]; try reflexivity. subst. contradiction.
Qed.

Lemma field_encode : forall c l code p q reason rest, core_ok (CmMove code p q reason) ->
  fields (core_place p) (core_place q) -> cx_deferred c = l ->
  exists c', encode_one c (ser (CmMove code p q reason) ++ rest) =
    Ok (mkResult StOk (lenN (ser (CmMove code p q reason))) (Some (mkMsg (MsgEvent
      (EvCard reason (CardMove (attach_moves (core_place q) 0 l
                               ++ [mkPair (core_place p) (core_place q)])))) [])), c').
Proof.
  intros c l code p q reason rest K F <-. pose proof K as [_ [Kp [Kq _]]].
  exists (snd (take_deferred_xyz_mat c)).
  erewrite move_encode; [|exact K|].
  2:{ unfold move_verdict. destruct F as [F1 [F2 [F3 F4]]].
      assert (X1 : (p_loc (core_place p) =? LOCATION_UNSPECIFIED) = false) by now apply N.eqb_neq.
      assert (X2 : (p_loc (core_place q) =? LOCATION_UNSPECIFIED) = false) by now apply N.eqb_neq.
      assert (X3 : is_pile (core_place q) = false).
      { destruct (is_pile (core_place q)) eqn:Y; [|reflexivity]. apply in_pile_iff in Y; [contradiction|exact Kq]. }
      apply not_mat_iff in F4. rewrite X1, X2, X3, F4. cbn [andb negb]. reflexivity. }
  cbn [v_event v_state v_msg]. now rewrite <- deferred_attach.
Qed.

(** ** Cards that left the field *)
Lemma place_eqb_refl : forall p, place_eqb p p = true.
Proof. intros p. now apply place_eqb_eq. Qed.

Lemma zone_not_pile : forall p, zone_named p <> None -> is_pile p = false /\ p_loc p <> 0.
Proof.
  intros [con loc seq oseq] H. unfold zone_named, is_pile in *. cbn [p_con p_loc p_seq] in *.
  destruct (side_of_con con); [|congruence].
  destruct (assocN loc zone_table) as [[z lim]|] eqn:E; [|congruence]. clear H.
  unfold zone_table in E. cbn [assocN] in E.
  repeat match type of E with (if ?a =? ?b then _ else _) = _ => destruct (N.eqb_spec a b);
    [subst loc; split; [reflexivity|discriminate]|] end. discriminate.
Qed.

Lemma left_encode : forall c code p q reason z rest r c1, ctx_sound c -> core_ok (CmMove code p q reason) ->
  zone_named (core_place p) = Some z -> contents (CMats z) (ctx_layout c) <> [] ->
  in_pile (core_place q) -> ~ as_material (core_place q) ->
  encode_one c (ser (CmMove code p q reason) ++ rest) = Ok (r, c1) ->
  find_left (core_place q) (cx_left c1) = Some (core_place p).
Proof.
  intros c code p q reason z rest r c1 S K Z M P Nm E. apply encode_effect in E; [|exact K].
  destruct E as [v E]. pose proof K as [_ [Kp [Kq _]]]. unfold move_verdict in E.
  destruct (zone_not_pile (core_place p)) as [Z1 Z2]; [congruence|].
  destruct (has_xyz_ok c (core_place p) S) as [z' [Ez Hx]]; [congruence|].
  rewrite Z in Ez. injection Ez as <-.
  replace (negb (is_nil (contents (CMats z) (ctx_layout c)))) with true in Hx
    by (destruct (contents (CMats z) (ctx_layout c)); [congruence|reflexivity]).
  assert (X1 : (p_loc (core_place p) =? LOCATION_UNSPECIFIED) = false) by now apply N.eqb_neq.
  assert (X2 : (p_loc (core_place q) =? LOCATION_UNSPECIFIED) = false).
  { apply N.eqb_neq. unfold in_pile in P. intros X. unfold LOCATION_UNSPECIFIED in X. rewrite X in P. now apply P. }
  apply (in_pile_iff q Kq) in P. apply not_mat_iff in Nm.
  rewrite X1, X2, P, Nm, Z1, Hx in E. cbn [andb negb] in E. rewrite andb_false_r in E. cbn [obind] in E.
  inversion E; subst.
  cbn [xyz_left cx_left find_left]. now rewrite place_eqb_refl.
Qed.

Lemma left_kept : forall q z c1 c2 ms, heard c1 c2 ms -> in_pile q -> 
  (forall code p' q' reason, In (CmMove code p' q' reason) ms ->
     core_place q' = q -> zone_named (core_place p') = None) ->
  find_left q (cx_left c1) = Some z -> find_left q (cx_left c2) = Some z.
Proof.
  intros q z c1 c2 ms H P. induction H as [|c ms m rest r c' H IH K E|c ms m c' H IH E]; intros Nw L.
  - exact L.
  - assert (L' : find_left q (cx_left c) = Some z).
    { apply IH; [|exact L]. intros code p' q' reason I0. apply (Nw code p' q' reason). apply in_or_app. now left. }
    apply encode_effect in E; [|exact K].
    destruct m; try (subst c'; exact L').
    destruct E as [v E]. pose proof K as [_ [Kp [Kq _]]].
    assert (Nw' : core_place cur = q -> zone_named (core_place prev) = None).
    { eapply Nw. apply in_or_app. right. left. reflexivity. }
    unfold move_verdict, take_deferred_xyz_mat in E.
    destruct (p_loc (core_place prev) =? LOCATION_UNSPECIFIED), (p_loc (core_place cur) =? LOCATION_UNSPECIFIED);
      cbn [andb] in E; try (inversion E; subst; exact L').
    + apply obind_Ok in E. destruct E as [had [Eh E]]. inversion E; subst. destruct had; [|exact L'].
      cbn [xyz_left cx_left find_left]. destruct (place_eqb (core_place prev) q) eqn:Eq; [|exact L'].
      apply place_eqb_eq in Eq. exfalso. subst q. apply (in_pile_iff prev Kp) in P. rewrite P in Eh. discriminate Eh.
    + destruct (negb (not_mat (core_place cur)) && is_pile (core_place cur)); [inversion E; subst; exact L'|].
      destruct (not_mat (core_place cur) && negb (is_pile (core_place cur))); [inversion E; subst; exact L'|].
      destruct (negb (not_mat (core_place prev)) && is_pile (core_place prev)).
      * apply obind_Ok in E. destruct E as [had [Eh E]]. inversion E; subst; exact L'.
      * apply obind_Ok in E. destruct E as [had [Eh E]]. inversion E; subst. destruct had; [|exact L'].
        cbn [xyz_left cx_left find_left]. destruct (place_eqb (core_place cur) q) eqn:Eq; [|exact L'].
        apply place_eqb_eq in Eq. specialize (Nw' Eq). exfalso.
        destruct (negb (is_pile (core_place prev)) && is_pile (core_place cur)); [|discriminate Eh].
        unfold has_xyz_mat in Eh. apply obind_Ok in Eh. destruct Eh as [zr [Ez _]].
        apply zone_of_named in Ez. congruence.
  - destruct (parse_memory _ _ _ E) as [_ [-> _]]. now apply IH.
Qed.

Lemma detach_encode : forall c z code p q reason rest, core_ok (CmMove code p q reason) ->
  in_pile (core_place p) -> as_material (core_place p) ->
  find_left (holder (core_place p)) (cx_left c) = Some z ->
  ~ outside (core_place q) -> ~ attaches (core_place p) (core_place q) ->
  ~ fields (core_place p) (core_place q) ->
  encode_one c (ser (CmMove code p q reason) ++ rest) =
    Ok (mkResult StOk (lenN (ser (CmMove code p q reason))) (Some (mkMsg (MsgEvent
      (EvCard reason (CardMove [mkPair (mkPlace (p_con z) (p_loc z) (p_seq z) (p_oseq (core_place p)))
                                       (core_place q)]))) [])), c).
Proof.
  intros c z code p q reason rest K P M L Nq Na Nf. pose proof K as [_ [Kp [Kq _]]].
  assert (Np : ~ outside (core_place p)).
  { unfold in_pile, outside in *. intros X. rewrite X in P. now apply P. }
  erewrite move_encode; [|exact K|].
  2:{ unfold move_verdict.
      assert (X1 : (p_loc (core_place p) =? LOCATION_UNSPECIFIED) = false) by now apply N.eqb_neq.
      assert (X2 : (p_loc (core_place q) =? LOCATION_UNSPECIFIED) = false) by now apply N.eqb_neq.
      assert (Y1 := in_pile_iff q Kq). assert (Y2 := not_mat_iff (core_place q)).
      assert (Dm : as_material (core_place q) \/ ~ as_material (core_place q)) by (unfold as_material; lia).
      assert (X3 : negb (not_mat (core_place q)) && is_pile (core_place q) = false).
      { unfold attaches in Na. destruct (not_mat (core_place q)), (is_pile (core_place q)); try reflexivity.
        exfalso. intuition. }
      assert (X4 : not_mat (core_place q) && negb (is_pile (core_place q)) = false).
      { unfold fields in Nf. destruct (not_mat (core_place q)), (is_pile (core_place q)); try reflexivity.
        exfalso. intuition. }
      assert (X5 : not_mat (core_place p) = false).
      { destruct (not_mat (core_place p)) eqn:Y; [|reflexivity]. apply not_mat_iff in Y. contradiction. }
      apply (in_pile_iff p Kp) in P.
      rewrite X1, X2, X3, X4, X5, P. cbn [andb negb]. unfold get_xyz_left.
      change (set_oseq OSEQ_INVALID (core_place p)) with (holder (core_place p)). rewrite L.
      cbn [or_ub obind]. reflexivity. }
  reflexivity.
Qed.
