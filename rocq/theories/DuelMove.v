(** Moves of a duel on the board. *)
From Verif Require Import Base BaseProofs Place PlaceProofs Frame FrameSpec FrameLens FrameProofs FrameMove FrameOps FramePiles FrameInv FrameShuffle FrameFacts
  Msg Event EventSpec EventProofs Query QuerySpec QueryProofs.
From Verif Require Import Encode CoreMsg EncodeSpec EncodeState EncodeE2E Duel DuelView.

Local Open Scope N_scope.

Lemma set_at_eq : forall A B dec a (b : B) (f : A -> B), set_at dec a b f a = b.
Proof. intros. unfold set_at. destruct (dec a a); congruence. Qed.
Lemma set_at_ne : forall A B dec a (b : B) (f : A -> B) x, x <> a -> set_at dec a b f x = f x.
Proof. intros. unfold set_at. destruct (dec x a); congruence. Qed.

Lemma at_rest_iff : forall K, at_rest K = true <->
  forall r i h, nth_error (k_pile K r) i = Some h -> k_under K h = [].
Proof.
  intros K. unfold at_rest. destruct (loaded K) as [|[[r i] h] l] eqn:E; split; intros H; try discriminate.
  - intros r i h N. destruct (k_under K h) eqn:U; [reflexivity|]. exfalso.
    assert (X : In (r, i, h) (loaded K)) by (apply loaded_In; split; congruence). rewrite E in X. exact X.
  - reflexivity.
  - exfalso. assert (X : In (r, i, h) (loaded K)) by (rewrite E; now left). apply loaded_In in X.
    destruct X as [X Y]. apply Y. eapply H, X.
Qed.
Lemma steady_In : forall new K K', steady new K K' = true ->
  forall e, In e (loaded K') -> In e new \/ In e (loaded K).
Proof.
  intros new K K' H e I. unfold steady in H. rewrite forallb_forall in H. specialize (H e I).
  destruct (in_dec entry_eq_dec e (new ++ loaded K)) as [X|]; [|discriminate]. now apply in_app_or.
Qed.
Lemma no_mats_true : forall x K, no_mats x K = true <-> k_under K x = [].
Proof. intros x K. unfold no_mats. destruct (k_under K x); split; congruence. Qed.

Lemma settle : forall K owed f left, quiet K owed f left -> at_rest K = true -> quiet K no_debts f left.
Proof.
  intros K owed f left Q A. assert (R := proj1 (at_rest_iff K) A). destruct Q as [q1 q2 q3 q4 q5 q6 q7].
  constructor; auto.
  - intros k. rewrite q3. destruct k as [r|z|z]; try reflexivity. cbn [seen]. f_equal.
    destruct (k_zone K z) eqn:Z; [reflexivity|]. unfold no_debts. destruct (owed z) as [h|] eqn:O; [|reflexivity].
    destruct (k_under K h) eqn:U; [reflexivity|]. exfalso.
    destruct (q5 h) as [[r L]|[y L]]; [congruence| |].
    + apply In_nth_error in L. destruct L as [i L]. rewrite (R _ _ _ L) in U. discriminate.
    + destruct (q6 _ _ O) as [_ X]. exact (X _ L).
  - intros z h O. discriminate.
  - intros r i h N U. exfalso. apply U. eapply R, N.
Qed.

(** ** Where the board has a card *)
Inductive stands (K : cards) (owed : debts) : spot -> cont -> nat -> Prop :=
| st_pile : forall r i, stands K owed (InPile r i) (CPile r) i
| st_zone : forall z, stands K owed (InZone z) (CCard z) 0
| st_mat : forall z k, stands K owed (UnderZone z k) (CMats z) k
| st_left : forall r i k h z, nth_error (k_pile K r) i = Some h -> owed z = Some h ->
    stands K owed (UnderPile r i k) (CMats z) k.
Definition owed_after (s : spot) (x : cid) (owed : debts) : debts :=
  match s with InZone z => set_at zref_eq_dec z (Some x) owed | _ => owed end.

Section Take.
Variables (K : cards) (owed : debts) (f : frame card) (left : list (place * place)).
Hypothesis Q : quiet K owed f left.

Lemma stands_seen : forall s k i x, stands K owed s k i -> card_on s K = Some x ->
  nth_error (seen K owed k) i = Some x.
Proof.
  intros s k i x S H. destruct S as [r i|z|z k|r i k h z Nh O]; cbn [card_on holder_of seen] in *.
  - exact H.
  - rewrite H. reflexivity.
  - destruct (k_zone K z); [exact H|discriminate].
  - rewrite Nh in H. destruct (q_owed _ _ _ _ Q _ _ O) as [-> _]. rewrite O. exact H.
Qed.

Lemma take_seen : forall s k i x, stands K owed s k i -> card_on s K = Some x ->
  forall y, seen (take_out s K) (owed_after s x owed) y = vrem k i (seen K owed) y.
Proof.
  intros s k i x S H y. assert (P := stands_seen _ _ _ _ S H).
  destruct S as [r i|z|z k|r i k h z Nh O]; cbn [card_on holder_of take_out owed_after] in *; unfold vrem.
  - destruct (cont_eq_dec y (CPile r)) as [->|N]; [cbn [seen k_pile with_pile]; apply set_at_eq|].
    destruct y as [r'|z|z]; [|reflexivity|reflexivity]. cbn [seen k_pile with_pile]. apply set_at_ne. congruence.
  - cbn [seen] in P. destruct y as [r|z'|z']; cbn [seen with_zone k_pile k_zone k_under].
    + destruct (cont_eq_dec _ _); [discriminate|reflexivity].
    + destruct (cont_eq_dec _ _) as [E|E].
      * injection E as ->. rewrite set_at_eq, H. reflexivity.
      * rewrite set_at_ne by congruence. reflexivity.
    + destruct (cont_eq_dec _ _) as [E|_]; [discriminate|].
      destruct (zref_eq_dec z' z) as [->|N].
      * rewrite !set_at_eq, H. reflexivity.
      * rewrite !set_at_ne by congruence. reflexivity.
  - cbn [seen] in P. destruct (k_zone K z) as [h|] eqn:Z; [|discriminate].
    destruct y as [r|z'|z']; cbn [seen with_under k_pile k_zone k_under].
    + destruct (cont_eq_dec _ _); [discriminate|reflexivity].
    + destruct (cont_eq_dec _ _); [discriminate|reflexivity].
    + rewrite Z. destruct (cont_eq_dec (CMats z') (CMats z)) as [E|E].
      * injection E as ->. rewrite Z. now rewrite set_at_eq.
      * assert (z' <> z) by congruence. destruct (k_zone K z') as [h'|] eqn:Z'.
        -- rewrite set_at_ne; [reflexivity|]. intros ->. apply H0. eapply (zone_inj _ _ _ _ Q); eauto.
        -- destruct (owed z') as [h'|] eqn:O; [|reflexivity]. rewrite set_at_ne; [reflexivity|].
           intros ->. destruct (q_owed _ _ _ _ Q _ _ O) as [_ X]. exact (X _ Z).
  - rewrite Nh in *. destruct (q_owed _ _ _ _ Q _ _ O) as [Zn Zo]. cbn [seen] in P.
    destruct y as [r'|z'|z']; cbn [seen with_under k_pile k_zone k_under].
    + destruct (cont_eq_dec _ _); [discriminate|reflexivity].
    + destruct (cont_eq_dec _ _); [discriminate|reflexivity].
    + destruct (cont_eq_dec (CMats z') (CMats z)) as [E|E].
      * injection E as ->. rewrite Zn, O. now rewrite set_at_eq.
      * destruct (k_zone K z') as [h'|] eqn:Z'.
        -- rewrite set_at_ne; [reflexivity|]. intros ->. exact (Zo _ Z').
        -- destruct (owed z') as [h'|] eqn:O'; [|reflexivity]. rewrite set_at_ne; [reflexivity|].
           intros ->. apply E. apply (quiet_uniq _ _ _ _ Q (CMats z') k (CMats z) k x).
           ++ cbn [seen]. rewrite Z', O'. rewrite Zn, O in P. exact P.
           ++ exact P.
Qed.

Lemma take_under : forall s y, k_under (take_out s K) y <> [] -> k_under K y <> [].
Proof.
  intros s y. destruct s as [|r i|z|r i k|z k]; cbn [take_out]; auto.
  - destruct (holder_of _ K) as [h|]; auto. cbn [with_under k_under]. unfold set_at.
    destruct (N.eq_dec y h) as [->|]; auto. intros H E. rewrite E in H. apply H. unfold remove_nth.
    now rewrite firstn_nil, skipn_nil.
  - destruct (holder_of _ K) as [h|]; auto. cbn [with_under k_under]. unfold set_at.
    destruct (N.eq_dec y h) as [->|]; auto. intros H E. rewrite E in H. apply H. unfold remove_nth.
    now rewrite firstn_nil, skipn_nil.
Qed.
End Take.

Lemma take_rest : forall s K, k_field (take_out s K) = k_field K /\ k_next (take_out s K) = k_next K.
Proof.
  intros s K. destruct s; cbn [take_out]; auto; destruct (holder_of _ K); auto.
Qed.
Lemma put_rest : forall s x K K', put_in s x K = Some K' ->
  k_field K' = k_field K /\ k_next K' = k_next K.
Proof.
  intros s x K K' H. destruct s; cbn [put_in] in H; try discriminate.
  - destruct (_ <=? _)%nat; inversion H; auto.
  - destruct (k_zone K z); inversion H; auto.
  - destruct (holder_of _ K); [|discriminate]. destruct (_ <=? _)%nat; inversion H; auto.
  - destruct (holder_of _ K); [|discriminate]. destruct (_ <=? _)%nat; inversion H; auto.
Qed.

Inductive target : spot -> cont -> nat -> Prop :=
| tg_pile : forall r i, target (InPile r i) (CPile r) i
| tg_zone : forall z, target (InZone z) (CCard z) 0
| tg_mat : forall z k, target (UnderZone z k) (CMats z) k.

Lemma put_seen : forall K owed s x K' k i, put_in s x K = Some K' -> target s k i ->
  (forall z j h, s = UnderZone z j -> k_zone K z = Some h ->
     (forall y, k_zone K y = Some h -> y = z) /\ (forall y, owed y = Some h -> k_zone K y <> None)) ->
  (forall z, s = InZone z -> seen K owed (CMats z) = k_under K x) ->
  (forall y, seen K' owed y = vins k i x (seen K owed) y) /\
  (i <= length (seen K owed k))%nat /\
  match k with CCard _ => seen K owed k = [] | _ => True end.
Proof.
  intros K owed s x K' k i H T U Z. destruct T as [r i|z|z k]; cbn [put_in holder_of] in H; unfold vins.
  - destruct (Nat.leb_spec i (length (k_pile K r))) as [Le|]; [|discriminate]. inversion H; subst K'. clear H.
    split; [|split; auto]. intros y. destruct (cont_eq_dec y (CPile r)) as [->|N].
    + cbn [seen with_pile k_pile]. apply set_at_eq.
    + destruct y as [r'|z|z]; try reflexivity. cbn [seen with_pile k_pile]. apply set_at_ne. congruence.
  - destruct (k_zone K z) eqn:E; [discriminate|]. inversion H; subst K'. clear H. specialize (Z z eq_refl).
    split; [|split; [|cbn [seen]; now rewrite E]].
    + intros y. destruct y as [r|z'|z']; cbn [seen with_zone k_pile k_zone k_under].
      * destruct (cont_eq_dec _ _); [discriminate|reflexivity].
      * destruct (cont_eq_dec _ _) as [X|X].
        -- injection X as ->. rewrite set_at_eq, E. reflexivity.
        -- rewrite set_at_ne by congruence. reflexivity.
      * destruct (cont_eq_dec _ _) as [X|_]; [discriminate|].
        destruct (zref_eq_dec z' z) as [->|N].
        -- rewrite set_at_eq. symmetry. exact Z.
        -- rewrite set_at_ne by congruence. reflexivity.
    + cbn [seen]. rewrite E. cbn. lia.
  - destruct (k_zone K z) as [h|] eqn:E; [|discriminate].
    destruct (Nat.leb_spec k (length (k_under K h))) as [Le|]; [|discriminate]. inversion H; subst K'. clear H.
    destruct (U z k h eq_refl E) as [U1 U2].
    split; [|split; [cbn [seen]; now rewrite E|exact I]].
    intros y. destruct y as [r|z'|z']; cbn [seen with_under k_pile k_zone k_under].
    + destruct (cont_eq_dec _ _); [discriminate|reflexivity].
    + destruct (cont_eq_dec _ _); [discriminate|reflexivity].
    + destruct (cont_eq_dec (CMats z') (CMats z)) as [X|X].
      * injection X as ->. rewrite E. now rewrite set_at_eq.
      * destruct (k_zone K z') as [h'|] eqn:E'.
        -- rewrite set_at_ne; [reflexivity|]. intros ->. apply X. f_equal. now apply U1.
        -- destruct (owed z') as [h'|] eqn:O; [|reflexivity]. rewrite set_at_ne; [reflexivity|].
           intros ->. now apply (U2 z').
Qed.

Lemma put_under : forall s x K K' y, put_in s x K = Some K' -> k_under K' y <> [] ->
  k_under K y <> [] \/ holder_of s K = Some y.
Proof.
  intros s x K K' y H U. destruct s as [|r i|z|r i k|z k]; cbn [put_in] in H; try discriminate.
  - destruct (_ <=? _)%nat; inversion H; subst; auto.
  - destruct (k_zone K z); inversion H; subst; auto.
  - destruct (holder_of (UnderPile r i k) K) as [h|]; [|discriminate]. destruct (_ <=? _)%nat; inversion H; subst.
    cbn [with_under k_under] in U. unfold set_at in U. destruct (N.eq_dec y h) as [->|]; auto.
  - destruct (holder_of (UnderZone z k) K) as [h|]; [|discriminate]. destruct (_ <=? _)%nat; inversion H; subst.
    cbn [with_under k_under] in U. unfold set_at in U. destruct (N.eq_dec y h) as [->|]; auto.
Qed.

(** ** The frame *)
Lemma frame_move : forall f v from to k1 i1 k2 i2 x, inv card f -> shown f v ->
  slot from = Some (k1, i1) -> slot to = Some (k2, i2) -> pile_place_ok from -> pile_place_ok to ->
  nth_error (v k1) i1 = Some x ->
  match k1, k2 with CCard _, CCard _ => False | _, _ => True end ->
  (i2 <= length (vrem k1 i1 v k2))%nat ->
  match k2 with CCard _ => vrem k1 i1 v k2 = [] | _ => True end ->
  exists f', fo_move (plain_fo card0) from to f = Ok f' /\ inv card f' /\ f_next f' = f_next f /\
    f_heap f' = f_heap f /\ shown f' (vins k2 i2 x (vrem k1 i1 v)).
Proof.
  intros f v from to k1 i1 k2 i2 x I V S1 S2 P1 P2 Nx Kn Le Em.
  assert (Sh : shape (f_lay f)) by apply (inv_lay _ _ I).
  assert (R : forall y, view_remove k1 i1 (view (f_lay f)) y = map Some (vrem k1 i1 v y)).
  { intros y. unfold view_remove, view_set, vrem, view. rewrite !V.
    destruct (cont_eq_dec y k1); [symmetry; apply map_remove|reflexivity]. }
  assert (M : move_pre from to x (view (f_lay f))).
  { split; [exact P1|]. split; [exact P2|]. exists k1, i1, k2, i2. split; [exact S1|]. split; [exact S2|].
    split; [unfold view; rewrite V; now apply nth_map_some|].
    assert (G : room_for k2 i2 (view_remove k1 i1 (view (f_lay f)) k2)).
    { split; [rewrite R, map_length; exact Le|]. destruct k2; auto. rewrite R, Em. reflexivity. }
    destruct k1; auto. destruct k2; auto. contradiction. }
  apply move_pre_iff in M; [|exact Sh]. destruct M as [L' M].
  destruct (card_move_view _ _ _ _ _ Sh M) as [W _].
  assert (F : fstep card0 (OpMove from to) f = Ok (with_lay f L')).
  { cbn [fstep]. unfold f_card_move. rewrite M. cbn [obind].
    destruct (shown_card f v I V k1 x (nth_error_In _ _ Nx)) as [c G]. unfold card_of in G. rewrite G. reflexivity. }
  exists (with_lay f L'). split; [exact F|]. split; [eapply inv_step; [exact I|exact F]|].
  split; [reflexivity|]. split; [reflexivity|].
  intros y. change (contents y (f_lay (with_lay f L'))) with (view L' y). rewrite W. unfold move_view. rewrite S1, S2.
  assert (E : view_insert k2 i2 x (view_remove k1 i1 (view (f_lay f))) y = map Some (vins k2 i2 x (vrem k1 i1 v) y)).
  { unfold view_insert, view_set, vins. rewrite !R. destruct (cont_eq_dec y k2); [symmetry; apply map_insert|reflexivity]. }
  destruct k1; auto. destruct k2; auto. contradiction.
Qed.

(** ** Places *)
Record spot_facts (p : place) (s : spot) : Prop := {
  sf_loc : p_loc p =? 0 = match s with Outside => true | _ => false end;
  sf_pile : s <> Outside -> is_pile p = match s with InPile _ _ | UnderPile _ _ _ => true | _ => false end;
  sf_mat : s <> Outside -> not_mat p = match s with InPile _ _ | InZone _ => true | _ => false end;
  sf_ok : match s with InPile _ _ | InZone _ | UnderZone _ _ => pile_place_ok p | _ => True end;
  sf_slot : match s with
    | InPile r i => slot p = Some (CPile r, i)
    | InZone z => slot p = Some (CCard z, 0%nat)
    | UnderZone z k => slot p = Some (CMats z, k)
    | _ => True
    end;
  sf_zone : match s with InZone z | UnderZone z _ => zone_named p = Some z | _ => True end;
  sf_key : match s with
    | InPile r i | UnderPile r i _ => set_oseq (-1) p = pplace r i
    | _ => True
    end;
  sf_oseq : match s with UnderPile _ _ k | UnderZone _ k => p_oseq p = Z.of_nat k | _ => True end
}.
Lemma pile_loc : forall loc l, assocN loc pile_table = Some l -> loc = loc_of l.
Proof.
  intros loc l H. unfold pile_table in H. cbn [assocN] in H.
  repeat match type of H with (if ?a =? ?b then _ else _) = _ =>
    destruct (N.eqb_spec a b); [inversion H; subst; reflexivity|] end. discriminate.
Qed.
Lemma side_con : forall con w, side_of_con con = Some w -> con = con_of w.
Proof. intros con w H. destruct con as [|[]|]; inversion H; reflexivity. Qed.

Lemma spot_spec : forall p s, spot_of p = Some s -> spot_facts p s.
Proof.
  intros p s H. unfold spot_of in H.
  destruct (N.eqb_spec (p_loc p) 0) as [Z|Z].
  { inversion H; subst s. constructor; auto; try congruence. now apply N.eqb_eq. }
  apply N.eqb_neq in Z.
  destruct (side_of_con (p_con p)) as [w|] eqn:W; [|discriminate].
  destruct (assocN (p_loc p) pile_table) as [l|] eqn:A.
  - assert (Sl : slot p = Some (CPile (w, l), N.to_nat (p_seq p))).
    { unfold slot. now rewrite W, A. }
    assert (Ip := is_pile_table _ _ _ Sl).
    assert (Key : set_oseq (-1) p = pplace (w, l) (N.to_nat (p_seq p))).
    { unfold set_oseq, pplace. cbn [fst snd]. rewrite (side_con _ _ W), (pile_loc _ _ A), N2Nat.id. reflexivity. }
    assert (Ipt : is_pile p = true).
    { destruct (is_pile p); [reflexivity|]. exfalso.
      assert (G : assocN (p_loc p) pile_table <> None) by congruence. apply Ip in G. discriminate. }
    unfold not_mat. destruct (Z.ltb_spec (p_oseq p) 0) as [O|O]; inversion H; subst s; clear H;
      constructor; auto; try (intros _; unfold not_mat; now apply Z.ltb_lt);
      try (intros _; unfold not_mat; now apply Z.ltb_ge).
    + intros _. exact O.
    + now rewrite Z2Nat.id.
  - unfold zone_named in H. rewrite W in H.
    destruct (assocN (p_loc p) zone_table) as [[z lim]|] eqn:B; [|discriminate].
    destruct (p_seq p <? lim) eqn:Lm; [|discriminate].
    assert (Zn : zone_named p = Some (w, z, N.to_nat (p_seq p))).
    { unfold zone_named. now rewrite W, B, Lm. }
    assert (Sl : slot p = Some (if (p_oseq p <? 0)%Z then (CCard (w, z, N.to_nat (p_seq p)), 0%nat)
                                else (CMats (w, z, N.to_nat (p_seq p)), Z.to_nat (p_oseq p)))).
    { unfold slot. rewrite W, A, B, Lm. destruct (p_oseq p <? 0)%Z; reflexivity. }
    assert (Ipf : is_pile p = false).
    { destruct (p_oseq p <? 0)%Z; assert (Ip := is_pile_table _ _ _ Sl);
        (destruct (is_pile p); [|reflexivity]); exfalso; apply (proj1 Ip eq_refl); exact A. }
    assert (Pk : pile_place_ok p) by (intros X; congruence).
    destruct (Z.ltb_spec (p_oseq p) 0) as [O|O]; inversion H; subst s; clear H; constructor; auto;
      try (intros _; unfold not_mat; now apply Z.ltb_lt);
      try (intros _; unfold not_mat; now apply Z.ltb_ge).
    now rewrite Z2Nat.id.
Qed.
Lemma core_key : forall c r i, spot_of (core_place c) = Some (InPile r i) -> core_place c = pplace r i.
Proof.
  intros c r i H. assert (F := spot_spec _ _ H). destruct F as [_ _ M _ _ _ Ky _].
  specialize (M ltac:(discriminate)). rewrite <- Ky. unfold core_place in *. unfold set_oseq.
  destruct (core_spot _ _) as [l s]. cbn [p_con p_loc p_seq p_oseq] in *. unfold not_mat in M.
  cbn [p_oseq] in M. destruct (0x80 <=? cl_loc c); [|reflexivity]. exfalso. apply Z.ltb_lt in M. lia.
Qed.
