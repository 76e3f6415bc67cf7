(** Proofs about calls with arguments that make no sense. *)
From Verif Require Import Base BaseProofs Place PlaceProofs Frame FrameSpec FrameLens FrameProofs
  FrameMove FrameOps FramePiles FrameInv FrameFacts Limbo LimboSpec LimboProofs LimboFacts
  Msg Event EventSpec LimboUndo EventUndo HazardSpec.

Set Implicit Arguments.
Local Open Scope N_scope.

Lemma ord_ok : forall A (a : A), orderly (Ok a).
Proof. left. eauto. Qed.
Lemma ord_abort : forall A, orderly (@Abort A).
Proof. right. reflexivity. Qed.
Lemma ord_assert : forall b, orderly (assert_ b).
Proof. intros [|]; [apply ord_ok|apply ord_abort]. Qed.
Lemma ord_bind : forall A B (m : outcome A) (k : A -> outcome B), orderly m ->
  (forall a, m = Ok a -> orderly (k a)) -> orderly (obind m k).
Proof.
  intros A B m k [[a ->]| ->] H; cbn [obind]; [auto|apply ord_abort].
Qed.
Lemma ord_then : forall B b (k : outcome B), (b = true -> orderly k) ->
  orderly (assert_ b ;;! k).
Proof. intros B [|] k H; cbn [assert_ obind]; [auto|apply ord_abort]. Qed.
Lemma ord_ub : forall A (m : outcome A), orderly m -> m <> UB.
Proof. intros A m [[a ->]| ->]; discriminate. Qed.

(** ** References *)
Lemma regular_pile : forall p, regular p -> orderly (pile_of p).
Proof.
  intros [con loc seq oseq] [Hc Hl]. unfold pile_of, pile_ref. cbn [p_con p_loc] in *.
  apply ord_then. intros H1. apply Z.leb_le in H1.
  apply ord_then. intros H2.
  assert (Ci : exists b, con_index con = Ok b).
  { unfold con_index. destruct (Z.eqb_spec con 0); [eauto|]. destruct (Z.eqb_spec con 1); [eauto|lia]. }
  destruct Ci as [b Ci]. rewrite Ci. cbn [obind].
  repeat (destruct Hl as [<-|Hl]; [try discriminate H2; cbn; apply ord_ok|]). destruct Hl.
Qed.

Lemma regular_zone_loc : forall p, regular p -> is_pile p = false ->
  is_zone p = true /\ is_empty p = false /\ In (p_loc p) [0x4; 0x8; 0x100; 0x200; 0x400].
Proof.
  intros [con loc seq oseq] [Hc Hl] P. unfold is_pile, is_zone, is_empty in *. cbn [p_con p_loc] in *.
  repeat (destruct Hl as [<-|Hl]; [try discriminate P; cbn; repeat split; auto 10|]). destruct Hl.
Qed.

Lemma regular_pile_loc : forall p, regular p -> is_pile p = true -> assocN (p_loc p) pile_table <> None.
Proof.
  intros [con loc seq oseq] [Hc Hl] P. unfold is_pile in P. cbn [p_con p_loc] in *.
  repeat (destruct Hl as [<-|Hl]; [try discriminate P; cbn; discriminate|]). destruct Hl.
Qed.

Lemma zone_ref_orderly : forall con loc seq, (0 <= con)%Z ->
  In loc [0x4; 0x8; 0x100; 0x200; 0x400] -> orderly (zone_ref con loc seq).
Proof.
  intros con loc seq Hc Hl. unfold zone_ref.
  apply ord_then. intros H1. apply Z.leb_le in H1.
  assert (Ci : exists b, con_index con = Ok b).
  { unfold con_index. destruct (Z.eqb_spec con 0); [eauto|]. destruct (Z.eqb_spec con 1); [eauto|lia]. }
  destruct Ci as [b Ci]. rewrite Ci.
  assert (X : exists lim z, zone_seq_lim loc = Ok lim /\ side_at loc = Ok z).
  { repeat (destruct Hl as [<-|Hl]; [cbn; eauto|]). destruct Hl. }
  destruct X as [lim [z [-> ->]]]. cbn [obind]. apply ord_then. intros _. apply ord_ok.
Qed.
Lemma regular_zone : forall p, regular p -> is_pile p = false -> orderly (zone_of p).
Proof.
  intros p R P. destruct (regular_zone_loc R P) as [_ [_ I']]. apply zone_ref_orderly; [apply R|auto].
Qed.

Lemma read_zone_of : forall p r L, shape L -> zone_of p = Ok r -> orderly (read_zone r L).
Proof.
  intros p r L S Z. unfold read_zone. pose proof (valid_zone_some _ _ _ S Z) as G.
  destruct (get_zone r L); [apply ord_ok|congruence].
Qed.

Lemma ord_take : forall l i, orderly (take_at l i).
Proof.
  intros l i. unfold take_at. apply ord_then. intros H. apply N.ltb_lt in H. unfold lenN in H.
  destruct (nth_error l (N.to_nat i)) eqn:E.
  - cbn [or_ub obind]. apply ord_then. intros _. apply ord_ok.
  - apply nth_error_None in E. lia.
Qed.
Lemma ord_insert_at : forall l i c, orderly (insert_at l i c).
Proof. intros. unfold insert_at. apply ord_then. intros _. apply ord_then. intros _. apply ord_ok. Qed.
Lemma take_deref : forall l i c l', take_at l i = Ok (c, l') -> orderly (deref c).
Proof.
  intros l i c l' H. unfold take_at in H. inv_ok. destruct c; [apply ord_ok|discriminate].
Qed.
Lemma insert_deref : forall l i c l', insert_at l i c = Ok l' -> orderly (deref c).
Proof. intros l i c l' H. unfold insert_at in H. inv_ok. destruct c; [apply ord_ok|discriminate]. Qed.
Lemma ord_verify : forall l, orderly (verify_pile l).
Proof. intros. apply ord_assert. Qed.

Ltac ord1 :=
  match goal with
  | |- orderly (Ok _) => apply ord_ok
  | |- orderly Abort => apply ord_abort
  | |- orderly (assert_ _ ;;! _) => apply ord_then; intros ?
  | |- orderly (assert_ _) => apply ord_assert
  | |- orderly (obind (pile_of _) _) => apply ord_bind; [apply regular_pile; assumption|intros ? ?]
  | |- orderly (obind (zone_of _) _) => apply ord_bind; [apply regular_zone; assumption|intros ? ?]
  | |- orderly (obind (take_at _ _) _) => apply ord_bind; [apply ord_take|intros [? ?] ?]
  | |- orderly (obind (insert_at _ _ _) _) => apply ord_bind; [apply ord_insert_at|intros ? ?]
  | H : take_at _ _ = Ok (?c, _) |- orderly (obind (deref ?c) _) =>
      apply ord_bind; [exact (take_deref _ _ H)|intros ? ?]
  | H : insert_at _ _ ?c = Ok _ |- orderly (obind (deref ?c) _) =>
      apply ord_bind; [exact (insert_deref _ _ _ H)|intros ? ?]
  | H : zone_of ?p = Ok ?r |- orderly (obind (read_zone ?r _) _) =>
      apply ord_bind; [apply (read_zone_of p); [auto using shape_set_pile, shape_set_zone|exact H]|intros ? ?]
  | |- orderly (obind (verify_pile _) _) => apply ord_bind; [apply ord_verify|intros ? ?]
  end.
Ltac ord := repeat ord1.

Lemma ord_has : forall p L, shape L -> regular p -> orderly (has_card p L).
Proof.
  intros p L S R. unfold has_card. ord. destruct (is_pile p) eqn:P; ord.
  destruct (regular_zone_loc R P) as [_ [_ I']].
  assert (X : exists lim, zone_seq_lim (p_loc p) = Ok lim).
  { repeat (destruct I' as [<-|I']; [cbn; eauto|]). destruct I'. }
  destruct X as [lim ->]. cbn [obind]. ord. destruct (not_mat p); ord.
Qed.

Lemma ord_card_insert : forall p c L, shape L -> regular p -> orderly (card_insert p c L).
Proof.
  intros p c L S R. unfold card_insert. destruct (is_pile p) eqn:P; ord. destruct (not_mat p); ord.
Qed.

Lemma has_erase : forall p L, lay_ok L -> has_card p L = Ok true ->
  exists c L', card_erase p L = Ok (c, L').
Proof.
  intros p L [S NN] H. destruct (has_card_true _ _ S H) as [k [i [Sl Li]]].
  destruct (nth_error (contents k L) i) as [[c|]|] eqn:E.
  - exists c, (put k (remove_nth i (contents k L)) L). apply card_erase_slot; eauto.
  - exfalso. apply (NN (k, i)). exact E.
  - apply nth_error_None in E. lia.
Qed.

Lemma has_card_zone : forall p L r z, shape L -> has_card p L = Ok true -> zone_of p = Ok r ->
  not_mat p = true -> read_zone r L = Ok z -> orderly (deref (z_card z)).
Proof.
  intros p L r z S H Z N R. unfold has_card in H. destruct (zone_of_inv _ _ Z) as [P _].
  rewrite P, Z, N in H. cbn [obind] in H. rewrite R in H. cbn [obind] in H.
  destruct (is_empty p); [discriminate|]. destruct (is_zone p); [|discriminate].
  cbn [negb assert_ obind] in H. destruct (zone_seq_lim (p_loc p)); try discriminate.
  cbn [obind] in H. destruct (p_seq p <? a); [|discriminate]. cbn [assert_ obind] in H.
  destruct (z_card z); [apply ord_ok|discriminate].
Qed.

Lemma ord_move : forall a b L, shape L -> regular a -> regular b -> orderly (card_move a b L).
Proof.
  intros a b L S Ra Rb. unfold card_move. apply ord_bind; [apply ord_has; auto|]. intros [|] Hh; ord.
  2: discriminate. cbv zeta.
  destruct (is_pile a) eqn:Pa, (is_pile b) eqn:Pb; cbn [andb negb] in *; ord.
  - destruct (not_mat b) eqn:Nb; ord.
  - destruct (not_mat a) eqn:Na; cbn [obind]; ord.
    apply ord_bind; [ord|intros [? ?] ?; ord].
  - destruct (not_mat a) eqn:Na, (not_mat b) eqn:Nb; cbn [andb negb] in *; ord.
    apply ord_bind; [|intros; ord]. eapply has_card_zone; eauto.
Qed.

(** ** Swapping *)
Lemma ord_swap_lval : forall a b L, lay_ok L ->
  valid_cont (fst (lpos a)) -> valid_cont (fst (lpos b)) ->
  occupant L (lpos a) <> None -> occupant L (lpos b) <> None ->
  exists L', swap_lval a b L = Ok L' /\ shape L'.
Proof.
  intros a b L [S NN] Va Vb Oa Ob.
  destruct (occupant L (lpos a)) as [[x|]|] eqn:Ea; [|destruct (NN _ Ea)|congruence].
  destruct (occupant L (lpos b)) as [[y|]|] eqn:Eb; [|destruct (NN _ Eb)|congruence].
  rewrite (swap_lval_Some a b L x y S Va Vb Ea Eb).
  eexists. split; [reflexivity|apply shape_swap_pos; auto].
Qed.

Lemma has_plval : forall p L, shape L -> has_card p L = Ok true ->
  exists v, plval p v /\ occupant L (lpos v) <> None.
Proof.
  intros p L S H. destruct (has_card_Ok_slot _ _ _ H) as [k [i Sl]].
  destruct (slot_plval _ _ _ Sl) as [v [P _]]. exists v. split; auto.
  apply (proj1 (has_occupant _ _ _ S P) H).
Qed.

Lemma occupied_has : forall p L, shape L -> (occupied p L <-> has_card p L = Ok true).
Proof.
  intros p L S. split.
  - intros [[k i] [Sl O]]. destruct (slot_plval _ _ _ Sl) as [v [P E]].
    apply (has_occupant _ _ _ S P). rewrite E. exact O.
  - intros H. destruct (has_plval p S H) as [v [P O]]. exists (lpos v). split; auto.
    apply plval_slot; auto.
Qed.

Lemma ord_mats_empty : forall p L, shape L -> regular p -> is_pile p = false ->
  orderly (mats_empty p L).
Proof. intros p L S R P. unfold mats_empty. ord. Qed.

Lemma plval_zone : forall p v r, plval p v -> zone_of p = Ok r ->
  v = if not_mat p then LvCard r else LvMat r (oseqN p).
Proof.
  intros p v r [[P [q [Q ->]]]|[P [q [Q ->]]]] Z.
  - destruct (zone_of_inv _ _ Z). congruence.
  - rewrite Q in Z. injection Z as ->. reflexivity.
Qed.
Lemma plval_pile : forall p v r, plval p v -> pile_of p = Ok r -> v = LvPile r (p_seq p).
Proof.
  intros p v r [[P [q [Q ->]]]|[P [q [Q ->]]]] Z.
  - rewrite Q in Z. injection Z as ->. reflexivity.
  - apply pile_of_is_pile in Z. congruence.
Qed.

Lemma ord_swap : forall a b L, lay_ok L -> regular a -> regular b -> ~ wild_swap a b L ->
  orderly (card_swap a b L).
Proof.
  intros a b L LO Ra Rb NW. destruct LO as [S NN]. assert (LO : lay_ok L) by (split; auto).
  unfold card_swap. apply ord_bind; [apply ord_has; auto|]. intros [|] Ha; ord; [|discriminate].
  apply ord_bind; [apply ord_has; auto|]. intros [|] Hb; ord; [|discriminate]. cbv zeta.
  destruct (has_plval a S Ha) as [va [Pa Oa]]. destruct (has_plval b S Hb) as [vb [Pb Ob]].
  pose proof (plval_valid _ _ Pa) as Va. pose proof (plval_valid _ _ Pb) as Vb.
  ord. apply ord_bind.
  { apply ord_bind; [|intros; ord]. destruct (is_pile a) eqn:E; cbn [orb]; ord.
    destruct (not_mat a); cbn [negb]; ord. apply ord_bind; [apply ord_mats_empty; auto|intros; ord]. }
  intros _ _. apply ord_bind.
  { apply ord_bind; [|intros; ord]. destruct (is_pile b) eqn:E; cbn [orb]; ord.
    destruct (not_mat b); cbn [negb]; ord. apply ord_bind; [apply ord_mats_empty; auto|intros; ord]. }
  intros _ _.
  assert (Sw : forall x y, x = va -> y = vb -> exists L', swap_lval x y L = Ok L' /\ shape L').
  { intros x y -> ->. apply ord_swap_lval; auto. }
  destruct (is_pile a) eqn:Ia, (is_pile b) eqn:Ib; cbn [andb negb] in *; ord.
  - destruct (Sw (LvPile a0 (p_seq a)) (LvPile a1 (p_seq b))) as [L' [-> _]]; [| |apply ord_ok];
      symmetry; eapply plval_pile; eauto.
  - destruct (Sw (LvPile a0 (p_seq a)) (if not_mat b then LvCard a1 else LvMat a1 (oseqN b)))
      as [L' [-> _]]; [| |apply ord_ok]; symmetry; [eapply plval_pile|eapply plval_zone]; eauto.
  - destruct (Sw (if not_mat a then LvCard a0 else LvMat a0 (oseqN a)) (LvPile a1 (p_seq b)))
      as [L' [-> _]]; [| |apply ord_ok]; symmetry; [eapply plval_zone|eapply plval_pile]; eauto.
  - match goal with H1 : zone_of a = Ok ?x, H2 : zone_of b = Ok ?y |- _ =>
      pose proof (plval_zone Pa H1) as Ea; pose proof (plval_zone Pb H2) as Eb;
      rename x into ra; rename y into rb; rename H1 into Za; rename H2 into Zb end.
    assert (Wild : not_mat a = false -> exists L', swap_lval (LvMat ra (p_seq a)) vb L = Ok L' /\ shape L').
    { intros Na. apply ord_swap_lval; auto.
      - cbn [lpos fst valid_cont]. apply zone_of_inv in Za. tauto.
      - intros N. apply NW. split; [apply occupied_has; auto|]. split; [apply occupied_has; auto|].
        pose proof (plval_slot _ _ Pa) as Sa. pose proof (plval_slot _ _ Pb) as Sb.
        rewrite Na in Ea. subst va. destruct (lpos vb) as [k j] eqn:Ek.
        cbn [lpos] in Sa. exists ra, (N.to_nat (oseqN a)), k, j. split; auto. split; auto. split.
        + intros q ->. rewrite Eb in Ek. destruct (not_mat b); discriminate.
        + cbn [lpos] in N. unfold occupant in N. cbn [fst snd] in N. apply nth_error_None in N. exact N. }
    destruct (not_mat a) eqn:Na, (not_mat b) eqn:Nb; cbn [andb negb].
    + destruct (Sw (LvCard ra) (LvCard rb)) as [L' [-> SL]]; auto. cbn [obind]. ord.
    + destruct (Sw (LvCard ra) (LvMat rb (oseqN b))) as [L' [-> SL]]; auto. apply ord_ok.
    + rewrite <- Eb. destruct (Wild eq_refl) as [L' [-> _]]. apply ord_ok.
    + rewrite <- Eb. destruct (Wild eq_refl) as [L' [-> _]]. apply ord_ok.
Qed.

Lemma swap_ub : forall a b L, shape L -> wild_swap a b L -> card_swap a b L = UB.
Proof.
  intros a b L S [Oa [Ob [r [i [k [j [Sa [Sb [NP Ln]]]]]]]]].
  apply occupied_has in Oa; auto. apply occupied_has in Ob; auto.
  pose proof (slot_kind _ _ _ Sa) as Ka. cbn in Ka. destruct Ka as [Pa [Na Za]].
  assert (Kb : is_pile b = false /\ exists rb, zone_of b = Ok rb).
  { pose proof (slot_kind _ _ _ Sb) as Kb. destruct k as [q|q|q]; [destruct (NP q); auto| |];
      repeat match goal with H : _ /\ _ |- _ => destruct H end; eauto. }
  destruct Kb as [Pb [rb Zb]]. unfold card_swap. rewrite Oa, Ob. cbn [assert_ obind]. cbv zeta.
  rewrite Pa, Pb, Na, Za, Zb. cbn [negb orb andb assert_ obind].
  assert (M : (let! ok := if negb (not_mat b) then Ok true
               else let! e := mats_empty b L in Ok (e || true) in assert_ ok) = Ok tt).
  { destruct (not_mat b); cbn [negb]; [|reflexivity]. rewrite (mats_empty_run _ _ _ S Zb).
    cbn [obind]. rewrite orb_true_r. reflexivity. }
  rewrite M. cbn [obind].
  assert (U : forall v, swap_lval (LvMat r (p_seq a)) v L = UB).
  { intros v. unfold swap_lval. cbn [read_lval]. unfold read_zone.
    cbn [contents] in Ln. destruct (get_zone r L) as [z|]; cbn [or_ub obind]; [|reflexivity].
    unfold nth_ptr. destruct (N.ltb_spec (p_seq a) (lenN (z_mats z))) as [X|X]; [|reflexivity].
    unfold lenN in X. lia. }
  destruct (not_mat b); cbn [negb andb]; apply U.
Qed.

(** ** Splicing *)
Lemma splice_cases : forall from n to rv L, nonull L -> regular from -> regular to ->
  (wild_splice from n to L -> pile_splice from n to rv L = UB) /\
  (~ wild_splice from n to L -> orderly (pile_splice from n to rv L)).
Proof.
  intros from n to rv L NN Rf Rt.
  assert (Cut : forall s k (l : list ptr), (s + k <= length l)%nat ->
    length (firstn s l ++ skipn (s + k) l) = (length l - k)%nat).
  { intros s k l H. rewrite app_length, firstn_length, skipn_length. lia. }
  split.
  - intros [r1 [r2 [s [t [S1 [S2 [H1 H2]]]]]]].
    pose proof (slot_kind _ _ _ S1) as [P1 R1]. pose proof (slot_kind _ _ _ S2) as [P2 R2].
    pose proof (proj1 (pile_of_slot _ _) R1) as T1. pose proof (proj1 (pile_of_slot _ _) R2) as T2.
    rewrite S1 in T1. rewrite S2 in T2. injection T1 as ->. injection T2 as ->.
    unfold pile_splice. rewrite P1, P2, R1. cbn [assert_ obind contents] in *. unfold lenN.
    destruct (N.leb_spec (n + p_seq from) (N.of_nat (length (get_pile r1 L)))) as [_|X]; [|lia].
    cbn [assert_ obind]. cbv zeta. set (l1 := firstn _ _ ++ skipn _ _).
    assert (A1 : all_some l1).
    { apply all_some_app. split; [apply all_some_firstn|apply all_some_skipn]; apply nonull_pile; auto. }
    rewrite (proj2 (verify_pile_Ok _) A1), R2. cbn [obind].
    destruct (N.leb_spec (p_seq to) (N.of_nat (length (get_pile r2 (set_pile r1 l1 L))))) as [X|_]; auto.
    exfalso. destruct (pref_eq_dec r1 r2) as [->|Ne].
    + rewrite get_set_pile_same in X. unfold l1 in X. rewrite Cut in X by lia. lia.
    + rewrite get_set_pile_other in X by auto. lia.
  - intros NW. unfold pile_splice. ord. cbv zeta. set (l1 := firstn _ _ ++ skipn _ _).
    ord. destruct (N.leb_spec (p_seq to) (lenN (get_pile a1 (set_pile a l1 L)))) as [X|X]; ord.
    exfalso. apply NW.
    match goal with H1 : pile_of from = Ok ?x, H2 : pile_of to = Ok ?y |- _ =>
      rename x into r1; rename y into r2; apply pile_of_slot in H1; apply pile_of_slot in H2 end.
    exists r1, r2, (N.to_nat (p_seq from)), (N.to_nat (p_seq to)). split; auto. split; auto.
    match goal with H : (n + p_seq from <=? _) = true |- _ => apply N.leb_le in H; unfold lenN in H end.
    cbn [contents]. split; [lia|]. unfold lenN in X. destruct (pref_eq_dec r1 r2) as [->|Ne].
    + rewrite get_set_pile_same in X. unfold l1 in X. rewrite Cut in X by lia. lia.
    + rewrite get_set_pile_other in X by auto. lia.
Qed.

(** ** Shuffling *)
Lemma ord_seqs : forall prev L, shape L -> Forall regular prev -> orderly (shuffle_seqs prev L).
Proof.
  induction prev as [|p prev IH]; intros L S F; cbn [shuffle_seqs]; ord.
  apply Forall_cons_iff in F as [R F]. apply ord_bind; [apply ord_has; auto|intros]. ord.
  apply ord_bind; [auto|intros; ord].
Qed.
Lemma seqs_length : forall prev L l, shuffle_seqs prev L = Ok l -> length l = length prev.
Proof.
  induction prev as [|p prev IH]; intros L l H; cbn [shuffle_seqs] in H; inv_ok; auto.
  cbn [length]. erewrite IH; eauto.
Qed.
Lemma replace_first_length : forall a b l, length (replace_first a b l) = length l.
Proof. induction l as [|x l IH]; cbn [replace_first]; auto. destruct (x =? a); cbn [length]; auto. Qed.

Lemma upd_len : forall A i (x : A) l, length (upd i x l) = length l.
Proof. induction i; destruct l; cbn; auto. Qed.

Lemma ord_loop : forall todo i cur seqs L, shape L -> (i + todo <= length seqs)%nat ->
  (todo <= length cur)%nat -> Forall (fun p => p_loc p = 0 \/ regular p) cur ->
  ~ Exists (fun p => assocN (p_loc p) pile_table <> None) (firstn todo cur) ->
  orderly (shuffle_loop todo i cur seqs L).
Proof.
  induction todo as [|todo IH]; intros i cur seqs L S Li Lc Fc NE; cbn [shuffle_loop]; ord.
  destruct cur as [|p cur]; [cbn in Lc; lia|]. cbn [length] in Lc. apply Forall_cons_iff in Fc as [Rp Fc].
  cbn [firstn] in NE. assert (NE' : ~ Exists (fun p => assocN (p_loc p) pile_table <> None) (firstn todo cur))
    by (intros X; apply NE; right; auto).
  destruct (is_empty p) eqn:Em; [apply IH; auto; lia|].
  destruct Rp as [Z|Rp]; [unfold is_empty in Em; rewrite Z in Em; discriminate|].
  assert (Pp : is_pile p = false).
  { destruct (is_pile p) eqn:X; auto. exfalso. apply NE. left.
    apply regular_pile_loc; auto. }
  destruct (nth_error seqs i) as [si|] eqn:En; [|apply nth_error_None in En; lia].
  cbn [or_ub obind]. destruct (regular_zone_loc Rp Pp) as [_ [_ Il]].
  apply ord_bind; [apply zone_ref_orderly; [apply Rp|auto]|]. intros ra Za.
  apply ord_bind; [apply regular_zone; auto|]. intros rb Zb.
  assert (Za' : zone_of (mkPlace (p_con p) (p_loc p) si 0) = Ok ra) by exact Za.
  unfold swap_zones.
  pose proof (valid_zone_some _ _ _ S Za') as Ga. pose proof (valid_zone_some _ _ _ S Zb) as Gb.
  unfold read_zone. destruct (get_zone ra L) as [za|]; [|congruence].
  destruct (get_zone rb L) as [zb|]; [|congruence]. cbn [or_ub obind].
  apply IH; auto using shape_set_zone; try lia. rewrite upd_len, replace_first_length. lia.
Qed.

Lemma ord_shuffle : forall prev cur L, shape L -> Forall regular prev ->
  Forall (fun p => p_loc p = 0 \/ regular p) cur -> ~ wild_shuffle prev cur ->
  orderly (card_shuffle prev cur L).
Proof.
  intros prev cur L S Fp Fc NW. unfold card_shuffle. destruct prev as [|p0 prev].
  - exfalso. apply NW. left. reflexivity.
  - ord. apply ord_bind; [apply ord_seqs; auto|]. intros seqs E. apply ord_loop; auto.
    + rewrite (seqs_length _ _ E). cbn. lia.
    + destruct (Nat.le_gt_cases (length (p0 :: prev)) (length cur)); auto.
      exfalso. apply NW. right. left. auto.
    + intros X. apply NW. right. right. exact X.
Qed.

(** Too few current places, in a shuffle of the cards of one row. *)
Lemma zone_row_ok : forall con loc seq zl lim, side_of_con con <> None ->
  assocN loc zone_table = Some (zl, lim) -> seq < lim -> exists r, zone_ref con loc seq = Ok r.
Proof.
  intros con loc seq zl lim Hc Hl Lt.
  assert (Sl : exists k i, slot (mkPlace con loc seq (-1)) = Some (k, i)).
  { unfold slot. cbn [p_con p_loc p_seq p_oseq]. destruct (side_of_con con); [|congruence].
    destruct (assocN loc pile_table); [eauto|]. rewrite Hl.
    destruct (N.ltb_spec seq lim); [|lia]. cbn. eauto. }
  destruct Sl as [k [i Sl]]. destruct (slot_inv _ _ _ Sl) as [[r [P _]]|[r [_ [Z _]]]].
  - exfalso. unfold is_pile in P. cbn [p_loc] in P. clear - P Hl. unfold zone_table in Hl.
    cbn [assocN] in Hl.
    repeat match type of Hl with (if loc =? ?x then _ else _) = _ =>
      destruct (N.eqb_spec loc x) as [->|]; [discriminate P|] end. discriminate.
  - exists r. exact Z.
Qed.

Lemma replace_first_lt : forall a b l lim, b < lim -> Forall (fun x => x < lim) l ->
  Forall (fun x => x < lim) (replace_first a b l).
Proof.
  induction l as [|x l IH]; intros lim Hb H; cbn [replace_first]; auto. inversion H; subst.
  destruct (x =? a); constructor; auto.
Qed.
Lemma upd_lt : forall i b l lim, b < lim -> Forall (fun x => x < lim) l ->
  Forall (fun x => x < lim) (upd i b l).
Proof.
  induction i; intros b [|x l] lim Hb H; cbn [upd]; auto; inversion H; subst; constructor; auto.
Qed.

Lemma loop_short : forall todo i cur seqs L con loc zl lim, shape L ->
  side_of_con con <> None -> assocN loc zone_table = Some (zl, lim) ->
  (i + todo <= length seqs)%nat -> (length cur < todo)%nat ->
  Forall (fun x => x < lim) seqs ->
  Forall (fun p => p_loc p = 0 \/ p_con p = con /\ p_loc p = loc /\ p_seq p < lim) cur ->
  shuffle_loop todo i cur seqs L = UB.
Proof.
  induction todo as [|todo IH]; intros i cur seqs L con loc zl lim Sh Hc Hl Li Lc Fs Fc; [lia|].
  cbn [shuffle_loop]. destruct cur as [|p cur]; [reflexivity|]. cbn [length] in Lc.
  apply Forall_cons_iff in Fc as [Rp Fc].
  destruct (is_empty p) eqn:Em; [eapply IH; eauto; lia|].
  destruct Rp as [Z|[Ec [El Lt]]]; [unfold is_empty in Em; rewrite Z in Em; discriminate|].
  destruct (nth_error seqs i) as [si|] eqn:En; [|apply nth_error_None in En; lia].
  assert (Ls : si < lim) by (rewrite Forall_forall in Fs; apply Fs; eapply nth_error_In; eauto).
  cbn [or_ub obind]. unfold zone_of. rewrite Ec, El.
  destruct (@zone_row_ok con loc si zl lim Hc Hl Ls) as [ra Za].
  destruct (@zone_row_ok con loc (p_seq p) zl lim Hc Hl Lt) as [rb Zb].
  rewrite Za, Zb. cbn [obind]. unfold swap_zones, read_zone.
  assert (Za' : zone_of (mkPlace con loc si 0) = Ok ra) by exact Za.
  assert (Zb' : zone_of (mkPlace con loc (p_seq p) 0) = Ok rb) by exact Zb.
  pose proof (valid_zone_some _ _ _ Sh Za') as Ga. pose proof (valid_zone_some _ _ _ Sh Zb') as Gb.
  destruct (get_zone ra L) as [za|]; [|congruence].
  destruct (get_zone rb L) as [zb|]; [|congruence]. cbn [or_ub obind].
  eapply IH; eauto using shape_set_zone; try lia.
  - rewrite upd_len, replace_first_length. lia.
  - apply upd_lt; auto. apply replace_first_lt; auto.
Qed.

Lemma seqs_ok : forall prev L, shape L -> (forall p, In p prev -> occupied p L) ->
  shuffle_seqs prev L = Ok (map p_seq prev).
Proof.
  induction prev as [|p prev IH]; intros L Sh O; cbn [shuffle_seqs map]; auto.
  rewrite (proj1 (occupied_has p Sh) (O p (or_introl eq_refl))). cbn [assert_ obind].
  rewrite IH; auto. intros q H. apply O. right. auto.
Qed.

Lemma shuffle_short : forall con loc zl lim prev cur L, shape L ->
  assocN loc zone_table = Some (zl, lim) ->
  (forall p, In p prev -> p_con p = con /\ p_loc p = loc /\ occupied p L) ->
  (length cur < length prev <= 7)%nat ->
  (forall p, In p cur -> p_loc p = 0 \/ p_con p = con /\ p_loc p = loc /\ p_seq p < lim) ->
  card_shuffle prev cur L = UB.
Proof.
  intros con loc zl lim prev cur L Sh Hl Hp [Lc L7] Fc. unfold card_shuffle.
  destruct prev as [|p0 prev]; [reflexivity|].
  destruct (Hp p0 (or_introl eq_refl)) as [Ec [El [pos [Sl _]]]].
  assert (Pz : forall p, In p (p0 :: prev) -> side_of_con con <> None /\ p_seq p < lim /\ is_pile p = false).
  { intros p H. destruct (Hp p H) as [E1 [E2 [q [Q _]]]]. unfold slot in Q. rewrite E1, E2, Hl in Q.
    destruct (side_of_con con); [|discriminate]. split; [discriminate|].
    assert (Np : assocN loc pile_table = None /\ is_pile p = false).
    { unfold is_pile. rewrite E2. clear - Hl. unfold zone_table in Hl. cbn [assocN] in Hl.
      repeat match type of Hl with (if loc =? ?x then _ else _) = _ =>
        destruct (N.eqb_spec loc x) as [->|]; [split; reflexivity|] end. discriminate. }
    destruct Np as [Np Ip]. rewrite Np in Q. destruct (N.ltb_spec (p_seq p) lim); [auto|discriminate]. }
  destruct (Pz p0 (or_introl eq_refl)) as [Hc [_ Ip]]. rewrite Ip. cbn [negb assert_ obind].
  destruct (N.leb_spec (lenN (p0 :: prev)) 7) as [_|X]; [|unfold lenN in X; lia]. cbn [assert_ obind].
  rewrite (seqs_ok _ Sh) by (intros p H; apply (Hp p H)). cbn [obind].
  eapply loop_short; eauto.
  - rewrite map_length. lia.
  - apply Forall_forall. intros x H. apply in_map_iff in H. destruct H as [p [<- H]]. apply (Pz p H).
  - apply Forall_forall. exact Fc.
Qed.
