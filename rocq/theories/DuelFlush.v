(** Summoning a card with materials. *)
From Verif Require Import Base BaseProofs Place PlaceProofs Frame FrameSpec FrameLens FrameProofs FrameMove FrameOps FramePiles FrameInv FrameShuffle FrameFacts
  Msg Event EventSpec EventProofs Query QuerySpec QueryProofs.
From Verif Require Import Encode CoreMsg EncodeSpec EncodeState EncodeE2E Duel DuelView DuelMove DuelCalm.

Local Open Scope N_scope.

Lemma NoDup_remove_nth : forall A (l : list A) i x, NoDup l -> nth_error l i = Some x -> ~ In x (remove_nth i l).
Proof.
  intros A l i x Nd N H. unfold remove_nth in H. destruct (nth_error_split _ _ N) as (a & b & -> & <-).
  rewrite firstn_app, firstn_all, Nat.sub_diag in H. cbn [firstn] in H. rewrite app_nil_r in H.
  replace (S (length a)) with (length (a ++ [x]))%nat in H by (rewrite app_length; cbn; lia).
  change (x :: b) with ([x] ++ b) in H. rewrite app_assoc, skipn_app, skipn_all, Nat.sub_diag in H.
  exact (NoDup_remove_2 _ _ _ Nd H).
Qed.

(** ** The materials so far *)
Inductive attached (h : cid) (K0 : cards) : list place -> list spot -> cards -> Prop :=
| at_nil : attached h K0 [] [] K0
| at_snoc : forall defs from K d s r i k K', attached h K0 defs from K -> spot_facts d s ->
    attach h s r i k K = Some K' -> attached h K0 (defs ++ [d]) (from ++ [s]) K'.

Lemma attached_length : forall h K0 defs from K, attached h K0 defs from K -> length defs = length from.
Proof. induction 1; [reflexivity|]. rewrite !app_length. cbn. lia. Qed.

(** ** What the board shows while they are moved below the zone *)
Definition piled (z : zref) (h : cid) (K : cards) (y : cont) : list cid :=
  if cont_eq_dec y (CMats z) then k_under K h ++ seen K no_debts y else seen K no_debts y.

Record moving (z : zref) (h : cid) (n : nat) (K : cards) (f : frame card) : Prop := {
  mv_inv : inv card f;
  mv_next : f_next f = k_next K;
  mv_view : shown f (piled z h K);
  mv_info : informed K f;
  mv_under : forall x, k_under K x <> [] -> located K x;
  mv_len : length (k_under K h) = n;
  mv_bare : forall r y, In y (k_pile K r) -> y <> h -> k_under K y = []
}.

Lemma piled_other : forall z h K y, y <> CMats z -> piled z h K y = seen K no_debts y.
Proof. intros. unfold piled. destruct (cont_eq_dec _ _); congruence. Qed.
Lemma piled_same : forall z h K, piled z h K (CMats z) = k_under K h ++ seen K no_debts (CMats z).
Proof. intros. unfold piled. destruct (cont_eq_dec _ _); congruence. Qed.

Lemma moving_start : forall K f left z h r, quiet K no_debts f left -> at_rest K = true ->
  In h (k_pile K r) -> moving z h 0 K f.
Proof.
  intros K f left z h r Q R Hh. rewrite at_rest_iff in R.
  assert (B : forall r y, In y (k_pile K r) -> k_under K y = []).
  { intros r0 y I. apply In_nth_error in I. destruct I as [i I]. eapply R, I. }
  constructor; try apply Q.
  - intros y. rewrite (q_view _ _ _ _ Q y). unfold piled. rewrite (B r h Hh).
    now destruct (cont_eq_dec _ _).
  - now rewrite (B r h Hh).
  - intros. eapply B, H.
Qed.

Section Step.
Variables (z : zref) (h : cid) (n : nat) (K : cards) (f : frame card).
Hypothesis M : moving z h n K f.

Lemma mv_zone_inj : forall a b x, k_zone K a = Some x -> k_zone K b = Some x -> a = b.
Proof.
  intros a b x A B.
  assert (E : CCard a = CCard b); [|congruence].
  apply (shown_uniq_in f _ (mv_inv _ _ _ _ _ M) (mv_view _ _ _ _ _ M) _ _ x);
    rewrite piled_other by discriminate; cbn [seen]; rewrite ?A, ?B; now left.
Qed.
Lemma mv_pile_zone : forall r a x, In x (k_pile K r) -> k_zone K a = Some x -> False.
Proof.
  intros r a x A B. assert (E : CPile r = CCard a); [|discriminate].
  apply (shown_uniq_in f _ (mv_inv _ _ _ _ _ M) (mv_view _ _ _ _ _ M) _ _ x);
    rewrite piled_other by discriminate; cbn [seen]; rewrite ?B; [exact A|now left].
Qed.
Lemma mv_uniq : forall k1 k2 i1 i2 x, nth_error (piled z h K k1) i1 = Some x ->
  nth_error (piled z h K k2) i2 = Some x -> k1 = k2 /\ i1 = i2.
Proof. intros k1 k2 i1 i2 x. apply (shown_uniq f _ (mv_inv _ _ _ _ _ M) (mv_view _ _ _ _ _ M)). Qed.

(** Taking a card without materials that is not held by [h]. *)
Record taken (s : spot) (r : pref) (K' : cards) (x : cid) (k1 : cont) (i1 : nat) : Prop := {
  tk_stands : stands K no_debts s k1 i1;
  tk_on : nth_error (seen K no_debts k1) i1 = Some x;
  tk_bare : k_under K x = [];
  tk_ne : x <> h;
  tk_seen : forall y, seen K' no_debts y = vrem k1 i1 (seen K no_debts) y;
  tk_h : k_under K' h = k_under K h ++ [x];
  tk_under : forall y, y <> h -> k_under K' y <> [] -> k_under K y <> [];
  tk_pile : forall r y, In y (k_pile K' r) -> In y (k_pile K r);
  tk_rest : k_field K' = k_field K /\ k_next K' = k_next K;
  tk_in : In h (k_pile K' r)
}.

Lemma attach_takes : forall s r i k K', attach h s r i k K = Some K' -> exists x k1 i1, taken s r K' x k1 i1.
Proof.
  intros s r i k K' A.
  unfold attach in A. destruct s as [|r0 i0|z0|r0 i0 m|z0 m]; try discriminate A;
    (destruct (card_on _ K) as [x|] eqn:On; cbn [obind_] in A; [|discriminate A]).
  - (* a card of a pile *)
    cbn [card_on] in On. cbn [take_out] in A. set (K1 := with_pile r0 (remove_nth i0 (k_pile K r0)) K) in *.
    destruct (nth_error (k_pile K1 r) i) as [h'|] eqn:Nh; [|discriminate A].
    unfold guard in A. destruct (_ && _) eqn:G; [|discriminate A]. injection A as <-.
    apply andb_prop in G. destruct G as [G Gk]. apply andb_prop in G. destruct G as [Gh Gx].
    apply N.eqb_eq in Gh. subst h'. apply no_mats_true in Gx.
    assert (Sub : forall r1 y, In y (k_pile K1 r1) -> In y (k_pile K r1)).
    { intros r1 y. unfold K1, with_pile, set_at. cbn [k_pile]. destruct (pref_eq_dec r1 r0) as [->|]; auto. apply In_remove_In. }
    assert (Hin := nth_error_In _ _ Nh).
    assert (Hz : forall a, k_zone K a <> Some h) by (intros a E; exact (mv_pile_zone _ _ _ (Sub _ _ Hin) E)).
    assert (Nd : NoDup (k_pile K r0)).
    { rewrite NoDup_nth_error. intros a b La E. destruct (nth_error (k_pile K r0) a) as [y|] eqn:Ea.
      - apply (mv_uniq (CPile r0) (CPile r0) a b y); rewrite piled_other by discriminate; cbn [seen]; congruence.
      - apply nth_error_None in Ea. lia. }
    assert (Ne : x <> h).
    { intros ->. unfold K1, with_pile, set_at in Hin. cbn [k_pile] in Hin.
      destruct (pref_eq_dec r r0) as [->|Nr].
      - clear - On Hin Nd. apply (NoDup_remove_nth _ _ _ _ Nd On Hin).
      - apply nth_error_In in On. apply Nr.
        assert (E : CPile r = CPile r0); [|congruence].
        apply (shown_uniq_in f _ (mv_inv _ _ _ _ _ M) (mv_view _ _ _ _ _ M) _ _ h);
          rewrite piled_other by discriminate; cbn [seen]; assumption. }
    exists x, (CPile r0), i0. constructor; auto.
    + constructor.
    + intros y. destruct y as [r1|a|a]; cbn [seen with_under k_pile k_zone k_under]; unfold vrem.
      * unfold K1, with_pile, set_at. cbn [k_pile seen].
        destruct (pref_eq_dec r1 r0) as [->|Nr]; destruct (cont_eq_dec _ _); congruence.
      * destruct (cont_eq_dec _ _); [discriminate|]. reflexivity.
      * destruct (cont_eq_dec _ _); [discriminate|]. change (k_zone K1 a) with (k_zone K a). cbn [seen].
        destruct (k_zone K a) as [u|] eqn:Za; [|reflexivity]. rewrite set_at_ne; [reflexivity|]. intros ->. exact (Hz _ Za).
    + cbn [with_under k_under]. now rewrite set_at_eq.
    + intros y Ny. cbn [with_under k_under]. now rewrite set_at_ne by exact Ny.
  - (* a card on the field *)
    cbn [card_on] in On. cbn [take_out] in A. set (K1 := with_zone z0 None K) in *.
    destruct (nth_error (k_pile K1 r) i) as [h'|] eqn:Nh; [|discriminate A].
    unfold guard in A. destruct (_ && _) eqn:G; [|discriminate A]. injection A as <-.
    apply andb_prop in G. destruct G as [G Gk]. apply andb_prop in G. destruct G as [Gh Gx].
    apply N.eqb_eq in Gh. subst h'. apply no_mats_true in Gx.
    assert (Hin := nth_error_In _ _ Nh).
    assert (Hz : forall a, k_zone K a <> Some h) by (intros a E; exact (mv_pile_zone r _ _ Hin E)).
    exists x, (CCard z0), 0%nat. constructor; auto.
    + constructor.
    + cbn [seen]. now rewrite On.
    + congruence.
    + intros y. destruct y as [r1|a|a]; cbn [seen with_under k_pile k_zone k_under]; unfold vrem.
      * destruct (cont_eq_dec _ _); [discriminate|]. reflexivity.
      * unfold K1, with_zone, set_at. cbn [k_zone seen].
        destruct (zref_eq_dec a z0) as [->|Na]; destruct (cont_eq_dec _ _); try congruence. now rewrite On.
      * destruct (cont_eq_dec _ _); [discriminate|]. unfold K1, with_zone, set_at at 1. cbn [k_zone k_under seen].
        destruct (zref_eq_dec a z0) as [->|Na]; [rewrite On, Gx; reflexivity|].
        destruct (k_zone K a) as [u|] eqn:Za; [|reflexivity]. rewrite set_at_ne; [reflexivity|]. intros ->. exact (Hz _ Za).
    + cbn [with_under k_under]. now rewrite set_at_eq.
    + intros y Ny. cbn [with_under k_under]. now rewrite set_at_ne by exact Ny.
  - (* a material *)
    cbn [card_on holder_of] in On. cbn [take_out holder_of] in A.
    destruct (k_zone K z0) as [g|] eqn:Zg; [|discriminate On].
    set (K1 := with_under g (remove_nth m (k_under K g)) K) in *.
    destruct (nth_error (k_pile K1 r) i) as [h'|] eqn:Nh; [|discriminate A].
    unfold guard in A. destruct (_ && _) eqn:G; [|discriminate A]. injection A as <-.
    apply andb_prop in G. destruct G as [G Gk]. apply andb_prop in G. destruct G as [Gh Gx].
    apply N.eqb_eq in Gh. subst h'. apply no_mats_true in Gx.
    assert (Hin := nth_error_In _ _ Nh).
    assert (Hz : forall a, k_zone K a <> Some h) by (intros a E; exact (mv_pile_zone r _ _ Hin E)).
    assert (Ng : g <> h) by (intros ->; exact (Hz _ Zg)).
    assert (Ux : k_under K1 h = k_under K h).
    { unfold K1. cbn [with_under k_under]. rewrite set_at_ne; [reflexivity|congruence]. }
    assert (On' : nth_error (seen K no_debts (CMats z0)) m = Some x) by (cbn [seen]; now rewrite Zg).
    exists x, (CMats z0), m. constructor; auto.
    + constructor.
    + intros ->. assert (Y : In h (piled z h K (CMats z0))).
      { unfold piled. apply nth_error_In in On'. destruct (cont_eq_dec _ _); [apply in_or_app; now right|exact On']. }
      assert (E : CPile r = CMats z0); [|discriminate].
      apply (shown_uniq_in f _ (mv_inv _ _ _ _ _ M) (mv_view _ _ _ _ _ M) _ _ h); [|exact Y].
      rewrite piled_other by discriminate. exact Hin.
    + intros y. destruct y as [r1|a|a]; cbn [seen with_under k_pile k_zone k_under]; unfold vrem.
      * destruct (cont_eq_dec _ _); [discriminate|]. reflexivity.
      * destruct (cont_eq_dec _ _); [discriminate|]. reflexivity.
      * change (k_zone K1 a) with (k_zone K a). cbn [seen]. rewrite Zg.
        destruct (cont_eq_dec _ _) as [E|E].
        -- injection E as ->. rewrite Zg. rewrite set_at_ne by exact Ng. unfold K1. cbn [with_under k_under]. apply set_at_eq.
        -- destruct (k_zone K a) as [u|] eqn:Za; [|reflexivity]. rewrite set_at_ne; [|intros ->; exact (Hz _ Za)].
           unfold K1. cbn [with_under k_under]. rewrite set_at_ne; [reflexivity|]. intros ->. apply E. f_equal.
           eapply mv_zone_inj; eauto.
    + change (set_at N.eq_dec h (k_under K1 h ++ [x]) (k_under K1) h = k_under K h ++ [x]). rewrite set_at_eq. now rewrite Ux.
    + intros y Ny. cbn [with_under k_under]. rewrite set_at_ne by exact Ny. intros U E. apply U.
      unfold K1. cbn [with_under k_under]. unfold set_at. destruct (N.eq_dec y g) as [->|]; [|exact E].
      rewrite E. destruct m; reflexivity.
Qed.

Lemma attach_view : forall s r K' x k1 i1, taken s r K' x k1 i1 -> (k1 = CMats z -> n = 0%nat) ->
  forall y, piled z h K' y = vins (CMats z) n x (vrem k1 i1 (piled z h K)) y.
Proof.
  intros s r K' x k1 i1 T Z y. destruct T as [_ T1 _ _ T2 T3 _ _ _ _]. assert (L := mv_len _ _ _ _ _ M).
  unfold vins. destruct (cont_eq_dec y (CMats z)) as [->|Ny].
  - rewrite piled_same, T2, T3. unfold vrem. destruct (cont_eq_dec (CMats z) k1) as [E|E].
    + rewrite <- E, piled_same. rewrite (Z (eq_sym E)) in *. destruct (k_under K h); [|discriminate]. reflexivity.
    + rewrite piled_same. rewrite <- L. unfold insert_nth. rewrite firstn_app, firstn_all, Nat.sub_diag.
      rewrite skipn_app, skipn_all, Nat.sub_diag. cbn [firstn skipn app]. rewrite <- !app_assoc. reflexivity.
  - rewrite piled_other by exact Ny. rewrite T2. unfold vrem. destruct (cont_eq_dec y k1) as [->|].
    + rewrite piled_other; auto.
    + rewrite piled_other; auto.
Qed.

Lemma attach_moving : forall s r K' x k1 i1 f', taken s r K' x k1 i1 -> inv card f' -> f_next f' = f_next f ->
  f_heap f' = f_heap f -> shown f' (piled z h K') -> moving z h (S n) K' f'.
Proof.
  intros s r K' x k1 i1 f' T I N H V.
  assert (T0 := T). destruct T0 as [T7 T1 T8 T9 T2 T3 T4 T5 [T6 T6'] T10].
  constructor; auto.
  - rewrite N, T6'. apply M.
  - intros y c Hy fl. rewrite T6. apply (mv_info _ _ _ _ _ M). unfold card_of in *. now rewrite <- H.
  - intros y U. destruct (N.eq_dec y h) as [->|Ny]; [left; eauto|].
    apply T4 in U; [|exact Ny]. assert (Nx : y <> x) by congruence.
    apply (mv_under _ _ _ _ _ M) in U. apply (located_seen K no_debts) in U. destruct U as [c [U C]].
    apply (located_seen K' no_debts). exists c. split; [|exact C]. rewrite T2. unfold vrem.
    destruct (cont_eq_dec c k1) as [->|]; [|exact U]. eapply In_remove_other; eauto.
  - rewrite T3, app_length. cbn. rewrite (mv_len _ _ _ _ _ M). lia.
  - intros r0 y Iy Ny. destruct (k_under K' y) eqn:E; [reflexivity|]. exfalso.
    apply (T4 y Ny); [congruence|]. eapply (mv_bare _ _ _ _ _ M); eauto.
Qed.
End Step.

Lemma set_oseq_slot : forall q z n, zone_named q = Some z ->
  slot (set_oseq (Z.of_nat n) q) = Some (CMats z, n) /\ pile_place_ok (set_oseq (Z.of_nat n) q).
Proof.
  intros q z n Zp. unfold zone_named in Zp.
  destruct (side_of_con (p_con q)) as [w|] eqn:W; [|discriminate].
  destruct (assocN (p_loc q) zone_table) as [[zl lim]|] eqn:A; [|discriminate].
  assert (B : assocN (p_loc q) pile_table = None).
  { clear - A. unfold zone_table in A. cbn [assocN] in A.
    repeat match type of A with (if ?a =? ?b then _ else _) = _ =>
      destruct (N.eqb_spec a b) as [->|]; [reflexivity|] end. discriminate. }
  split.
  - unfold slot, set_oseq. cbn [p_con p_loc p_seq p_oseq]. rewrite W.
    destruct (p_seq q <? lim) eqn:Lm; [|discriminate]. injection Zp as <-.
    rewrite B, A. rewrite Lm. destruct (Z.ltb_spec (Z.of_nat n) 0); [lia|]. now rewrite Nat2Z.id.
  - intros X. exfalso. apply X. unfold set_oseq. cbn [p_loc].
    clear - A. unfold zone_table in A. cbn [assocN] in A.
    repeat match type of A with (if ?a =? ?b then _ else _) = _ =>
      destruct (N.eqb_spec a b) as [->|]; [reflexivity|] end. discriminate.
Qed.

Lemma zone_named_same : forall a b, p_con a = p_con b -> p_loc a = p_loc b -> p_seq a = p_seq b ->
  zone_named a = zone_named b.
Proof. intros a b A B C. unfold zone_named. now rewrite A, B, C. Qed.

Lemma flush_one : forall z h n K f s r i k K' d curr, moving z h n K f -> attach h s r i k K = Some K' ->
  spot_facts d s -> spot_facts curr (InZone z) -> (from_zone z s = true -> n = 0%nat) ->
  exists f', do_moves (plain_fo card0) (deferred_moves curr (Z.of_nat n) [d]) f = Ok f' /\ moving z h (S n) K' f'.
Proof.
  intros z h n K f s r i k K' d curr M A Fd Fc Fz.
  destruct (attach_takes _ _ _ _ _ M _ _ _ _ _ A) as (x & k1 & i1 & T).
  assert (St := tk_stands _ _ _ _ _ _ _ _ T). assert (Ns : match s with UnderPile _ _ _ => False | _ => True end).
  { unfold attach in A. destruct s; auto. discriminate. }
  assert (Z : k1 = CMats z -> n = 0%nat).
  { intros ->. apply Fz. inversion St; subst; [|contradiction]. unfold from_zone.
    destruct (zref_eq_dec z z); congruence. }
  assert (V := attach_view _ _ _ _ _ M _ _ _ _ _ _ T Z).
  assert (Sd : slot d = Some (k1, i1) /\ pile_place_ok d).
  { destruct Fd as [_ _ _ P1 P2 _ _ _]. destruct St; auto. contradiction. }
  destruct Sd as [Sd Pd].
  destruct (set_oseq_slot curr z n (sf_zone _ _ Fc)) as [Sc Pc].
  assert (On : nth_error (piled z h K k1) i1 = Some x).
  { assert (X := tk_on _ _ _ _ _ _ _ _ T). unfold piled. destruct (cont_eq_dec _ _) as [E|]; [|exact X].
    assert (L := mv_len _ _ _ _ _ M). rewrite (Z E) in L. destruct (k_under K h); [exact X|discriminate]. }
  cbn [deferred_moves]. destruct (_ && _) eqn:E.
  - (* it is there already *)
    apply andb_prop in E. destruct E as [E E4]. apply andb_prop in E. destruct E as [E E3].
    apply andb_prop in E. destruct E as [E1 E2].
    apply Z.eqb_eq in E1, E4. apply N.eqb_eq in E2, E3.
    assert (Sm : d = set_oseq (Z.of_nat n) curr).
    { destruct d. unfold set_oseq. cbn in *. congruence. }
    rewrite Sm, Sc in Sd. injection Sd as <- <-. specialize (Z eq_refl). subst n.
    exists f. split; [reflexivity|].
    apply (attach_moving _ _ _ _ _ M _ _ _ _ _ _ f T); auto; try apply M.
    intros y. rewrite (mv_view _ _ _ _ _ M y). f_equal. rewrite V. unfold vins, vrem.
    destruct (cont_eq_dec y (CMats z)) as [->|]; [|destruct (cont_eq_dec y (CMats z)); congruence].
    destruct (cont_eq_dec _ _); [|congruence]. destruct (piled z h K (CMats z)); [discriminate|].
    injection On as ->. reflexivity.
  - destruct (frame_move f (piled z h K) d (set_oseq (Z.of_nat n) curr) k1 i1 (CMats z) n x (mv_inv _ _ _ _ _ M) (mv_view _ _ _ _ _ M)
      Sd Sc Pd Pc On) as (f' & F & I' & N' & H' & V'); auto.
    { destruct k1; exact I. }
    { unfold vrem. assert (L := mv_len _ _ _ _ _ M). destruct (cont_eq_dec _ _) as [X|_].
      - rewrite (Z (eq_sym X)). lia.
      - rewrite piled_same, app_length. lia. }
    exists f'. split.
    { unfold do_moves. cbn [ofold po_a po_b]. rewrite F. reflexivity. }
    apply (attach_moving _ _ _ _ _ M _ _ _ _ _ _ f' T); auto.
    intros y. rewrite V'. f_equal. symmetry. apply V.
Qed.

Lemma deferred_app : forall curr a b n, deferred_moves curr n (a ++ b) =
  deferred_moves curr n a ++ deferred_moves curr (n + Z.of_nat (length a)) b.
Proof.
  intros curr a. induction a as [|d a IH]; intros b n.
  - cbn [app deferred_moves length]. now rewrite Z.add_0_r.
  - cbn [app deferred_moves length]. rewrite IH.
    replace (n + 1 + Z.of_nat (length a))%Z with (n + Z.of_nat (S (length a)))%Z by lia.
    destruct (_ && _); reflexivity.
Qed.

Lemma attached_in : forall h K0 defs from K, attached h K0 defs from K -> from <> [] ->
  exists r, In h (k_pile K0 r).
Proof.
  intros h K0 defs from K A. induction A as [|defs from K d s r i k K' A IH F At]; [congruence|].
  intros _. destruct A as [|defs from K1 d1 s1 r1 i1 k1 K A1 F1 At1].
  - exists r. unfold attach in At.
    assert (G : forall x, match nth_error (k_pile (take_out s K0) r) i with
      | Some h' => guard ((h' =? h) && no_mats x K0 && (k =? length (k_under (take_out s K0) h))%nat)
           (Some (with_under h (k_under (take_out s K0) h ++ [x]) (take_out s K0)))
      | None => None end = Some K' -> In h (k_pile K0 r)).
    { intros x E. destruct (nth_error _ _) as [h'|] eqn:N; [|discriminate].
      unfold guard in E. destruct (_ && _) eqn:B; [|discriminate].
      apply andb_prop in B. destruct B as [B _]. apply andb_prop in B. destruct B as [B _].
      apply N.eqb_eq in B. subst h'. apply nth_error_In in N.
      destruct s as [|r0 i0|z0|r0 i0 m|z0 m]; cbn [take_out] in N; auto.
      - unfold with_pile, set_at in N. cbn [k_pile] in N. destruct (pref_eq_dec r r0) as [->|]; auto. now apply In_remove_In in N.
      - destruct (holder_of _ _); auto.
      - destruct (holder_of _ _); auto. }
    destruct s; try discriminate At; destruct (card_on _ K0); try discriminate At; eapply G, At.
  - apply IH. destruct from; discriminate.
Qed.

Lemma flush_moves : forall h K0 defs from K z f left curr, attached h K0 defs from K ->
  quiet K0 no_debts f left -> at_rest K0 = true -> from <> [] -> mats_fine z from = true ->
  spot_facts curr (InZone z) ->
  exists f', do_moves (plain_fo card0) (deferred_moves curr 0 defs) f = Ok f' /\ moving z h (length defs) K f'.
Proof.
  intros h K0 defs from K z f left curr A Q R Ne Mf Fc.
  destruct (attached_in _ _ _ _ _ A Ne) as [r0 Hr]. assert (M0 := moving_start _ _ _ z _ _ Q R Hr).
  clear Ne Hr. induction A as [|defs from K d s r i k K' A IH F At].
  - exists f. split; [reflexivity|exact M0].
  - assert (Ff : mats_fine z from = true /\ (from_zone z s = true -> length defs = 0%nat)).
    { rewrite (attached_length _ _ _ _ _ A). unfold mats_fine in *. destruct from as [|s0 from]; [split; reflexivity|].
      cbn [app tl] in Mf. rewrite existsb_app in Mf. cbn [existsb] in Mf. cbn [tl].
      destruct (existsb (from_zone z) from); [discriminate|]. destruct (from_zone z s); [discriminate|].
      split; [reflexivity|discriminate]. }
    destruct Ff as [Ff Fn]. destruct (IH Ff) as [f1 [D1 M1]].
    destruct (flush_one _ _ _ _ _ _ _ _ _ _ _ _ M1 At F Fc Fn) as [f2 [D2 M2]].
    exists f2. split.
    + rewrite deferred_app. unfold do_moves in *. rewrite ofold_app, D1. exact D2.
    + rewrite app_length, Nat.add_comm. exact M2.
Qed.

(** The summoned card follows. *)
Lemma flush_last : forall z h n K f left r i prev curr, moving z h n K f ->
  nth_error (k_pile K r) i = Some h -> k_zone K z = None ->
  spot_facts prev (InPile r i) -> spot_facts curr (InZone z) ->
  exists f', fo_move (plain_fo card0) prev curr f = Ok f' /\
    quiet (with_zone z (Some h) (take_out (InPile r i) K)) no_debts f' left.
Proof.
  intros z h n K f left r i prev curr M Nh Zn Fp Fc.
  assert (V := mv_view _ _ _ _ _ M). assert (I := mv_inv _ _ _ _ _ M).
  set (K' := with_zone z (Some h) (take_out (InPile r i) K)).
  destruct (frame_move f (piled z h K) prev curr (CPile r) i (CCard z) 0 h I V
    (sf_slot _ _ Fp) (sf_slot _ _ Fc) (sf_ok _ _ Fp) (sf_ok _ _ Fc)) as (f' & F & I' & N' & H' & V'); auto.
  { lia. }
  { unfold vrem. destruct (cont_eq_dec _ _); [discriminate|]. rewrite piled_other by discriminate. cbn [seen]. now rewrite Zn. }
  exists f'. split; [exact F|].
  assert (Hz : forall a, k_zone K a <> Some h).
  { intros a E. exact (mv_pile_zone _ _ _ _ _ M _ _ _ (nth_error_In _ _ Nh) E). }
  assert (Sn : forall y, seen K' no_debts y = vins (CCard z) 0 h (vrem (CPile r) i (piled z h K)) y).
  { intros y. unfold vins, vrem. destruct y as [r1|a|a].
    - destruct (cont_eq_dec (CPile r1) (CCard z)); [discriminate|].
      unfold K'. cbn [seen with_zone take_out with_pile k_pile]. unfold set_at.
      destruct (pref_eq_dec r1 r) as [->|Nr]; destruct (cont_eq_dec _ _); try congruence;
        rewrite piled_other by discriminate; reflexivity.
    - unfold K'. cbn [seen with_zone take_out with_pile k_zone]. unfold set_at.
      destruct (zref_eq_dec a z) as [->|Na]; destruct (cont_eq_dec (CCard _) (CCard _)); try congruence.
      + destruct (cont_eq_dec _ _); [discriminate|]. rewrite piled_other by discriminate. cbn [seen]. now rewrite Zn.
      + destruct (cont_eq_dec _ _); [discriminate|]. rewrite piled_other by discriminate. reflexivity.
    - destruct (cont_eq_dec (CMats a) (CCard z)); [discriminate|]. destruct (cont_eq_dec (CMats a) (CPile r)); [discriminate|].
      unfold K'. cbn [seen with_zone take_out with_pile k_zone k_under]. unfold set_at.
      destruct (zref_eq_dec a z) as [->|Na].
      + rewrite piled_same. cbn [seen]. rewrite Zn. now rewrite app_nil_r.
      + rewrite piled_other by congruence. reflexivity. }
  constructor; auto.
  - rewrite N'. apply M.
  - intros y. rewrite V'. f_equal. symmetry. apply Sn.
  - intros y c Hy fl. apply (mv_info _ _ _ _ _ M). unfold card_of in *. now rewrite <- H'.
  - intros y U. apply (located_seen K' no_debts). change (k_under K' y) with (k_under K y) in U.
    destruct (N.eq_dec y h) as [->|Ny].
    + exists (CCard z). split; [|exact Logic.I]. rewrite Sn. unfold vins. destruct (cont_eq_dec _ _); [|congruence]. now left.
    + apply (mv_under _ _ _ _ _ M) in U. apply (located_seen K no_debts) in U. destruct U as [c [U C]].
      exists c. split; [|exact C]. rewrite Sn. unfold vins, vrem.
      destruct (cont_eq_dec c (CCard z)) as [->|]; [cbn [seen] in U; rewrite Zn in U; contradiction|].
      destruct (cont_eq_dec c (CPile r)) as [->|].
      * rewrite piled_other by discriminate. eapply In_remove_other; eauto.
      * destruct c; [rewrite piled_other by discriminate; exact U|rewrite piled_other by discriminate; exact U|contradiction].
  - discriminate.
  - intros r1 i1 y Ny U. exfalso. change (k_under K' y) with (k_under K y) in U.
    assert (Iy : In y (k_pile K r1) /\ y <> h).
    { unfold K' in Ny. cbn [with_zone take_out with_pile k_pile] in Ny. unfold set_at in Ny.
      assert (Nd : NoDup (k_pile K r)).
      { rewrite NoDup_nth_error. intros a b La E. destruct (nth_error (k_pile K r) a) as [w|] eqn:Ea.
        - apply (mv_uniq _ _ _ _ _ M (CPile r) (CPile r) a b w); rewrite piled_other by discriminate; cbn [seen]; congruence.
        - apply nth_error_None in Ea. lia. }
      apply nth_error_In in Ny. destruct (pref_eq_dec r1 r) as [->|Nr].
      - split; [now apply In_remove_In in Ny|]. intros ->. exact (NoDup_remove_nth _ _ _ _ Nd Nh Ny).
      - split; [exact Ny|]. intros ->. apply Nr. apply nth_error_In in Nh.
        assert (E : CPile r1 = CPile r); [|congruence].
        apply (shown_uniq_in f _ I V _ _ h); rewrite piled_other by discriminate; assumption. }
    apply U. destruct Iy. eapply (mv_bare _ _ _ _ _ M); eauto.
Qed.
