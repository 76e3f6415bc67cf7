(** Proofs about copied and moved frames. *)
From Verif Require Import Base BaseProofs Place PlaceProofs Frame FrameSpec FrameLens
  FrameProofs FrameMove FrameOps FramePiles FrameInv FrameFacts Copy.

Local Open Scope N_scope.

Section Copy.
Variable C : Type.
Variable c0 : C.
Notation frame := (frame C).
Notation inv := (inv C).

(** The cards of the original, those of the copy, and where new addresses
    begin. *)
Variables H H' : list (N * C).
Variable base : N.
Hypothesis Hlt : forall id, In id (map fst H) -> id < base.
Hypothesis Hdis : forall id, In id (map fst H) -> ~ In id (map fst H').

Definition rel (f g : frame) : Prop :=
  f_next g = f_next f /\ f_lay g = f_lay f /\ base <= f_next f /\
  exists A, f_heap f = A ++ H /\ f_heap g = A ++ H' /\ forall id, In id (map fst A) -> base <= id.

Definition gone (f : frame) : Prop := exists id, In id (map fst H) /\ ~ live f id.

(** What an operation does to both. *)
Definition both (F F' : frame -> outcome frame) (f g f' : frame) : Prop :=
  (gone f -> gone f') /\ ((exists g', F' g = Ok g' /\ rel f' g') \/ (F' g = Abort /\ gone f')).

Lemma rel_lay f g L : rel f g -> rel (with_lay f L) (with_lay g L).
Proof. intros (A & B & D & E). repeat split; assumption. Qed.

Lemma heap_remove_app c (A X : list (N * C)) :
  (In c (map fst A) -> exists A', (forall Y, heap_remove c (A ++ Y) = Some (A' ++ Y)) /\
     forall id, In id (map fst A') -> In id (map fst A)) /\
  (~ In c (map fst A) -> heap_remove c (A ++ X) = option_map (app A) (heap_remove c X)).
Proof.
  induction A as [|(a, v) A (IH1 & IH2)]; cbn.
  - split; [tauto|]. intros _. now destruct (heap_remove c X).
  - destruct (N.eqb_spec a c) as [->|Ne]; split.
    + intros _. exists A. split; [reflexivity|auto].
    + intros K. destruct K. now left.
    + intros [K|K]; [congruence|]. destruct (IH1 K) as (A' & E & S). exists ((a, v) :: A'). split.
      * intros Y. cbn. now rewrite E.
      * cbn. intros id [K'|K']; auto.
    + intros K. rewrite IH2 by auto. now destruct (heap_remove c X).
Qed.

Lemma heap_remove_none c (h : list (N * C)) : ~ In c (map fst h) -> heap_remove c h = None.
Proof.
  intros K. destruct (heap_remove c h) eqn:E; [|reflexivity]. apply heap_remove_Some in E as (a & v & b & -> & _).
  destruct K. rewrite map_app, in_app_iff. right. now left.
Qed.

Lemma gone_less (f f' : frame) : (forall id, live f' id -> live f id) -> gone f -> gone f'.
Proof. intros K (id & A & B). exists id. auto. Qed.

Lemma destruct_both c f g f' : rel f g -> NoDup (map fst (f_heap f)) -> destruct_card c f = Ok f' ->
  both (destruct_card c) (destruct_card c) f g f'.
Proof.
  intros (En & El & Hb & A & Ef & Eg & Ha) Nd D. apply destruct_card_Ok in D as (h & Hr & ->).
  assert (Sub : forall id, In id (map fst h) -> live f id) by (intros id; eapply in_remove; eauto).
  split; [apply gone_less; exact Sub|]. unfold destruct_card. rewrite Eg. rewrite Ef in Hr.
  destruct (in_dec N.eq_dec c (map fst A)) as [Hc|Hc].
  - left. destruct (proj1 (heap_remove_app c A H) Hc) as (A' & E & S). rewrite E in Hr |- *.
    injection Hr as <-. eexists. split; [reflexivity|]. repeat split; cbn; auto. exists A'. repeat split; auto.
  - rewrite (proj2 (heap_remove_app c A H) Hc) in Hr. rewrite (proj2 (heap_remove_app c A H') Hc).
    destruct (heap_remove c H) as [h1|] eqn:E; [|discriminate].
    assert (Hi : In c (map fst H)).
    { apply heap_remove_Some in E as (a & v & b & -> & _). rewrite map_app, in_app_iff. right. now left. }
    rewrite heap_remove_none by now apply Hdis. right. split; [reflexivity|]. exists c. split; [exact Hi|].
    cbn in Hr. injection Hr as <-. unfold live. cbn. rewrite map_app, in_app_iff. intros [K|K]; [contradiction|].
    rewrite Ef, map_app in Nd. apply heap_remove_Some in E as (a & v & b & -> & ->).
    rewrite map_app in Nd, K. cbn in Nd. rewrite app_assoc in Nd. apply NoDup_remove_2 in Nd. apply Nd.
    rewrite !in_app_iff in *. tauto.
Qed.

Lemma destruct_nodup c (f f' : frame) : NoDup (map fst (f_heap f)) -> destruct_card c f = Ok f' ->
  NoDup (map fst (f_heap f')).
Proof. intros Nd D. apply destruct_card_Ok in D as (h & Hr & ->). eapply nodup_remove; eauto. Qed.

Lemma destruct_all_both l : forall f g f', rel f g -> NoDup (map fst (f_heap f)) -> destruct_all l f = Ok f' ->
  both (destruct_all l) (destruct_all l) f g f'.
Proof.
  induction l as [|c l IH]; intros f g f' R Nd D; cbn in D.
  - injection D as <-. split; [auto|]. left. exists g. split; [reflexivity|exact R].
  - destruct c as [id|]; cbn in D; [|discriminate].
    apply obind_Ok in D as (f1 & D1 & D). assert (Nd1 := destruct_nodup _ _ _ Nd D1).
    destruct (destruct_both _ _ _ _ R Nd D1) as (G1 & K1).
    assert (L1 : gone f1 -> gone f').
    { apply gone_less. intros x. apply (proj2 (proj2 (proj2 (proj2 (destruct_all_Ok C _ _ _ D))))). }
    split; [auto|]. cbn. destruct K1 as [(g1 & -> & R1)|(-> & K1)]; cbn.
    + exact (proj2 (IH _ _ _ R1 Nd1 D)).
    + right. auto.
Qed.

Lemma shrink_both n r : forall f g f', rel f g -> inv f -> shrink_pile n r f = Ok f' ->
  both (shrink_pile n r) (shrink_pile n r) f g f'.
Proof.
  induction n as [|n IH]; intros f g f' R I D.
  - cbn in D. injection D as <-. split; [auto|]. left. exists g. split; [reflexivity|exact R].
  - assert (D0 := D). cbn [shrink_pile] in D. apply obind_Ok in D as (c & Ec & D). apply obind_Ok in D as (id & Ed & D).
    apply obind_Ok in D as (f1 & D1 & D). destruct (destruct_both _ _ _ _ R (inv_nodup _ _ I) D1) as (G1 & K1).
    assert (R' := R). destruct R' as (_ & El & _).
    assert (S1 : shrink_pile 1 r f = Ok (with_lay f1 (set_pile r (firstn (length (get_pile r (f_lay f)) - 1)
      (get_pile r (f_lay f))) (f_lay f1)))).
    { cbn [shrink_pile]. rewrite Ec. cbn [obind]. rewrite Ed. cbn [obind]. rewrite D1. reflexivity. }
    assert (I1 := inv_shrink _ _ _ _ _ I S1).
    assert (F1 : f_lay f1 = f_lay f) by (apply destruct_card_Ok in D1 as (h & _ & ->); reflexivity).
    destruct K1 as [(g1 & Dg & R1)|(Dg & K1)].
    + assert (F2 : f_lay g1 = f_lay g) by (apply destruct_card_Ok in Dg as (h & _ & ->); reflexivity).
      rewrite F1 in D, I1. apply (rel_lay _ _ (set_pile r (firstn (length (get_pile r (f_lay f)) - 1)
        (get_pile r (f_lay f))) (f_lay f))) in R1.
      destruct (IH _ _ _ R1 I1 D) as (G2 & K2). split.
      * intros K. apply G2. destruct (G1 K) as (x & X & Y). exists x. auto.
      * cbn [shrink_pile]. rewrite El, Ec. cbn [obind]. rewrite Ed. cbn [obind]. rewrite Dg. cbn [obind].
        rewrite F2, El. exact K2.
    + assert (K : gone f').
      { revert K1. apply gone_less. intros x X.
        assert (Le : forall m (h h' : frame), shrink_pile m r h = Ok h' -> live h' x -> live h x).
        { clear. induction m as [|m IHm]; intros h h' E L; cbn [shrink_pile] in E; [congruence|].
          apply obind_Ok in E as (c & _ & E). apply obind_Ok in E as (i & _ & E). apply obind_Ok in E as (h1 & E1 & E).
          apply (IHm _ _ E) in L. apply destruct_card_Ok in E1 as (hh & Hr & ->). eapply in_remove; eauto. }
        exact (Le _ _ _ D X). }
      split; [auto|]. right. cbn [shrink_pile]. rewrite El, Ec. cbn [obind]. rewrite Ed. cbn [obind]. now rewrite Dg.
Qed.

Lemma clear_pile_both r f g f' : rel f g -> inv f -> clear_pile r f = Ok f' ->
  both (@clear_pile C r) (clear_pile r) f g f'.
Proof.
  intros R I D. unfold clear_pile in *. apply obind_Ok in D as (f1 & D1 & D). injection D as <-.
  assert (F1 := proj1 (destruct_all_Ok C _ _ _ D1)). destruct (destruct_all_both _ _ _ _ R (inv_nodup _ _ I) D1) as (G & K).
  split; [exact G|]. assert (El : f_lay g = f_lay f) by apply R. rewrite El.
  destruct K as [(g1 & Dg & R1)|(Dg & K)]; rewrite Dg; cbn [obind].
  - left. eexists. split; [reflexivity|]. replace (f_lay g1) with (f_lay f1) by (symmetry; apply R1). now apply rel_lay.
  - right. auto.
Qed.

Lemma clear_zone_both r f g f' : rel f g -> inv f -> clear_zone r f = Ok f' ->
  both (@clear_zone C r) (clear_zone r) f g f'.
Proof.
  intros R I D. assert (El : f_lay g = f_lay f) by apply R. unfold clear_zone, both in *. rewrite El.
  apply obind_Ok in D as (z & Ez & D). rewrite Ez. cbn [obind].
  apply obind_Ok in D as (f1 & D1 & D). apply obind_Ok in D as (f2 & D2 & D). injection D as <-.
  assert (B1 : both (fun f => match z_card z with Some id => destruct_card id f | None => Ok f end)
                    (fun f => match z_card z with Some id => destruct_card id f | None => Ok f end) f g f1).
  { destruct (z_card z); [now apply destruct_both; [|apply inv_nodup|]|]. injection D1 as <-.
    split; [auto|]. left. exists g. split; [reflexivity|exact R]. }
  assert (Nd1 : NoDup (map fst (f_heap f1))).
  { destruct (z_card z); [eapply destruct_nodup; [apply I|exact D1]|]. injection D1 as <-. apply I. }
  assert (L2 : gone f1 -> gone (with_lay f2 (set_zone r zone0 (f_lay f2)))).
  { apply gone_less. intros x. apply (proj2 (proj2 (proj2 (proj2 (destruct_all_Ok C _ _ _ D2))))). }
  destruct B1 as (G1 & K1). split; [auto|].
  destruct K1 as [(g1 & Dg & R1)|(Dg & K1)]; rewrite Dg; cbn [obind]; [|right; auto].
  destruct (destruct_all_both _ _ _ _ R1 Nd1 D2) as (G2 & [(g2 & Dg2 & R2)|(Dg2 & K2)]); rewrite Dg2; cbn [obind].
  - left. eexists. split; [reflexivity|]. replace (f_lay g2) with (f_lay f2) by (symmetry; apply R2). now apply rel_lay.
  - right. split; [reflexivity|]. destruct K2 as (x & X & Y). exists x. auto.
Qed.

Lemma ofold_gone A (F : A -> frame -> outcome frame) l :
  (forall a f f', F a f = Ok f' -> gone f -> gone f') ->
  forall f f', ofold F l f = Ok f' -> gone f -> gone f'.
Proof.
  intros M. induction l as [|a l IH]; intros f f' D K; cbn in D; [congruence|].
  apply obind_Ok in D as (f1 & D1 & D). eauto.
Qed.

Lemma ofold_both A (F : A -> frame -> outcome frame) l :
  (forall a f, In a l -> inv f -> exists f', F a f = Ok f' /\ inv f') ->
  (forall a f g f', rel f g -> inv f -> F a f = Ok f' -> both (F a) (F a) f g f') ->
  (forall a f f', F a f = Ok f' -> gone f -> gone f') ->
  forall f g f', rel f g -> inv f -> ofold F l f = Ok f' -> both (ofold F l) (ofold F l) f g f'.
Proof.
  intros T S M. induction l as [|a l IH]; intros f g f' R I D; cbn in D.
  - injection D as <-. split; [auto|]. left. exists g. split; [reflexivity|exact R].
  - apply obind_Ok in D as (f1 & D1 & D). destruct (T a f (or_introl eq_refl) I) as (f1' & E & I1).
    assert (f1' = f1) by congruence. subst f1'. destruct (S _ _ _ _ R I D1) as (G1 & K1).
    assert (T' : forall b h, In b l -> inv h -> exists h', F b h = Ok h' /\ inv h') by (intros; apply T; auto; now right).
    assert (L := ofold_gone _ F l M _ _ D).
    split; [auto|]. cbn. destruct K1 as [(g1 & Dg & R1)|(Dg & K1)]; rewrite Dg; cbn [obind]; [|right; auto].
    exact (proj2 (IH T' _ _ _ R1 I1 D)).
Qed.

Lemma clear_pile_gone r f f' : clear_pile r f = Ok f' -> gone f -> gone f'.
Proof.
  intros E. apply gone_less. unfold clear_pile in E. apply obind_Ok in E as (h1 & E1 & E). injection E as <-.
  intros x. apply (proj2 (proj2 (proj2 (proj2 (destruct_all_Ok C _ _ _ E1))))).
Qed.

Lemma clear_zone_gone r f f' : clear_zone r f = Ok f' -> gone f -> gone f'.
Proof.
  intros E. apply gone_less. unfold clear_zone in E. apply obind_Ok in E as (z & _ & E).
  apply obind_Ok in E as (h1 & E1 & E). apply obind_Ok in E as (h2 & E2 & E). injection E as <-. intros x X.
  apply (proj2 (proj2 (proj2 (proj2 (destruct_all_Ok C _ _ _ E2))))) in X. destruct (z_card z).
  - apply destruct_card_Ok in E1 as (hh & Hr & ->). eapply in_remove; eauto.
  - injection E1 as <-. exact X.
Qed.

Definition clear_over (lp : list pref) (lz : list zref) (f : frame) : outcome frame :=
  let! f1 := ofold (@clear_pile C) lp f in ofold (@clear_zone C) lz f1.

Lemma clear_over_both lp lz f g f' : (forall r, In r lz -> valid_z r) -> rel f g -> inv f ->
  clear_over lp lz f = Ok f' -> both (clear_over lp lz) (clear_over lp lz) f g f'.
Proof.
  intros V R I D. unfold clear_over in D. apply obind_Ok in D as (f1 & D1 & D).
  assert (I1 : inv f1).
  { destruct (ofold_run_pile C lp f I) as (f1' & E & I1 & _). assert (f1' = f1) by congruence. now subst. }
  assert (B1 : both (ofold (@clear_pile C) lp) (ofold (@clear_pile C) lp) f g f1).
  { apply ofold_both; auto using clear_pile_both.
    - intros r h _ Ih. destruct (clear_pile_run C r h Ih) as (h' & E & K & _). eauto.
    - exact clear_pile_gone. }
  assert (B2 : forall g1, rel f1 g1 -> both (ofold (@clear_zone C) lz) (ofold (@clear_zone C) lz) f1 g1 f').
  { intros g1 R1. apply ofold_both; auto using clear_zone_both.
    - intros r h Vr Ih. destruct (clear_zone_run C r h Ih (V r Vr)) as (h' & E & K & _). eauto.
    - exact clear_zone_gone. }
  destruct B1 as (G1 & K1).
  assert (L2 := ofold_gone _ (@clear_zone C) lz clear_zone_gone _ _ D).
  split; [auto|]. unfold clear_over. destruct K1 as [(g1 & Dg & R1)|(Dg & K1)]; rewrite Dg; cbn [obind]; [|right; auto].
  exact (proj2 (B2 g1 R1)).
Qed.

Lemma clear_both f g f' : rel f g -> inv f -> clear f = Ok f' -> both (@clear C) (@clear C) f g f'.
Proof. exact (clear_over_both all_prefs all_zrefs f g f' (fun r => proj1 (in_all_zrefs r))). Qed.

Definition onward (x : outcome frame) (y : outcome frame) (f : frame) : Prop :=
  match x with
  | Ok f' => (gone f -> gone f') /\ ((exists g', y = Ok g' /\ rel f' g') \/ (y = Abort /\ gone f'))
  | Abort => y = Abort
  | UB => y = UB
  | Diverge => y = Diverge
  end.

Lemma onward_lift op f g : rel f g -> onward (lift op f) (lift op g) f.
Proof.
  intros R. unfold lift. replace (f_lay g) with (f_lay f) by (symmetry; apply R).
  destruct (op (f_lay f)) as [L| | |]; cbn; auto. split; [auto|]. left. eexists. split; [reflexivity|].
  now apply rel_lay.
Qed.

Lemma construct_rel f g : rel f g ->
  rel (snd (construct_card c0 f)) (snd (construct_card c0 g)) /\ (gone f -> gone (snd (construct_card c0 f))).
Proof.
  intros (En & El & Hb & A & Ef & Eg & Ha). cbn. split.
  - repeat split; cbn; [congruence|exact El|lia|]. exists ((f_next f, c0) :: A). rewrite Ef, Eg, En. repeat split.
    cbn. intros id [<-|K]; auto.
  - intros (x & X & Y). exists x. split; [exact X|]. unfold live. cbn. intros [K|K]; [|contradiction].
    apply Hlt in X. lia.
Qed.

Lemma grow_rel n r : forall f g, rel f g ->
  rel (grow_pile c0 n r f) (grow_pile c0 n r g) /\ (gone f -> gone (grow_pile c0 n r f)).
Proof.
  induction n as [|n IH]; intros f g R; [cbn; auto|]. destruct (construct_rel f g R) as (R1 & G1).
  assert (El : f_lay g = f_lay f) by apply R. assert (En : f_next g = f_next f) by apply R.
  cbn [grow_pile]. unfold construct_card in *. cbn [snd] in R1, G1. cbn [f_lay].
  rewrite El. rewrite En in R1 |- *.
  apply (rel_lay _ _ (set_pile r (get_pile r (f_lay f) ++ [Some (f_next f)]) (f_lay f))) in R1.
  destruct (IH _ _ R1) as (R2 & G2). split; [exact R2|]. intros K. apply G2. destruct (G1 K) as (x & X & Y). exists x. auto.
Qed.

Lemma step_onward o f g : rel f g -> inv f -> onward (fstep c0 o f) (shared_step c0 H o g) f.
Proof.
  intros R I. assert (El : f_lay g = f_lay f) by apply R. assert (En : f_next g = f_next f) by apply R.
  destruct o as [p|p|a b|a b|pr cu|p n|a n b rv|a b|]; cbn [fstep shared_step]; try now apply onward_lift.
  - destruct (construct_rel f g R) as (R1 & G1). unfold card_add, construct_card in *. cbn [snd] in R1, G1.
    cbn [f_lay]. rewrite El. rewrite En in R1 |- *. destruct (card_insert p (f_next f) (f_lay f)) as [L| | |]; cbn; auto.
    split; [exact G1|]. left. eexists. split; [reflexivity|].
    exact (rel_lay _ _ L R1).
  - unfold card_remove. rewrite El. destruct (has_card p (f_lay f)) as [h| | |]; cbn [obind]; try reflexivity.
    destruct h; cbn [assert_ obind]; [|reflexivity].
    destruct (card_erase p (f_lay f)) as [(c, L)| | |] eqn:Ce; cbn [obind]; try reflexivity.
    assert (Lc : live f c).
    { apply card_erase_slot in Ce; [|apply I]. destruct Ce as (k & i & _ & Ek & _).
      eapply heap_live; eauto. }
    destruct (heap_remove_In _ _ _ Lc) as (h & Hr).
    assert (D : destruct_card c (with_lay f L) = Ok (mkFrame (f_next f) h L)).
    { unfold destruct_card. cbn. now rewrite Hr. }
    rewrite D. destruct (destruct_both c _ _ _ (rel_lay _ _ L R) (inv_nodup _ _ I) D) as (G & K). split; [|exact K].
    intros (x & X & Y). apply G. exists x. auto.
  - unfold f_card_move, shared_move. rewrite El.
    destruct (card_move a b (f_lay f)) as [(c, L)| | |] eqn:Cm; cbn [obind]; try reflexivity.
    assert (Lc : live f c).
    { destruct (lay_ok_move _ _ _ _ _ (inv_lay _ _ I) Cm) as (K & Cn).
      destruct (card_move_slots _ _ _ _ _ (proj1 (inv_lay _ _ I)) Cm) as (k1 & i1 & k2 & i2 & S1 & S2).
      destruct (card_move_view _ _ _ _ _ (proj1 (inv_lay _ _ I)) Cm) as (_ & (k & i) & Sk & Ok_).
      assert (X : (0 < cntL L c)%nat).
      { pose proof (cnt_le_cntL k L c (proj1 K)) as Le. assert (V : valid_cont k) by (apply slot_valid in Sk; exact Sk).
        specialize (Le V). assert (Q : In (Some c) (contents k L)) by (eapply nth_error_In; exact Ok_).
        apply cnt_In in Q. lia. }
      rewrite Cn, (inv_cnt _ _ I) in X. apply (count_occ_In N.eq_dec). exact X. }
    destruct R as (En' & El' & Hb & A & Ef & Eg & Ha).
    assert (Gf : heap_get c (f_heap f) <> None) by (apply heap_get_In; exact Lc).
    assert (Gg : heap_get c (f_heap g ++ H) <> None).
    { apply heap_get_In. unfold live in Lc. rewrite Ef, map_app, in_app_iff in Lc. rewrite Eg, !map_app, !in_app_iff. tauto. }
    destruct (heap_get c (f_heap f)); [|congruence]. destruct (heap_get c (f_heap g ++ H)); [|congruence]. cbn.
    split; [auto|]. left. eexists. split; [reflexivity|]. apply rel_lay. repeat split; auto. exists A. auto.
  - destruct (pile_of p) as [r| | |] eqn:Pr.
    2-4: unfold pile_resize; rewrite Pr; destruct (is_pile p); reflexivity.
    destruct (proj1 (pile_of_iff _ _) Pr) as (i & Sl).
    destruct (pile_resize_spec C c0 p n r i f I Sl) as (f' & new & D & _). rewrite D.
    unfold pile_resize in D |- *. rewrite El. destruct (is_pile p); cbn [assert_ obind] in *; [|discriminate].
    rewrite Pr in *. cbn [obind] in *. cbv zeta in *. apply obind_Ok in D as (f1 & D1 & D).
    apply obind_Ok in D as (u & Dv & D). injection D as ->.
    assert (B : both (fun _ => Ok f') (fun g => if lenN (get_pile r (f_lay f)) <? n
        then Ok (grow_pile c0 (N.to_nat (n - lenN (get_pile r (f_lay f)))) r g)
        else if n <? lenN (get_pile r (f_lay f)) then shrink_pile (N.to_nat (lenN (get_pile r (f_lay f)) - n)) r g
        else Ok g) f g f').
    { destruct (lenN (get_pile r (f_lay f)) <? n).
      - injection D1 as <-. destruct (grow_rel (N.to_nat (n - lenN (get_pile r (f_lay f)))) r f g R) as (R1 & G1).
        split; [exact G1|]. left. eauto.
      - destruct (n <? lenN (get_pile r (f_lay f))).
        + exact (shrink_both _ _ _ _ _ R I D1).
        + injection D1 as <-. split; [auto|]. left. eauto. }
    destruct B as (G & [(g1 & Eg & R1)|(Eg & K)]); rewrite Eg; cbn [obind]; (split; [exact G|]).
    + left. exists g1. split; [|exact R1]. replace (f_lay g1) with (f_lay f') by (symmetry; apply R1). now rewrite Dv.
    + right. auto.
  - pose proof (clear_run C f I) as D. rewrite D. exact (clear_both _ _ _ R I D).
Qed.

(** No operation brings back an address given out before. *)
Lemma shrink_less x r : forall m (h h' : frame), shrink_pile m r h = Ok h' ->
  f_next h' = f_next h /\ (live h' x -> live h x).
Proof.
  induction m as [|m IHm]; intros h h' E; cbn [shrink_pile] in E; [injection E as <-; auto|].
  apply obind_Ok in E as (c & _ & E). apply obind_Ok in E as (i & _ & E). apply obind_Ok in E as (h1 & E1 & E).
  destruct (IHm _ _ E) as (N1 & K). apply destruct_card_Ok in E1 as (hh & Hr & ->). split; [exact N1|].
  intros L. apply K in L. eapply in_remove; eauto.
Qed.

Lemma grow_less x r : forall m (h : frame),
  f_next h <= f_next (grow_pile c0 m r h) /\ (x < f_next h -> live (grow_pile c0 m r h) x -> live h x).
Proof.
  induction m as [|m IHm]; intros h; cbn [grow_pile construct_card]; [split; [lia|auto]|].
  match goal with |- context [grow_pile c0 m r ?h1] => destruct (IHm h1) as (N1 & K) end.
  cbn [f_next with_lay] in *. split; [lia|]. intros Lt L. apply K in L; [|lia].
  unfold live in *. cbn in L. destruct L as [L|L]; [lia|exact L].
Qed.

Lemma step_less o f f' x : inv f -> fstep c0 o f = Ok f' ->
  f_next f <= f_next f' /\ (x < f_next f -> live f' x -> live f x).
Proof.
  intros I E. destruct o as [p|p|a b|a b|pr cu|p n|a n b rv|a b|]; cbn [fstep] in E;
    try (unfold lift in E; apply obind_Ok in E as (L & _ & E); injection E as <-; split; [apply N.le_refl|auto]).
  - apply obind_Ok in E as ((c, f1) & E1 & E). injection E as <-. unfold card_add in E1. cbn in E1.
    apply obind_Ok in E1 as (L & _ & E1). injection E1 as _ <-. cbn. split; [lia|]. intros Lt [K|K]; [lia|exact K].
  - unfold card_remove in E. apply obind_Ok in E as (h & _ & E). apply obind_Ok in E as (u & _ & E).
    apply obind_Ok in E as ((c, L) & _ & E). apply destruct_card_Ok in E as (hh & Hr & ->). split; [apply N.le_refl|].
    intros _ K. eapply in_remove; eauto.
  - apply obind_Ok in E as ((c, f1) & E1 & E). injection E as <-. unfold f_card_move in E1.
    apply obind_Ok in E1 as ((c1, L) & _ & E1). apply obind_Ok in E1 as (v & _ & E1). injection E1 as _ <-.
    split; [apply N.le_refl|auto].
  - unfold pile_resize in E. apply obind_Ok in E as (u & _ & E). apply obind_Ok in E as (r & _ & E). cbv zeta in E.
    apply obind_Ok in E as (f1 & D1 & E). apply obind_Ok in E as (v & _ & E). injection E as <-.
    destruct (_ <? n) in D1.
    + injection D1 as <-. apply grow_less.
    + destruct (n <? _) in D1.
      * destruct (shrink_less x _ _ _ _ D1) as (N1 & K). split; [lia|auto].
      * injection D1 as <-. split; [apply N.le_refl|auto].
  - rewrite (clear_run C f I) in E. injection E as <-. split; [apply N.le_refl|]. intros _ [].
Qed.

Lemma run_less ops x : forall f f', inv f -> frun c0 ops f = Ok f' -> x < f_next f -> live f' x -> live f x.
Proof.
  unfold frun. induction ops as [|o ops IH]; intros f f' I E Lt L; cbn [ofold] in E; [congruence|].
  apply obind_Ok in E as (f1 & E1 & E). destruct (step_less o f f1 x I E1) as (N1 & K).
  apply K; [exact Lt|]. apply (IH f1 f'); [eapply inv_step; eauto|exact E|lia|exact L].
Qed.

Lemma run_onward ops : forall f g, rel f g -> inv f ->
  match frun c0 ops f with
  | Ok f' => (gone f -> gone f') /\
      ((exists g', shared_run c0 H ops g = Ok g' /\ rel f' g') \/ (shared_run c0 H ops g = Abort /\ gone f'))
  | x => shared_run c0 H ops g = x \/ shared_run c0 H ops g = Abort
  end.
Proof.
  unfold frun, shared_run. induction ops as [|o ops IH]; intros f g R I; cbn [ofold].
  - split; [auto|]. left. eauto.
  - pose proof (step_onward o f g R I) as St. unfold onward in St.
    destruct (fstep c0 o f) as [f1| | |] eqn:E; cbn [obind]; try (rewrite St; cbn; auto; fail).
    assert (I1 := inv_step _ _ _ _ _ I E). destruct St as (G1 & [(g1 & Eg & R1)|(Eg & K1)]); rewrite Eg; cbn [obind].
    + specialize (IH f1 g1 R1 I1). destruct (ofold (fstep c0) ops f1); try exact IH. destruct IH as (G2 & K2). auto.
    + destruct (ofold (fstep c0) ops f1) as [f2| | |] eqn:E2; auto.
      assert (G2 : gone f2); [|auto].
      destruct K1 as (x & X & Y). exists x. split; [exact X|]. intros L. apply Y.
      apply (run_less ops x f1 f2 I1 E2); [|exact L]. destruct (step_less o f f1 x I E) as (N1 & _).
      assert (base <= f_next f) by apply R. specialize (Hlt x X). lia.
Qed.

End Copy.

(** ** The copy *)
Section Copied.
Variable C : Type.
Variable c0 : C.

Lemma copy_cards_ids next (h : list (N * C)) id : In id (map fst (copy_cards next h)) <-> next <= id < next + lenN h.
Proof.
  revert next. induction h as [|x h IH]; intros next; cbn [copy_cards map In].
  - unfold lenN. cbn. lia.
  - rewrite IH. unfold lenN. cbn [length fst]. lia.
Qed.

Lemma copy_cards_values next (h : list (N * C)) : map snd (copy_cards next h) = map snd h.
Proof. revert next. induction h as [|x h IH]; intros next; cbn; [reflexivity|now rewrite IH]. Qed.

Lemma copy_inv (f : frame C) : inv C f -> inv C (fst (copy_frame f)).
Proof.
  intros [A B D E]. split; cbn; auto. intros id K. apply E in K. lia.
Qed.

Lemma copy_rel (f : frame C) : inv C f ->
  rel C (f_heap f) (copy_cards (f_next f) (f_heap f)) (f_next f + lenN (f_heap f))
    (fst (copy_frame f)) (snd (copy_frame f)).
Proof. intros I. repeat split; cbn; [lia|]. exists []. repeat split. intros id []. Qed.

Lemma copy_run (f : frame C) ops : inv C f ->
  match frun c0 ops (fst (copy_frame f)) with
  | Ok f' =>
      (exists g', shared_run c0 (f_heap f) ops (snd (copy_frame f)) = Ok g' /\ f_lay g' = f_lay f' /\
         forall id, live f id -> live f' id) \/
      (shared_run c0 (f_heap f) ops (snd (copy_frame f)) = Abort /\ exists id, live f id /\ ~ live f' id)
  | x => shared_run c0 (f_heap f) ops (snd (copy_frame f)) = x \/
         shared_run c0 (f_heap f) ops (snd (copy_frame f)) = Abort
  end.
Proof.
  intros I.
  assert (Hlt : forall id, In id (map fst (f_heap f)) -> id < f_next f + lenN (f_heap f)).
  { intros id K. apply (inv_lt _ _ I) in K. lia. }
  assert (Hdis : forall id, In id (map fst (f_heap f)) -> ~ In id (map fst (copy_cards (f_next f) (f_heap f)))).
  { intros id K. apply (inv_lt _ _ I) in K. rewrite copy_cards_ids. lia. }
  pose proof (run_onward C c0 _ _ _ Hlt Hdis ops _ _ (copy_rel f I) (copy_inv f I)) as R.
  destruct (frun c0 ops (fst (copy_frame f))) as [f'| | |]; auto.
  destruct R as (_ & [(g' & E & R)|(E & K)]).
  - left. exists g'. destruct R as (_ & El & _ & A & Ef & _). repeat split; auto.
    intros id K. unfold live in *. rewrite Ef, map_app, in_app_iff. now right.
  - right. split; [exact E|exact K].
Qed.

Lemma heap_get_skip id (A B : list (N * C)) : ~ In id (map fst A) -> heap_get id (A ++ B) = heap_get id B.
Proof.
  intros K. induction A as [|(a, v) A IH]; cbn in *; [reflexivity|].
  destruct (N.eqb_spec a id); [tauto|apply IH; tauto].
Qed.

(** ** Moved-from frames *)
Lemma zref_eq_dec (a b : zref) : {a = b} + {a <> b}.
Proof. repeat decide equality. Qed.

Lemma left_nth l i : nth_error (map left_zone l) i = option_map left_zone (nth_error l i).
Proof. revert i. induction l; intros []; cbn; auto. Qed.

Lemma moved_zone (f : frame C) r : get_zone r (f_lay (moved_from f)) = option_map left_zone (get_zone r (f_lay f)).
Proof. destruct r as (([], []), i); cbn; apply left_nth. Qed.

Lemma moved_contents (f : frame C) k : contents k (f_lay (moved_from f)) =
  match k with CCard r => contents k (f_lay f) | _ => [] end.
Proof.
  destruct k as [r|r|r]; [destruct r as ([], []); reflexivity| |]; cbn [contents]; rewrite moved_zone;
    now destruct (get_zone r (f_lay f)).
Qed.

Lemma moved_shape (f : frame C) : shape (f_lay f) -> shape (f_lay (moved_from f)).
Proof. intros K c z. specialize (K c z). destruct c, z; cbn in *; now rewrite map_length. Qed.

Lemma moved_piles l (f : frame C) : ofold (@clear_pile C) l (moved_from f) = Ok (moved_from f).
Proof. induction l as [|(c, p) l IH]; cbn [ofold]; [reflexivity|]. destruct c, p; exact IH. Qed.

Lemma moved_empty (f : frame C) : shape (f_lay f) -> (forall r, contents (CCard r) (f_lay f) = []) ->
  f_lay (moved_from f) = layout0.
Proof.
  intros S K. apply contents_ext; [now apply moved_shape|exact shape0|]. intros k _.
  assert (E : contents k layout0 = []).
  { destruct (contents k layout0) eqn:Q; [reflexivity|]. exfalso.
    destruct (valid_cont_dec k) as [V|V].
    - destruct k as [[[] []]|[[[] []] i]|[[[] []] i]]; simpl in V; try discriminate;
        do 8 (destruct i; [discriminate|try lia]).
    - rewrite contents_invalid in Q; auto using shape0. discriminate. }
  rewrite E, moved_contents. destruct k; auto.
Qed.

Lemma clear_stays l : forall f g : frame C, f_heap f = [] -> ofold (@clear_zone C) l f = Ok g ->
  forall r, In r l -> contents (CCard r) (f_lay f) = [].
Proof.
  induction l as [|a l IH]; intros f g Hp D r [].
  - subst a. cbn [ofold] in D. apply obind_Ok in D as (f1 & D & _). unfold clear_zone in D.
    apply obind_Ok in D as (z & Ez & D). apply obind_Ok in D as (f2 & D & _). unfold read_zone in Ez. cbn [contents].
    destruct (get_zone r (f_lay f)) as [z'|]; [|reflexivity]. cbn in Ez. injection Ez as ->.
    destruct (z_card z); [|reflexivity]. unfold destruct_card in D. rewrite Hp in D. discriminate.
  - cbn [ofold] in D. apply obind_Ok in D as (f1 & D1 & D). unfold clear_zone in D1.
    apply obind_Ok in D1 as (z & Ez & D1). apply obind_Ok in D1 as (f2 & D2 & D1). apply obind_Ok in D1 as (f3 & D3 & D1).
    injection D1 as <-. destruct (z_card z) eqn:Zc.
    { unfold destruct_card in D2. rewrite Hp in D2. discriminate. }
    injection D2 as <-. destruct (destruct_all_Ok C _ _ _ D3) as (El & _ & _ & _ & Sub).
    assert (Hp3 : f_heap f3 = []).
    { rewrite Hp in Sub. destruct (f_heap f3) as [|y t]; [reflexivity|]. destruct (Sub (fst y)). now left. }
    specialize (IH (with_lay f3 (set_zone a zone0 (f_lay f3))) g Hp3 D r H). cbn [f_lay with_lay] in IH. rewrite El in IH.
    cbn [contents] in IH |- *. unfold read_zone in Ez. destruct (get_zone a (f_lay f)) as [z'|] eqn:Ga; [|discriminate].
    cbn in Ez. injection Ez as ->. destruct (zref_eq_dec a r) as [->|Ne].
    + rewrite Ga, Zc. reflexivity.
    + now rewrite get_set_zone_other in IH by exact Ne.
Qed.

Lemma clear_zones_abort l : forall f : frame C, f_heap f = [] -> (forall r, In r l -> get_zone r (f_lay f) <> None) ->
  (forall r, contents (CMats r) (f_lay f) = []) ->
  (exists g, ofold (@clear_zone C) l f = Ok g) \/ ofold (@clear_zone C) l f = Abort.
Proof.
  induction l as [|a l IH]; intros f Hp G M; cbn [ofold]; [eauto|].
  destruct (get_zone a (f_lay f)) as [z|] eqn:Ga; [|destruct (G a (or_introl eq_refl) Ga)].
  assert (Mz : z_mats z = []) by (specialize (M a); cbn in M; now rewrite Ga in M).
  unfold clear_zone at 1 3, read_zone. rewrite Ga. cbn [or_ub obind]. destruct (z_card z).
  - right. unfold destruct_card. now rewrite Hp.
  - cbn [obind]. rewrite Mz. cbn [destruct_all obind]. apply IH; [exact Hp| |].
    + intros r K E. cbn in E. destruct (zref_eq_dec a r) as [->|Ne].
      * rewrite get_set_zone_same in E by congruence. discriminate.
      * rewrite get_set_zone_other in E by exact Ne. now apply (G r (or_intror K)).
    + intros r. cbn. destruct (zref_eq_dec a r) as [->|Ne].
      * rewrite get_set_zone_same by congruence. reflexivity.
      * rewrite get_set_zone_other by exact Ne. exact (M r).
Qed.

End Copied.
