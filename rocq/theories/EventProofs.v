(** Proofs about parse_event on the server's board. *)
From Verif Require Import Base BaseProofs Place Frame FrameSpec FrameProofs FrameMove FrameOps FrameInv
  FrameFacts Limbo LimboSpec Msg Event EventSpec.


Section Plain.
Variable C : Type.
Variable c0 : C.
Implicit Types f : frame C.
Implicit Types b : pboard C.

Definition cnts f : cont -> nat := fun k => length (contents k (f_lay f)).
Definition fresh f : Prop := Forall (fun x => snd x = c0) (f_heap f).

Lemma count_add_ext : forall p k k', (forall x, k x = k' x) -> forall x, count_add p k x = count_add p k' x.
Proof.
  intros p k k' E x. unfold count_add. destruct (slot p) as [[c i]|]; auto.
  destruct (cont_eq_dec x c); auto.
Qed.
Lemma count_resize_ext : forall o k k', (forall x, k x = k' x) ->
  forall x, count_resize o k x = count_resize o k' x.
Proof.
  intros o k k' E x. unfold count_resize. destruct (slot _) as [[c i]|]; auto.
  destruct (cont_eq_dec x c); auto.
Qed.
Lemma fold_ext : forall A (g : A -> (cont -> nat) -> cont -> nat) l k k',
  (forall a k k', (forall x, k x = k' x) -> forall x, g a k x = g a k' x) ->
  (forall x, k x = k' x) ->
  forall x, fold_left (fun k a => g a k) l k x = fold_left (fun k a => g a k) l k' x.
Proof. induction l; intros k k' G E x; simpl; auto. Qed.

Lemma adds_ok_ext : forall l k k', (forall x, k x = k' x) -> adds_ok l k -> adds_ok l k'.
Proof.
  induction l as [|p l IH]; intros k k' E; simpl; auto. intros [[c [i [S [H1 H2]]]] R]. split.
  - exists c, i. rewrite <- E. auto.
  - eapply IH; [|exact R]. apply count_add_ext. auto.
Qed.

Lemma add_step : forall p f, inv _ f ->
  ((exists id f', card_add c0 p f = Ok (id, f')) <->
   exists c i, slot p = Some (c, i) /\ (i <= cnts f c)%nat /\
     match c with CCard _ => cnts f c = O | _ => True end).
Proof.
  intros p f I. split.
  - intros [id [f' H]]. destruct (card_add_Ok C c0 p f id f' I H) as [k [i [S [[R1 R2] _]]]].
    exists k, i. split; auto. split; auto. destruct k; auto. unfold cnts. rewrite R2. auto.
  - intros [k [i [S [R1 R2]]]]. apply (card_add_succeeds C c0 p f k i); auto. split; auto.
    destruct k; auto. unfold cnts in R2. apply length_zero_iff_nil. auto.
Qed.

Lemma add_counts : forall p f id f', inv _ f -> card_add c0 p f = Ok (id, f') ->
  forall x, cnts f' x = count_add p (cnts f) x.
Proof.
  intros p f id f' I H x. destruct (card_add_Ok C c0 p f id f' I H) as [k [i [S [[R1 _] [_ [_ [_ [_ V]]]]]]]].
  unfold cnts, count_add. rewrite S. specialize (V x). unfold view, view_insert, view_set in V.
  destruct (cont_eq_dec x k) as [->|N].
  - destruct (cont_eq_dec k k); [|congruence]. rewrite V. apply insert_nth_length.
  - destruct (cont_eq_dec x k); [congruence|]. rewrite V. auto.
Qed.

Lemma fresh_add : forall p f id f', card_add c0 p f = Ok (id, f') -> fresh f -> fresh f'.
Proof.
  intros p f id f' H F. unfold card_add, construct_card in H. inv_ok. unfold fresh. simpl.
  constructor; auto.
Qed.

Lemma adds_run : forall l f, inv _ f ->
  ((exists f', do_adds (plain_fo c0) l f = Ok f') <-> adds_ok l (cnts f)) /\
  forall f', do_adds (plain_fo c0) l f = Ok f' ->
    inv _ f' /\ (fresh f -> fresh f') /\
    forall x, cnts f' x = fold_left (fun k p => count_add p k) l (cnts f) x.
Proof.
  induction l as [|p l IH]; intros f I.
  - split; [simpl; split; eauto; intros _; exists f; reflexivity|].
    intros f' H. injection H as <-. auto.
  - unfold do_adds in *. cbn [ofold fo_add plain_fo adds_ok].
    destruct (card_add c0 p f) as [[id f1]| | |] eqn:A; cbn [obind].
    + assert (I1 : inv _ f1) by (eapply inv_add; eauto).
      assert (Cn := add_counts _ _ _ _ I A). destruct (IH f1 I1) as [IH1 IH2]. split.
      * rewrite IH1. rewrite <- add_step by auto. split.
        -- intros H. split; eauto. eapply adds_ok_ext; [|exact H]. auto.
        -- intros [_ H]. eapply adds_ok_ext; [|exact H]. intros. symmetry. auto.
      * intros f' H. destruct (IH2 f' H) as [J [Fr K]]. split; auto. split.
        -- intros X. apply Fr. eapply fresh_add; eauto.
        -- intros x. rewrite K. simpl. apply (fold_ext _ count_add); auto.
           intros. apply count_add_ext; auto.
    + split; [|intros ? H; discriminate]. rewrite <- add_step by auto.
      split; [intros [? H]; discriminate|intros [[? [? H]] _]; congruence].
    + split; [|intros ? H; discriminate]. rewrite <- add_step by auto.
      split; [intros [? H]; discriminate|intros [[? [? H]] _]; congruence].
    + split; [|intros ? H; discriminate]. rewrite <- add_step by auto.
      split; [intros [? H]; discriminate|intros [[? [? H]] _]; congruence].
Qed.

Lemma fresh_remove : forall c (h h' : list (N * C)), heap_remove c h = Some h' ->
  Forall (fun x => snd x = c0) h -> Forall (fun x => snd x = c0) h'.
Proof.
  intros c h h' H F. apply heap_remove_Some in H. destruct H as [a [v [d [-> ->]]]].
  rewrite Forall_app in *. destruct F as [F1 F2]. inversion F2; subst. auto.
Qed.

Lemma fresh_grow : forall n r f, fresh f -> fresh (grow_pile c0 n r f).
Proof.
  induction n; intros r f F; simpl; auto. apply IHn. unfold fresh. simpl. constructor; auto.
Qed.

Lemma fresh_shrink : forall n r f f', shrink_pile n r f = Ok f' -> fresh f -> fresh f'.
Proof.
  induction n; intros r f f' H F; cbn [shrink_pile] in H; [injection H as <-; auto|].
  apply obind_Ok in H as [c [_ H]]. apply obind_Ok in H as [id [_ H]]. apply obind_Ok in H as [f1 [D H]].
  apply IHn in H; auto. unfold fresh. simpl. apply destruct_card_Ok in D.
  destruct D as [h [D ->]]. simpl. eapply fresh_remove; eauto.
Qed.

Lemma fresh_resize : forall p n f f', pile_resize c0 p n f = Ok f' -> fresh f -> fresh f'.
Proof.
  intros p n f f' H F. unfold pile_resize in H. apply obind_Ok in H as [_ [_ H]].
  apply obind_Ok in H as [r [_ H]]. apply obind_Ok in H as [f1 [H1 H]].
  apply obind_Ok in H as [_ [_ H]]. injection H as <-.
  destruct (_ <? _)%N; [injection H1 as <-; apply fresh_grow; auto|].
  destruct (_ <? _)%N; [eapply fresh_shrink; eauto|injection H1 as <-; auto].
Qed.

Lemma resize_step : forall o f, inv _ f ->
  ((exists f', pile_resize c0 (rz_place o) (rz_count o) f = Ok f') <->
   exists r i, slot (rz_place o) = Some (CPile r, i)).
Proof.
  intros o f I. split.
  - intros [f' H]. unfold pile_resize in H. apply obind_Ok in H as [_ [_ H]].
    apply obind_Ok in H as [r [P _]]. apply pile_of_iff in P. eauto.
  - intros [r [i S]]. destruct (pile_resize_spec C c0 _ (rz_count o) r i f I S) as [f' [new [E _]]]. eauto.
Qed.

Lemma resizes_run : forall l f, inv _ f ->
  ((exists f', do_resizes (plain_fo c0) l f = Ok f') <->
   Forall (fun o => exists r i, slot (rz_place o) = Some (CPile r, i)) l) /\
  forall f', do_resizes (plain_fo c0) l f = Ok f' ->
    inv _ f' /\ (fresh f -> fresh f') /\
    forall x, cnts f' x = fold_left (fun k o => count_resize o k) l (cnts f) x.
Proof.
  induction l as [|o l IH]; intros f I.
  - split; [simpl; split; auto; intros _; exists f; reflexivity|].
    intros f' H. injection H as <-. auto.
  - unfold do_resizes in *. cbn [ofold fo_resize plain_fo].
    pose proof (resize_step o f I) as St.
    destruct (pile_resize c0 (rz_place o) (rz_count o) f) as [f1| | |] eqn:A; cbn [obind];
      try (split; [|intros ? H; discriminate]; split;
           [intros [? H]; discriminate
           |intros H; inversion H; subst; exfalso; apply St in H2; destruct H2; discriminate]).
    assert (I1 : inv _ f1) by (eapply inv_resize; eauto).
    destruct (proj1 St (ex_intro _ _ eq_refl)) as [r [i S]].
    destruct (IH f1 I1) as [IH1 IH2]. split.
    + rewrite IH1. split; [intros H; constructor; eauto|intros H; inversion H; auto].
    + intros f' H. destruct (IH2 f' H) as [J [Fr K]]. split; auto. split.
      * intros X. apply Fr. eapply fresh_resize; eauto.
      * intros x. rewrite K. simpl. apply (fold_ext _ count_resize); [intros; apply count_resize_ext; auto|].
        intros y. destruct (pile_resize_spec C c0 _ (rz_count o) r i f I S) as [f2 [new [E [Ln [V _]]]]].
        rewrite A in E. injection E as <-. unfold count_resize. rewrite S. unfold cnts.
        destruct (cont_eq_dec y (CPile r)) as [->|Ny]; auto.
        specialize (V y). unfold view, view_set in V.
        destruct (cont_eq_dec y (CPile r)); [congruence|]. rewrite V. reflexivity.
Qed.

Lemma cnts0 : forall (nx : N) x, cnts (mkFrame nx [] layout0) x = O.
Proof.
  intros nx x. unfold cnts. simpl f_lay.
  assert (E : contents x layout0 = []).
  { destruct x as [[[] []]|[[[] []] i]|[[[] []] i]]; try reflexivity; simpl;
    do 7 (destruct i as [|i]; [reflexivity|]); destruct i; reflexivity. }
  rewrite E. reflexivity.
Qed.

Lemma state_run : forall s b, inv _ (b_frame b) ->
  ((exists b', pparse c0 (EvBoard (BoardState s)) b = Ok b') <-> state_ok s) /\
  forall b', pparse c0 (EvBoard (BoardState s)) b = Ok b' ->
    fresh (b_frame b') /\ (forall x, cnts (b_frame b') x = described s x) /\
    inv _ (b_frame b') /\
    exists l0 l1 l, bs_lps s = l0 :: l1 :: l /\ b_lp b' = (l0, l1) /\ b_chain b' = bs_chains s /\
      b_turn b' = (if (0 <=? bs_turn_counter s)%Z then Z.to_N (bs_turn_counter s) else b_turn b) /\
      b_turn_controller b' = b_turn_controller b /\ b_phase b' = b_phase b /\ b_blocked b' = b_blocked b.
Proof.
  intros s [f ch tu tc [x0 x1] ph bl] I. cbn [b_frame b_turn b_turn_controller b_phase b_blocked] in *.
  unfold pparse. cbn [parse_event]. unfold parse_state, assign_lp, state_ok.
  change (lp_index 0) with (@Ok bool false). change (lp_index 1) with (@Ok bool true).
  destruct (bs_lps s) as [|l0 [|l1 l]] eqn:El; cbn [nth_error or_ub obind length].
  - split; [split; [intros [? H]; discriminate|lia]|discriminate].
  - split; [split; [intros [? H]; discriminate|lia]|discriminate].
  - set (b4 := set_chain _ _). unfold on_frame.
    assert (Eb : b_frame b4 = f) by (unfold b4; destruct (0 <=? _)%Z; reflexivity).
    rewrite Eb. cbn [fo_clear plain_fo]. rewrite (clear_run C f I). cbn [obind].
    set (f1 := mkFrame (f_next f) [] layout0).
    assert (I1 : inv _ f1). { eapply inv_clear; [exact I|]. apply clear_run. auto. }
    assert (F1 : fresh f1) by constructor.
    destruct (adds_run (bs_add s) f1 I1) as [A1 A2].
    assert (A3 : adds_ok (bs_add s) (cnts f1) <-> adds_ok (bs_add s) (fun _ => O)).
    { split; apply adds_ok_ext; intros; [|symmetry]; apply cnts0. }
    rewrite A3 in A1. clear A3.
    destruct (do_adds (plain_fo c0) (bs_add s) f1) as [f2| | |] eqn:D; cbn [obind];
      try (split; [|discriminate]; split; [intros [? H]; discriminate|];
           intros [_ [H _]]; apply A1 in H as [? H]; discriminate).
    destruct (A2 f2 eq_refl) as [I2 [F2 K2]].
    destruct (resizes_run (bs_resize s) f2 I2) as [R1 R2].
    destruct (do_resizes (plain_fo c0) (bs_resize s) f2) as [f3| | |] eqn:E; cbn [obind];
      try (split; [|discriminate]; split; [intros [? H]; discriminate|];
           intros [_ [_ H]]; apply R1 in H as [? H]; discriminate).
    destruct (R2 f3 eq_refl) as [I3 [F3 K3]]. split.
    + split; [intros _|eauto]. split; [lia|]. split; [apply A1; eauto|apply R1; eauto].
    + intros b' H. injection H as <-. cbn [set_frame b_frame].
      split; auto. split; [|split; auto].
      * intros x. rewrite K3. unfold described. apply (fold_ext _ count_resize).
        { intros; apply count_resize_ext; auto. }
        intros y. rewrite K2. apply (fold_ext _ count_add).
        { intros; apply count_add_ext; auto. } intros z. apply cnts0.
      * exists l0, l1, l. unfold b4. destruct (0 <=? _)%Z; repeat split.
Qed.

End Plain.

Ltac agree := unfold agree_but; cbn; repeat split; intros; try reflexivity;
  match goal with H : ~ _ |- _ => exfalso; apply H; auto 10 end.

Lemma lp_plain : forall C (c0 : C) (b : pboard C) who t,
  (forall n, t = LpRecover n -> lp_of who b + n < 2 ^ 32)%N ->
  exists b', pparse c0 (EvLp (con_of who) t) b = Ok b' /\
    Z.of_N (lp_of who b') = lp_after t (Z.of_N (lp_of who b)) /\
    lp_of (negb who) b' = lp_of (negb who) b /\ agree_but [MLp] b b'.
Proof.
  intros C c0 [f ch tu tc [x0 x1] ph bl] who t H.
  unfold lp_of, plain in *. cbn [b_lp fst snd] in *.
  destruct who; eexists; (split; [reflexivity|]); (split; [|split; [reflexivity|agree]]); cbn;
    destruct t; cbn; auto; try (destruct (N.ltb_spec x0 n)); try (destruct (N.ltb_spec x1 n)); try lia;
    unfold u32, wrap; specialize (H _ eq_refl); rewrite N.mod_small; lia.
Qed.

Lemma lp_undoable : forall C (c0 : C) (b : uboard C) who t, board_live b ->
  (forall n, t = LpRecover n -> u_get (lp_of who b) + n < 2 ^ 32)%N ->
  exists b', uparse c0 (EvLp (con_of who) t) b = Ok b' /\
    Z.of_N (u_get (lp_of who b')) = lp_after t (Z.of_N (u_get (lp_of who b))) /\
    lp_of (negb who) b' = lp_of (negb who) b /\ agree_but [MLp] b b' /\ board_live b'.
Proof.
  intros C c0 [f ch tu tc [x0 x1] ph bl] who t L H.
  unfold lp_of, board_live in *. cbn [b_lp b_frame b_chain b_turn b_turn_controller b_phase b_blocked fst snd] in *.
  destruct L as (L1 & L2 & L3 & L4 & L5 & L6 & L7 & L8).
  destruct who; eexists; (split; [reflexivity|]);
    cbn [b_lp set_lp put2 sel fst snd b_frame b_chain b_turn b_turn_controller b_phase b_blocked vo_set undoable_vo];
    unfold u_set; rewrite ?L5, ?L6; (split; [|split; [reflexivity|split; [agree|repeat split; auto]]]); cbn;
    destruct t; cbn; auto; 
    try (destruct (N.ltb_spec (u_get x0) n)); try (destruct (N.ltb_spec (u_get x1) n)); try lia;
    unfold u32, wrap; specialize (H _ eq_refl); rewrite N.mod_small; lia.
Qed.

Lemma chain_plain : forall C (c0 : C) (b : pboard C) c x,
  exists b', pparse c0 (EvChainStack (ChainPush c)) b = Ok b' /\
    b_chain b' = b_chain b ++ [c] /\ agree_but [MChain] b b' /\
    pparse c0 (EvChainStack (ChainPop x)) b' = Ok b.
Proof.
  intros C c0 [f ch tu tc lp ph bl] c x. eexists. split; [reflexivity|]. split; [reflexivity|].
  split; [agree|]. unfold pparse. cbn. unfold pop_back, plain in *. cbn.
  destruct (ch ++ [c]) eqn:E; [destruct ch; discriminate|]. cbn [obind]. rewrite <- E, removelast_last.
  reflexivity.
Qed.

Lemma chain_pop_plain : forall C (c0 : C) (b : pboard C) x,
  (b_chain b = [] /\ pparse c0 (EvChainStack (ChainPop x)) b = UB) \/
  exists b' c, pparse c0 (EvChainStack (ChainPop x)) b = Ok b' /\
    b_chain b = b_chain b' ++ [c] /\ agree_but [MChain] b b'.
Proof.
  intros C c0 [f ch tu tc lp ph bl] x. unfold pparse, plain in *. cbn.
  destruct ch as [|a ch]; [left; auto|]. right. cbn [pop_back obind]. eexists.
  exists (last (a :: ch) a). split; [reflexivity|]. split; [|agree].
  cbn [b_chain set_chain]. apply app_removelast_last. discriminate.
Qed.

Lemma undoable_values : forall C (c0 : C) (b : uboard C), board_live b ->
  (forall con, exists b', uparse c0 (EvNextTurn con) b = Ok b' /\
     u_get (b_turn b') = ((u_get (b_turn b) + 1) mod 2 ^ 32)%N /\ u_get (b_turn_controller b') = con /\
     agree_but [MTurn; MTurnController] b b') /\
  (forall ph, exists b', uparse c0 (EvNextPhase ph) b = Ok b' /\ u_get (b_phase b') = ph /\
     agree_but [MPhase] b b') /\
  (forall l, exists b', uparse c0 (EvZoneBlock l) b = Ok b' /\ u_get (b_blocked b') = l /\
     agree_but [MBlocked] b b').
Proof.
  intros C c0 b (L1 & L2 & L3 & L4 & L5 & L6 & L7 & L8).
  repeat split; intros; eexists; (split; [reflexivity|]);
    cbn [b_turn b_turn_controller b_phase b_blocked set_turn set_turn_controller set_phase set_blocked
         vo_set undoable_vo]; unfold u_set; rewrite ?L3, ?L4, ?L7, ?L8.
  - split; [reflexivity|]. split; [reflexivity|]. agree.
  - split; [reflexivity|]. agree.
  - split; [reflexivity|]. agree.
Qed.

Lemma state_plain : forall C (c0 : C) (b b' : pboard C) s, reachable c0 (b_frame b) ->
  pparse c0 (EvBoard (BoardState s)) b = Ok b' ->
  (exists l0 l1 l, bs_lps s = l0 :: l1 :: l /\ b_lp b' = (l0, l1)) /\
  b_chain b' = bs_chains s /\
  (forall k, length (contents k (f_lay (b_frame b'))) = described s k) /\
  (forall id c, In (id, c) (f_heap (b_frame b')) -> c = c0) /\
  ((0 <= bs_turn_counter s)%Z -> Z.of_N (b_turn b') = bs_turn_counter s) /\
  ((bs_turn_counter s < 0)%Z -> b_turn b' = b_turn b) /\
  agree_but [MLp; MChain; MFrame; MTurn] b b'.
Proof.
  intros C c0 b b' s R H. apply reachable_inv in R.
  destruct (state_run C c0 s b R) as [_ X]. destruct (X b' H) as (F & K & _ & l0 & l1 & l & E & Lp & Ch & T & Tc & Ph & Bl).
  split; [eauto|]. split; [auto|]. split; [exact K|]. split.
  { intros id c Hin. unfold fresh in F. rewrite Forall_forall in F. apply (F _ Hin). }
  unfold plain in *. rewrite T. split.
  { intros Hz. destruct (Z.leb_spec 0 (bs_turn_counter s)); lia. }
  split. { intros Hz. destruct (Z.leb_spec 0 (bs_turn_counter s)); [lia|auto]. }
  unfold agree_but. repeat split; intros Hm; auto; exfalso; apply Hm; simpl; auto 10.
Qed.

Lemma of_signed_int : forall con, (- 2 ^ 31 <= con < 2 ^ 31)%Z ->
  of_signed 64 con = Z.to_N con /\ (0 <= con)%Z \/ (con < 0)%Z /\ (2 < of_signed 64 con)%N.
Proof.
  intros con H. unfold of_signed. destruct (Z.leb_spec 0 con) as [P|P].
  - left. split; auto. rewrite Z.mod_small; [auto|]. simpl. lia.
  - right. split; auto. 
    replace (con mod 2 ^ Z.of_N 64)%Z with (con + 2 ^ 64)%Z.
    + lia.
    + change (Z.of_N 64) with 64%Z. rewrite <- (Z_mod_plus_full con 1 (2^64)), Z.mod_small; lia.
Qed.

Lemma lp_const_undefined : forall con, (- 2 ^ 31 <= con < 2 ^ 31)%Z ->
  con <> 0%Z -> con <> 1%Z -> lp_index_const con = UB.
Proof.
  intros con H N0 N1. unfold lp_index_const.
  destruct (N.eqb_spec (of_signed 64 con) 0); [destruct (of_signed_int con H); lia|].
  destruct (N.eqb_spec (of_signed 64 con) 1); [destruct (of_signed_int con H); lia|]. reflexivity.
Qed.

Lemma lp_controller : forall con, (- 2 ^ 31 <= con < 2 ^ 31)%Z ->
  con <> 0%Z -> con <> 1%Z -> con <> 2%Z ->
  lp_index con = Abort /\ forall C (c0 : C) (b : pboard C) t, pparse c0 (EvLp con t) b = Abort.
Proof.
  intros con H N0 N1 N2. assert (E : lp_index con = Abort).
  { unfold lp_index. destruct (N.leb_spec (of_signed 64 con) 2); [|reflexivity].
    destruct (of_signed_int con H); lia. }
  split; auto. intros. unfold pparse. cbn [parse_event]. rewrite E. reflexivity.
Qed.

(** Parsing is a sequence of frame operations. *)
Section Closed.
Variable C : Type.
Variable c0 : C.
Variable P : frame C -> Prop.
Hypothesis closed_step : forall o f f', P f -> fstep c0 o f = Ok f' -> P f'.

Lemma closed_fold : forall A (g : A -> frame C -> outcome (frame C)) l f f',
  (forall a f f', P f -> g a f = Ok f' -> P f') ->
  P f -> ofold g l f = Ok f' -> P f'.
Proof.
  induction l; intros f f' G R H; cbn [ofold] in H; [injection H as <-; auto|].
  apply obind_Ok in H as [f1 [E H]]. eauto.
Qed.

Lemma closed_adds : forall l f f', P f -> do_adds (plain_fo c0) l f = Ok f' -> P f'.
Proof.
  intros l f f' R H. eapply closed_fold in H; eauto. intros a x x' Rx Hx.
  apply (closed_step (OpAdd a) x); auto.
Qed.
Lemma closed_removes : forall l f f', P f ->
  do_removes (plain_fo c0) l f = Ok f' -> P f'.
Proof.
  intros l f f' R H. eapply closed_fold in H; eauto. intros a x x' Rx Hx.
  apply (closed_step (OpRemove a) x); auto.
Qed.
Lemma closed_resizes : forall l f f', P f ->
  do_resizes (plain_fo c0) l f = Ok f' -> P f'.
Proof.
  intros l f f' R H. eapply closed_fold in H; eauto. intros a x x' Rx Hx.
  apply (closed_step (OpResize (rz_place a) (rz_count a)) x); auto.
Qed.

Lemma on_frame_closed : forall (m : frame C -> outcome (frame C)) (b b' : pboard C),
  (forall f f', P f -> m f = Ok f' -> P f') ->
  P (b_frame b) -> on_frame m b = Ok b' -> P (b_frame b').
Proof.
  intros m b b' G R H. unfold on_frame in H. apply obind_Ok in H as [f [E H]]. injection H as <-.
  cbn. eauto.
Qed.

Lemma pparse_closed : forall e (b b' : pboard C), P (b_frame b) ->
  pparse c0 e b = Ok b' -> P (b_frame b').
Proof.
  intros e b b' R H. unfold pparse in H.
  destruct e as [|[|x|s]|re [|l|l|l|l|pv cu]|[|c|pp]|con|wr mr ft|con t|me|ph'|re [|l|l|l]|rs|zs];
    cbn [parse_event] in H;
    try (injection H as <-; exact R).
  - unfold parse_exchange in H. eapply on_frame_closed in H; eauto. intros f f' Rf Hf.
    apply obind_Ok in Hf as [f1 [E1 Hf]]. apply obind_Ok in Hf as [f2 [E2 Hf]].
    eapply closed_adds; [|exact Hf]. eapply closed_removes; [|exact E2].
    eapply closed_resizes; eauto.
  - unfold parse_state in H. apply obind_Ok in H as [l0 [_ H]].
    apply obind_Ok in H as [b2 [E2 H]]. apply obind_Ok in H as [l1 [_ H]].
    apply obind_Ok in H as [b3 [E3 H]]. eapply on_frame_closed in H; eauto.
    + intros f f' Rf Hf. apply obind_Ok in Hf as [f1 [E1 Hf]]. apply obind_Ok in Hf as [f2 [E4 Hf]].
      eapply closed_resizes; [|exact Hf]. eapply closed_adds; [|exact E4].
      apply (closed_step OpClear f); auto.
    + unfold assign_lp in E2, E3. apply obind_Ok in E2 as [i [_ E2]]. apply obind_Ok in E3 as [j [_ E3]].
      injection E2 as <-. injection E3 as <-. cbn. destruct (0 <=? _)%Z; exact R.
  - eapply on_frame_closed in H; eauto. apply closed_adds.
  - eapply on_frame_closed in H; eauto. intros f f' Rf Hf.
    eapply closed_fold in Hf; eauto. intros a x x' Rx Hx.
    apply (closed_step (OpSwap (po_a a) (po_b a)) x); auto.
  - eapply on_frame_closed in H; eauto. intros f f' Rf Hf.
    eapply closed_fold in Hf; eauto. intros a x x' Rx Hx.
    apply (closed_step (OpMove (po_a a) (po_b a)) x); auto.
  - eapply on_frame_closed in H; eauto. apply closed_removes.
  - eapply on_frame_closed in H; eauto. intros f f' Rf Hf.
    apply (closed_step (OpShuffle pv cu) f); auto.
  - apply obind_Ok in H as [x [_ H]]. injection H as <-. exact R.
  - apply obind_Ok in H as [i [_ H]]. apply obind_Ok in H as [j [_ H]]. injection H as <-. exact R.
  - eapply on_frame_closed in H; eauto. intros f f' Rf Hf.
    eapply closed_fold in Hf; eauto. intros a x x' Rx Hx.
    apply (closed_step (OpPileSwap (po_a a) (po_b a)) x); auto.
  - eapply on_frame_closed in H; eauto. intros f f' Rf Hf.
    eapply closed_fold in Hf; eauto. intros a x x' Rx Hx.
    apply (closed_step (OpSplice (sp_from a) (sp_count a) (sp_to a) (sp_reverse a)) x); auto.
Qed.

End Closed.

Section Reach.
Variable C : Type.
Variable c0 : C.

Lemma reachable_step : forall o (f f' : frame C), reachable c0 f -> fstep c0 o f = Ok f' -> reachable c0 f'.
Proof.
  intros o f f' [ops H] E. exists (ops ++ [o]). unfold frun in *. rewrite ofold_app, H. cbn [obind ofold].
  rewrite E. reflexivity.
Qed.

Lemma pparse_reachable : forall e (b b' : pboard C), reachable c0 (b_frame b) ->
  pparse c0 e b = Ok b' -> reachable c0 (b_frame b').
Proof. apply pparse_closed. exact reachable_step. Qed.
Lemma pparse_inv : forall e (b b' : pboard C), inv C (b_frame b) ->
  pparse c0 e b = Ok b' -> inv C (b_frame b').
Proof. apply pparse_closed. intros o f f' I H. eapply inv_step; eauto. Qed.

Lemma pparse_all_reachable : forall es (b b' : pboard C), reachable c0 (b_frame b) ->
  ofold (pparse c0) es b = Ok b' -> reachable c0 (b_frame b').
Proof.
  induction es; intros b b' R H; cbn [ofold] in H; [injection H as <-; auto|].
  apply obind_Ok in H as [b1 [E H]]. eapply IHes; [|exact H]. eapply pparse_reachable; eauto.
Qed.
End Reach.
