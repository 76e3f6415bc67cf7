(** Proofs about broken events. *)
From Verif Require Import Base BaseProofs Place Frame FrameSpec FrameInv Limbo LimboSpec LimboProofs
  Msg Event EventSpec HazardSpec HazardProofs HazardLimbo.

Set Implicit Arguments.
Local Open Scope N_scope.

Lemma fold_map : forall A B St (f : A -> St -> outcome St) (g : B -> A) (h : B -> St -> outcome St) l s,
  (forall x s, h x s = f (g x) s) -> ofold h l s = ofold f (map g l) s.
Proof.
  induction l as [|x l IH]; intros s E; cbn [ofold map]; auto. rewrite E.
  destruct (f (g x) s); cbn [obind]; auto.
Qed.

Lemma bind_ok : forall A (m : outcome A), obind m (fun x => Ok x) = m.
Proof. intros A [x| | |]; reflexivity. Qed.
Lemma bind_assoc : forall A B D (m : outcome A) (k : A -> outcome B) (j : B -> outcome D),
  obind (obind m k) j = obind m (fun x => obind (k x) j).
Proof. intros A B D [x| | |] k j; reflexivity. Qed.

Lemma lp_index_cases : forall con, (- 2 ^ 31 <= con < 2 ^ 31)%Z ->
  (con = 2%Z /\ lp_index con = UB) \/ (con <> 2%Z /\ orderly (lp_index con)).
Proof.
  intros con R. unfold lp_index, of_signed.
  destruct (Z.ltb_spec con 0) as [Ng|Ps].
  - right. split; [lia|]. cbv zeta. apply ord_then. intros X. exfalso.
    replace (con mod 2 ^ Z.of_N 64)%Z with (con + 2 ^ 64)%Z in X.
    2:{ apply (Zmod_unique con (2 ^ 64) (-1)); lia. }
    apply N.leb_le in X. lia.
  - rewrite Z.mod_small by (change (2 ^ Z.of_N 64)%Z with (2 ^ 64)%Z; lia). cbv zeta.
    destruct (Z.eq_dec con 2) as [->|Ne]; [left; split; reflexivity|right; split; auto].
    apply ord_then. intros X. apply N.leb_le in X.
    destruct (N.eqb_spec (Z.to_N con) 0); [apply ord_ok|].
    destruct (N.eqb_spec (Z.to_N con) 1); [apply ord_ok|]. lia.
Qed.

(** ** parse_event over any board *)
Section Parse.
Variable F : Type.
Variable V : Type -> Type.
Variable fo : frame_ops F.
Variable vo : value_ops V.
Variable step : lact -> F -> outcome F.
Variable popbad : V (list chain) -> Prop.
Hypothesis H_add : forall p x, fo_add fo p x = step (LAdd p) x.
Hypothesis H_remove : forall p x, fo_remove fo p x = step (LRemove p) x.
Hypothesis H_move : forall a b x, fo_move fo a b x = step (LMove a b) x.
Hypothesis H_swap : forall a b x, fo_swap fo a b x = step (LSwap a b) x.
Hypothesis H_shuffle : forall p c x, fo_shuffle fo p c x = step (LShuffle p c) x.
Hypothesis H_resize : forall p n x, fo_resize fo p n x = step (LResize p n) x.
Hypothesis H_splice : forall a n b r x, fo_splice fo a n b r x = step (LSplice a n b r) x.
Hypothesis H_pile_swap : forall a b x, fo_pile_swap fo a b x = step (LPileSwap a b) x.
Hypothesis H_clear : forall x, fo_clear fo x = step LClear x.
Hypothesis H_push : forall c x, orderly (vo_push vo (T := chain) c x).
Hypothesis H_pop : forall x, (popbad x /\ vo_pop vo (T := chain) x = UB) \/
  (~ popbad x /\ orderly (vo_pop vo x)).

Implicit Types b : board F V.

Lemma set_frame_id : forall b, set_frame (b_frame b) b = b.
Proof. intros []. reflexivity. Qed.

(** The values first, then the frame. *)
Lemma parse_split : forall e b, regular_event e -> exists vb,
  parse_event fo vo e b =
    (let! b' := vb in let! x := ofold step (event_acts e) (b_frame b) in Ok (set_frame x b')) /\
  ((wild_values e \/ match e with EvChainStack (ChainPop _) => popbad (b_chain b) | _ => False end) /\ vb = UB \/
   ~ (wild_values e \/ match e with EvChainStack (ChainPop _) => popbad (b_chain b) | _ => False end) /\
     orderly vb /\ (event_acts e <> [] -> exists b', vb = Ok b')).
Proof.
  intros e b [_ Rc].
  assert (Fr : forall m l, m (b_frame b) = ofold step l (b_frame b) ->
    on_frame m b = (let! b' := Ok b in let! x := ofold step l (b_frame b) in Ok (set_frame x b'))).
  { intros m l E. unfold on_frame. rewrite E. reflexivity. }
  assert (Vl : forall m : outcome (board F V), (forall b', m = Ok b' -> b_frame b' = b_frame b) ->
    m = (let! b' := m in let! x := ofold step [] (b_frame b) in Ok (set_frame x b'))).
  { intros [b'| | |] E; cbn [obind ofold]; auto. rewrite <- (E b' eq_refl), set_frame_id. reflexivity. }
  assert (Vi : b = set_frame (b_frame b) b) by (symmetry; apply set_frame_id).
  destruct e as [|[|x|s]|re [|l|l|l|l|pv cu]|[|c|pp]|con|wr mr ft|con t|me|ph'|re [|l|l|l]|rs|zs];
    cbn [parse_event event_acts wild_values] in *;
    try (exists (Ok b); split; [cbn [obind ofold]; rewrite <- Vi; reflexivity|
      right; split; [tauto|]; split; [apply ord_ok|intros _; eauto]]; fail).
  - exists (Ok b). split; [|right; split; [tauto|]; split; [apply ord_ok|eauto]].
    apply (Fr (fun f => let! f1 := do_resizes fo (bx_resize x) f in
      let! f2 := do_removes fo (bx_remove x) f1 in do_adds fo (bx_add x) f2)).
    clear Fr Vl. unfold do_resizes, do_removes, do_adds, resize_acts.
    rewrite ofold_app. rewrite (fold_map step (fun o => LResize (rz_place o) (rz_count o))) by auto.
    destruct (ofold step _ (b_frame b)) as [f1| | |]; cbn [obind]; auto.
    rewrite ofold_app. rewrite (fold_map step LRemove) by auto.
    destruct (ofold step _ f1) as [f2| | |]; cbn [obind]; auto.
    rewrite (fold_map step LAdd) by auto. reflexivity.
  - clear Fr Vl. unfold parse_state. cbv zeta.
    set (b1 := if (0 <=? bs_turn_counter s)%Z then _ else b).
    assert (E1 : b_frame b1 = b_frame b) by (unfold b1; destruct (0 <=? bs_turn_counter s)%Z; reflexivity).
    destruct (bs_lps s) as [|l0 [|l1 lr]] eqn:Lp.
    + exists UB. split; [reflexivity|]. left. cbn. split; auto.
    + exists UB. split; [reflexivity|]. left. cbn. split; auto.
    + eexists (Ok _). split; [|right; split; [cbn; lia|split; [apply ord_ok|eauto]]].
      cbn [nth_error or_ub obind]. unfold assign_lp.
      change (lp_index 0) with (@Ok bool false). change (lp_index 1) with (@Ok bool true). cbn [obind].
      unfold on_frame. cbn [set_chain set_lp b_frame]. rewrite E1. cbn [ofold]. rewrite H_clear.
      rewrite !bind_assoc.
      destruct (step LClear (b_frame b)) as [f1| | |]; cbn [obind]; auto.
      unfold do_adds, do_resizes, resize_acts. rewrite ofold_app.
      rewrite (fold_map step LAdd) by auto. destruct (ofold step _ f1) as [f2| | |]; cbn [obind]; auto.
      rewrite (fold_map step (fun o => LResize (rz_place o) (rz_count o))) by auto. reflexivity.
  - exists (Ok b). split; [|right; split; [tauto|]; split; [apply ord_ok|eauto]].
    apply Fr. apply fold_map; auto.
  - exists (Ok b). split; [|right; split; [tauto|]; split; [apply ord_ok|eauto]].
    apply Fr. apply fold_map; auto.
  - exists (Ok b). split; [|right; split; [tauto|]; split; [apply ord_ok|eauto]].
    apply Fr. apply fold_map; auto.
  - exists (Ok b). split; [|right; split; [tauto|]; split; [apply ord_ok|eauto]].
    apply Fr. apply fold_map; auto.
  - exists (Ok b). split; [|right; split; [tauto|]; split; [apply ord_ok|eauto]].
    apply Fr. cbn [ofold]. rewrite H_shuffle, bind_ok. reflexivity.
  - eexists. split.
    + apply Vl. intros b' H. apply obind_Ok in H as [y [_ H]]. injection H as <-. reflexivity.
    + right. split; [tauto|]. split; [|intros X; destruct (X eq_refl)].
      apply ord_bind; [apply H_push|intros; apply ord_ok].
  - eexists. split.
    + apply Vl. intros b' H. apply obind_Ok in H as [y [_ H]]. injection H as <-. reflexivity.
    + destruct (H_pop (b_chain b)) as [[B E]|[B E]].
      * left. rewrite E. auto.
      * right. split; [tauto|]. split; [|intros X; destruct (X eq_refl)].
        apply ord_bind; [exact E|intros; apply ord_ok].
  - eexists. split.
    + apply Vl. intros b' H. injection H as <-. reflexivity.
    + right. split; [tauto|]. split; [apply ord_ok|eauto].
  - eexists. split.
    + apply Vl. intros b' H. apply obind_Ok in H as [y [_ H]]. apply obind_Ok in H as [z [_ H]].
      injection H as <-. reflexivity.
    + destruct (lp_index_cases Rc) as [[-> E]|[Ne E]].
      * left. auto.
      * right. split; [tauto|]. split; [|intros X; destruct (X eq_refl)].
        apply ord_bind; [exact E|]. intros i _. apply ord_bind; [exact E|]. intros. apply ord_ok.
  - eexists. split.
    + apply Vl. intros b' H. injection H as <-. reflexivity.
    + right. split; [tauto|]. split; [apply ord_ok|eauto].
  - exists (Ok b). split; [|right; split; [tauto|]; split; [apply ord_ok|eauto]].
    apply Fr. apply fold_map; auto.
  - exists (Ok b). split; [|right; split; [tauto|]; split; [apply ord_ok|eauto]].
    apply Fr. apply fold_map; auto.
  - eexists. split.
    + apply Vl. intros b' H. injection H as <-. reflexivity.
    + right. split; [tauto|]. split; [apply ord_ok|eauto].
Qed.

(** From the steps to the event. *)
Lemma parse_orderly : forall e b, regular_event e ->
  ~ (wild_values e \/ match e with EvChainStack (ChainPop _) => popbad (b_chain b) | _ => False end) ->
  orderly (ofold step (event_acts e) (b_frame b)) -> orderly (parse_event fo vo e b).
Proof.
  intros e b R N H. destruct (parse_split b R) as [vb [-> [[W _]|[_ [O _]]]]]; [tauto|].
  apply ord_bind; auto. intros b' _. apply ord_bind; auto. intros; apply ord_ok.
Qed.
Lemma parse_ub : forall e b, regular_event e ->
  (wild_values e \/ match e with EvChainStack (ChainPop _) => popbad (b_chain b) | _ => False end) \/
    (event_acts e <> [] /\ ofold step (event_acts e) (b_frame b) = UB) ->
  parse_event fo vo e b = UB.
Proof.
  intros e b R H. destruct (parse_split b R) as [vb [-> [[_ ->]|[N [_ K]]]]]; [reflexivity|].
  destruct H as [W|[NE H]]; [tauto|]. destruct (K NE) as [b' ->]. cbn [obind]. rewrite H. reflexivity.
Qed.
End Parse.

Lemma trips_nonempty : forall A St (bad : A -> St -> Prop) step l s, trips bad step l s -> l <> [].
Proof. intros A St bad step [|a l] s H; [destruct H|discriminate]. Qed.

Section Cards.
Variable C : Type.
Variable c0 : C.

(** ** The server's board *)
Definition pstep (a : lact) : frame C -> outcome (frame C) := fstep c0 (plain_act a).

Lemma event_acts_plain : forall e, regular_event e ->
  Forall (fun a => regular_op (plain_act a)) (event_acts e).
Proof.
  intros e [R _]. eapply Forall_impl; [|exact R]. intros [] H; exact H || exact Logic.I.
Qed.

Lemma event_no_shuffle : forall e, is_shuffle e = false -> Forall no_shuffle (event_acts e).
Proof.
  assert (M : forall X (g : X -> lact) l, (forall x, no_shuffle (g x)) -> Forall no_shuffle (map g l)).
  { intros X g l H. induction l; cbn [map]; constructor; auto. }
  intros e H. destruct e as [|[|x|s]|re [|l|l|l|l|pv cu]|[|c|pp]|con|wr mr ft|con t|me|ph'|re [|l|l|l]|rs|zs];
    try discriminate H; cbn [event_acts]; unfold resize_acts;
    repeat first [apply Forall_app; split | apply Forall_cons | apply Forall_nil | apply M; intros];
    exact Logic.I.
Qed.

Lemma Forall_both : forall A (P Q : A -> Prop) l, Forall P l -> Forall Q l -> Forall (fun x => P x /\ Q x) l.
Proof. intros A P Q l HP HQ. induction HP; inversion HQ; subst; constructor; auto. Qed.

Theorem pparse_orderly : forall e (b : pboard C), inv _ (b_frame b) -> regular_event e ->
  ~ wild_event c0 e b -> orderly (pparse c0 e b).
Proof.
  intros e b I R NW. unfold pparse.
  apply (@parse_orderly (frame C) plain (plain_fo c0) plain_vo pstep (fun l => l = [])); auto.
  - intros. left. eexists. reflexivity.
  - intros [|x l]; [left; split; reflexivity|right; split; [discriminate|left; eexists; reflexivity]].
  - intros X. apply NW. destruct X as [X|X]; [left; exact X|right; left].
    destruct e as [| | |[]| | | | | | | |]; auto.
  - apply (@trips_orderly lact (frame C) (fun a (f : frame C) => wild (plain_act a) (f_lay f)) (pstep) (inv C)) with (ok := fun a => regular_op (plain_act a)); auto.
    + intros a f f' G H. eapply inv_step; eauto.
    + intros a f G O N. apply frame_orderly; auto.
    + apply event_acts_plain; auto.
    + intros T. apply NW. right. right. exact T.
Qed.

Theorem pparse_ub : forall e (b : pboard C), inv _ (b_frame b) -> regular_event e ->
  is_shuffle e = false -> wild_event c0 e b -> pparse c0 e b = UB.
Proof.
  intros e b I R NS W. unfold pparse.
  apply (@parse_ub (frame C) plain (plain_fo c0) plain_vo pstep (fun l => l = [])); auto.
  - intros. left. eexists. reflexivity.
  - intros [|x l]; [left; split; reflexivity|right; split; [discriminate|left; eexists; reflexivity]].
  - destruct W as [W|[W|W]].
    + left. left. exact W.
    + left. right. destruct e as [| | |[]| | | | | | | |]; auto.
    + right. split; [eapply trips_nonempty; exact W|].
      eapply (@trips_ub lact (frame C) (fun a (f : frame C) => wild (plain_act a) (f_lay f)) (pstep) (inv C)) with (ok := fun a => regular_op (plain_act a) /\ no_shuffle a); auto.
      * intros a f f' G H. eapply inv_step; eauto.
      * intros a f G [O N] B. apply frame_ub; auto. destruct a; auto.
      * apply Forall_both; [apply event_acts_plain; auto|apply event_no_shuffle; auto].
Qed.

(** ** The undoable board *)
Theorem uparse_orderly : forall e (b : uboard C), linv _ (b_frame b) -> regular_event e ->
  ~ wild_uevent c0 e b -> orderly (uparse c0 e b).
Proof.
  intros e b I R NW. unfold uparse.
  apply (@parse_orderly (limbo C) undoable (limbo_fo c0) undoable_vo (lstep c0) (fun _ => False)); auto.
  - intros. right. reflexivity.
  - intros x. right. split; [tauto|]. right. reflexivity.
  - intros [X|X]; [apply NW; left; exact X|]. destruct e as [| | |[]| | | | | | | |]; auto.
  - apply (@trips_orderly lact (limbo C) (@wild_act C) (lstep c0) (linv C)) with (ok := regular_act); auto.
    + intros a w w' G H. eapply linv_step; eauto.
    + intros a w G O N. apply limbo_orderly; auto.
    + apply R.
    + intros T. apply NW. right. exact T.
Qed.

Theorem uparse_ub : forall e (b : uboard C), linv _ (b_frame b) -> regular_event e ->
  is_shuffle e = false -> wild_uevent c0 e b -> uparse c0 e b = UB.
Proof.
  intros e b I R NS W. unfold uparse.
  apply (@parse_ub (limbo C) undoable (limbo_fo c0) undoable_vo (lstep c0) (fun _ => False)); auto.
  - intros. right. reflexivity.
  - intros x. right. split; [tauto|]. right. reflexivity.
  - destruct W as [W|W]; [left; left; exact W|].
    right. split; [eapply trips_nonempty; exact W|].
    eapply (@trips_ub lact (limbo C) (@wild_act C) (lstep c0) (linv C)) with (ok := fun a => regular_act a /\ no_shuffle a); auto.
    + intros a w w' G H. eapply linv_step; eauto.
    + intros a w G [O N] B. apply limbo_ub; auto.
    + apply Forall_both; [apply R|apply event_no_shuffle; auto].
Qed.

(** ** Undoing *)
Lemma undo_regular : forall e, regular_event e ->
  Forall (fun a => regular_act a /\ no_shuffle a) (rev (map undo_of (event_acts e))).
Proof.
  intros e [R _]. apply Forall_forall. intros a H. apply in_rev in H. apply in_map_iff in H.
  destruct H as [x [<- H]]. rewrite Forall_forall in R. specialize (R x H).
  destruct x; cbn [undo_of regular_act no_shuffle] in *; tauto.
Qed.

Definition undo_acts (e : event) : list lact := rev (map undo_of (event_acts e)).

Lemma undo_fold : forall X (g : X -> lact) (h : X -> limbo C -> outcome (limbo C)) l w,
  (forall x w, h x w = lstep c0 (undo_of (g x)) w) ->
  ofold h (rev l) w = ofold (lstep c0) (rev (map undo_of (map g l))) w.
Proof.
  intros X g h l w E. rewrite map_map, <- map_rev. apply fold_map. auto.
Qed.

Lemma ord_u_undo : forall T (u : undoable T), orderly (u_undo u).
Proof. intros T u. unfold u_undo. destruct (u_past u); [apply ord_abort|apply ord_ok]. Qed.

(** The frame first, then the values. *)
Lemma undo_split : forall e (b : uboard C), regular_event e -> exists k,
  uundo c0 e b = (let! x := ofold (lstep c0) (undo_acts e) (b_frame b) in k x) /\
  (match e with EvLp con _ => con = 2%Z | _ => False end /\ (forall x, k x = UB) \/
   ~ match e with EvLp con _ => con = 2%Z | _ => False end /\ forall x, orderly (k x)).
Proof.
  intros e b [_ Rc].
  assert (Fr : forall (m : limbo C -> outcome (limbo C)) l, m (b_frame b) = ofold (lstep c0) l (b_frame b) ->
    exists k, on_frame m b = (let! x := ofold (lstep c0) l (b_frame b) in k x) /\
      (False /\ (forall x, k x = UB) \/ ~ False /\ forall x, orderly (k x))).
  { intros m l E. exists (fun x => Ok (set_frame x b)). split; [unfold on_frame; rewrite E; reflexivity|].
    right. split; [tauto|intros; apply ord_ok]. }
  unfold uundo, undo_acts.
  destruct e as [|[|x|s]|re [|l|l|l|l|pv cu]|[|c|pp]|con|wr mr ft|con t|me|ph'|re [|l|l|l]|rs|zs];
    cbn [undo_parse_event event_acts map rev] in *;
    try (exists (fun _ => Ok b); split; [reflexivity|right; split; [tauto|intros; apply ord_ok]]; fail).
  - apply (Fr (fun f => let! f1 := undo_adds (limbo_uo C) (bx_add x) f in
      let! f2 := undo_removes (limbo_uo C) (bx_remove x) f1 in undo_resizes (limbo_uo C) (bx_resize x) f2)).
    clear Fr. rewrite !map_app, !rev_app_distr, !ofold_app. unfold undo_adds, undo_removes, undo_resizes, resize_acts.
    rewrite (undo_fold LAdd) by reflexivity. rewrite bind_assoc.
    destruct (ofold (lstep c0) (rev (map undo_of (map LAdd (bx_add x)))) (b_frame b)) as [f1| | |];
      cbn [obind]; auto.
    rewrite (undo_fold LRemove) by reflexivity.
    destruct (ofold (lstep c0) (rev (map undo_of (map LRemove (bx_remove x)))) f1) as [f2| | |];
      cbn [obind]; auto.
    rewrite (undo_fold (fun o => LResize (rz_place o) (rz_count o))) by reflexivity. reflexivity.
  - clear Fr. unfold undo_state.
    exists (fun x => let b1 := set_frame x b in
      let! c := uo_undo (limbo_uo C) (b_chain b1) in
      let! b3 := undo_lp (limbo_uo C) 1 (set_chain c b1) in
      let! b4 := undo_lp (limbo_uo C) 0 b3 in
      if (0 <=? bs_turn_counter s)%Z then
        let! t := uo_undo (limbo_uo C) (b_turn b4) in Ok (set_turn t b4)
      else Ok b4). split.
    + rewrite map_app, rev_app_distr, !ofold_app.
      unfold on_frame, undo_adds, undo_resizes, resize_acts.
      rewrite (undo_fold (fun o => LResize (rz_place o) (rz_count o))) by reflexivity. rewrite !bind_assoc.
      destruct (ofold (lstep c0) (rev (map undo_of (map (fun o => LResize (rz_place o) (rz_count o))
        (bs_resize s)))) (b_frame b)) as [f1| | |]; cbn [obind]; auto.
      rewrite (undo_fold LAdd) by reflexivity. rewrite !bind_assoc.
      destruct (ofold (lstep c0) (rev (map undo_of (map LAdd (bs_add s)))) f1) as [f2| | |];
        cbn [obind]; auto.
      cbn [ofold undo_of lstep]. rewrite !bind_assoc. cbn [uo_clear limbo_uo].
      destruct (l_undo_clear f2); cbn [obind]; reflexivity.
    + right. split; [tauto|]. intros x. cbv zeta beta.
      change (lp_index 0) with (@Ok bool false). change (lp_index 1) with (@Ok bool true).
      unfold undo_lp. change (lp_index 0) with (@Ok bool false). change (lp_index 1) with (@Ok bool true).
      apply ord_bind; [apply ord_u_undo|]. intros c _. cbn [obind].
      apply ord_bind.
      { apply ord_bind; [apply ord_u_undo|]. intros; apply ord_ok. }
      intros b2 _. apply ord_bind.
      { apply ord_bind; [apply ord_u_undo|]. intros; apply ord_ok. }
      intros b3 _. destruct (0 <=? bs_turn_counter s)%Z; [|apply ord_ok].
      apply ord_bind; [apply ord_u_undo|]. intros; apply ord_ok.
  - apply Fr. apply (undo_fold LAdd). reflexivity.
  - apply Fr. unfold do_swaps. apply (undo_fold (fun o => LSwap (po_a o) (po_b o))). reflexivity.
  - apply Fr. apply (undo_fold (fun o => LMove (po_a o) (po_b o))). reflexivity.
  - apply Fr. apply (undo_fold LRemove). reflexivity.
  - exists (fun _ => Abort). split; [reflexivity|]. right. split; [tauto|intros; apply ord_abort].
  - exists (fun _ => Abort). split; [reflexivity|]. right. split; [tauto|intros; apply ord_abort].
  - exists (fun _ => undo_parse_event (limbo_fo c0) (limbo_uo C) (EvNextTurn con) b). split; [reflexivity|]. cbn [undo_parse_event]. right. split; [tauto|]. intros _.
    apply ord_bind; [apply ord_u_undo|]. intros t _. apply ord_bind; [apply ord_u_undo|]. intros; apply ord_ok.
  - exists (fun _ => undo_parse_event (limbo_fo c0) (limbo_uo C) (EvLp con t) b). split; [reflexivity|]. cbn [undo_parse_event].
    destruct (lp_index_cases Rc) as [[-> E]|[Ne E]].
    + left. split; auto.
    + right. split; auto. intros _. unfold undo_lp. apply ord_bind; auto. intros i _.
      apply ord_bind; [apply ord_u_undo|]. intros; apply ord_ok.
  - exists (fun _ => undo_parse_event (limbo_fo c0) (limbo_uo C) (EvNextPhase ph') b). split; [reflexivity|]. cbn [undo_parse_event]. right. split; [tauto|]. intros _.
    apply ord_bind; [apply ord_u_undo|]. intros; apply ord_ok.
  - apply Fr. unfold do_pile_swaps. apply (undo_fold (fun o => LPileSwap (po_a o) (po_b o))). reflexivity.
  - apply Fr. unfold undo_splices.
    apply (undo_fold (fun o => LSplice (sp_from o) (sp_count o) (sp_to o) (sp_reverse o))). reflexivity.
  - exists (fun _ => undo_parse_event (limbo_fo c0) (limbo_uo C) (EvZoneBlock zs) b). split; [reflexivity|]. cbn [undo_parse_event]. right. split; [tauto|]. intros _.
    apply ord_bind; [apply ord_u_undo|]. intros; apply ord_ok.
Qed.

Theorem uundo_iff : forall e (b : uboard C), linv _ (b_frame b) -> regular_event e ->
  (wild_undo c0 e b -> uundo c0 e b = UB) /\ (~ wild_undo c0 e b -> orderly (uundo c0 e b)).
Proof.
  intros e b I R. destruct (undo_split b R) as [k [-> K]].
  assert (Ls : forall a w w', linv C w -> lstep c0 a w = Ok w' -> linv C w').
  { intros a w w' G H. eapply linv_step; eauto. }
  split.
  - intros [W|T].
    + destruct K as [[_ K]|[N _]]; [|tauto].
      destruct e; try (destruct W; fail). cbn [undo_acts event_acts map rev ofold obind]. apply K.
    + assert (X : ofold (lstep c0) (undo_acts e) (b_frame b) = UB).
      { eapply (@trips_ub lact (limbo C) (@wild_act C) (lstep c0) (linv C)) with (ok := fun a => regular_act a /\ no_shuffle a); auto.
        - intros a w G [O N] B. apply limbo_ub; auto.
        - apply undo_regular; auto. }
      rewrite X. reflexivity.
  - intros NW. apply ord_bind.
    + apply (@trips_orderly lact (limbo C) (@wild_act C) (lstep c0) (linv C)) with (ok := fun a => regular_act a /\ no_shuffle a); auto.
      * intros a w G [O _] N. apply limbo_orderly; auto.
      * apply undo_regular; auto.
      * intros T. apply NW. right. exact T.
    + intros x _. destruct K as [[W _]|[_ K]]; [exfalso; apply NW; left; exact W|apply K].
Qed.
End Cards.
