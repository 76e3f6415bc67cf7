(** Proofs about calls with arguments that make no sense: frames, limbo frames
    and events. *)
From Verif Require Import Base BaseProofs Place PlaceProofs Frame FrameSpec FrameLens FrameProofs
  FrameMove FrameOps FramePiles FrameInv FrameFacts Limbo LimboSpec LimboProofs
  Msg Event EventSpec HazardSpec HazardProofs.

Set Implicit Arguments.
Local Open Scope N_scope.

Section Cards.
Variable C : Type.
Variable c0 : C.
Notation tape := (LimboProofs.tape C).
Notation tape_ok := (LimboProofs.tape_ok C).
Notation linv := (LimboProofs.linv C).
Notation halfway := (LimboProofs.halfway C).

(** ** Frames *)
Lemma ord_lift : forall (op : layout -> outcome layout) (f : frame C),
  orderly (op (f_lay f)) -> orderly (lift op f).
Proof. intros op f H. unfold lift. apply ord_bind; auto. intros; apply ord_ok. Qed.
Lemma ub_lift : forall (op : layout -> outcome layout) (f : frame C),
  op (f_lay f) = UB -> lift op f = UB.
Proof. intros op f H. unfold lift. rewrite H. reflexivity. Qed.

Lemma ord_pile_swap : forall a b L, regular a -> regular b -> orderly (pile_swap a b L).
Proof. intros a b L Ra Rb. unfold pile_swap. ord. Qed.

Lemma slot_cnt : forall p k i c L, shape L -> slot p = Some (k, i) ->
  nth_error (contents k L) i = Some (Some c) -> (0 < cntL L c)%nat.
Proof.
  intros p k i c L Sh Sl Nt.
  eapply Nat.lt_le_trans; [|apply (cnt_le_cntL k); eauto using slot_valid].
  unfold cnt. apply count_occ_In. eapply nth_error_In; eauto.
Qed.

Lemma ord_f_move : forall a b (f : frame C), lay_ok (f_lay f) ->
  (forall id, (0 < cntL (f_lay f) id)%nat -> In id (map fst (f_heap f))) ->
  regular a -> regular b -> orderly (f_card_move a b f).
Proof.
  intros a b f LO Al Ra Rb. unfold f_card_move. assert (Sh := proj1 LO).
  apply ord_bind; [apply ord_move; auto|]. intros [c L'] E.
  apply ord_bind; [|intros; apply ord_ok].
  destruct (lay_ok_move _ _ _ _ _ LO E) as [LO' Cn].
  destruct (card_move_view _ _ _ _ _ Sh E) as [_ [[k i] [Sl Oc]]].
  pose proof (slot_cnt _ (proj1 LO') Sl Oc) as P. rewrite Cn in P. apply Al in P.
  apply heap_get_In in P. destruct (heap_get c (f_heap f)); [apply ord_ok|congruence].
Qed.

Lemma inv_alive : forall (f : frame C), inv _ f ->
  forall id, (0 < cntL (f_lay f) id)%nat -> In id (map fst (f_heap f)).
Proof.
  intros f I id H. rewrite (inv_cnt _ _ I) in H. unfold hcnt in H.
  apply count_occ_In in H. exact H.
Qed.

Theorem frame_orderly : forall o (f : frame C), inv _ f -> regular_op o -> ~ wild o (f_lay f) ->
  orderly (fstep c0 o f).
Proof.
  intros o f I R NW. assert (LO := inv_lay _ _ I). assert (Sh := proj1 LO).
  destruct o; cbn [fstep regular_op wild] in *.
  - unfold card_add. cbn [construct_card]. apply ord_bind; [|intros [? ?] ?; apply ord_ok].
    apply ord_bind; [apply ord_card_insert; auto|intros; apply ord_ok].
  - pose proof (ord_has Sh R) as [[[|] E]|E].
    + destruct (card_remove_succeeds _ _ _ I E) as [f' ->]. apply ord_ok.
    + unfold card_remove. rewrite E. apply ord_abort.
    + unfold card_remove. rewrite E. apply ord_abort.
  - apply ord_bind; [|intros [? ?] ?; apply ord_ok]. apply ord_f_move; try tauto. apply inv_alive; auto.
  - apply ord_lift. apply ord_swap; tauto.
  - apply ord_lift. apply ord_shuffle; tauto.
  - destruct (regular_pile R) as [[r E]|E].
    + pose proof (proj1 (pile_of_slot _ _) E) as Sl.
      destruct (pile_resize_spec _ c0 _ count _ _ _ I Sl) as [f' [new [X _]]]. rewrite X. apply ord_ok.
    + unfold pile_resize. rewrite E. destruct (is_pile p); apply ord_abort.
  - apply ord_lift. apply splice_cases; try tauto. apply LO.
  - apply ord_lift. apply ord_pile_swap; tauto.
  - rewrite clear_run by auto. apply ord_ok.
Qed.

Theorem frame_ub : forall o (f : frame C), inv _ f -> regular_op o -> wild o (f_lay f) ->
  (match o with OpShuffle _ _ => False | _ => True end) -> fstep c0 o f = UB.
Proof.
  intros o f I R W NS. assert (LO := inv_lay _ _ I).
  destruct o; cbn [fstep regular_op wild] in *; try (destruct W; fail); try (destruct NS; fail).
  - apply ub_lift. apply swap_ub; auto. apply LO.
  - apply ub_lift. apply splice_cases; try tauto. apply LO.
Qed.

(** ** Limbo frames *)
Lemma ord_l_lift : forall (op : layout -> outcome layout) (w : limbo C),
  orderly (op (lb_lay w)) -> orderly (l_lift op w).
Proof.
  intros op w H. unfold l_lift. apply ord_bind; [|intros; apply ord_ok]. apply ord_lift. exact H.
Qed.
Lemma ub_l_lift : forall (op : layout -> outcome layout) (w : limbo C),
  op (lb_lay w) = UB -> l_lift op w = UB.
Proof. intros op w H. unfold l_lift. rewrite (ub_lift op (lb_frame w) H). reflexivity. Qed.

Lemma erase_alive : forall p nx (h : list (N * C)) L P F c L', tape_ok nx h L P F ->
  card_erase p L = Ok (c, L') -> In c (map fst h).
Proof.
  intros p nx h L P F c L' O E. apply (to_cnt _ _ _ _ _ _ O). pose proof (to_lay _ _ _ _ _ _ O) as [Sh NN].
  apply card_erase_slot in E; auto. destruct E as [k [i [Sl [Nt _]]]].
  eapply slot_cnt; eauto.
Qed.

Lemma at_end_tape' : forall nx (h : list (N * C)) L P F, at_end (tape nx h L P F) <-> F = [].
Proof.
  intros. unfold at_end, tape. cbn [lb_op lb_ops]. rewrite app_length, rev_length.
  destruct F; cbn [length]; split; intros H; auto; try lia; discriminate.
Qed.
Lemma next_tape : forall nx (h : list (N * C)) L P F,
  nth_error (lb_ops (tape nx h L P F)) (lb_op (tape nx h L P F)) = hd_error F.
Proof.
  intros. unfold tape. cbn [lb_op lb_ops].
  rewrite nth_error_app2; rewrite rev_length; auto. rewrite Nat.sub_diag. destruct F; reflexivity.
Qed.

(** Resizing with the operation at the cursor. *)
Lemma resize_cases : forall (live_ : bool) count nx (h : list (N * C)) L P F r pv s, (live_ = true -> F = []) ->
  let m :=
    (let w2 := tape nx h L (ResizeOp pv s :: P) F in
     let l := get_pile r (lb_lay w2) in
     let size := lenN l in
     let n := N.to_nat count in
     let! w3 :=
      (if (size <? count)%N then
         let w3 := set_current_op (ResizeOp (length l) s) w2 in
         if live_ then Ok (l_grow c0 (N.to_nat (count - size)) r w3)
         else Ok (lb_with_lay w3 (set_pile r (l ++ s) (lb_lay w3)))
       else if (count <? size)%N then
         let diff := (length l - n)%nat in
         let! s' := copy_to (skipn diff l) (resize_ptrs diff s) in
         let w3 := set_current_op (ResizeOp (length l) s') w2 in
         Ok (lb_with_lay w3 (set_pile r (firstn n l) (lb_lay w3)))
       else Ok (set_current_op (ResizeOp (length l) s) w2)) in
     assert_ (lenN (get_pile r (lb_lay w3)) =? count)%N ;;!
     verify_pile (get_pile r (lb_lay w3)) ;;!
     Ok w3) in
  let size := length (get_pile r L) in
  ((N.to_nat count < size < 2 * N.to_nat count)%nat -> m = UB) /\
  (~ (N.to_nat count < size < 2 * N.to_nat count)%nat -> orderly m).
Proof.
  intros live_ count nx h L P F r pv s HF m size. subst m. cbv zeta. rewrite lb_lay_tape.
  fold size. assert (Es : lenN (get_pile r L) = N.of_nat size) by reflexivity. rewrite !Es.
  destruct (N.ltb_spec (N.of_nat size) count) as [Lt|Ge].
  - split; [lia|]. intros _. apply ord_bind; [destruct live_; apply ord_ok|]. intros w3 _. ord.
  - destruct (N.ltb_spec count (N.of_nat size)) as [Lt|Ge2].
    + unfold copy_to. rewrite skipn_length, resize_ptrs_len. fold size. split; intros H.
      * destruct (Nat.leb_spec (size - (size - N.to_nat count)) (size - N.to_nat count)); [lia|reflexivity].
      * destruct (Nat.leb_spec (size - (size - N.to_nat count)) (size - N.to_nat count)); [|lia].
        cbn [obind]. ord.
    + split; [lia|]. intros _. cbn [obind]. ord.
Qed.

Lemma resize_lim : forall p count nx (h : list (N * C)) L P F, regular p ->
  let w := tape nx h L P F in
  (wild_resize p count w -> l_pile_resize c0 p count w = UB) /\
  (~ wild_resize p count w -> orderly (l_pile_resize c0 p count w)).
Proof.
  intros p count nx h L P F R w. subst w.
  unfold l_pile_resize. destruct (is_pile p) eqn:Pp.
  2:{ split; [|intros _; apply ord_abort]. intros [r [i [Sl _]]]. apply slot_kind in Sl. cbn in Sl.
      destruct Sl. congruence. }
  cbn [assert_ obind].
  destruct (regular_pile R) as [[r E]|E].
  2:{ split.
      - intros [r [i [Sl _]]]. apply slot_kind in Sl. cbn in Sl. destruct Sl. congruence.
      - intros _. rewrite E. destruct (advance_op _). apply ord_abort. }
  pose proof (proj1 (pile_of_slot _ _) E) as Sl.
  assert (W : forall X : Prop, (X <-> (at_end (tape nx h L P F) \/ exists n s,
      nth_error (lb_ops (tape nx h L P F)) (lb_op (tape nx h L P F)) = Some (ResizeOp n s))) ->
    (wild_resize p count (tape nx h L P F) <-> X /\
      (N.to_nat count < length (get_pile r L) < 2 * N.to_nat count)%nat)).
  { intros X HX. unfold wild_resize. rewrite lb_lay_tape. split.
    - intros [r' [i [Sl' [A B]]]]. rewrite Sl in Sl'. injection Sl' as <- _. split; [tauto|exact B].
    - intros [A B]. exists r, (N.to_nat (p_seq p)). split; auto. split; [tauto|exact B]. }
  rewrite E. destruct F as [|o F].
  - rewrite advance_op_end. cbn [obind]. rewrite emplace_halfway.
    rewrite (W True) by (rewrite at_end_tape'; tauto).
    destruct (@resize_cases true count nx h L P [] r 0 [] (fun _ => eq_refl)) as [A B].
    split; intros H; [apply A; tauto|apply B; tauto].
  - rewrite advance_op_redo. cbn [obind]. unfold current_resize. rewrite current_op_tape. cbn [obind].
    rewrite (W (exists n s, o = ResizeOp n s)).
    2:{ rewrite at_end_tape', next_tape. cbn [hd_error]. split.
        - intros [n [s ->]]. right. eauto.
        - intros [X|[n [s X]]]; [discriminate|]. injection X as ->. eauto. }
    destruct o as [c|n s|L']; cbn [obind].
    + split; [intros [[? [? X]] _]; discriminate|intros _; apply ord_abort].
    + destruct (@resize_cases false count nx h L P F r n s) as [A B]; [discriminate|].
      split; intros H; [apply A; tauto|]. apply B. intros X. apply H. split; eauto.
    + split; [intros [[? [? X]] _]; discriminate|intros _; apply ord_abort].
Qed.

Lemma op_tape : forall nx (h : list (N * C)) L P F, lb_op (tape nx h L P F) = O <-> P = [].
Proof. intros. unfold tape. cbn [lb_op]. destruct P; cbn; split; intros; auto; discriminate. Qed.

Theorem limbo_orderly : forall a (w : limbo C), linv w -> regular_act a -> ~ wild_act a w ->
  orderly (lstep c0 a w).
Proof.
  intros a w [nx [h [L [P [F [-> O]]]]]] R NW. pose proof (to_lay _ _ _ _ _ _ O) as LO. assert (Sh := proj1 LO).
  destruct a; cbn [lstep regular_act wild_act] in *; rewrite ?op_tape, ?lb_lay_tape in NW.
  - (* add *)
    apply ord_bind; [|intros [? ?] ?; apply ord_ok]. unfold l_card_add. destruct F as [|o F].
    + rewrite advance_op_end. cbn [lb_frame halfway]. unfold card_add. cbn [construct_card f_next f_heap f_lay].
      apply ord_bind; [|intros [? ?] ?; apply ord_ok].
      apply ord_bind; [apply ord_card_insert; auto|intros; apply ord_ok].
    + rewrite advance_op_redo. unfold current_card. rewrite current_op_tape. cbn [obind].
      pose proof (to_next _ _ _ _ _ _ O) as Fo. apply Forall_cons_iff in Fo as [Oo _].
      destruct o as [[c|]|n s|L']; cbn [obind]; try apply ord_abort; [|destruct Oo].
      cbn [deref or_ub obind]. rewrite alive_tape by exact Oo. cbn [obind]. rewrite lb_lay_tape.
      apply ord_bind; [apply ord_card_insert; auto|]. intros L1 E1.
      apply ord_bind; [apply ord_has; auto; eapply shape_insert; eauto|intros; ord].
  - (* remove *)
    unfold l_card_remove. rewrite lb_lay_tape. apply ord_bind; [apply ord_has; auto|].
    intros [|] Hh; cbn [assert_ obind]; [|apply ord_abort].
    destruct (has_erase p LO Hh) as [c [L' E]]. rewrite E. cbn [obind].
    rewrite alive_tape by (eapply erase_alive; eauto). cbn [obind]. rewrite lb_with_lay_tape.
    destruct F as [|o F].
    + rewrite advance_op_end. apply ord_ok.
    + rewrite advance_op_redo. unfold current_card. rewrite current_op_tape. cbn [obind].
      destruct o; cbn [obind]; ord.
  - apply resize_lim; auto.
  - (* clear *)
    destruct F as [|o F].
    + rewrite clear_live. apply ord_ok.
    + unfold l_clear. rewrite advance_op_redo. unfold current_clear. rewrite current_op_tape. cbn [obind].
      destruct o; cbn [obind]; ord.
  - (* undo add *)
    apply ord_bind; [|intros [? ?] ?; apply ord_ok]. unfold l_undo_card_add. rewrite lb_lay_tape.
    apply ord_bind; [apply ord_has; auto|]. intros [|] Hh; cbn [assert_ obind]; [|apply ord_abort].
    destruct (has_erase p LO Hh) as [c [L' E]]. rewrite E. cbn [obind].
    rewrite alive_tape by (eapply erase_alive; eauto). cbn [obind]. unfold current_card.
    rewrite current_op_tape. destruct P as [|o P].
    + exfalso. apply NW. split; auto. apply occupied_has; auto.
    + cbn [obind]. destruct o; cbn [obind]; ord. rewrite lb_with_lay_tape, regress_op_tape. cbn [obind]. ord.
  - (* undo remove *)
    apply ord_bind; [|intros [? ?] ?; apply ord_ok]. unfold l_undo_card_remove, current_card.
    rewrite current_op_tape. destruct P as [|o P]; [tauto|]. cbn [obind].
    pose proof (to_past _ _ _ _ _ _ O) as Fo. apply Forall_cons_iff in Fo as [Oo _].
    destruct o as [[c|]|n s|L']; cbn [obind]; try apply ord_abort; [|destruct Oo].
    cbn [deref or_ub obind]. rewrite alive_tape by exact Oo. cbn [obind]. rewrite lb_lay_tape.
    apply ord_bind; [apply ord_card_insert; auto|]. intros L1 E1.
    rewrite lb_with_lay_tape, regress_op_tape. cbn [obind]. rewrite lb_lay_tape.
    apply ord_bind; [apply ord_has; auto; eapply shape_insert; eauto|intros; ord].
  - (* undo resize *)
    unfold l_undo_pile_resize. ord.
    match goal with H : pile_of p = Ok ?r |- _ => rename r into q; rename H into E end.
    unfold current_resize. rewrite current_op_tape. destruct P as [|o P].
    { exfalso. apply NW. split; auto. apply pile_of_slot in E. eauto. }
    cbn [obind]. destruct o as [c|prev s|L']; cbn [obind]; try apply ord_abort.
    rewrite lb_lay_tape. apply ord_bind.
    + destruct (Nat.ltb (length (get_pile q L)) prev); ord.
      destruct (Nat.ltb_spec prev (length (get_pile q L))) as [Lt|_]; ord.
      rewrite copy_exact; [cbn [obind]; ord|]. rewrite skipn_length, resize_ptrs_len. lia.
    + intros w1 E1.
      assert (X : exists h' L' o' F', w1 = tape nx h' L' (o' :: P) F').
      { destruct (Nat.ltb (length (get_pile q L)) prev); [|destruct (Nat.ltb prev (length (get_pile q L)))].
        - injection E1 as <-. rewrite lb_with_lay_tape. eauto.
        - apply obind_Ok in E1 as [s' [_ E1]]. injection E1 as <-.
          rewrite set_current_op_tape, lb_with_lay_tape. eauto.
        - injection E1 as <-. eauto. }
      destruct X as [h' [L' [o' [F' ->]]]]. rewrite regress_op_tape. cbn [obind]. ord.
  - (* undo clear *)
    unfold l_undo_clear, current_clear. rewrite current_op_tape. destruct P as [|o P]; [tauto|].
    cbn [obind]. destruct o; cbn [obind]; ord.
    rewrite set_current_op_tape, lb_with_lay_tape, regress_op_tape. apply ord_ok.
  - apply ord_abort.
  - rewrite erase_tape. apply ord_ok.
  - (* move *)
    apply ord_bind; [|intros [? ?] ?; apply ord_ok]. unfold l_card_move.
    apply ord_bind; [|intros [? ?] ?; apply ord_ok]. apply ord_f_move; try tauto. apply (to_cnt _ _ _ _ _ _ O).
  - apply ord_l_lift. rewrite lb_lay_tape. apply ord_swap; tauto.
  - apply ord_l_lift. rewrite lb_lay_tape. apply ord_shuffle; tauto.
  - apply ord_l_lift. rewrite lb_lay_tape. apply splice_cases; try tauto. apply LO.
  - apply ord_l_lift. apply ord_pile_swap; tauto.
Qed.

Definition no_shuffle (a : lact) : Prop := match a with LShuffle _ _ => False | _ => True end.

Theorem limbo_ub : forall a (w : limbo C), linv w -> regular_act a -> wild_act a w ->
  no_shuffle a -> lstep c0 a w = UB.
Proof.
  intros a w [nx [h [L [P [F [-> O]]]]]] R W NS. pose proof (to_lay _ _ _ _ _ _ O) as LO. assert (Sh := proj1 LO).
  destruct a; cbn [lstep regular_act wild_act no_shuffle] in *; try (destruct W; fail); try (destruct NS; fail);
    rewrite ?op_tape, ?lb_lay_tape in W.
  - apply resize_lim; auto.
  - destruct W as [-> W]. apply occupied_has in W; auto. unfold l_undo_card_add. rewrite lb_lay_tape, W.
    cbn [assert_ obind]. destruct (has_erase p LO W) as [c [L' E]]. rewrite E. cbn [obind].
    rewrite alive_tape by (eapply erase_alive; eauto). cbn [obind]. unfold current_card.
    rewrite current_op_tape. reflexivity.
  - subst P. unfold l_undo_card_remove, current_card. rewrite current_op_tape. reflexivity.
  - destruct W as [-> [r [i Sl]]]. apply slot_kind in Sl. cbn in Sl. destruct Sl as [Pp E].
    unfold l_undo_pile_resize. rewrite Pp, E. cbn [assert_ obind]. unfold current_resize.
    rewrite current_op_tape. reflexivity.
  - subst P. unfold l_undo_clear, current_clear. rewrite current_op_tape. reflexivity.
  - apply ub_l_lift. apply swap_ub; auto.
  - apply ub_l_lift. apply splice_cases; try tauto. apply LO.
Qed.

(** ** Lists of steps *)
Section Trips.
Variables A St : Type.
Variable bad : A -> St -> Prop.
Variable step : A -> St -> outcome St.
Variable good : St -> Prop.
Hypothesis good_step : forall a s s', good s -> step a s = Ok s' -> good s'.

Lemma trips_orderly : forall l s (ok : A -> Prop),
  (forall a s, good s -> ok a -> ~ bad a s -> orderly (step a s)) ->
  good s -> Forall ok l -> ~ trips bad step l s -> orderly (ofold step l s).
Proof.
  induction l as [|a l IH]; intros s ok H G F NT; cbn [ofold]; [apply ord_ok|].
  apply Forall_cons_iff in F as [Fa F]. cbn [trips] in NT.
  apply ord_bind; [apply H; tauto|]. intros s' E. apply (IH s' ok); auto.
  - eapply good_step; eauto.
  - intros T. apply NT. right. eauto.
Qed.

Lemma trips_ub : forall l s (ok : A -> Prop),
  (forall a s, good s -> ok a -> bad a s -> step a s = UB) ->
  good s -> Forall ok l -> trips bad step l s -> ofold step l s = UB.
Proof.
  induction l as [|a l IH]; intros s ok H G F T; cbn [ofold trips] in *; [destruct T|].
  apply Forall_cons_iff in F as [Fa F]. destruct T as [B|[s' [E T]]].
  - rewrite H; auto.
  - rewrite E. cbn [obind]. apply (IH s' ok); auto. eapply good_step; eauto.
Qed.
End Trips.

End Cards.
