(** Facts about limbo frames used by PropsLimbo. *)
From Verif Require Import Base BaseProofs Place PlaceProofs Frame FrameSpec FrameLens
  FrameProofs FrameMove FrameOps FramePiles FrameInv FrameShuffle FrameFacts
  Limbo LimboSpec LimboProofs.

Section Facts.
Variable C : Type.
Variable c0 : C.
Implicit Types w : limbo C.

Ltac open_tape I :=
  let nx := fresh "nx" in let h := fresh "h" in let L := fresh "L" in
  let P := fresh "P" in let F := fresh "F" in let O := fresh "O" in
  let S := fresh "S" in let Nn := fresh "Nn" in
  destruct I as [nx [h [L [P [F [-> O]]]]]];
  assert (S : shape L) by apply (to_lay _ _ _ _ _ _ O);
  assert (Nn : nonull L) by apply (to_lay _ _ _ _ _ _ O).

Lemma same_view_tape : forall nx h L P F nx' h' P' F', length P = length P' ->
  same_view (@tape C nx h L P F) (tape C nx' h' L P' F').
Proof. intros. split; [reflexivity|]. exact H. Qed.

Lemma undo_add_restores : forall p c w w', linv _ w -> l_card_add c0 p w = Ok (c, w') ->
  exists w'', l_undo_card_add p w' = Ok (c, w'') /\ same_view w w'' /\ same_cards w' w'' /\
    l_card_add c0 p w'' = Ok (c, w').
Proof.
  intros p c w w' I H. open_tape I. destruct F as [|o F].
  - apply add_live in H. destruct H as [L' [E [-> ->]]].
    pose proof (shape_insert _ _ _ _ S E) as S'.
    exists (tape C (nx + 1) ((nx, c0) :: h) L P (CardOp (Some nx) :: [])).
    split; [|split; [|split]].
    + apply undo_add; auto. exists L, P. simpl. split; auto. split; auto. split; auto.
      eapply erase_insert; eauto.
    + apply same_view_tape; auto.
    + reflexivity.
    + apply add_redo; auto. exists L'. simpl. auto.
  - apply add_redo in H; auto. destruct H as [L' [-> [A [E ->]]]].
    pose proof (shape_insert _ _ _ _ S E) as S'.
    exists (tape C nx h L P (CardOp (Some c) :: F)). split; [|split; [|split]].
    + apply undo_add; auto. exists L, P. split; auto. split; auto. split; auto.
      eapply erase_insert; eauto.
    + apply same_view_tape; auto.
    + reflexivity.
    + apply add_redo; auto. eauto.
Qed.

Lemma undo_remove_restores : forall p w w', linv _ w -> l_card_remove p w = Ok w' ->
  exists c w'', card_at_place p (lb_frame w) = Ok c /\
    l_undo_card_remove p w' = Ok (c, w'') /\ same_view w w'' /\ same_cards w w'' /\
    l_card_remove p w'' = Ok w'.
Proof.
  intros p w w' I H. open_tape I.
  assert (K : forall c L', card_erase p L = Ok (c, L') -> In c (map fst h) ->
    card_at_place p (lb_frame (tape C nx h L P F)) = Ok c).
  { intros c L' E A. apply card_erase_slot in E; auto. destruct E as [k [i [Sl [Nt ->]]]].
    eapply card_at_place_slot; eauto. apply heap_get_In. auto. }
  destruct F as [|o F].
  - apply remove_live in H; auto. destruct H as [c [L' [E [A ->]]]].
    pose proof (shape_erase _ _ _ _ S E) as S'.
    exists c, (tape C nx h L P (CardOp (Some c) :: [])).
    split; [eauto|]. split; [|split; [|split]].
    + apply undo_remove; auto. exists L, P. split; auto. split; auto. split; auto.
      eapply insert_erase; eauto.
    + apply same_view_tape; auto.
    + reflexivity.
    + apply remove_redo; auto. exists c, L'. auto.
  - apply remove_redo in H; auto. destruct H as [c [L' [-> [E [A ->]]]]].
    pose proof (shape_erase _ _ _ _ S E) as S'.
    exists c, (tape C nx h L P (CardOp (Some c) :: F)).
    split; [eauto|]. split; [|split; [|split]].
    + apply undo_remove; auto. exists L, P. split; auto. split; auto. split; auto.
      eapply insert_erase; eauto.
    + apply same_view_tape; auto.
    + reflexivity.
    + apply remove_redo; auto. exists c, L'. auto.
Qed.

Lemma unresized_grown : forall l t s, (0 < length t)%nat ->
  unresized (l ++ t) s (length l) = (l, t).
Proof.
  intros. unfold unresized. rewrite app_length.
  destruct (Nat.ltb_spec (length l + length t) (length l)); [lia|].
  destruct (Nat.ltb_spec (length l) (length l + length t)); [|lia].
  rewrite firstn_app_exact, skipn_app_exact by auto. reflexivity.
Qed.

Lemma unresized_same : forall l s, unresized l s (length l) = (l, s).
Proof. intros. unfold unresized. rewrite Nat.ltb_irrefl. reflexivity. Qed.

(** Growing (or keeping the size): undo and redo. *)
Lemma undo_grow_restores : forall p r i count w w', linv _ w -> slot p = Some (CPile r, i) ->
  (length (get_pile r (lb_lay w)) <= N.to_nat count)%nat ->
  l_pile_resize c0 p count w = Ok w' ->
  exists w'' w3, l_undo_pile_resize p count w' = Ok w'' /\ same_view w w'' /\ same_cards w' w'' /\
    l_pile_resize c0 p count w'' = Ok w3 /\ same_view w' w3 /\ same_cards w' w3.
Proof.
  intros p r i count w w' I Sl Le H. open_tape I. rewrite lb_lay_tape in Le.
  assert (R : pile_of p = Ok r) by (apply pile_of_iff; eauto).
  assert (A0 : all_some (get_pile r L)) by (apply nonull_pile; auto).
  set (l := get_pile r L) in *.
  assert (X : exists nx' h' t s o F', w' = tape C nx' h' (set_pile r (l ++ t) L)
    (ResizeOp (length l) s :: P) F' /\ length (l ++ t) = N.to_nat count /\ all_some (l ++ t) /\
    o = ResizeOp (length l) (if Nat.eqb (length t) 0 then s else t)).
  { destruct F as [|o F].
    - apply resize_live in H; auto. destruct H as [r' [l' [s' [R' [E [Ln [A ->]]]]]]].
      rewrite R in R'. injection R' as <-. fold l in E |- *. unfold resized in E.
      destruct (Nat.ltb_spec (length l) (N.to_nat count)).
      + injection E as <- <-. eauto 10.
      + destruct (Nat.ltb_spec (N.to_nat count) (length l)); [lia|]. injection E as <- <-.
        do 2 eexists. exists [], []. rewrite app_nil_r. eauto 10.
    - apply resize_redo in H; auto. destruct H as [r' [l' [pv [s [s' [R' [-> [E [Ln [A ->]]]]]]]]]].
      rewrite R in R'. injection R' as <-. fold l in E |- *. unfold resized in E.
      destruct (Nat.ltb_spec (length l) (N.to_nat count)).
      + injection E as <- <-. eauto 10.
      + destruct (Nat.ltb_spec (N.to_nat count) (length l)); [lia|]. injection E as <- <-.
        do 2 eexists. exists [], s. rewrite app_nil_r. eauto 10. }
  destruct X as [nx' [h' [t [s [o [F' [-> [Ln [A ->]]]]]]]]]. clear H.
  set (s2 := if Nat.eqb (length t) 0 then s else t).
  assert (U : unresized (l ++ t) s (length l) = (l, s2)).
  { unfold s2. destruct t as [|x t].
    - rewrite app_nil_r. apply unresized_same.
    - apply unresized_grown. simpl. lia. }
  assert (SL : set_pile r l L = L) by apply set_pile_id.
  exists (tape C nx' h' L P (ResizeOp (length l) s2 :: F')),
         (tape C nx' h' (set_pile r (l ++ t) L) (ResizeOp (length l) s2 :: P) F').
  assert (Nn' : nonull (set_pile r (l ++ t) L)) by (apply nonull_set_pile; auto).
  repeat split.
  - apply undo_resize; auto. exists r, (length l), s, P. rewrite get_set_pile_same, U.
    cbn [fst snd]. rewrite set_set_pile, SL. auto.
  - apply resize_redo; auto. exists r, (l ++ t), (length l), s2, s2. fold l.
    repeat split; auto. unfold resized, s2. rewrite app_length in Ln. destruct t as [|x t].
    + simpl length in *. rewrite app_nil_r. destruct (Nat.ltb_spec (length l) (N.to_nat count)); [lia|].
      destruct (Nat.ltb_spec (N.to_nat count) (length l)); [lia|]. reflexivity.
    + simpl length in Ln. destruct (Nat.ltb_spec (length l) (N.to_nat count)); [|lia]. reflexivity.
Qed.

Lemma grow_succeeds : forall p r i count w, linv _ w -> slot p = Some (CPile r, i) -> at_end w ->
  (length (get_pile r (lb_lay w)) <= N.to_nat count)%nat ->
  exists w', l_pile_resize c0 p count w = Ok w' /\
    exists new, lb_lay w' = set_pile r (get_pile r (lb_lay w) ++ map Some new) (lb_lay w) /\
      length (get_pile r (lb_lay w')) = N.to_nat count /\
      forall id, In id new -> ~ card_alive w id /\ card_alive w' id.
Proof.
  intros p r i count w I Sl En Le. open_tape I. rewrite lb_lay_tape in *.
  apply at_end_tape in En. subst F.
  assert (R : pile_of p = Ok r) by (apply pile_of_iff; eauto).
  assert (A0 : all_some (get_pile r L)) by (apply nonull_pile; auto).
  set (l := get_pile r L) in *. set (g := (N.to_nat count - length l)%nat).
  assert (Ex : exists l' s', resized true nx l [] (N.to_nat count) = Ok (l', s') /\
     l' = l ++ map Some (news nx g)).
  { unfold resized, g. destruct (Nat.ltb_spec (length l) (N.to_nat count)).
    - eauto.
    - destruct (Nat.ltb_spec (N.to_nat count) (length l)); [lia|].
      replace (N.to_nat count - length l)%nat with 0%nat by lia. simpl. rewrite app_nil_r. eauto. }
  destruct Ex as [l' [s' [E ->]]].
  assert (A : all_some (l ++ map Some (news nx g))).
  { apply all_some_app. split; auto. intros X. apply in_map_iff in X.
    destruct X as [? [? ?]]. discriminate. }
  assert (Ln : length (l ++ map Some (news nx g)) = N.to_nat count).
  { rewrite app_length, map_length, news_length. unfold g. lia. }
  eexists. split.
  - apply resize_live; auto. exists r, (l ++ map Some (news nx g)), s'. fold l.
    split; [auto|]. split; [eauto|]. split; [auto|]. split; [auto|reflexivity].
  - cbv zeta. fold g. rewrite lb_lay_tape. exists (news nx g). split; [auto|].
    rewrite get_set_pile_same. split; [auto|]. intros id X.
    unfold card_alive, live, tape. cbn [lb_frame f_heap]. split.
    + intros Y. apply (to_lt _ _ _ _ _ _ O) in Y. apply news_In in X. lia.
    + rewrite map_app. apply in_or_app. left. unfold fresh_cells.
      rewrite map_rev, map_map, <- in_rev. simpl. rewrite map_id. auto.
Qed.

(** Shrinking at the live end, exactly. *)
Lemma shrink_ub : forall p r i count w, linv _ w -> slot p = Some (CPile r, i) -> at_end w ->
  (N.to_nat count < length (get_pile r (lb_lay w)) < 2 * N.to_nat count)%nat ->
  l_pile_resize c0 p count w = UB.
Proof.
  intros p r i count w I Sl En Le. open_tape I. rewrite lb_lay_tape in *.
  apply at_end_tape in En. subst F.
  assert (R : pile_of p = Ok r) by (apply pile_of_iff; eauto).
  assert (Pl : is_pile p = true) by (apply slot_kind in Sl; tauto).
  unfold l_pile_resize. rewrite Pl, advance_op_end, R. cbn [assert_ obind]. cbv zeta.
  rewrite emplace_halfway, lb_lay_tape. set (l := get_pile r L) in *. unfold lenN.
  replace (N.of_nat (length l) <? count)%N with false by lia.
  replace (count <? N.of_nat (length l))%N with true by lia.
  unfold copy_to. rewrite resize_ptrs_len, skipn_length.
  destruct (Nat.leb_spec (length l - (length l - N.to_nat count)) (length l - N.to_nat count)); [lia|].
  reflexivity.
Qed.

Lemma shrink_ok : forall p r i count w, linv _ w -> slot p = Some (CPile r, i) -> at_end w ->
  (2 * N.to_nat count <= length (get_pile r (lb_lay w)))%nat ->
  (N.to_nat count < length (get_pile r (lb_lay w)))%nat ->
  exists w', l_pile_resize c0 p count w = Ok w' /\
    lb_lay w' = set_pile r (firstn (N.to_nat count) (get_pile r (lb_lay w))) (lb_lay w) /\
    ((2 * N.to_nat count < length (get_pile r (lb_lay w)))%nat ->
       l_undo_pile_resize p count w' = Abort) /\
    ((2 * N.to_nat count = length (get_pile r (lb_lay w)))%nat ->
       exists w'' w3, l_undo_pile_resize p count w' = Ok w'' /\ same_view w w'' /\ same_cards w w'' /\
         l_pile_resize c0 p count w'' = Ok w3 /\ same_view w' w3 /\ same_cards w' w3).
Proof.
  intros p r i count w I Sl En Le Lt. open_tape I. rewrite lb_lay_tape in *.
  apply at_end_tape in En. subst F.
  assert (R : pile_of p = Ok r) by (apply pile_of_iff; eauto).
  assert (A0 : all_some (get_pile r L)) by (apply nonull_pile; auto).
  set (l := get_pile r L) in *. set (n := N.to_nat count) in *.
  set (s := skipn (length l - n) l ++ repeat None (length l - 2 * n)).
  assert (E : resized true nx l [] n = Ok (firstn n l, s)).
  { unfold resized. destruct (Nat.ltb_spec (length l) n); [lia|].
    destruct (Nat.ltb_spec n (length l)); [|lia].
    unfold copy_to. rewrite resize_ptrs_len, skipn_length.
    destruct (Nat.leb_spec (length l - (length l - n)) (length l - n)); [|lia].
    cbn [obind]. unfold s, resize_ptrs. rewrite firstn_nil. cbn [app length].
    do 3 f_equal. rewrite Nat.sub_0_r.
    replace (length l - n)%nat with ((length l - (length l - n)) + (length l - 2 * n))%nat at 2 by lia.
    rewrite repeat_app. apply skipn_app_exact. rewrite repeat_length. auto. }
  assert (A : all_some (firstn n l)) by (apply all_some_firstn; auto).
  assert (Ln : length (firstn n l) = n) by (rewrite firstn_length; lia).
  assert (G : (n - length l)%nat = 0%nat) by lia.
  eexists. split; [|split; [|split]].
  - apply resize_live; auto. exists r, (firstn n l), s. fold l n. repeat split; eauto.
  - cbv zeta. fold l n. reflexivity.
  - intros X. cbv zeta. fold l n. rewrite (undo_resize_run _ _ _ _ _ _ _ _ _ _ _ R).
    cbv zeta. rewrite get_set_pile_same. unfold unresized. rewrite Ln.
    destruct (Nat.ltb_spec n (length l)); [|lia]. cbn [fst].
    assert (Q : length (firstn n l ++ s) = length l).
    { unfold s. rewrite !app_length, Ln, skipn_length, repeat_length. lia. }
    rewrite Q, Nat.eqb_refl. cbn [assert_ obind].
    destruct (verify_pile (firstn n l ++ s)) as [u| | |] eqn:V; try reflexivity.
    + apply verify_pile_inv in V. apply all_some_app in V. destruct V as [_ V].
      unfold s in V. apply all_some_app in V. destruct V as [_ V]. exfalso.
      apply V. replace (length l - 2 * n)%nat with (Datatypes.S (length l - 2 * n - 1)) by lia. left. auto.
    + unfold verify_pile, assert_ in V. destruct (forallb _ _); discriminate.
    + unfold verify_pile, assert_ in V. destruct (forallb _ _); discriminate.
  - intros X. cbv zeta. fold l n. rewrite G.
    assert (Es : s = skipn n l).
    { unfold s. replace (length l - 2 * n)%nat with 0%nat by lia. cbn [repeat].
      rewrite app_nil_r. f_equal. lia. }
    exists (tape C nx h L P (ResizeOp (length l) s :: [])),
           (tape C nx h (set_pile r (firstn n l) L) (ResizeOp (length l) s :: P) []).
    assert (U : unresized (firstn n l) s (length l) = (l, s)).
    { unfold unresized. rewrite Ln. destruct (Nat.ltb_spec n (length l)); [|lia].
      rewrite Es, firstn_skipn. auto. }
    repeat split.
    + rewrite (undo_resize_run _ _ _ _ _ _ _ _ _ _ _ R). cbv zeta.
      rewrite get_set_pile_same, U. cbn [fst snd]. rewrite Nat.eqb_refl.
      rewrite (proj2 (verify_pile_Ok _) A0). cbn [assert_ obind].
      unfold fresh_cells. simpl rev. cbn [app]. rewrite set_set_pile. unfold l.
      rewrite set_pile_id. simpl N.of_nat. rewrite N.add_0_r. reflexivity.
    + apply resize_redo; auto. exists r, (firstn n l), (length l), s, s. fold l n.
      repeat split; auto. unfold resized. destruct (Nat.ltb_spec (length l) n); [lia|].
      destruct (Nat.ltb_spec n (length l)); [|lia].
      rewrite copy_exact by (rewrite resize_ptrs_len, skipn_length; lia).
      cbn [obind]. rewrite Es. do 3 f_equal. lia.
Qed.

Lemma undo_clear_restores : forall w w', linv _ w -> l_clear w = Ok w' ->
  exists w'' w3, l_undo_clear w' = Ok w'' /\ same_view w w'' /\ same_cards w w'' /\
    l_clear w'' = Ok w3 /\ same_view w' w3 /\ same_cards w' w3.
Proof.
  intros w w' I H. open_tape I. destruct F as [|o F].
  - rewrite clear_live in H. injection H as <-.
    exists (tape C nx h L P (ClearOp layout0 :: [])), (tape C nx h layout0 (ClearOp L :: P) []).
    repeat split; [apply undo_clear|apply clear_redo]; eauto.
  - apply clear_redo in H. destruct H as [L' [-> ->]].
    exists (tape C nx h L P (ClearOp L' :: F)), (tape C nx h L' (ClearOp L :: P) F).
    repeat split; [apply undo_clear|apply clear_redo]; eauto.
Qed.

Lemma clear_empties : forall w, linv _ w -> at_end w ->
  exists w', l_clear w = Ok w' /\ (forall k, contents k (lb_lay w') = []) /\ same_cards w w'.
Proof.
  intros w I En. open_tape I. apply at_end_tape in En. subst F. rewrite clear_live.
  eexists. split; [reflexivity|]. split; [|reflexivity]. rewrite lb_lay_tape.
  intros k. destruct (valid_cont_dec k) as [V|V].
  - destruct k as [[[] []]|[[[] []] i]|[[[] []] i]]; simpl in V; try reflexivity;
      do 8 (destruct i; [reflexivity|try lia]).
  - apply contents_invalid; auto using shape0.
Qed.

Lemma erase_facts : forall w, linv _ w ->
  exists w', l_erase_history w = Ok w' /\ lb_frame w' = lb_frame w /\ lb_op w' = lb_op w /\
    lb_ops w' = firstn (lb_op w) (lb_ops w) /\ at_end w' /\ (at_end w -> w' = w).
Proof.
  intros w I. open_tape I. rewrite erase_tape. eexists. split; [reflexivity|].
  repeat split.
  - unfold tape. cbn [lb_op lb_ops]. rewrite app_nil_r.
    rewrite firstn_app_exact by (rewrite rev_length; auto). auto.
  - apply at_end_tape. auto.
  - intros X. apply at_end_tape in X. subst. auto.
Qed.

(** At the live end the next operation is recorded as a new one. *)
Lemma fresh_op : forall a w w', linv _ w -> at_end w -> lstep c0 a w = Ok w' ->
  match a with
  | LAdd _ | LRemove _ | LResize _ _ | LClear =>
      exists o, lb_ops w' = lb_ops w ++ [o] /\ at_end w'
  | _ => True
  end.
Proof.
  intros a w w' I En H. open_tape I. apply at_end_tape in En. subst F.
  assert (K : forall nx' h' L' o, w' = tape C nx' h' L' (o :: P) [] ->
    exists o, lb_ops w' = lb_ops (tape C nx h L P []) ++ [o] /\ at_end w').
  { intros nx' h' L' o ->. exists o. split; [|apply at_end_tape; auto].
    unfold tape. cbn [lb_ops]. simpl rev. rewrite !app_nil_r. auto. }
  destruct a; auto; cbn [lstep] in H.
  - apply obind_Ok in H as [[c w1] [H X]]. injection X as ->. apply add_live in H.
    destruct H as [L' [E [-> ->]]]. eauto.
  - apply remove_live in H; auto. destruct H as [c [L' [E [A ->]]]]. eauto.
  - apply resize_live in H; auto. destruct H as [r [l' [s' [R [E [Ln [A ->]]]]]]]. eauto.
  - rewrite clear_live in H. injection H as <-. eauto.
Qed.

(** Every card that can be seen or redone is alive, and stays alive. *)
Lemma limbo_refs : forall w, linv _ w ->
  (forall pos id, occupant (lb_lay w) pos = Some (Some id) -> card_alive w id) /\
  (forall o id, In o (lb_ops w) -> op_mentions o id -> card_alive w id).
Proof.
  intros w I. open_tape I. unfold card_alive, live. rewrite lb_lay_tape.
  assert (Q : forall L1 pos id, lay_ok L1 ->
    occupant L1 pos = Some (Some id) -> (0 < cntL L1 id)%nat).
  { intros L1 [k i] id K Oc. unfold occupant in Oc. simpl in Oc.
    destruct (valid_cont_dec k) as [V|V].
    - pose proof (cnt_le_cntL k L1 id (proj1 K) V). apply nth_error_In, cnt_In in Oc. lia.
    - rewrite contents_invalid in Oc; auto. { destruct i; discriminate. } apply K. }
  split.
  - intros pos id Oc. apply (to_cnt _ _ _ _ _ _ O). eapply Q; eauto. apply (to_lay _ _ _ _ _ _ O).
  - intros o id X M. unfold tape in *. cbn [lb_ops lb_frame f_heap] in *.
    assert (G : op_ok _ h o).
    { apply in_app_or in X. rewrite <- in_rev in X.
      destruct X as [X|X]; [pose proof (to_past _ _ _ _ _ _ O) as G
                           |pose proof (to_next _ _ _ _ _ _ O) as G];
        rewrite Forall_forall in G; auto. }
    destruct o as [[c|]|n s|L1]; simpl in *.
    + congruence.
    + tauto.
    + auto.
    + destruct G as [G1 G2]. destruct M as [pos M]. eauto.
Qed.

Lemma alive_forever : forall acts w w', linv _ w -> lrun c0 acts w = Ok w' ->
  forall id, card_alive w id -> card_alive w' id.
Proof.
  induction acts as [|a acts IH]; intros w w' I H id A.
  - injection H as <-. auto.
  - unfold lrun in H. cbn [ofold] in H. apply obind_Ok in H as [w1 [H1 H2]].
    destruct (linv_step _ _ _ _ _ I H1) as [I1 [new [G _]]].
    eapply IH; eauto. unfold card_alive, live in *. rewrite G, map_app. apply in_or_app. auto.
Qed.

Lemma redo_creates_nothing : forall a w w', linv _ w -> ~ at_end w -> lstep c0 a w = Ok w' ->
  same_cards w w'.
Proof.
  intros a w w' I En H. destruct (linv_step _ _ _ _ _ I H) as [_ [new [G [X|X]]]]; [tauto|].
  subst. unfold same_cards. rewrite G. auto.
Qed.

(** What adding and removing do to the visible frame, at any position. *)
Lemma limbo_add_view : forall p c w w', linv _ w -> l_card_add c0 p w = Ok (c, w') ->
  exists k i, slot p = Some (k, i) /\ room_for k i (contents k (lb_lay w)) /\
    card_at_place p (lb_frame w') = Ok c /\
    forall x, view (lb_lay w') x = view_insert k i c (view (lb_lay w)) x.
Proof.
  intros p c w w' I H. open_tape I.
  assert (K : forall nx' h' L' P' F', card_insert p c L = Ok L' -> In c (map fst h') ->
    w' = tape C nx' h' L' P' F' ->
    exists k i, slot p = Some (k, i) /\ room_for k i (contents k (lb_lay (tape C nx h L P F))) /\
    card_at_place p (lb_frame w') = Ok c /\
    forall x, view (lb_lay w') x = view_insert k i c (view (lb_lay (tape C nx h L P F))) x).
  { intros nx' h' L' P' F' E A ->. rewrite !lb_lay_tape.
    pose proof (shape_insert _ _ _ _ S E) as S'.
    apply card_insert_slot in E; auto. destruct E as [k [i [Sl [Le [Fi ->]]]]].
    pose proof (slot_valid _ _ _ Sl) as V.
    exists k, i. split; auto. split; [split; auto; apply fits_insert in Fi; auto|]. split.
    - eapply card_at_place_slot; eauto.
      + cbn [lb_frame tape f_lay]. rewrite contents_put_same by auto.
        apply nth_error_insert_eq. auto.
      + apply heap_get_In. auto.
    - intros x. rewrite view_put by auto. reflexivity. }
  destruct F as [|o F].
  - apply add_live in H. destruct H as [L' [E [-> ->]]]. eapply K; eauto. simpl. auto.
  - apply add_redo in H; auto. destruct H as [L' [-> [A [E ->]]]]. eapply K; eauto.
Qed.

Lemma limbo_remove_view : forall p w w', linv _ w -> l_card_remove p w = Ok w' ->
  exists k i, slot p = Some (k, i) /\ nth_error (contents k (lb_lay w)) i <> None /\
    forall x, view (lb_lay w') x = view_remove k i (view (lb_lay w)) x.
Proof.
  intros p w w' I H. open_tape I.
  assert (K : forall c nx' h' L' P' F', card_erase p L = Ok (c, L') ->
    w' = tape C nx' h' L' P' F' ->
    exists k i, slot p = Some (k, i) /\
    nth_error (contents k (lb_lay (tape C nx h L P F))) i <> None /\
    forall x, view (lb_lay w') x = view_remove k i (view (lb_lay (tape C nx h L P F))) x).
  { intros c nx' h' L' P' F' E ->. rewrite !lb_lay_tape.
    apply card_erase_slot in E; auto. destruct E as [k [i [Sl [Nt ->]]]].
    pose proof (slot_valid _ _ _ Sl) as V.
    exists k, i. split; auto. split; [congruence|]. intros x.
    rewrite view_put by auto using fits_remove, contents_fits. reflexivity. }
  destruct F as [|o F].
  - apply remove_live in H; auto. destruct H as [c [L' [E [A ->]]]]. eapply K; eauto.
  - apply remove_redo in H; auto. destruct H as [c [L' [-> [E [A ->]]]]]. eapply K; eauto.
Qed.

End Facts.
