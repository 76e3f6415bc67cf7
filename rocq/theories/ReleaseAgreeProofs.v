(** Boards with and without a history in a build without assertions. *)
From Verif Require Import Base BaseProofs Place PlaceProofs Frame FrameSpec FrameLens FramePiles FrameInv FrameFacts Limbo LimboSpec
  LimboProofs LimboUndo Msg Event EventSpec EventUndo UReplaySpec Release ReleaseFrameSpec ReleaseFrameProofs ReleaseAgreeSpec.

Set Implicit Arguments.
Local Open Scope N_scope.

Local Tactic Notation "bind" hyp(H) "as" ident(x) ident(E) := apply obind_Ok in H; destruct H as (x & E & H).

(** ** An event is its operations on the frame and the rest *)
Definition fo_step {F} (fo : frame_ops F) (a : lact) : F -> outcome F :=
  match a with
  | LAdd p => fo_add fo p
  | LRemove p => fo_remove fo p
  | LResize p n => fo_resize fo p n
  | LMove a b => fo_move fo a b
  | LSwap a b => fo_swap fo a b
  | LShuffle p c => fo_shuffle fo p c
  | LSplice a n b r => fo_splice fo a n b r
  | LPileSwap a b => fo_pile_swap fo a b
  | _ => fo_clear fo
  end.

Definition unit_fo : frame_ops unit :=
  mkFrameOps (fun _ => @Ok unit) (fun _ => @Ok unit) (fun _ _ => @Ok unit) (fun _ _ => @Ok unit) (fun _ _ => @Ok unit)
    (fun _ _ => @Ok unit) (fun _ _ _ _ => @Ok unit) (fun _ _ => @Ok unit) (@Ok unit).

Section Split.
Variable F : Type.
Variable V : Type -> Type.
Variable fo : frame_ops F.
Variable vo : value_ops V.

Definition bare (b : board F V) : board unit V :=
  mkBoard V tt (b_chain b) (b_turn b) (b_turn_controller b) (b_lp b) (b_phase b) (b_blocked b).

Lemma fo_fold : forall X (op : X -> F -> outcome F) (g : X -> lact) l f,
  (forall x, op x = fo_step fo (g x)) -> ofold op l f = ofold (fo_step fo) (map g l) f.
Proof.
  induction l as [|x l IH]; intros f E; cbn [ofold map]; auto. rewrite E.
  destruct (fo_step fo (g x) f); cbn [obind]; auto.
Qed.

Lemma unit_fold : forall X (op : X -> unit -> outcome unit) l, (forall x, op x tt = Ok tt) -> ofold op l tt = Ok tt.
Proof. induction l as [|x l IH]; intros E; cbn [ofold]; auto. rewrite E. cbn [obind]. auto. Qed.

Lemma on_frame_bare : forall op uop b b', on_frame op b = Ok b' -> uop tt = Ok tt ->
  op (b_frame b) = Ok (b_frame b') /\ on_frame uop (bare b) = Ok (bare b').
Proof.
  intros op uop b b' H U. unfold on_frame in *. bind H as f E. cbn [bare b_frame]. rewrite U. cbn [obind].
  assert (b' = set_frame f b) by congruence. subst b'. split; [exact E|reflexivity].
Qed.

Lemma on_frame_back : forall op uop b ub' f', op (b_frame b) = Ok f' -> on_frame uop (bare b) = Ok ub' -> uop tt = Ok tt ->
  exists b', on_frame op b = Ok b'.
Proof. intros op uop b ub' f' H _ _. unfold on_frame. rewrite H. cbn [obind]. eauto. Qed.

Lemma parse_split : forall e b b', rel_parse_event fo vo e b = Ok b' ->
  ofold (fo_step fo) (event_acts e) (b_frame b) = Ok (b_frame b') /\ rel_parse_event unit_fo vo e (bare b) = Ok (bare b').
Proof.
  intros e b b' H.
  destruct e as [|[|x|s]|re [|l|l|l|l|pv cu]|[|c|pp]|con|wr mr ft|con t|me|ph'|re [|l|l|l]|rs|zs];
    cbn [rel_parse_event parse_event event_acts ofold] in *;
    try (assert (b' = b) by congruence; subst b'; split; reflexivity).
  - unfold parse_exchange, do_resizes, do_removes, do_adds, resize_acts in *.
    apply on_frame_bare with (uop := fun f => let! f1 := do_resizes unit_fo (bx_resize x) f in
      let! f2 := do_removes unit_fo (bx_remove x) f1 in do_adds unit_fo (bx_add x) f2) in H.
    + destruct H as [H1 H2]. split; [|exact H2]. rewrite !ofold_app.
      rewrite <- (@fo_fold _ (fun o => fo_resize fo (rz_place o) (rz_count o))) by reflexivity.
      bind H1 as f1 E1. rewrite E1. cbn [obind]. rewrite ofold_app. rewrite <- (@fo_fold _ (fo_remove fo)) by reflexivity.
      bind H1 as f2 E2. rewrite E2. cbn [obind]. rewrite <- (@fo_fold _ (fo_add fo)) by reflexivity. exact H1.
    + unfold do_resizes, do_removes, do_adds. rewrite unit_fold by reflexivity. cbn [obind].
      rewrite unit_fold by reflexivity. cbn [obind]. apply unit_fold. reflexivity.
  - unfold parse_state in *. cbv zeta in *. bind H as lp0 L0. rewrite L0. cbn [obind] in *.
    unfold assign_lp in *. change (lp_index 0) with (Ok false) in *. change (lp_index 1) with (Ok true) in *. cbn [obind] in *.
    bind H as lp1 L1. rewrite L1. cbn [obind] in *.
    apply on_frame_bare with (uop := fun f => let! f1 := fo_clear unit_fo f in
      let! f2 := do_adds unit_fo (bs_add s) f1 in do_resizes unit_fo (bs_resize s) f2) in H.
    + destruct H as [H1 H2]. split.
      * match type of H1 with obind (fo_clear fo ?f) _ = _ => replace f with (b_frame b) in H1 by (destruct (0 <=? bs_turn_counter s)%Z; reflexivity) end.
        bind H1 as f1 E1. change (fo_step fo LClear) with (fo_clear fo). rewrite E1. cbn [obind]. unfold do_adds, do_resizes, resize_acts in *.
        rewrite ofold_app, <- (@fo_fold _ (fo_add fo)) by reflexivity. bind H1 as f2 E2. rewrite E2. cbn [obind].
        rewrite <- (@fo_fold _ (fun o => fo_resize fo (rz_place o) (rz_count o))) by reflexivity. exact H1.
      * rewrite <- H2. destruct (0 <=? bs_turn_counter s)%Z; reflexivity.
    + cbn [unit_fo fo_clear obind]. unfold do_adds, do_resizes. rewrite unit_fold by reflexivity. cbn [obind]. apply unit_fold. reflexivity.
  - unfold do_adds in *. rewrite <- (@fo_fold _ (fo_add fo)) by reflexivity.
    eapply on_frame_bare in H; [exact H|]. apply unit_fold. reflexivity.
  - unfold do_swaps in *. rewrite <- (@fo_fold _ (fun o => fo_swap fo (po_a o) (po_b o))) by reflexivity.
    eapply on_frame_bare in H; [exact H|]. apply unit_fold. reflexivity.
  - unfold do_moves in *. rewrite <- (@fo_fold _ (fun o => fo_move fo (po_a o) (po_b o))) by reflexivity.
    eapply on_frame_bare in H; [exact H|]. apply unit_fold. reflexivity.
  - unfold do_removes in *. rewrite <- (@fo_fold _ (fo_remove fo)) by reflexivity.
    eapply on_frame_bare in H; [exact H|]. apply unit_fold. reflexivity.
  - eapply on_frame_bare in H; [destruct H as [H1 H2]; split; [|exact H2]|reflexivity].
    change (fo_step fo (LShuffle pv cu)) with (fo_shuffle fo pv cu). rewrite H1. reflexivity.
  - bind H as y E. cbn [bare b_chain]. rewrite E. cbn [obind]. assert (b' = set_chain y b) by congruence. subst b'. split; reflexivity.
  - bind H as y E. cbn [bare b_chain]. rewrite E. cbn [obind]. assert (b' = set_chain y b) by congruence. subst b'. split; reflexivity.
  - match type of H with Ok ?q = _ => assert (b' = q) by congruence; subst b' end. split; reflexivity.
  - bind H as i E. bind H as j E'. rewrite E. cbn [obind].
    match type of H with Ok ?q = _ => assert (b' = q) by congruence; subst b' end. assert (i = j) by congruence. subst j. split; reflexivity.
  - match type of H with Ok ?q = _ => assert (b' = q) by congruence; subst b' end. split; reflexivity.
  - unfold do_pile_swaps in *. rewrite <- (@fo_fold _ (fun o => fo_pile_swap fo (po_a o) (po_b o))) by reflexivity.
    eapply on_frame_bare in H; [exact H|]. apply unit_fold. reflexivity.
  - unfold do_splices in *. rewrite <- (@fo_fold _ (fun o => fo_splice fo (sp_from o) (sp_count o) (sp_to o) (sp_reverse o))) by reflexivity.
    eapply on_frame_bare in H; [exact H|]. apply unit_fold. reflexivity.
  - match type of H with Ok ?q = _ => assert (b' = q) by congruence; subst b' end. split; reflexivity.
Qed.

(** And conversely. *)
Lemma parse_join : forall e b f' ub', ofold (fo_step fo) (event_acts e) (b_frame b) = Ok f' ->
  rel_parse_event unit_fo vo e (bare b) = Ok ub' -> exists b', rel_parse_event fo vo e b = Ok b'.
Proof.
  intros e b f' ub' H U.
  destruct e as [|[|x|s]|re [|l|l|l|l|pv cu]|[|c|pp]|con|wr mr ft|con t|me|ph'|re [|l|l|l]|rs|zs];
    cbn [rel_parse_event parse_event event_acts ofold] in *; try (eexists; reflexivity).
  - unfold parse_exchange, on_frame, do_resizes, do_removes, do_adds, resize_acts in *. rewrite !ofold_app in H.
    rewrite (@fo_fold _ (fun o => fo_resize fo (rz_place o) (rz_count o)) (fun o => LResize (rz_place o) (rz_count o))) by reflexivity.
    bind H as f1 E1. rewrite E1. cbn [obind]. rewrite ofold_app in H.
    rewrite (@fo_fold _ (fo_remove fo) LRemove) by reflexivity. bind H as f2 E2. rewrite E2. cbn [obind].
    rewrite (@fo_fold _ (fo_add fo) LAdd) by reflexivity. rewrite H. cbn [obind]. eauto.
  - unfold parse_state in *. cbv zeta in *. bind U as lp0 L0. rewrite L0. cbn [obind] in *.
    unfold assign_lp in *. change (lp_index 0) with (Ok false) in *. change (lp_index 1) with (Ok true) in *. cbn [obind] in *.
    bind U as lp1 L1. rewrite L1. cbn [obind] in *. unfold on_frame.
    match goal with |- exists b', obind (obind (fo_clear fo ?f) _) _ = _ => replace f with (b_frame b) by (destruct (0 <=? bs_turn_counter s)%Z; reflexivity) end.
    bind H as f1 E1. change (fo_step fo LClear) with (fo_clear fo) in E1. rewrite E1. cbn [obind]. unfold do_adds, do_resizes, resize_acts in *.
    rewrite ofold_app in H. bind H as f2 E2.
    rewrite (@fo_fold _ (fo_add fo) LAdd) by reflexivity. rewrite E2. cbn [obind].
    rewrite (@fo_fold _ (fun o => fo_resize fo (rz_place o) (rz_count o)) (fun o => LResize (rz_place o) (rz_count o))) by reflexivity.
    rewrite H. cbn [obind]. eauto.
  - unfold on_frame, do_adds in *. rewrite (@fo_fold _ (fo_add fo) LAdd), H by reflexivity. cbn [obind]. eauto.
  - unfold on_frame, do_swaps in *. rewrite (@fo_fold _ (fun o => fo_swap fo (po_a o) (po_b o)) (fun o => LSwap (po_a o) (po_b o))), H by reflexivity. cbn [obind]. eauto.
  - unfold on_frame, do_moves in *. rewrite (@fo_fold _ (fun o => fo_move fo (po_a o) (po_b o)) (fun o => LMove (po_a o) (po_b o))), H by reflexivity. cbn [obind]. eauto.
  - unfold on_frame, do_removes in *. rewrite (@fo_fold _ (fo_remove fo) LRemove), H by reflexivity. cbn [obind]. eauto.
  - unfold on_frame. bind H as f1 E. change (fo_step fo (LShuffle pv cu)) with (fo_shuffle fo pv cu) in E. rewrite E. cbn [obind]. eauto.
  - bind U as y E. cbn [bare b_chain] in E. rewrite E. cbn [obind]. eauto.
  - bind U as y E. cbn [bare b_chain] in E. rewrite E. cbn [obind]. eauto.
  - bind U as i E. rewrite E. cbn [obind]. eauto.
  - unfold on_frame, do_pile_swaps in *. rewrite (@fo_fold _ (fun o => fo_pile_swap fo (po_a o) (po_b o)) (fun o => LPileSwap (po_a o) (po_b o))), H by reflexivity. cbn [obind]. eauto.
  - unfold on_frame, do_splices in *. rewrite (@fo_fold _ (fun o => fo_splice fo (sp_from o) (sp_count o) (sp_to o) (sp_reverse o))
      (fun o => LSplice (sp_from o) (sp_count o) (sp_to o) (sp_reverse o))), H by reflexivity. cbn [obind]. eauto.
Qed.
End Split.

(** ** The rest *)
Definition newest {T} (u : undoable T) (x : T) : Prop := u_next u = [] /\ u_get u = x.
Definition vals (u : board unit undoable) (p : board unit plain) : Prop :=
  newest (b_turn u) (b_turn p) /\ newest (b_turn_controller u) (b_turn_controller p) /\
  newest (fst (b_lp u)) (fst (b_lp p)) /\ newest (snd (b_lp u)) (snd (b_lp p)) /\
  newest (b_phase u) (b_phase p) /\ newest (b_blocked u) (b_blocked p) /\ u_next (b_chain u) = [].
Definition chain_after (e : event) (c : list chain) : list chain :=
  match e with EvBoard (BoardState s) => bs_chains s | _ => c end.

Lemma get_set : forall T (v : T) u x, newest u x -> newest (u_set v u) v.
Proof. intros T v [a b c] x [E _]. cbn in E. subst. split; reflexivity. Qed.
Lemma chain_set : forall (v : list chain) u, u_next u = [] -> newest (u_set v u) v.
Proof. intros v [a b c] E. cbn in E. subst. split; reflexivity. Qed.

Local Ltac fin_with F := apply F; try assumption; try (eapply get_set; eassumption); try (apply chain_set; assumption).

Lemma vals_parse : forall e u p p', vals u p -> rel_parse_event unit_fo plain_vo e p = Ok p' ->
  exists u', rel_parse_event unit_fo rel_undoable_vo e u = Ok u' /\ vals u' p' /\ u_get (b_chain u') = chain_after e (u_get (b_chain u)).
Proof.
  assert (U : forall X (op : X -> unit -> outcome unit) l, (forall x, op x tt = Ok tt) -> ofold op l tt = Ok tt) by (apply unit_fold).
  intros e [[] uc ut uk [ul0 ul1] uh ub] [[] pc pt pk [pl0 pl1] ph pb] p' (V1 & V2 & V3 & V4 & V5 & V6 & V7) H.
  cbn [b_frame b_chain b_turn b_turn_controller b_lp b_phase b_blocked fst snd] in V1, V2, V3, V4, V5, V6, V7.
  assert (Fin : forall uc' ut' uk' ul0' ul1' uh' ub' pc' pt' pk' pl0' pl1' ph' pb' c',
    newest ut' pt' -> newest uk' pk' -> newest ul0' pl0' -> newest ul1' pl1' -> newest uh' ph' -> newest ub' pb' -> newest uc' c' ->
    vals (mkBoard undoable tt uc' ut' uk' (ul0', ul1') uh' ub') (mkBoard plain tt pc' pt' pk' (pl0', pl1') ph' pb') /\ u_get uc' = c').
  { intros. match goal with H : newest uc' c' |- _ => destruct H end. split; [repeat (split; [assumption|]); assumption|assumption]. }
  assert (V8 : newest uc (u_get uc)) by (split; [exact V7|reflexivity]).
  destruct e as [|[|x|s]|re [|l|l|l|l|pv cu]|[|c|pp]|con|wr mr ft|con t|me|ph'|re [|l|l|l]|rs|zs];
    cbn [rel_parse_event parse_event chain_after] in *;
    try (match type of H with Ok ?q = _ => assert (p' = q) by congruence; subst p' end; eexists; split; [reflexivity|]; fin_with Fin; fail).
  all: try (unfold on_frame, parse_exchange, do_adds, do_swaps, do_moves, do_removes, do_resizes, do_pile_swaps, do_splices in *;
    cbn [b_frame] in *; unfold on_frame in *; cbn [b_frame] in *; rewrite ?U in * by reflexivity; cbn [obind] in *; rewrite ?U in * by reflexivity; cbn [obind] in *; rewrite ?U in * by reflexivity; cbn [obind unit_fo fo_shuffle] in *;
    match type of H with Ok ?q = _ => assert (p' = q) by congruence; subst p' end; eexists; split; [reflexivity|]; fin_with Fin; fail).
  - unfold parse_state in *. cbv zeta in *. bind H as lp0 L0. rewrite L0. cbn [obind] in *.
    unfold assign_lp in *. change (lp_index 0) with (Ok false) in *. change (lp_index 1) with (Ok true) in *. cbn [obind] in *.
    bind H as lp1 L1. rewrite L1. cbn [obind] in *. unfold on_frame, do_adds, do_resizes in *. cbn [unit_fo fo_clear obind] in *.
    destruct (0 <=? bs_turn_counter s)%Z; cbn [set_turn set_lp set_chain b_frame] in *; rewrite ?U in * by reflexivity; cbn [obind] in *; rewrite ?U in * by reflexivity; cbn [obind] in *;
      match type of H with Ok ?q = _ => assert (p' = q) by congruence; subst p' end; eexists; (split; [reflexivity|]); fin_with Fin.
  - cbn [plain_vo vo_push] in H. bind H as y E. cbn [rel_undoable_vo vo_push rel_u_unsupported obind].
    match type of H with Ok ?q = _ => assert (p' = q) by congruence; subst p' end. eexists; split; [reflexivity|]. fin_with Fin.
  - cbn [plain_vo vo_pop] in H. bind H as y E. cbn [rel_undoable_vo vo_pop rel_u_unsupported obind].
    match type of H with Ok ?q = _ => assert (p' = q) by congruence; subst p' end. eexists; split; [reflexivity|]. fin_with Fin.
  - match type of H with Ok ?q = _ => assert (p' = q) by congruence; subst p' end. eexists; split; [reflexivity|].
    destruct V1 as [V1 <-]. fin_with Fin. cbn [plain_vo rel_undoable_vo vo_get vo_set b_turn]. eapply get_set. split; [exact V1|reflexivity].
  - bind H as i E. bind H as j E'. rewrite E. cbn [obind]. assert (j = i) by congruence. subst j.
    match type of H with Ok ?q = _ => assert (p' = q) by congruence; subst p' end. eexists; split; [reflexivity|].
    destruct V3 as [V3 <-], V4 as [V4 <-]. destruct i; cbn [sel put2 set_lp fst snd]; fin_with Fin; try (split; [assumption|reflexivity]);
      (eapply get_set; split; [eassumption|reflexivity]).
Qed.

(** ** The frames *)
Section Frames.
Variables A B : Type.
Variable a0 : A.
Variable b0 : B.

Record rsim (w : limbo A) (f : frame B) : Prop := {
  rs_end : lb_op w = lb_processed w;
  rs_ops : length (lb_ops w) = lb_op w;
  rs_lay : lb_lay w = f_lay f;
  rs_next : f_next (lb_frame w) = f_next f;
  rs_books : exists s, books f s;
  rs_alive : forall id, id < f_next f -> heap_get id (f_heap (lb_frame w)) <> None
}.

(** Both succeeding, they stay together; and the one that records succeeds
    when the other does. *)
Definition follows (op : limbo A -> outcome (limbo A)) (op' : frame B -> outcome (frame B)) (ok : frame B -> Prop) : Prop :=
  forall w f f', rsim w f -> op' f = Ok f' ->
    (forall w', op w = Ok w' -> rsim w' f') /\ (ok f <-> exists w', op w = Ok w').

Lemma destruct_keeps : forall c (f : frame B) f', rel_destruct_card c f = Ok f' -> f_lay f' = f_lay f /\ f_next f' = f_next f.
Proof.
  intros c f f' H. unfold rel_destruct_card in H. destruct (heap_remove c (f_heap f)).
  - assert (f' = mkFrame (f_next f) l (f_lay f)) by congruence. subst. split; reflexivity.
  - assert (f' = f) by congruence. subst. auto.
Qed.

Lemma destruct_all_keeps : forall l (f : frame B) f', rel_destruct_all l f = Ok f' -> f_lay f' = f_lay f /\ f_next f' = f_next f.
Proof.
  induction l as [|c l IH]; intros f f' H; cbn [rel_destruct_all] in H; [assert (f' = f) by congruence; subst; auto|].
  bind H as id X. bind H as f1 E. apply destruct_keeps in E. apply IH in H. destruct E, H. split; congruence.
Qed.

Lemma books_get : forall (f : frame B) s id, books f s -> (0 < cntL (f_lay f) id)%nat -> id < f_next f /\ heap_get id (f_heap f) <> None.
Proof.
  intros f s id K P. assert (I : In id (map fst (f_heap f))).
  { apply (count_occ_In N.eq_dec). pose proof (bk_cnt K id) as Q. unfold hcnt in Q. lia. }
  split; [exact (bk_lt K _ I)|]. apply heap_get_In. exact I.
Qed.

Lemma grow_alike : forall n r (g : frame A) (f : frame B), f_lay g = f_lay f -> f_next g = f_next f ->
  (forall id, id < f_next f -> heap_get id (f_heap g) <> None) ->
  f_lay (grow_pile a0 n r g) = f_lay (grow_pile b0 n r f) /\ f_next (grow_pile a0 n r g) = f_next (grow_pile b0 n r f) /\
  (forall id, id < f_next (grow_pile b0 n r f) -> heap_get id (f_heap (grow_pile a0 n r g)) <> None).
Proof.
  induction n as [|n IH]; intros r g f E1 E2 E3; [auto|]. cbn [grow_pile]. unfold construct_card. cbn [f_lay]. apply IH; cbn [with_lay f_lay f_next f_heap].
  - rewrite E1, E2. reflexivity.
  - rewrite E2. reflexivity.
  - intros id Lt. cbn [heap_get fst snd]. rewrite E2. destruct (N.eqb_spec (f_next f) id); [discriminate|]. apply E3. lia.
Qed.

Lemma shrink_lay : forall n r (f : frame B) f', rel_shrink_pile n r f = Ok f' ->
  f_lay f' = set_pile r (firstn (length (get_pile r (f_lay f)) - n) (get_pile r (f_lay f))) (f_lay f) /\ f_next f' = f_next f /\
  (n <= length (get_pile r (f_lay f)))%nat.
Proof.
  induction n as [|n IH]; intros r f f' H; cbn [rel_shrink_pile] in H.
  - assert (f' = f) by congruence. subst. rewrite Nat.sub_0_r, firstn_all. split; [symmetry; apply set_pile_id|]. split; [reflexivity|lia].
  - bind H as c Q. apply or_ub_Ok in Q. bind H as id X. bind H as f1 E. apply destruct_keeps in E. destruct E as [E1 E2].
    apply IH in H. cbn [with_lay f_lay f_next] in H. rewrite E1 in H. rewrite get_set_pile_same in H. destruct H as (H1 & H2 & H3).
    set (l := get_pile r (f_lay f)) in *. assert (length l <> 0%nat) by (destruct l; [discriminate|cbn; lia]).
    rewrite firstn_length in H1, H3. rewrite firstn_firstn in H1. rewrite set_set_pile in H1.
    split; [|split; [congruence|lia]]. rewrite H1. f_equal. f_equal. lia.
Qed.

Lemma clear_lay : forall (f : frame B) s f', books f s -> rel_clear f = Ok f' -> f_lay f' = layout0 /\ f_next f' = f_next f.
Proof.
  intros f s f' K H. pose proof (books_clear K H) as [K' _]. unfold rel_clear in H. bind H as f1 E1.
  assert (P : forall l (f : frame B) f', ofold (@rel_clear_pile B) l f = Ok f' ->
    (forall r, In r l -> get_pile r (f_lay f') = []) /\ (forall r, get_pile r (f_lay f) = [] -> get_pile r (f_lay f') = []) /\
    f_next f' = f_next f).
  { clear. induction l as [|r l IH]; intros f f' H; cbn [ofold] in H.
    - assert (f' = f) by congruence. subst. repeat split; auto. intros r [].
    - bind H as f1 E. apply IH in H. destruct H as (H1 & H2 & H3). unfold rel_clear_pile in E. bind E as f2 E2.
      assert (f1 = with_lay f2 (set_pile r [] (f_lay f2))) by congruence. subst f1. apply destruct_all_keeps in E2. destruct E2 as [L2 N2].
      cbn [with_lay f_lay f_next] in *. repeat split.
      + intros r' [<-|I]; [apply H2, get_set_pile_same|auto].
      + intros r' X. apply H2. destruct (pref_eq_dec r r') as [<-|Ne]; [apply get_set_pile_same|].
        rewrite get_set_pile_other by auto. congruence.
      + congruence. }
  assert (Z : forall l (f : frame B) f', ofold (@rel_clear_zone B) l f = Ok f' ->
    (forall r, In r l -> get_zone r (f_lay f') = Some zone0) /\ (forall r, get_zone r (f_lay f) = Some zone0 -> get_zone r (f_lay f') = Some zone0) /\
    (forall r, get_pile r (f_lay f') = get_pile r (f_lay f)) /\ f_next f' = f_next f).
  { clear. induction l as [|r l IH]; intros f f' H; cbn [ofold] in H.
    - assert (f' = f) by congruence. subst. repeat split; auto. intros r [].
    - bind H as f1 E. apply IH in H. destruct H as (H1 & H2 & H3 & H4). unfold rel_clear_zone in E. bind E as z G. apply read_zone_Ok in G.
      bind E as f2 E2. bind E as f3 E3.
      assert (f1 = with_lay f3 (set_zone r zone0 (f_lay f3))) by congruence. subst f1. apply destruct_all_keeps in E3. destruct E3 as [L3 N3].
      assert (Q : f_lay f2 = f_lay f /\ f_next f2 = f_next f).
      { destruct (z_card z); [eapply destruct_keeps; eauto|]. assert (f2 = f) by congruence. subst. auto. }
      destruct Q as [L2 N2]. cbn [with_lay f_lay f_next] in *. rewrite L3, L2 in *. repeat split.
      + intros r' [<-|I]; [apply H2, get_set_zone_same; congruence|auto].
      + intros r' X. apply H2. destruct (zref_eq_dec r r') as [<-|Ne]; [apply get_set_zone_same; congruence|].
        rewrite get_set_zone_other by auto. exact X.
      + intros r'. rewrite H3. apply get_pile_set_zone.
      + congruence. }
  destruct (P _ _ _ E1) as (P1 & P2 & P3). destruct (Z _ _ _ H) as (Z1 & Z2 & Z3 & Z4). split; [|congruence].
  apply contents_ext; [apply (bk_shape K')|apply shape0|]. intros k V.
  assert (E : contents k layout0 = []).
  { destruct k as [[[] []]|r|r]; try reflexivity; simpl; rewrite (layout0_zone r V); reflexivity. }
  rewrite E. destruct k as [r|r|r]; cbn [contents].
  - rewrite Z3. apply P1, in_all_prefs.
  - rewrite Z1 by (apply in_all_zrefs; auto). reflexivity.
  - rewrite Z1 by (apply in_all_zrefs; auto). reflexivity.
Qed.

Lemma erase_there : forall p c L L', shape L -> rel_card_erase p L = Ok (c, L') -> (0 < cntL L c)%nat.
Proof.
  intros p c L L' S H. destruct (rel_erase_moved _ S H) as [[_ M] _]. specialize (M c). rewrite cnt_single, cnt_nil in M. lia.
Qed.

Definition fits (a : lact) (f : frame B) : Prop :=
  match a with
  | LResize p n => forall r i, slot p = Some (CPile r, i) ->
      let size := length (contents (CPile r) (f_lay f)) in (size <= N.to_nat n \/ 2 * N.to_nat n <= size)%nat
  | _ => True
  end.

Lemma upd_last : forall T (l : list T) x y, upd (length l) y (l ++ [x]) = l ++ [y].
Proof. induction l as [|z l IH]; intros x y; [reflexivity|]. cbn [app length]. cbn [upd]. f_equal. apply IH. Qed.

Lemma step_follows : forall a, event_act a ->
  follows (fo_step (rel_limbo_fo a0) a) (fo_step (rel_plain_fo b0) a) (fits a).
Proof.
  intros a Ea w f f' R H. pose proof (rs_books R) as [s K].
  assert (K' : exists s', books f' s').
  { assert (St : rel_fstep b0 (plain_op a) f = Ok f') by (destruct a; try destruct Ea; exact H).
    destruct (@books_step B b0 (plain_op a) _ _ _ K St) as (out & K' & _). eauto. }
  destruct w as [g op pr ops]. destruct R as [R1 R2 R3 R4 R5 R6]. cbn [lb_op lb_processed lb_ops lb_frame lb_lay] in *. subst pr.
  assert (Lift : forall op1, lift op1 f = Ok f' ->
    (forall w', l_lift op1 (mkLimbo g op op ops) = Ok w' -> rsim w' f') /\ (True <-> exists w', l_lift op1 (mkLimbo g op op ops) = Ok w')).
  { intros op1 X. unfold lift in X. bind X as L E. assert (f' = with_lay f L) by congruence. subst f'.
    unfold l_lift, lift. unfold lb_lay in *. cbn [lb_frame] in *. rewrite R3, E. cbn [obind]. split; [|split; [eauto|intros _; exact Logic.I]].
    intros w' X'. match type of X' with Ok ?q = _ => assert (w' = q) by congruence; subst w' end.
    split; cbn [lb_with_lay lb_with_frame lb_frame lb_op lb_processed lb_ops with_lay f_lay f_next f_heap]; auto. }
  destruct a as [p|p|p n| |p|p|p n| |a b| |a b|a b|a b|a n b r|a b]; try destruct Ea;
    cbn [fo_step rel_limbo_fo rel_plain_fo fo_add fo_remove fo_move fo_swap fo_shuffle fo_resize fo_splice fo_pile_swap fo_clear fits] in *;
    try (apply Lift; exact H); unfold lb_lay in R3; cbn [lb_frame] in R3.
  - (* add *)
    bind H as q E. destruct q as [c f1]. assert (f' = f1) by congruence. subst f'. unfold rel_card_add, construct_card in E. cbn [f_lay] in E. bind E as L I.
    assert (f1 = mkFrame (f_next f + 1) ((f_next f, b0) :: f_heap f) L) by (unfold with_lay in E; cbn in E; congruence). subst f1.
    unfold rel_l_card_add, advance_op. cbn [lb_op lb_processed]. rewrite Nat.eqb_refl. cbn [lb_frame].
    unfold rel_card_add, construct_card. cbn [f_lay]. rewrite R3, R4, I. cbn [obind]. split; [|split; [eauto|intros _; exact Logic.I]].
    intros w' X. match type of X with Ok ?q = _ => assert (w' = q) by congruence; subst w' end.
    split; cbn; auto.
    + rewrite app_length. cbn. lia.
    + intros id Lt. destruct (N.eqb_spec (f_next f) id); [discriminate|]. apply R6. lia.
  - (* remove *)
    unfold rel_card_remove in H. bind H as q E. destruct q as [c L]. pose proof (erase_there _ (bk_shape K) E) as P.
    destruct (@books_get f s c K P) as [Lt _]. apply destruct_keeps in H. destruct H as [H1 H2]. cbn [with_lay f_lay f_next] in H1, H2.
    unfold rel_l_card_remove. cbn [lb_lay lb_frame]. unfold lb_lay. cbn [lb_frame]. rewrite R3, E. cbn [obind]. unfold alive. cbn [lb_frame].
    specialize (R6 c Lt) as Al. destruct (heap_get c (f_heap g)); [|congruence]. cbn [obind]. unfold advance_op. cbn [lb_with_lay lb_with_frame lb_op lb_processed].
    rewrite Nat.eqb_refl. split; [|split; [eauto|intros _; exact Logic.I]].
    intros w' X. match type of X with Ok ?q = _ => assert (w' = q) by congruence; subst w' end.
    split; cbn; auto; try congruence.
    + rewrite app_length. cbn. lia.
    + rewrite H2. exact R6.
  - (* resize *)
    unfold rel_pile_resize in H. bind H as r Rp. bind H as f1 E. assert (f' = f1) by congruence. subst f'.
    unfold rel_l_pile_resize, advance_op. cbn [lb_op lb_processed]. rewrite Nat.eqb_refl, Rp. cbn [obind].
    unfold emplace_op, set_current_op, lb_lay. cbn [lb_frame lb_op lb_processed lb_ops]. rewrite R3.
    set (l := get_pile r (f_lay f)) in *. unfold lenN in *.
    assert (Big : (length l <= N.to_nat n)%nat -> fits (LResize p n) f).
    { intros Le r1 i1 Sl. rewrite (rel_pile_slot _ Rp) in Sl. injection Sl as <- _. cbv zeta. cbn [contents]. fold l. left. exact Le. }
    cbn [fits] in Big.
    destruct (N.ltb_spec (N.of_nat (length l)) n) as [Hg|Hg].
    + assert (f1 = grow_pile b0 (N.to_nat (n - N.of_nat (length l))) r f) by congruence. subst f1. cbn [obind]. split; [|split; [eauto|intros _; apply Big; lia]].
      intros w' X. match type of X with Ok ?q = _ => assert (w' = q) by congruence; subst w' end.
      destruct (grow_alike (N.to_nat (n - N.of_nat (length l))) r g f R3 R4 R6) as (G1 & G2 & G3).
      split; cbn [l_grow lb_with_frame lb_frame lb_op lb_processed lb_ops lb_lay]; auto. rewrite upd_length, app_length. cbn [length]. lia.
    + destruct (N.ltb_spec n (N.of_nat (length l))) as [Hl|Hl].
      * apply shrink_lay in E. fold l in E. destruct E as (E1 & E2 & E3).
        unfold copy_to. rewrite skipn_length, resize_ptrs_len. split.
        -- destruct (Nat.leb _ _); [|intros w' X; discriminate X]. cbn [obind].
           intros w' X. match type of X with Ok ?q = _ => assert (w' = q) by congruence; subst w' end.
           split; cbn [lb_with_lay lb_with_frame lb_frame lb_op lb_processed lb_ops with_lay f_lay f_next f_heap lb_lay]; auto; try congruence.
           ++ rewrite upd_length, app_length. cbn [length]. lia.
           ++ unfold lb_lay. cbn [lb_with_lay lb_with_frame lb_frame with_lay f_lay]. rewrite E1. f_equal. f_equal. lia.
           ++ rewrite E2. exact R6.
        -- split; [intros Fit|intros [w' X] r1 i1 Sl]; cycle 1.
           { rewrite (rel_pile_slot _ Rp) in Sl. injection Sl as <- _. cbv zeta. cbn [contents]. fold l.
             destruct (Nat.leb_spec (length l - (length l - N.to_nat n)) (length l - N.to_nat n)); [lia|discriminate X]. }
           specialize (Fit r (N.to_nat (p_seq p)) (rel_pile_slot _ Rp)). cbv zeta in Fit. cbn [contents] in Fit. fold l in Fit.
           destruct (Nat.leb_spec (length l - (length l - N.to_nat n)) (length l - N.to_nat n)); [|lia]. cbn [obind]. eauto.
      * assert (f1 = f) by congruence. subst f1. cbn [obind]. split; [|split; [eauto|intros _; apply Big; lia]].
        intros w' X. match type of X with Ok ?q = _ => assert (w' = q) by congruence; subst w' end.
        split; cbn [lb_frame lb_op lb_processed lb_ops lb_lay]; auto. rewrite upd_length, app_length. cbn [length]. lia.
  - (* clear *)
    destruct (clear_lay K H) as [H1 H2].
    unfold rel_l_clear, advance_op. cbn [lb_op lb_processed]. rewrite Nat.eqb_refl. cbn [obind]. split; [|split; [eauto|intros _; exact Logic.I]].
    intros w' X. match type of X with Ok ?q = _ => assert (w' = q) by congruence; subst w' end.
    split; cbn [lb_with_lay lb_with_frame set_current_op emplace_op lb_frame lb_op lb_processed lb_ops with_lay f_lay f_next f_heap lb_lay]; auto; try congruence.
    + rewrite upd_length, app_length. cbn [length]. lia.
    + rewrite H2. exact R6.
  - (* move *)
    bind H as q E. destruct q as [c f1]. assert (f' = f1) by congruence. subst f'. unfold rel_f_card_move in E. bind E as q M. destruct q as [c1 L]. bind E as v G.
    assert (c1 = c /\ f1 = with_lay f L) by (split; congruence). destruct H0 as [-> ->]. apply or_ub_Ok in G.
    unfold rel_l_card_move, rel_f_card_move. cbn [lb_frame]. rewrite R3, M. cbn [obind].
    assert (Lt : c < f_next f) by (apply (bk_lt K); apply heap_get_In; congruence).
    specialize (R6 c Lt) as Al. destruct (heap_get c (f_heap g)) eqn:Gg; [|congruence]. cbn [or_ub obind]. split; [|split; [eauto|intros _; exact Logic.I]].
    intros w' X. match type of X with Ok ?q = _ => assert (w' = q) by congruence; subst w' end.
    split; cbn [lb_with_lay lb_with_frame lb_frame lb_op lb_processed lb_ops with_lay f_lay f_next f_heap]; auto.
Qed.

Lemma acts_follow : forall acts w f f', Forall event_act acts -> rsim w f ->
  ofold (fo_step (rel_plain_fo b0)) acts f = Ok f' ->
  (forall w', ofold (fo_step (rel_limbo_fo a0)) acts w = Ok w' -> rsim w' f') /\
  (halving b0 acts f <-> exists w', ofold (fo_step (rel_limbo_fo a0)) acts w = Ok w').
Proof.
  induction acts as [|a acts IH]; intros w f f' Fa S H; cbn [ofold] in *.
  - assert (f' = f) by congruence. subst. split; [intros w' E; assert (w' = w) by congruence; subst; exact S|]. cbn [halving]. split; eauto.
  - bind H as f1 E1. apply Forall_cons_iff in Fa as [Ea Fa]. destruct (step_follows a Ea S E1) as [S1 W1]. split.
    + intros w' X. bind X as w1 X1. destruct (IH w1 f1 f' Fa (S1 _ X1) H) as [J _]. exact (J _ X).
    + assert (St : rel_fstep b0 (plain_op a) f = Ok f1) by (destruct a; try destruct Ea; exact E1).
      split.
      * intros [Fit1 Fit2]. destruct (proj1 W1) as [w1 X1]; [destruct a; exact Fit1|]. rewrite X1. cbn [obind].
        destruct (IH w1 f1 f' Fa (S1 _ X1) H) as [_ J]. apply J. apply Fit2. exact St.
      * intros [w' X]. bind X as w1 X1. split; [assert (Fi : fits a f) by (apply (proj2 W1); eauto); destruct a; exact Fi|].
        intros f2 E2. assert (f2 = f1) by congruence. subst f2. destruct (IH w1 f1 f' Fa (S1 _ X1) H) as [_ J]. apply J. eauto.
Qed.

Definition bagree (u : uboard A) (p : pboard B) : Prop := rsim (b_frame u) (b_frame p) /\ vals (bare u) (bare p).

Lemma parse_agree : forall e u p p', bagree u p -> rel_pparse b0 e p = Ok p' ->
  (forall u', rel_uparse a0 e u = Ok u' -> bagree u' p' /\ u_get (b_chain u') = chain_after e (u_get (b_chain u))) /\
  (halving b0 (event_acts e) (b_frame p) <-> exists u', rel_uparse a0 e u = Ok u').
Proof.
  intros e u p p' [S V] H. unfold rel_pparse, rel_uparse in *. apply parse_split in H. destruct H as [H1 H2].
  destruct (acts_follow (event_acts_ok e) S H1) as [S' W]. destruct (vals_parse e V H2) as (u1 & U1 & V1 & C1). split.
  - intros u' X. apply parse_split in X. destruct X as [X1 X2]. rewrite U1 in X2. assert (u1 = bare u') by congruence. subst u1.
    split; [|exact C1]. split; [apply S'; exact X1|exact V1].
  - rewrite W. split.
    + intros [w' X]. eapply parse_join; eauto.
    + intros [u' X]. apply parse_split in X. destruct X as [X _]. eauto.
Qed.

Lemma run_agree : forall es u p p' u', bagree u p -> ofold (rel_pparse b0) es p = Ok p' -> ofold (rel_uparse a0) es u = Ok u' ->
  bagree u' p' /\ u_get (b_chain u') = fold_left (fun c e => chain_after e c) es (u_get (b_chain u)).
Proof.
  induction es as [|e es IH]; intros u p p' u' S H X; cbn [ofold fold_left] in *.
  - assert (p' = p) by congruence. assert (u' = u) by congruence. subst. auto.
  - bind H as p1 H1. bind X as u1 X1. destruct (parse_agree e S H1) as [S1 _]. destruct (S1 _ X1) as [S2 C2].
    destruct (IH _ _ _ _ S2 H X) as [S3 C3]. split; [exact S3|]. rewrite C3, C2. reflexivity.
Qed.

Lemma run_follows : forall es u p p', bagree u p -> ofold (rel_pparse b0) es p = Ok p' ->
  (halving_all b0 es p <-> exists u', ofold (rel_uparse a0) es u = Ok u').
Proof.
  induction es as [|e es IH]; intros u p p' S H; cbn [ofold halving_all] in *; [split; eauto|].
  bind H as p1 H1. destruct (parse_agree e S H1) as [S1 W1]. split.
  - intros [Ha1 Ha2]. destruct (proj1 W1 Ha1) as [u1 X1]. rewrite X1. cbn [obind]. destruct (S1 _ X1) as [S2 _].
    apply (IH _ _ _ S2 H). auto.
  - intros [u' X]. bind X as u1 X1. split; [apply (proj2 W1); eauto|]. intros p2 E. assert (p2 = p1) by congruence. subst p2.
    destruct (S1 _ X1) as [S2 _]. apply (IH _ _ _ S2 H). eauto.
Qed.

Lemma bagree0 : bagree (uboard0 A) (pboard0 B).
Proof.
  split; [|repeat split]. split; try reflexivity.
  - exists []. apply books0.
  - intros id Lt. cbn in Lt. lia.
Qed.

Lemma bagree_alike : forall u p, bagree u p -> alike u p.
Proof.
  intros u p [S ([_ V1] & [_ V2] & [_ V3] & [_ V4] & [_ V5] & [_ V6] & _)]. unfold alike, scene_of.
  cbn [bare b_turn b_turn_controller b_lp b_phase b_blocked] in *.
  cbn [sn_layout sn_turn sn_turn_controller sn_lp sn_phase sn_blocked]. repeat split; auto; [exact (rs_lay S)|].
  rewrite V3, V4. symmetry. apply surjective_pairing.
Qed.
End Frames.

Lemma bagree_live : forall A B (u : uboard A) (p : pboard B) pos id, bagree u p ->
  occupant (sn_layout (scene_of u)) pos = Some (Some id) -> heap_get id (f_heap (lb_frame (b_frame u))) <> None.
Proof.
  intros A B u p pos id [S _] O. apply (rs_alive S). cbn [scene_of sn_layout] in O. rewrite (rs_lay S) in O.
  destruct (rs_books S) as [s K]. apply (@books_get B _ s id K). apply cntL_at; [apply (bk_shape K)|]. eauto.
Qed.
