(** C99: copies of a frame, and frames that have been moved from. *)
From Verif Require Import Base BaseProofs Place PlaceProofs Frame FrameSpec FrameLens
  FrameProofs FrameMove FrameOps FramePiles FrameInv FrameFacts Copy CopyProofs.

Local Open Scope N_scope.

(** The original goes on as [fst (copy_frame f)], which differs from [f] only in
    the addresses it will use; the copy is [snd (copy_frame f)]. *)

Lemma shared_card_merge C others p (f : frame C) :
  shared_card others p f = card_at_place p (mkFrame (f_next f) (f_heap f ++ others) (f_lay f)).
Proof. reflexivity. Qed.

(** The card of the original at a place, seen through the copy while [h] are
    the original's cards. *)
Lemma shared_seen C (f : frame C) p h : inv C f ->
  match card_at_place p f with
  | Ok id => shared_card h p (snd (copy_frame f)) = if in_dec N.eq_dec id (map fst h) then Ok id else UB
  | x => shared_card h p (snd (copy_frame f)) = x
  end.
Proof.
  intros I. rewrite shared_card_merge. cbn [snd copy_frame f_next f_heap f_lay].
  destruct (has_card p (f_lay f)) as [b| | |] eqn:Hc.
  2-4: unfold card_at_place; cbn [f_lay]; rewrite Hc; destruct (negb (is_empty p)); reflexivity.
  destruct (has_card_Ok_slot _ _ _ Hc) as (k & i & Sl).
  destruct (card_at_place_iff C p f k i I Sl) as [(_ & id & -> & Lv & Oc)|(Hf & ->)].
  - assert (N : ~ In id (map fst (copy_cards (f_next f) (f_heap f)))).
    { rewrite copy_cards_ids. intros K. apply (inv_lt _ _ I) in Lv. lia. }
    destruct (in_dec N.eq_dec id (map fst h)) as [Hi|Hi].
    + apply (card_at_place_slot C p _ k i id); cbn; [apply I|exact Sl|exact Oc|].
      apply heap_get_In. rewrite map_app, in_app_iff. now right.
    + assert (E := card_at_place_slot C p (mkFrame 0 (f_heap f) (f_lay f)) k i id (proj1 (inv_lay _ _ I)) Sl Oc
        (proj2 (heap_get_In C _ id) Lv)).
      unfold card_at_place in *. cbn [f_lay f_heap] in *.
      apply obind_Ok in E as ([] & -> & E). apply obind_Ok in E as (hh & -> & E). cbn [obind].
      apply obind_Ok in E as ([] & -> & E). cbn [obind]. apply obind_Ok in E as (c & -> & E). cbn [obind].
      apply obind_Ok in E as (id' & -> & E). cbn [obind]. apply obind_Ok in E as (v & _ & E). injection E as ->.
      rewrite heap_get_skip by exact N. destruct (heap_get id h) eqn:G; [|reflexivity].
      destruct Hi. apply (heap_get_In C). congruence.
  - unfold card_at_place. cbn [f_lay]. rewrite Hf. destruct (negb (is_empty p)); reflexivity.
Qed.

(** What the copy shows at a place is the original's card itself, and none of
    the cards the copy holds is anywhere on its board. *)
Theorem C99_copy_shares_partial : forall C (c0 : C) (f : frame C), reachable c0 f ->
  (forall p, has_card p (f_lay (snd (copy_frame f))) = has_card p (f_lay f) /\
     shared_card (f_heap f) p (snd (copy_frame f)) = card_at_place p f) /\
  map snd (f_heap (snd (copy_frame f))) = map snd (f_heap f) /\
  forall id pos, live (snd (copy_frame f)) id ->
    ~ live f id /\ occupant (f_lay (snd (copy_frame f))) pos <> Some (Some id).
Proof.
  intros C c0 f R. assert (I := reachable_inv _ _ _ R). split; [|split].
  - intros p. split; [reflexivity|]. assert (S := shared_seen C f p (f_heap f) I).
    destruct (card_at_place p f) as [id| | |] eqn:E; auto. rewrite S.
    destruct (in_dec N.eq_dec id (map fst (f_heap f))) as [|N]; [reflexivity|]. destruct N.
    apply heap_get_In. unfold card_at_place in E.
    apply obind_Ok in E as ([] & _ & E). apply obind_Ok in E as (hh & _ & E). apply obind_Ok in E as ([] & _ & E).
    apply obind_Ok in E as (c & _ & E). apply obind_Ok in E as (id' & _ & E). apply obind_Ok in E as (v & G & E).
    injection E as ->. destruct (heap_get id (f_heap f)); discriminate.
  - apply copy_cards_values.
  - intros id pos L. unfold live in L. cbn in L. apply copy_cards_ids in L.
    assert (N : ~ live f id) by (intros K; apply (inv_lt _ _ I) in K; lia).
    split; [exact N|]. cbn [snd copy_frame f_lay]. intros K. apply N. exact (cons_live (inv_conserved _ _ I) pos K).
Qed.
Print Assumptions C99_copy_shares_partial.

(** Operations on the copy do to its board what they would have done to the
    original's, exactly as long as no card the original had when it was copied
    is destroyed; the first one that destroys such a card aborts. *)
Theorem C99_copy_run_partial : forall C (c0 : C) (f : frame C) ops f', reachable c0 f ->
  frun c0 ops (fst (copy_frame f)) = Ok f' ->
  ((forall id, live f id -> live f' id) ->
     exists g', shared_run c0 (f_heap f) ops (snd (copy_frame f)) = Ok g' /\ f_lay g' = f_lay f') /\
  ((exists id, live f id /\ ~ live f' id) -> shared_run c0 (f_heap f) ops (snd (copy_frame f)) = Abort).
Proof.
  intros C c0 f ops f' R E. assert (I := reachable_inv _ _ _ R). pose proof (copy_run C c0 f ops I) as K.
  rewrite E in K. destruct K as [(g' & K & El & L)|(K & id & L & N)]; split.
  - eauto.
  - intros (id & Lv & N). destruct (N (L id Lv)).
  - intros A. destruct (N (A id L)).
  - auto.
Qed.
Print Assumptions C99_copy_run_partial.

(** Where the original would have been stopped, so is the copy; and it is not
    stopped in a worse way. *)
Theorem C99_copy_stops : forall C (c0 : C) (f : frame C) ops, reachable c0 f ->
  (frun c0 ops (fst (copy_frame f)) = Abort -> shared_run c0 (f_heap f) ops (snd (copy_frame f)) = Abort) /\
  (shared_run c0 (f_heap f) ops (snd (copy_frame f)) = UB -> frun c0 ops (fst (copy_frame f)) = UB) /\
  (shared_run c0 (f_heap f) ops (snd (copy_frame f)) = Diverge -> frun c0 ops (fst (copy_frame f)) = Diverge).
Proof.
  intros C c0 f ops R. pose proof (copy_run C c0 f ops (reachable_inv _ _ _ R)) as K.
  destruct (frun c0 ops (fst (copy_frame f))).
  - destruct K as [(g' & -> & _)|(-> & _)]; repeat split; discriminate.
  - destruct K as [->| ->]; repeat split; auto; discriminate.
  - destruct K as [->| ->]; repeat split; auto; discriminate.
  - destruct K as [->| ->]; repeat split; auto; discriminate.
Qed.
Print Assumptions C99_copy_stops.

(** A card shown by the copy stays valid exactly as long as the original keeps
    it, wherever the original puts it. *)
Theorem C99_copy_dangles_partial : forall C (c0 : C) (f o' : frame C) ops p id, reachable c0 f ->
  frun c0 ops (fst (copy_frame f)) = Ok o' -> card_at_place p f = Ok id ->
  (live o' id -> shared_card (f_heap o') p (snd (copy_frame f)) = Ok id) /\
  (~ live o' id -> shared_card (f_heap o') p (snd (copy_frame f)) = UB).
Proof.
  intros C c0 f o' ops p id R E P. assert (I := reachable_inv _ _ _ R).
  assert (S := shared_seen C f p (f_heap o') I). rewrite P in S.
  rewrite S. destruct (in_dec N.eq_dec id (map fst (f_heap o'))); unfold live; split; tauto.
Qed.
Print Assumptions C99_copy_dangles_partial.

Lemma clear_empty C nx : clear (mkFrame nx [] layout0 : frame C) = Ok (mkFrame nx [] layout0).
Proof.
  apply (clear_run C). destruct (inv0 C) as [A B D E]. split; auto. cbn. intros id [].
Qed.

(** A frame that has been moved from keeps the cards of its zones and nothing
    else, none of which belongs to it. *)
Theorem C99_moved_shows_partial : forall C (c0 : C) (f : frame C) p k i, reachable c0 f -> slot p = Some (k, i) ->
  f_heap (moved_from f) = [] /\
  has_card p (f_lay (moved_from f)) = match k with CCard _ => has_card p (f_lay f) | _ => Ok false end.
Proof.
  intros C c0 f p k i R Sl. assert (S := proj1 (inv_lay _ _ (reachable_inv _ _ _ R))). split; [reflexivity|].
  rewrite (has_card_slot _ _ _ _ (moved_shape _ _ S) Sl), moved_contents, (has_card_slot _ _ _ _ S Sl).
  destruct k; cbn; auto; destruct i; reflexivity.
Qed.
Print Assumptions C99_moved_shows_partial.

(** Clearing it, which a state event does first, succeeds exactly when no zone
    held a card, and it is as good as new then; otherwise it aborts. *)
Theorem C99_moved_clear_partial : forall C (c0 : C) (f : frame C), reachable c0 f ->
  ((forall r, occupant (f_lay f) (CCard r, O) = None) ->
     moved_from f = mkFrame (f_next f) [] layout0 /\ clear (moved_from f) = Ok (moved_from f)) /\
  (forall r, occupant (f_lay f) (CCard r, O) <> None -> clear (moved_from f) = Abort).
Proof.
  intros C c0 f R. assert (I := reachable_inv _ _ _ R). assert (S := proj1 (inv_lay _ _ I)). split.
  - intros K.
    assert (E : moved_from f = mkFrame (f_next f) [] layout0).
    { assert (L : f_lay (moved_from f) = layout0); [|unfold moved_from in L |- *; cbn [f_lay] in L; now rewrite L].
      apply moved_empty; [exact S|]. intros r. specialize (K r). unfold occupant in K. cbn [fst snd] in K.
      destruct (contents (CCard r) (f_lay f)); [reflexivity|discriminate]. }
    split; [exact E|]. rewrite E. apply clear_empty.
  - intros r Oc. destruct (contents (CCard r) (f_lay f)) as [|c l] eqn:Q.
    { unfold occupant in Oc. cbn [fst snd] in Oc. rewrite Q in Oc. now destruct Oc. }
    assert (V : valid_z r).
    { destruct (valid_cont_dec (CCard r)) as [V|V]; [exact V|]. rewrite contents_invalid in Q; auto. discriminate. }
    unfold clear. rewrite moved_piles. cbn [obind].
    destruct (clear_zones_abort C all_zrefs (moved_from f)) as [(g & E)|E]; auto.
    + intros r' V' Gn. apply in_all_zrefs in V'. destruct (shape_get_zone _ _ (moved_shape _ _ S) V') as (z & Gz). congruence.
    + intros r'. apply (moved_contents C f (CMats r')).
    + exfalso. assert (X := clear_stays C all_zrefs (moved_from f) g eq_refl E r (proj2 (in_all_zrefs r) V)).
      rewrite moved_contents in X. congruence.
Qed.
Print Assumptions C99_moved_clear_partial.

(** A monster with a material and a card in the hand. *)
Definition ex_monster : place := mkPlace 0 4 1 (-1).
Definition ex_material : place := mkPlace 0 4 1 0.
Definition ex_hand : place := mkPlace 0 2 0 (-1).
Definition ex_frame : frame N :=
  match frun 0 [OpAdd ex_monster; OpAdd ex_material; OpAdd ex_hand] frame0 with Ok f => f | _ => frame0 end.
Lemma ex_reachable : reachable 0 ex_frame.
Proof. exists [OpAdd ex_monster; OpAdd ex_material; OpAdd ex_hand]. vm_compute. reflexivity. Qed.

(** So a copy does not do what the original would have done, and a frame that
    has been moved from is not one that can be used like a new one. *)
Theorem C99_copy_refuted : exists C (c0 : C) (f : frame C) ops f', reachable c0 f /\
  frun c0 ops (fst (copy_frame f)) = Ok f' /\ shared_run c0 (f_heap f) ops (snd (copy_frame f)) = Abort.
Proof.
  exists N, 0, ex_frame, [OpRemove ex_hand]. eexists. split; [exact ex_reachable|]. split; vm_compute; reflexivity.
Qed.
Print Assumptions C99_copy_refuted.

Theorem C99_copy_dangles_refuted : exists C (c0 : C) (f o' : frame C) ops p, reachable c0 f /\
  frun c0 ops (fst (copy_frame f)) = Ok o' /\ has_card p (f_lay (snd (copy_frame f))) = Ok true /\
  shared_card (f_heap o') p (snd (copy_frame f)) = UB.
Proof.
  exists N, 0, ex_frame. eexists. exists [OpRemove ex_hand], ex_hand. split; [exact ex_reachable|].
  split; [vm_compute; reflexivity|]. split; vm_compute; reflexivity.
Qed.
Print Assumptions C99_copy_dangles_refuted.

Theorem C99_moved_clear_refuted : exists C (c0 : C) (f : frame C), reachable c0 f /\ clear (moved_from f) = Abort.
Proof. exists N, 0, ex_frame. split; [exact ex_reachable|]. vm_compute. reflexivity. Qed.
Print Assumptions C99_moved_clear_refuted.

(** The copy can move the cards about and add to them, and take away what was
    added to it; only destroying an old card stops it. *)
Example C99_ex :
  copy_frame ex_frame =
    (mkFrame 6 [(2, 0); (1, 0); (0, 0)] (f_lay ex_frame), mkFrame 6 [(3, 0); (4, 0); (5, 0)] (f_lay ex_frame)) /\
  (exists o, frun 0 [OpMove ex_material ex_hand; OpAdd ex_material; OpRemove ex_material] (fst (copy_frame ex_frame)) = Ok o /\
     forall id, live ex_frame id -> live o id) /\
  (exists g, shared_run 0 (f_heap ex_frame) [OpMove ex_material ex_hand; OpAdd ex_material; OpRemove ex_material]
    (snd (copy_frame ex_frame)) = Ok g) /\
  shared_run 0 (f_heap ex_frame) [OpMove ex_material ex_hand; OpAdd ex_material; OpRemove ex_material; OpRemove ex_monster]
    (snd (copy_frame ex_frame)) = Abort /\
  has_card ex_monster (f_lay (moved_from ex_frame)) = Ok true /\
  has_card ex_material (f_lay (moved_from ex_frame)) = Ok false /\
  occupant (f_lay ex_frame) (CCard (false, ZMonster, 1%nat), O) = Some (Some 0).
Proof.
  split; [vm_compute; reflexivity|]. split; [|split; [|repeat split; vm_compute; reflexivity]].
  - eexists. split; [vm_compute; reflexivity|]. vm_compute. tauto.
  - eexists. vm_compute. reflexivity.
Qed.
