(** Properties C19-C25: limbo frames and undoable values. *)
From Verif Require Import Base BaseProofs Place Frame FrameSpec Limbo LimboSpec
  LimboProofs LimboFacts.

Local Open Scope N_scope.

(** A limbo frame used by the examples: after some work, two steps undone.
    A deck of four cards, a monster with a material; the last two steps (a
    removal and a card added to a hand) have been undone. *)
Definition ex_acts : list lact :=
  [ LResize (mkPlace 0 1 0 (-1)) 4; LAdd (mkPlace 0 4 2 (-1)); LAdd (mkPlace 0 4 2 0);
    LRemove (mkPlace 0 1 1 (-1)); LAdd (mkPlace 1 2 0 (-1));
    LUndoAdd (mkPlace 1 2 0 (-1)); LUndoRemove (mkPlace 0 1 1 (-1)) ].
Definition ex_limbo : limbo unit :=
  match lrun tt ex_acts limbo0 with Ok w => w | _ => limbo0 end.
Lemma ex_lreachable : lreachable tt ex_limbo.
Proof. exists ex_acts. vm_compute. reflexivity. Qed.
(** The same frame with the undone steps forgotten. *)
Definition ex_live : limbo unit :=
  match lrun tt (ex_acts ++ [LErase]) limbo0 with Ok w => w | _ => limbo0 end.
Lemma ex_live_reachable : lreachable tt ex_live.
Proof. exists (ex_acts ++ [LErase]). vm_compute. reflexivity. Qed.

(** C19: card_add at any history position puts a card at the place, and
    undoing it gives back the same card and the frame as it was; redoing gives
    exactly the state after the first card_add. *)
Theorem C19_card_add : forall C (c0 : C) w p c w', lreachable c0 w ->
  l_card_add c0 p w = Ok (c, w') ->
  exists k i, slot p = Some (k, i) /\ room_for k i (contents k (lb_lay w)) /\
    card_at_place p (lb_frame w') = Ok c /\
    forall x, view (lb_lay w') x = view_insert k i c (view (lb_lay w)) x.
Proof. intros C c0 w p c w' R. apply limbo_add_view, (lreachable_linv _ c0), R. Qed.
Print Assumptions C19_card_add.

Theorem C19_undo_card_add : forall C (c0 : C) w p c w', lreachable c0 w ->
  l_card_add c0 p w = Ok (c, w') ->
  exists w'', l_undo_card_add p w' = Ok (c, w'') /\ same_view w w'' /\ same_cards w' w'' /\
    l_card_add c0 p w'' = Ok (c, w').
Proof. intros C c0 w p c w' R. apply undo_add_restores, (lreachable_linv _ c0), R. Qed.
Print Assumptions C19_undo_card_add.

Example C19_add_ex : exists w' w'',
  l_card_add tt (mkPlace 0 4 2 1) ex_live = Ok (7, w') /\
  contents (CMats (false, ZMonster, 2%nat)) (lb_lay w') = [Some 5; Some 7] /\
  l_undo_card_add (mkPlace 0 4 2 1) w' = Ok (7, w'') /\
  contents (CMats (false, ZMonster, 2%nat)) (lb_lay w'') = [Some 5] /\ w'' <> ex_live.
Proof. do 2 eexists. vm_compute. repeat split. discriminate. Qed.

Theorem C19_card_remove : forall C (c0 : C) w p w', lreachable c0 w -> l_card_remove p w = Ok w' ->
  exists k i, slot p = Some (k, i) /\ nth_error (contents k (lb_lay w)) i <> None /\
    forall x, view (lb_lay w') x = view_remove k i (view (lb_lay w)) x.
Proof. intros C c0 w p w' R. apply limbo_remove_view, (lreachable_linv _ c0), R. Qed.
Print Assumptions C19_card_remove.

Theorem C19_undo_card_remove : forall C (c0 : C) w p w', lreachable c0 w ->
  l_card_remove p w = Ok w' ->
  exists c w'', card_at_place p (lb_frame w) = Ok c /\
    l_undo_card_remove p w' = Ok (c, w'') /\ same_view w w'' /\ same_cards w w'' /\
    l_card_remove p w'' = Ok w'.
Proof. intros C c0 w p w' R. apply undo_remove_restores, (lreachable_linv _ c0), R. Qed.
Print Assumptions C19_undo_card_remove.

Example C19_remove_ex : exists w' w'', ~ at_end ex_limbo /\
  l_card_remove (mkPlace 0 1 1 (-1)) ex_limbo = Ok w' /\
  contents (CPile (false, LDeck)) (lb_lay w') = [Some 0; Some 2; Some 3] /\
  l_undo_card_remove (mkPlace 0 1 1 (-1)) w' = Ok (1, w'') /\
  contents (CPile (false, LDeck)) (lb_lay w'') = [Some 0; Some 1; Some 2; Some 3].
Proof. do 2 eexists. vm_compute. repeat split. discriminate. Qed.

(** C20: full statement: undo_pile_resize after a successful pile_resize
    restores the frame.  It is false: a pile of five cards shrunk to two.
    (Shrunk to three, pile_resize itself writes out of bounds.) *)
Theorem C20_undo_pile_resize_refuted : exists (w w' : limbo unit) p count,
  lreachable tt w /\ l_pile_resize tt p count w = Ok w' /\
  l_undo_pile_resize p count w' = Abort.
Proof.
  pose (p := mkPlace 0 1 0 (-1)).
  pose (w := match lrun tt [LResize p 5] limbo0 with Ok w => w | _ => limbo0 end).
  exists w. eexists. exists p, 2. split; [exists [LResize p 5]; vm_compute; reflexivity|].
  vm_compute. split; reflexivity.
Qed.
Print Assumptions C20_undo_pile_resize_refuted.

(** Growing, or keeping the size, is undone and redone correctly at every
    history position.  Missing: shrinking, see below. *)
Theorem C20_undo_growth_partial : forall C (c0 : C) w p r i count w', lreachable c0 w ->
  slot p = Some (CPile r, i) ->
  (length (contents (CPile r) (lb_lay w)) <= N.to_nat count)%nat ->
  l_pile_resize c0 p count w = Ok w' ->
  exists w'' w3, l_undo_pile_resize p count w' = Ok w'' /\ same_view w w'' /\ same_cards w' w'' /\
    l_pile_resize c0 p count w'' = Ok w3 /\ same_view w' w3 /\ same_cards w' w3.
Proof.
  intros C c0 w p r i count w' R. apply undo_grow_restores, (lreachable_linv _ c0), R.
Qed.
Print Assumptions C20_undo_growth_partial.

(** Growing at the live end always works and appends new cards. *)
Theorem C20_growth_succeeds : forall C (c0 : C) w p r i count, lreachable c0 w ->
  slot p = Some (CPile r, i) -> at_end w ->
  (length (contents (CPile r) (lb_lay w)) <= N.to_nat count)%nat ->
  exists w', l_pile_resize c0 p count w = Ok w' /\
    exists new, lb_lay w' = set_pile r (contents (CPile r) (lb_lay w) ++ map Some new) (lb_lay w) /\
      length (contents (CPile r) (lb_lay w')) = N.to_nat count /\
      forall id, In id new -> ~ card_alive w id /\ card_alive w' id.
Proof.
  intros C c0 w p r i count R. apply grow_succeeds, (lreachable_linv _ c0), R.
Qed.
Print Assumptions C20_growth_succeeds.

Example C20_growth_ex : exists w' w'',
  l_pile_resize tt (mkPlace 0 1 0 (-1)) 6 ex_live = Ok w' /\
  contents (CPile (false, LDeck)) (lb_lay w') = map Some [0; 1; 2; 3; 7; 8] /\
  l_undo_pile_resize (mkPlace 0 1 0 (-1)) 6 w' = Ok w'' /\
  contents (CPile (false, LDeck)) (lb_lay w'') = map Some [0; 1; 2; 3].
Proof. do 2 eexists. vm_compute. auto. Qed.

(** Shrinking a pile of [n] cards to [m] at the live end, exactly: undefined
    behaviour if n < 2m, a resize that cannot be undone if 2m < n, and
    correct only if n = 2m. *)
Theorem C20_shrink_more_than_half_left : forall C (c0 : C) w p r i count, lreachable c0 w ->
  slot p = Some (CPile r, i) -> at_end w ->
  (N.to_nat count < length (contents (CPile r) (lb_lay w)) < 2 * N.to_nat count)%nat ->
  l_pile_resize c0 p count w = UB.
Proof. intros C c0 w p r i count R. apply shrink_ub, (lreachable_linv _ c0), R. Qed.
Print Assumptions C20_shrink_more_than_half_left.

Theorem C20_shrink_at_most_half_left : forall C (c0 : C) w p r i count, lreachable c0 w ->
  slot p = Some (CPile r, i) -> at_end w ->
  (2 * N.to_nat count <= length (contents (CPile r) (lb_lay w)))%nat ->
  (N.to_nat count < length (contents (CPile r) (lb_lay w)))%nat ->
  exists w', l_pile_resize c0 p count w = Ok w' /\
    lb_lay w' = set_pile r (firstn (N.to_nat count) (contents (CPile r) (lb_lay w))) (lb_lay w) /\
    ((2 * N.to_nat count < length (contents (CPile r) (lb_lay w)))%nat ->
       l_undo_pile_resize p count w' = Abort) /\
    ((2 * N.to_nat count = length (contents (CPile r) (lb_lay w)))%nat ->
       exists w'' w3, l_undo_pile_resize p count w' = Ok w'' /\ same_view w w'' /\
         same_cards w w'' /\
         l_pile_resize c0 p count w'' = Ok w3 /\ same_view w' w3 /\ same_cards w' w3).
Proof. intros C c0 w p r i count R. apply shrink_ok, (lreachable_linv _ c0), R. Qed.
Print Assumptions C20_shrink_at_most_half_left.

Example C20_shrink_ex :
  at_end ex_live /\ length (contents (CPile (false, LDeck)) (lb_lay ex_live)) = 4%nat /\
  l_pile_resize tt (mkPlace 0 1 0 (-1)) 3 ex_live = UB /\
  (exists w', l_pile_resize tt (mkPlace 0 1 0 (-1)) 1 ex_live = Ok w' /\
     l_undo_pile_resize (mkPlace 0 1 0 (-1)) 1 w' = Abort) /\
  (exists w' w'', l_pile_resize tt (mkPlace 0 1 0 (-1)) 2 ex_live = Ok w' /\
     l_undo_pile_resize (mkPlace 0 1 0 (-1)) 2 w' = Ok w'').
Proof. vm_compute. repeat split; do 2 eexists; try split; reflexivity. Qed.

(** C21: clear and its undo. *)
Theorem C21_clear_empties : forall C (c0 : C) w, lreachable c0 w -> at_end w ->
  exists w', l_clear w = Ok w' /\ (forall k, contents k (lb_lay w') = []) /\ same_cards w w'.
Proof. intros C c0 w R. apply clear_empties, (lreachable_linv _ c0), R. Qed.
Print Assumptions C21_clear_empties.

Theorem C21_undo_clear : forall C (c0 : C) w w', lreachable c0 w -> l_clear w = Ok w' ->
  exists w'' w3, l_undo_clear w' = Ok w'' /\ same_view w w'' /\ same_cards w w'' /\
    l_clear w'' = Ok w3 /\ same_view w' w3 /\ same_cards w' w3.
Proof. intros C c0 w w' R. apply undo_clear_restores, (lreachable_linv _ c0), R. Qed.
Print Assumptions C21_undo_clear.

Example C21_ex : exists w' w'', l_clear ex_live = Ok w' /\
  contents (CPile (false, LDeck)) (lb_lay w') = [] /\ l_undo_clear w' = Ok w'' /\
  contents (CPile (false, LDeck)) (lb_lay w'') = map Some [0; 1; 2; 3] /\
  contents (CMats (false, ZMonster, 2%nat)) (lb_lay w'') = [Some 5].
Proof. do 2 eexists. vm_compute. auto. Qed.

(** C22: no card object is ever destroyed ... *)
Theorem C22_cards_stay : forall C (c0 : C) w acts w', lreachable c0 w ->
  lrun c0 acts w = Ok w' -> forall id, card_alive w id -> card_alive w' id.
Proof. intros C c0 w acts w' R. apply alive_forever, (lreachable_linv _ c0), R. Qed.
Print Assumptions C22_cards_stay.

(** ... every card that is on the board or can be brought back is alive ... *)
Theorem C22_references_alive : forall C (c0 : C) w, lreachable c0 w ->
  (forall pos id, occupant (lb_lay w) pos = Some (Some id) -> card_alive w id) /\
  (forall o id, In o (lb_ops w) -> op_mentions o id -> card_alive w id).
Proof. intros C c0 w R. apply limbo_refs, (lreachable_linv _ c0), R. Qed.
Print Assumptions C22_references_alive.

(** ... and redoing creates no card (that it inserts the very same card is the
    last part of C19_undo_card_add). *)
Theorem C22_redo_creates_nothing : forall C (c0 : C) a w w', lreachable c0 w -> ~ at_end w ->
  lstep c0 a w = Ok w' -> same_cards w w'.
Proof. intros C c0 a w w' R. apply redo_creates_nothing, (lreachable_linv _ c0), R. Qed.
Print Assumptions C22_redo_creates_nothing.

Example C22_ex : exists w', ~ at_end ex_limbo /\ card_alive ex_limbo 1 /\
  lrun tt [LRemove (mkPlace 0 1 1 (-1)); LAdd (mkPlace 1 2 0 (-1)); LClear] ex_limbo = Ok w' /\
  card_alive w' 1 /\ occupant (lb_lay w') (CPile (false, LDeck), 1%nat) = None /\
  length (f_heap (lb_frame w')) = length (f_heap (lb_frame ex_limbo)).
Proof.
  eexists. split; [vm_compute; discriminate|]. split; [vm_compute; tauto|].
  split; [vm_compute; reflexivity|]. split; [vm_compute; tauto|]. split; reflexivity.
Qed.

(** C23: erase_history. *)
Theorem C23_erase_history : forall C (c0 : C) w, lreachable c0 w ->
  exists w', l_erase_history w = Ok w' /\ lb_frame w' = lb_frame w /\ lb_op w' = lb_op w /\
    lb_ops w' = firstn (lb_op w) (lb_ops w) /\ at_end w' /\ (at_end w -> w' = w).
Proof. intros C c0 w R. apply erase_facts, (lreachable_linv _ c0), R. Qed.
Print Assumptions C23_erase_history.

Theorem C23_next_is_new : forall C (c0 : C) a w w', lreachable c0 w -> at_end w ->
  lstep c0 a w = Ok w' ->
  match a with
  | LAdd _ | LRemove _ | LResize _ _ | LClear =>
      exists o, lb_ops w' = lb_ops w ++ [o] /\ at_end w'
  | _ => True
  end.
Proof. intros C c0 a w w' R. apply fresh_op, (lreachable_linv _ c0), R. Qed.
Print Assumptions C23_next_is_new.

Example C23_ex : exists w' w'', length (lb_ops ex_limbo) = 5%nat /\
  l_erase_history ex_limbo = Ok w' /\ length (lb_ops w') = 3%nat /\
  l_card_add tt (mkPlace 1 2 0 (-1)) w' = Ok (7, w'') /\ length (lb_ops w'') = 4%nat.
Proof. do 2 eexists. vm_compute. auto. Qed.

(** C24: any sequence of assignments and undos behaves as a cursor on a
    recorded history: same success, and the current value is the entry at the
    cursor, whose index is the number of assignments minus that of undos. *)
Theorem C24_cursor : forall T (d : T) acts,
  match urun acts (u_new d) with
  | Ok u => exists h i, cursor_run acts ([d], O) = Some (h, i) /\
              nth_error h i = Some (u_get u) /\ (i + undos acts = sets acts)%nat /\
              exists t, h = d :: t
  | Abort => cursor_run acts ([d], O) = None
  | _ => False
  end.
Proof.
  intros T d acts. pose proof (uhist_run T acts (u_new d)) as H.
  destruct (urun acts (u_new d)) as [u| | |]; auto.
  change (uhist T (u_new d)) with ([d], O) in H.
  destruct (uhist T u) as [h i] eqn:E. exists h, i. split; auto. split; [|split].
  - pose proof (uhist_get T u) as G. rewrite E in G. exact G.
  - apply cursor_pos in H. exact H.
  - apply cursor_prefix in H. exact H.
Qed.
Print Assumptions C24_cursor.

Example C24_ex : exists u,
  urun [USet 1; USet 2; UUndo; UUndo; USet 7; USet 8; USet 9] (u_new 0) = Ok u /\ u_get u = 9 /\
  cursor_run [USet 1; USet 2; UUndo; UUndo; USet 7; USet 8; USet 9] ([0], O) =
    Some ([0; 1; 2; 9], 3%nat).
Proof. eexists. vm_compute. auto. Qed.

(** C25: undo after an assignment, at any position. *)
Theorem C25_undo_restores : forall T (u : undoable T) v,
  exists u', u_undo (u_set v u) = Ok u' /\ u_get u' = u_get u /\ u_past u' = u_past u /\
    forall v', u_set v' u' = u_set v u.
Proof.
  intros T [p c n] v. unfold u_set. simpl. destruct n; simpl; eexists; repeat split.
Qed.
Print Assumptions C25_undo_restores.

Theorem C25_undo_oldest_stops : forall T (d : T) acts u, urun acts (u_new d) = Ok u ->
  (sets acts = undos acts <-> u_undo u = Abort).
Proof.
  intros T d acts u H. pose proof (uhist_run T acts (u_new d)) as R. rewrite H in R.
  change (uhist T (u_new d)) with ([d], O) in R. unfold uhist in R. apply cursor_pos in R.
  destruct u as [[|x p] c n]; simpl in R |- *; unfold u_undo; simpl; split; intros;
    try reflexivity; try lia; discriminate.
Qed.
Print Assumptions C25_undo_oldest_stops.

Example C25_ex : exists u,
  urun [USet 1; USet 2; UUndo; UUndo] (u_new 0) = Ok u /\ u_undo u = Abort /\
  u_get (u_set 5 u) = 1.
Proof. eexists. vm_compute. auto. Qed.
