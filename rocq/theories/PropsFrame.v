(** Properties C07-C18: the card container BasicFrame. *)
From Coq Require Import Permutation.
From Verif Require Import Base BaseProofs Place Frame FrameSpec FrameLens FrameProofs FrameMove
  FrameOps FramePiles FrameInv FrameShuffle FrameFacts.

Local Open Scope N_scope.

(** A frame used by the examples: three deck cards, a monster with two
    materials in zone 2, a monster in zone 5, one hand card. *)
Definition ex_ops : list fop :=
  [ OpResize (mkPlace 0 1 0 (-1)) 3; OpAdd (mkPlace 0 4 2 (-1)); OpAdd (mkPlace 0 4 2 0);
    OpAdd (mkPlace 0 4 2 1); OpAdd (mkPlace 0 4 5 (-1)); OpAdd (mkPlace 1 2 0 (-1)) ].
Definition ex_frame : frame unit :=
  match frun tt ex_ops frame0 with Ok f => f | _ => frame0 end.
Lemma ex_reachable : reachable tt ex_frame.
Proof. exists ex_ops. vm_compute. reflexivity. Qed.

(** C07: after any operations that do not stop, every live card is at exactly
    one position, only live cards are at positions, nothing is null. *)
Theorem C07_conservation : forall C (c0 : C) ops f,
  frun c0 ops frame0 = Ok f -> conserved f.
Proof. intros C c0 ops f H. apply inv_conserved, (reachable_inv C c0). exists ops. exact H. Qed.
Print Assumptions C07_conservation.

Example C07_ex : exists f,
  frun tt (ex_ops ++ [ OpMove (mkPlace 0 4 2 (-1)) (mkPlace 0 4 3 (-1));
                       OpSwap (mkPlace 0 1 0 (-1)) (mkPlace 1 2 0 (-1));
                       OpShuffle [mkPlace 0 4 3 (-1); mkPlace 0 4 5 (-1)]
                                 [mkPlace 0 4 5 (-1); mkPlace 0 4 0 (-1)];
                       OpSplice (mkPlace 0 1 1 (-1)) 2 (mkPlace 1 2 1 (-1)) true;
                       OpPileSwap (mkPlace 0 1 0 (-1)) (mkPlace 1 1 0 (-1));
                       OpRemove (mkPlace 1 2 0 (-1)) ]) frame0 = Ok f /\
  length (f_heap f) = 7%nat.
Proof. eexists. split; [vm_compute; reflexivity|reflexivity]. Qed.

(** C08: what card_add does ... *)
Theorem C08_card_add : forall C (c0 : C) f p id f', reachable c0 f ->
  card_add c0 p f = Ok (id, f') ->
  exists k i, slot p = Some (k, i) /\ room_for k i (contents k (f_lay f)) /\
    ~ live f id /\ has_card p (f_lay f') = Ok true /\ card_at_place p f' = Ok id /\
    (forall x, live f' x <-> live f x \/ x = id) /\
    (forall x, view (f_lay f') x = view_insert k i id (view (f_lay f)) x).
Proof. intros C c0 f p id f' R. apply card_add_Ok. eapply reachable_inv; eauto. Qed.
Print Assumptions C08_card_add.

(** ... and when it works. *)
Theorem C08_card_add_succeeds : forall C (c0 : C) f p k i, reachable c0 f ->
  slot p = Some (k, i) -> room_for k i (contents k (f_lay f)) ->
  exists id f', card_add c0 p f = Ok (id, f').
Proof. intros C c0 f p k i R. apply card_add_succeeds. eapply reachable_inv; eauto. Qed.
Print Assumptions C08_card_add_succeeds.

Example C08_ex : exists f', card_add tt (mkPlace 0 4 2 1) ex_frame = Ok (8, f') /\
  contents (CMats (false, ZMonster, 2%nat)) (f_lay ex_frame) = [Some 4; Some 5] /\
  contents (CMats (false, ZMonster, 2%nat)) (f_lay f') = [Some 4; Some 8; Some 5].
Proof. eexists. vm_compute. auto. Qed.

(** C09: card_remove takes away exactly the card at the place ... *)
Theorem C09_card_remove : forall C (c0 : C) f p f', reachable c0 f -> card_remove p f = Ok f' ->
  exists k i id, slot p = Some (k, i) /\ nth_error (contents k (f_lay f)) i = Some (Some id) /\
    (forall x, live f' x <-> live f x /\ x <> id) /\
    (forall x, view (f_lay f') x = view_remove k i (view (f_lay f)) x).
Proof. intros C c0 f p f' R. apply card_remove_Ok. eapply reachable_inv; eauto. Qed.
Print Assumptions C09_card_remove.

(** ... works on every occupied place ... *)
Theorem C09_card_remove_succeeds : forall C (c0 : C) f p, reachable c0 f ->
  has_card p (f_lay f) = Ok true -> exists f', card_remove p f = Ok f'.
Proof. intros C c0 f p R. apply card_remove_succeeds. eapply reachable_inv; eauto. Qed.
Print Assumptions C09_card_remove_succeeds.

(** ... and undoes card_add. *)
Theorem C09_remove_after_add : forall C (c0 : C) f p id f', reachable c0 f ->
  card_add c0 p f = Ok (id, f') ->
  exists f'', card_remove p f' = Ok f'' /\ f_heap f'' = f_heap f /\ f_lay f'' = f_lay f.
Proof. intros C c0 f p id f' R. apply card_remove_add. eapply reachable_inv; eauto. Qed.
Print Assumptions C09_remove_after_add.

Example C09_ex : exists f', card_remove (mkPlace 0 1 1 (-1)) ex_frame = Ok f' /\
  contents (CPile (false, LDeck)) (f_lay ex_frame) = [Some 0; Some 1; Some 2] /\
  contents (CPile (false, LDeck)) (f_lay f') = [Some 0; Some 2].
Proof. eexists. vm_compute. auto. Qed.

(** C10: when card_move works, ... *)
Theorem C10_card_move_iff : forall C (c0 : C) f from to c, reachable c0 f ->
  ((exists f', f_card_move from to f = Ok (c, f')) <-> move_pre from to c (view (f_lay f))).
Proof.
  intros C c0 f from to c R. apply reachable_inv in R.
  rewrite <- move_pre_iff by apply R. unfold f_card_move. split.
  - intros [f' H]. inv_ok. eauto.
  - intros [L' H]. rewrite H. cbn [obind].
    assert (Lv : live f c).
    { destruct (proj1 (move_pre_iff from to c (f_lay f) (proj1 (inv_lay _ _ R))) (ex_intro _ _ H))
        as [_ [_ [k1 [i1 [_ [_ [_ [_ [Nt _]]]]]]]]]. eapply heap_live; eauto. }
    apply heap_get_In in Lv. destruct (heap_get c (f_heap f)); [|congruence]. simpl. eauto.
Qed.
Print Assumptions C10_card_move_iff.

(** ... what it does ... *)
Theorem C10_card_move : forall C (c0 : C) f from to c f', reachable c0 f ->
  f_card_move from to f = Ok (c, f') ->
  (forall x, view (f_lay f') x = move_view from to c (view (f_lay f)) x) /\
  (exists pos, slot to = Some pos /\ occupant (f_lay f') pos = Some (Some c)) /\
  f_heap f' = f_heap f.
Proof.
  intros C c0 f from to c f' R H. apply reachable_inv in R. unfold f_card_move in H. inv_ok. simpl.
  match goal with E : card_move _ _ _ = Ok _ |- _ => apply card_move_view in E; [|apply R] end. tauto.
Qed.
Print Assumptions C10_card_move.

(** ... and that the opposite move restores the frame. *)
Theorem C10_card_move_back : forall C (c0 : C) f from to c f', reachable c0 f ->
  f_card_move from to f = Ok (c, f') -> f_card_move to from f' = Ok (c, f).
Proof.
  intros C c0 f from to c f' R H. apply reachable_inv in R. unfold f_card_move in *. inv_ok.
  simpl. match goal with E : card_move _ _ _ = Ok _ |- _ => apply card_move_back in E; [|apply R]; rewrite E end.
  simpl. match goal with E : heap_get _ _ = Some _ |- _ => rewrite E end. destruct f; reflexivity.
Qed.
Print Assumptions C10_card_move_back.

Example C10_ex : exists f', f_card_move (mkPlace 0 4 2 (-1)) (mkPlace 0 8 4 (-1)) ex_frame = Ok (3, f') /\
  zone_view (false, ZSpell, 4%nat) (f_lay f') = ([Some 3], [Some 4; Some 5]) /\
  zone_view (false, ZMonster, 2%nat) (f_lay f') = ([], []).
Proof. eexists. vm_compute. auto. Qed.
Example C10_ex_same_pile : exists f',
  f_card_move (mkPlace 0 1 0 (-1)) (mkPlace 0 1 2 (-1)) ex_frame = Ok (0, f') /\
  contents (CPile (false, LDeck)) (f_lay f') = [Some 1; Some 2; Some 0].
Proof. eexists. vm_compute. auto. Qed.

(** C11 as stated fails: with [a] a material and [b] in a zone, the code uses
    a.seq instead of a.oseq as the index into the materials. *)
Theorem C11_card_swap_refuted : exists f a b f' pa pb,
  reachable tt f /\ slot a = Some pa /\ slot b = Some pb /\
  occupant (f_lay f) pa <> None /\ occupant (f_lay f) pb <> None /\
  lift (card_swap a b) f = Ok f' /\
  occupant (f_lay f') pa <> occupant (f_lay f) pb.
Proof.
  set (ops := [OpAdd (mkPlace 0 4 1 (-1)); OpAdd (mkPlace 0 4 1 0); OpAdd (mkPlace 0 4 1 1);
               OpAdd (mkPlace 0 4 3 (-1))]).
  exists (match frun tt ops frame0 with Ok f => f | _ => frame0 end).
  exists (mkPlace 0 4 1 0), (mkPlace 0 4 3 (-1)). do 3 eexists.
  split; [exists ops; vm_compute; reflexivity|]. split; [reflexivity|]. split; [reflexivity|].
  split; [vm_compute; discriminate|]. split; [vm_compute; discriminate|].
  split; [vm_compute; reflexivity|]. vm_compute. discriminate.
Qed.
Print Assumptions C11_card_swap_refuted.

(** It can also read past the end of the materials. *)
Theorem C11_card_swap_undefined_refuted : exists f a b, reachable tt f /\
  has_card a (f_lay f) = Ok true /\ has_card b (f_lay f) = Ok true /\
  lift (card_swap a b) f = UB.
Proof.
  exists ex_frame, (mkPlace 0 4 2 0), (mkPlace 0 4 5 (-1)).
  split; [apply ex_reachable|]. vm_compute. auto.
Qed.
Print Assumptions C11_card_swap_undefined_refuted.

(** The claim holds for all other pairs of places: missing is only the case
    [a] a material (whose index differs from its zone's number), [b] in a zone. *)
Theorem C11_card_swap_partial : forall C (c0 : C) f a b f', reachable c0 f -> swap_safe a b ->
  lift (card_swap a b) f = Ok f' ->
  f_heap f' = f_heap f /\
  exists pa pb, slot a = Some pa /\ slot b = Some pb /\
    match fst pa, fst pb with
    | CCard ra, CCard rb =>
        (forall r, zone_view r (f_lay f') =
                   exchange zref_eq_dec ra rb (fun r => zone_view r (f_lay f)) r) /\
        (forall r, contents (CPile r) (f_lay f') = contents (CPile r) (f_lay f))
    | _, _ => forall pos, occupant (f_lay f') pos = exchange pos_eq_dec pa pb (occupant (f_lay f)) pos
    end.
Proof.
  intros C c0 f a b f' R G H. apply reachable_inv in R. unfold lift in H. inv_ok. simpl. split; auto.
  apply card_swap_view; auto. apply R.
Qed.
Print Assumptions C11_card_swap_partial.

Theorem C11_card_swap_iff_partial : forall C (c0 : C) f a b, reachable c0 f -> swap_safe a b ->
  ((exists f', lift (card_swap a b) f = Ok f') <-> swap_pre a b (view (f_lay f))).
Proof.
  intros C c0 f a b R G. apply reachable_inv in R. rewrite <- swap_pre_iff; auto; [|apply R].
  unfold lift. split.
  - intros [f' H]. inv_ok. eauto.
  - intros [L H]. rewrite H. simpl. eauto.
Qed.
Print Assumptions C11_card_swap_iff_partial.

(** Applying it twice restores the frame for all pairs. *)
Theorem C11_card_swap_twice : forall C (c0 : C) f a b f', reachable c0 f ->
  lift (card_swap a b) f = Ok f' -> lift (card_swap a b) f' = Ok f.
Proof.
  intros C c0 f a b f' R H. apply reachable_inv in R. unfold lift in *. inv_ok. simpl.
  match goal with E : card_swap _ _ _ = Ok _ |- _ => rename E into Sw end.
  rewrite (card_swap_twice _ _ _ _ (inv_lay _ _ R) Sw).
  simpl. destruct f; reflexivity.
Qed.
Print Assumptions C11_card_swap_twice.

Example C11_ex : swap_safe (mkPlace 0 4 2 (-1)) (mkPlace 0 4 5 (-1)) /\
  swap_safe (mkPlace 0 4 5 (-1)) (mkPlace 0 4 2 1) /\
  (exists f', lift (card_swap (mkPlace 0 4 2 (-1)) (mkPlace 0 4 5 (-1))) ex_frame = Ok f' /\
     zone_view (false, ZMonster, 5%nat) (f_lay f') = ([Some 3], [Some 4; Some 5])) /\
  (exists f', lift (card_swap (mkPlace 0 4 5 (-1)) (mkPlace 0 4 2 1)) ex_frame = Ok f' /\
     zone_view (false, ZMonster, 2%nat) (f_lay f') = ([Some 3], [Some 4; Some 6])).
Proof.
  split; [exact I|]. split; [exact I|]. split; eexists; vm_compute; auto.
Qed.

(** C12: a shuffle within one row puts each zone's content where announced,
    leaves all other zones and the piles alone, and permutes the row. *)
Theorem C12_card_shuffle : forall C (c0 : C) f con loc prev cur f', reachable c0 f ->
  shuffle_input con loc prev cur -> lift (card_shuffle prev cur) f = Ok f' ->
  let L := f_lay f in let L' := f_lay f' in
  (forall i p q, nth_error prev i = Some p -> nth_error cur i = Some q -> p_loc q <> 0 ->
     exists rp rq, zone_named p = Some rp /\ zone_named q = Some rq /\
       zone_view rq L' = zone_view rp L) /\
  (forall r, ~ In (Some r) (map zone_named prev) ->
     ~ In (Some r) (map zone_named (filter disclosed cur)) -> zone_view r L' = zone_view r L) /\
  (forall r, contents (CPile r) L' = contents (CPile r) L) /\
  (forall c z, Permutation (map (fun i => zone_view (c, z, i) L') (seq 0 (zlen z)))
                           (map (fun i => zone_view (c, z, i) L) (seq 0 (zlen z)))) /\
  f_heap f' = f_heap f.
Proof.
  intros C c0 f con loc prev cur f' R I H. apply reachable_inv in R. unfold lift in H. inv_ok. simpl.
  match goal with E : card_shuffle _ _ _ = Ok _ |- _ =>
    destruct (shuffle_correct con loc _ _ _ _ (proj1 (inv_lay _ _ R)) I E) as [A [B [D E']]] end.
  auto.
Qed.
Print Assumptions C12_card_shuffle.

Theorem C12_card_shuffle_succeeds : forall C (c0 : C) f con loc prev cur, reachable c0 f ->
  shuffle_input con loc prev cur -> prev <> [] -> (length prev <= 7)%nat ->
  Forall (fun p => exists r, zone_named p = Some r) prev ->
  Forall (fun p => exists r, zone_named p = Some r) (filter disclosed cur) ->
  Forall (fun p => has_card p (f_lay f) = Ok true) prev ->
  exists f', lift (card_shuffle prev cur) f = Ok f'.
Proof.
  intros C c0 f con loc prev cur R I N Ln V1 V2 F. apply reachable_inv in R.
  destruct (shuffle_runs con loc prev cur _ (proj1 (inv_lay _ _ R)) I N Ln V1 V2 F) as [L' H].
  unfold lift. rewrite H. simpl. eauto.
Qed.
Print Assumptions C12_card_shuffle_succeeds.

(** A three-cycle with a hole: zone 5's new place is not disclosed. *)
Example C12_ex : let f := match frun tt (ex_ops ++ [OpAdd (mkPlace 0 4 0 (-1))]) frame0 with Ok f => f | _ => frame0 end in
  let prev := [mkPlace 0 4 0 (-1); mkPlace 0 4 2 (-1); mkPlace 0 4 5 (-1)] in
  let cur := [mkPlace 0 4 2 (-1); mkPlace 0 4 5 (-1); mkPlace 0 0 0 (-1)] in
  shuffle_input 0 4 prev cur /\
  exists f', lift (card_shuffle prev cur) f = Ok f' /\
    zone_view (false, ZMonster, 2%nat) (f_lay f') = ([Some 8], []) /\
    zone_view (false, ZMonster, 5%nat) (f_lay f') = ([Some 3], [Some 4; Some 5]) /\
    zone_view (false, ZMonster, 0%nat) (f_lay f') = ([Some 6], []).
Proof.
  split.
  - split; simpl; try reflexivity.
    + intros p [<-|[<-|[<-|[]]]]; auto.
    + intros p [<-|[<-|[<-|[]]]]; simpl; auto. congruence.
    + repeat constructor; simpl; intuition discriminate.
    + repeat constructor; simpl; intuition discriminate.
  - eexists. vm_compute. auto.
Qed.

(** C13 *)
Theorem C13_pile_resize : forall C (c0 : C) f p n r i, reachable c0 f ->
  slot p = Some (CPile r, i) ->
  exists f' new, pile_resize c0 p n f = Ok f' /\
    let old := contents (CPile r) (f_lay f) in
    length (contents (CPile r) (f_lay f')) = N.to_nat n /\
    (forall x, view (f_lay f') x =
       view_set (CPile r) (firstn (N.to_nat n) old ++ map Some new) (view (f_lay f)) x) /\
    (forall id, In id new -> ~ live f id) /\
    (forall id, live f' id <->
       (live f id /\ ~ In (Some id) (skipn (N.to_nat n) old)) \/ In id new).
Proof. intros C c0 f p n r i R. apply pile_resize_spec. eapply reachable_inv; eauto. Qed.
Print Assumptions C13_pile_resize.

Example C13_ex : exists f1 f2,
  pile_resize tt (mkPlace 0 1 0 (-1)) 1 ex_frame = Ok f1 /\
  pile_resize tt (mkPlace 0 1 0 (-1)) 5 ex_frame = Ok f2 /\
  contents (CPile (false, LDeck)) (f_lay f1) = [Some 0] /\
  contents (CPile (false, LDeck)) (f_lay f2) = [Some 0; Some 1; Some 2; Some 8; Some 9].
Proof. do 2 eexists. vm_compute. auto. Qed.

(** C14 *)
Theorem C14_pile_splice : forall C (c0 : C) f from count to rev_ f', reachable c0 f ->
  lift (pile_splice from count to rev_) f = Ok f' ->
  f_heap f' = f_heap f /\
  exists r1 r2 s t, slot from = Some (CPile r1, s) /\ slot to = Some (CPile r2, t) /\
  exists before cut after, contents (CPile r1) (f_lay f) = before ++ cut ++ after /\
    length before = s /\ length cut = N.to_nat count /\
    let v1 := view_set (CPile r1) (before ++ after) (view (f_lay f)) in
    exists b2 a2, v1 (CPile r2) = b2 ++ a2 /\ length b2 = t /\
      forall x, view (f_lay f') x =
        view_set (CPile r2) (b2 ++ (if rev_ then rev cut else cut) ++ a2) v1 x.
Proof.
  intros C c0 f from count to rev_ f' R H. unfold lift in H. inv_ok. simpl. split; auto.
  apply pile_splice_view. auto.
Qed.
Print Assumptions C14_pile_splice.

Theorem C14_pile_splice_succeeds : forall C (c0 : C) f from count to rev_ r1 r2 s t, reachable c0 f ->
  slot from = Some (CPile r1, s) -> slot to = Some (CPile r2, t) ->
  (s + N.to_nat count <= length (contents (CPile r1) (f_lay f)))%nat ->
  (t <= length (contents (CPile r2) (f_lay f)) -
        (if pref_eq_dec r1 r2 then N.to_nat count else 0))%nat ->
  exists f', lift (pile_splice from count to rev_) f = Ok f'.
Proof.
  intros C c0 f from count to rev_ r1 r2 s t R S1 S2 H1 H2. apply reachable_inv in R.
  destruct (pile_splice_succeeds from count to rev_ (f_lay f) r1 r2 s t (proj2 (inv_lay _ _ R)) S1 S2 H1 H2)
    as [L H]. unfold lift. rewrite H. simpl. eauto.
Qed.
Print Assumptions C14_pile_splice_succeeds.

Theorem C14_pile_splice_back : forall C (c0 : C) f from count to rev_ f', reachable c0 f ->
  lift (pile_splice from count to rev_) f = Ok f' ->
  lift (pile_splice to count from rev_) f' = Ok f.
Proof.
  intros C c0 f from count to rev_ f' R H. unfold lift in *. inv_ok. simpl.
  match goal with E : pile_splice _ _ _ _ _ = Ok _ |- _ => rewrite (pile_splice_back _ _ _ _ _ _ E) end.
  simpl. destruct f; reflexivity.
Qed.
Print Assumptions C14_pile_splice_back.

(** An insertion index beyond the target pile is not checked. *)
Theorem C14_pile_splice_index_unchecked_refuted : exists f from count to, reachable tt f /\
  has_card from (f_lay f) = Ok true /\ lift (pile_splice from count to false) f = UB.
Proof.
  exists ex_frame, (mkPlace 0 1 0 (-1)), 2, (mkPlace 1 2 7 (-1)).
  split; [apply ex_reachable|]. vm_compute. auto.
Qed.
Print Assumptions C14_pile_splice_index_unchecked_refuted.

Example C14_ex : exists f1 f2,
  lift (pile_splice (mkPlace 0 1 1 (-1)) 2 (mkPlace 1 2 0 (-1)) true) ex_frame = Ok f1 /\
  contents (CPile (true, LHand)) (f_lay f1) = [Some 2; Some 1; Some 7] /\
  lift (pile_splice (mkPlace 0 1 0 (-1)) 2 (mkPlace 0 1 1 (-1)) false) ex_frame = Ok f2 /\
  contents (CPile (false, LDeck)) (f_lay f2) = [Some 2; Some 0; Some 1].
Proof. do 2 eexists. vm_compute. auto. Qed.

(** C15 *)
Theorem C15_pile_swap : forall C (c0 : C) f a b f', reachable c0 f ->
  lift (pile_swap a b) f = Ok f' ->
  f_heap f' = f_heap f /\
  exists ra rb ia ib, slot a = Some (CPile ra, ia) /\ slot b = Some (CPile rb, ib) /\
    forall x, view (f_lay f') x = exchange cont_eq_dec (CPile ra) (CPile rb) (view (f_lay f)) x.
Proof.
  intros C c0 f a b f' R H. unfold lift in H. inv_ok. simpl. split; auto. apply pile_swap_view; auto.
Qed.
Print Assumptions C15_pile_swap.

Theorem C15_pile_swap_succeeds : forall C (c0 : C) f a b ra rb ia ib, reachable c0 f ->
  slot a = Some (CPile ra, ia) -> slot b = Some (CPile rb, ib) ->
  exists f', lift (pile_swap a b) f = Ok f' /\ lift (pile_swap a b) f' = Ok f.
Proof.
  intros C c0 f a b ra rb ia ib R Sa Sb.
  destruct (pile_swap_succeeds a b ra rb ia ib (f_lay f) Sa Sb) as [L H].
  unfold lift. rewrite H. simpl. eexists. split; [reflexivity|]. simpl.
  rewrite (pile_swap_twice _ _ _ _ H). simpl. destruct f; reflexivity.
Qed.
Print Assumptions C15_pile_swap_succeeds.

Example C15_ex : exists f',
  lift (pile_swap (mkPlace 0 1 0 (-1)) (mkPlace 1 2 0 (-1))) ex_frame = Ok f' /\
  contents (CPile (false, LDeck)) (f_lay f') = [Some 7] /\
  contents (CPile (true, LHand)) (f_lay f') = [Some 0; Some 1; Some 2].
Proof. eexists. vm_compute. auto. Qed.

(** C16 *)
Theorem C16_clear : forall C (c0 : C) f, reachable c0 f ->
  exists f', clear f = Ok f' /\ (forall k, contents k (f_lay f') = []) /\ (forall id, ~ live f' id).
Proof.
  intros C c0 f R. apply reachable_inv in R. rewrite (clear_run _ _ R).
  eexists. split; [reflexivity|]. simpl. split; [|intros id X; exact X].
  intros [[[] []]|[[[] []] i]|[[[] []] i]]; try reflexivity; simpl;
    do 7 (destruct i as [|i]; [reflexivity|]); destruct i; reflexivity.
Qed.
Print Assumptions C16_clear.

Example C16_ex : exists f', clear ex_frame = Ok f' /\ length (f_heap ex_frame) = 8%nat /\ f_heap f' = [].
Proof. eexists. vm_compute. auto. Qed.

(** C17 as stated fails: a negative controller passes [con <= 1], and a
    location with two pile bits passes [is_pile] but matches no case. *)
Theorem C17_negative_controller_refuted : exists p,
  has_card p layout0 = UB /\ pile_of p = UB /\ card_at_place p (@frame0 unit) = UB.
Proof. exists (mkPlace (-1) 1 0 (-1)). repeat split. Qed.
Print Assumptions C17_negative_controller_refuted.
Theorem C17_two_locations_refuted : exists p, p_con p = 0%Z /\
  has_card p layout0 = UB /\ pile_of p = UB /\ card_at_place p (@frame0 unit) = UB.
Proof. exists (mkPlace 0 3 0 (-1)). repeat split. Qed.
Print Assumptions C17_two_locations_refuted.

(** With a non-negative controller and a single location they never are
    undefined, whatever the sequences. *)
Theorem C17_accessors_defined_partial : forall C (c0 : C) f p, reachable c0 f ->
  (0 <= p_con p)%Z -> single_loc (p_loc p) ->
  has_card p (f_lay f) <> UB /\ card_at_place p f <> UB /\ pile_of p <> UB /\
  (is_zone p = true -> zone_of p <> UB).
Proof.
  intros C c0 f p R Hc Sg. apply reachable_inv in R.
  split; [apply has_card_defined; auto; apply R|]. split; [apply card_defined; auto|].
  split; [apply pile_ref_defined; auto|]. intros Z. apply zone_ref_defined; auto.
Qed.
Print Assumptions C17_accessors_defined_partial.

Example C17_ex : single_loc 0x4 /\ single_loc 0x800 /\
  has_card (mkPlace 0 4 9 (-1)) (f_lay ex_frame) = Abort /\
  has_card (mkPlace 7 1 0 (-1)) (f_lay ex_frame) = Abort /\
  card_at_place (mkPlace 0 1 1 (-1)) ex_frame = Ok 1.
Proof.
  split; [right; exists 2; reflexivity|]. split; [right; exists 11; reflexivity|].
  vm_compute. auto.
Qed.

(** C18: on a valid place has_card answers, and card succeeds exactly when the
    answer is yes, returning the live card that sits there. *)
Theorem C18_has_card_predicts_card : forall C (c0 : C) f p k i, reachable c0 f ->
  slot p = Some (k, i) ->
  (has_card p (f_lay f) = Ok true /\
     exists id, card_at_place p f = Ok id /\ live f id /\
       nth_error (contents k (f_lay f)) i = Some (Some id)) \/
  (has_card p (f_lay f) = Ok false /\ card_at_place p f = Abort).
Proof. intros C c0 f p k i R. apply card_at_place_iff. eapply reachable_inv; eauto. Qed.
Print Assumptions C18_has_card_predicts_card.

Example C18_ex :
  has_card (mkPlace 0 4 2 1) (f_lay ex_frame) = Ok true /\
  card_at_place (mkPlace 0 4 2 1) ex_frame = Ok 5 /\
  has_card (mkPlace 0 4 2 2) (f_lay ex_frame) = Ok false /\
  card_at_place (mkPlace 0 4 2 2) ex_frame = Abort.
Proof. vm_compute. auto. Qed.
