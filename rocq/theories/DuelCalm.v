(** Single moves. *)
From Verif Require Import Base BaseProofs Place PlaceProofs Frame FrameSpec FrameLens FrameProofs FrameMove FrameOps FramePiles FrameInv FrameShuffle FrameFacts
  Msg Event EventSpec EventProofs Query QuerySpec QueryProofs.
From Verif Require Import Encode CoreMsg EncodeSpec EncodeState EncodeE2E Duel DuelView DuelMove.

Local Open Scope N_scope.

Definition is_in_zone (s : spot) : bool := match s with InZone _ => true | _ => false end.

Lemma stands_ex : forall K owed f left s x, quiet K owed f left -> card_on s K = Some x ->
  exists k i, stands K owed s k i.
Proof.
  intros K owed f left s x Q H. destruct s as [|r i|z|r i k|z k]; cbn [card_on holder_of] in H;
    try discriminate; eauto using stands.
  destruct (nth_error (k_pile K r) i) as [h|] eqn:E; [|discriminate].
  destruct (q_left _ _ _ _ Q r i h E) as (z & _ & O & _).
  { intros U. rewrite U in H. destruct k; discriminate. }
  exists (CMats z), k. econstructor; eauto.
Qed.

Lemma zone_take : forall s K z, k_zone (take_out s K) z =
  match s with InZone y => set_at zref_eq_dec y None (k_zone K) z | _ => k_zone K z end.
Proof. intros s K z. destruct s; cbn [take_out]; auto; destruct (holder_of _ K); reflexivity. Qed.
Lemma zone_put : forall s x K K' z, put_in s x K = Some K' -> k_zone K' z =
  match s with InZone y => set_at zref_eq_dec y (Some x) (k_zone K) z | _ => k_zone K z end.
Proof.
  intros s x K K' z H. destruct s; cbn [put_in] in H; try discriminate.
  - destruct (_ <=? _)%nat; inversion H; reflexivity.
  - destruct (k_zone K z0); inversion H; reflexivity.
  - destruct (holder_of _ K); [|discriminate]. destruct (_ <=? _)%nat; inversion H; reflexivity.
  - destruct (holder_of _ K); [|discriminate]. destruct (_ <=? _)%nat; inversion H; reflexivity.
Qed.

Section Move.
Variables (K : cards) (owed : debts) (f : frame card) (left : list (place * place)).
Hypothesis Q : quiet K owed f left.
Variables (p q : spot) (x : cid) (K' : cards) (k1 k2 : cont) (i1 i2 : nat) (from to : place).
Hypothesis St : stands K owed p k1 i1.
Hypothesis On : card_on p K = Some x.
Hypothesis Put : put_in q x (take_out p K) = Some K'.
Hypothesis Tg : target q k2 i2.
Hypothesis S1 : slot from = Some (k1, i1).
Hypothesis S2 : slot to = Some (k2, i2).
Hypothesis O1 : pile_place_ok from.
Hypothesis O2 : pile_place_ok to.
(* cards that are put on the field *)
Hypothesis Fld : is_in_zone q = true -> owed = no_debts /\ is_in_zone p = false /\ k_under K x = [].
(* materials leave only with a card that leaves the field *)
Hypothesis Bare : k_under K x <> [] -> exists r i, q = InPile r i.
Variable left' : list (place * place).
Hypothesis Left : forall r i h, nth_error (k_pile K' r) i = Some h -> k_under K' h <> [] ->
  exists z pz, owed_after p x owed z = Some h /\ find_left (pplace r i) left' = Some pz /\ zone_named pz = Some z.

Lemma move_seen : (forall y, seen K' (owed_after p x owed) y = vins k2 i2 x (vrem k1 i1 (seen K owed)) y) /\
  (i2 <= length (vrem k1 i1 (seen K owed) k2))%nat /\
  match k2 with CCard _ => vrem k1 i1 (seen K owed) k2 = [] | _ => True end.
Proof.
  assert (T := take_seen _ _ _ _ Q _ _ _ _ St On).
  destruct (put_seen (take_out p K) (owed_after p x owed) q x K' k2 i2 Put Tg) as [A [B C]].
  - intros z j h -> Z. split.
    + intros y Y. rewrite zone_take in Z, Y. destruct p; try (solve [eapply (zone_inj _ _ _ _ Q); eauto]).
      unfold set_at in Z, Y. destruct (zref_eq_dec y _), (zref_eq_dec z _); try discriminate.
      eapply (zone_inj _ _ _ _ Q); eauto.
    + intros y Oy Y. rewrite zone_take in Z, Y.
      destruct p as [|r i|z0|r i k|z0 k]; cbn [owed_after] in Oy;
        try (now apply (proj2 (q_owed _ _ _ _ Q _ _ Oy) z)).
      unfold set_at in Oy, Y, Z. destruct (zref_eq_dec z z0) as [->|Nz]; [discriminate|].
      destruct (zref_eq_dec y z0) as [->|Ny].
      * inversion Oy; subst h. cbn [card_on] in On. apply Nz. eapply (zone_inj _ _ _ _ Q); eauto.
      * now apply (proj2 (q_owed _ _ _ _ Q _ _ Oy) z).
  - intros z ->. destruct (Fld eq_refl) as [Ow [Np U]].
    assert (Ux : k_under (take_out p K) x = []).
    { destruct (k_under (take_out p K) x) eqn:E; [reflexivity|]. exfalso.
      apply (take_under K p x); congruence. }
    rewrite Ux. cbn [put_in] in Put. cbn [seen]. destruct (k_zone (take_out p K) z); [discriminate|].
    destruct p; try discriminate; cbn [owed_after]; rewrite Ow; reflexivity.
  - split; [|split].
    + intros y. rewrite A. unfold vins. rewrite !T. reflexivity.
    + rewrite <- T. exact B.
    + destruct k2; auto. rewrite <- T. exact C.
Qed.

Lemma move_located : forall y, k_under K' y <> [] -> located K' y.
Proof.
  intros y U. destruct move_seen as [V _].
  apply (located_seen K' (owed_after p x owed)).
  assert (Px := stands_seen _ _ _ _ Q _ _ _ _ St On).
  destruct (N.eq_dec y x) as [->|Ny].
  - destruct (put_under _ _ _ _ _ Put U) as [W|W].
    + apply take_under in W. destruct (Bare W) as [r [i Eq]]. subst q.
      assert (X : exists r i, k2 = CPile r /\ i2 = i) by (inversion Tg; eauto). destruct X as [r0 [i0 [-> ->]]].
      exists (CPile r0). split; [|exact I]. rewrite V. unfold vins.
      destruct (cont_eq_dec _ _); [|congruence]. apply In_insert. now left.
    + destruct q as [|r i|z|r i k|z k]; try discriminate W; [now inversion Tg|]. cbn [holder_of] in W.
      exists (CCard z). split; [|exact I]. cbn [seen]. rewrite (zone_put _ _ _ _ z Put). rewrite W. now left.
  - destruct (put_under _ _ _ _ _ Put U) as [W|W].
    + apply take_under in W. apply (q_under _ _ _ _ Q) in W. apply (located_seen K owed) in W.
      destruct W as [k [W E]]. exists k. split; [|exact E]. rewrite V. unfold vins, vrem.
      assert (G : In y (if cont_eq_dec k k1 then remove_nth i1 (seen K owed k1) else seen K owed k)).
      { destruct (cont_eq_dec k k1) as [->|]; [|exact W]. eapply In_remove_other; eauto. }
      destruct (cont_eq_dec k k2) as [->|]; [|exact G].
      apply In_insert. right. exact G.
    + destruct q as [|r i|z|r i k|z k]; try discriminate W; [now inversion Tg|]. cbn [holder_of] in W.
      exists (CCard z). split; [|exact I]. cbn [seen]. rewrite (zone_put _ _ _ _ z Put). rewrite W. now left.
Qed.

Lemma move_owed : forall z h, owed_after p x owed z = Some h ->
  k_zone K' z = None /\ forall y, k_zone K' y <> Some h.
Proof.
  intros z h O. destruct (is_in_zone q) eqn:Eq.
  - destruct (Fld eq_refl) as [Ow [Np _]]. exfalso. destruct p; try discriminate; cbn [owed_after] in O;
      rewrite Ow in O; discriminate.
  - assert (Z : forall y, k_zone K' y = k_zone (take_out p K) y).
    { intros y. rewrite (zone_put _ _ _ _ y Put). destruct q; try reflexivity. discriminate. }
    assert (G : k_zone (take_out p K) z = None /\ forall y, k_zone (take_out p K) y <> Some h).
    { destruct p as [|r i|z0|r i k|z0 k]; cbn [owed_after] in O;
        try (split; [rewrite zone_take; apply (q_owed _ _ _ _ Q _ _ O)|
             intros y; rewrite zone_take; apply (q_owed _ _ _ _ Q _ _ O)]).
      cbn [card_on] in On. split; [|intros y]; rewrite zone_take; unfold set_at in *.
      - destruct (zref_eq_dec z z0); [reflexivity|]. apply (q_owed _ _ _ _ Q _ _ O).
      - destruct (zref_eq_dec y z0) as [->|Ny]; [discriminate|]. destruct (zref_eq_dec z z0) as [->|Nz].
        + inversion O; subst. intros Y. apply Ny. eapply (zone_inj _ _ _ _ Q); eauto.
        + apply (q_owed _ _ _ _ Q _ _ O). }
    split; [rewrite Z; apply G|]. intros y. rewrite Z. apply G.
Qed.

Lemma quiet_move : exists f', fo_move (plain_fo card0) from to f = Ok f' /\
  quiet K' (owed_after p x owed) f' left'.
Proof.
  destruct move_seen as [V [Le Em]].
  assert (Px := stands_seen _ _ _ _ Q _ _ _ _ St On).
  destruct (frame_move f (seen K owed) from to k1 i1 k2 i2 x (q_inv _ _ _ _ Q) (q_view _ _ _ _ Q)
    S1 S2 O1 O2 Px) as (f' & M & I' & N' & H' & V'); auto.
  { destruct k1 as [| |]; auto. destruct k2 as [| |]; auto.
    assert (is_in_zone q = true) by (inversion Tg; reflexivity). destruct (Fld H) as [_ [Np _]].
    inversion St; subst. discriminate. }
  exists f'. split; [exact M|].
  destruct (take_rest p K) as [R1 R2]. destruct (put_rest _ _ _ _ Put) as [R3 R4].
  constructor; auto.
  - rewrite N', R4, R2. apply Q.
  - intros k. rewrite V'. f_equal. symmetry. apply V.
  - intros y c Hy fl. rewrite R3, R1. apply (q_info _ _ _ _ Q). unfold card_of in *. rewrite <- H'. exact Hy.
  - apply move_located.
  - apply move_owed.
Qed.
End Move.

(** ** From zone to zone *)
Lemma quiet_zone_move : forall K f left z1 z2 x from to, quiet K no_debts f left ->
  k_zone K z1 = Some x -> k_zone K z2 = None ->
  slot from = Some (CCard z1, 0%nat) -> slot to = Some (CCard z2, 0%nat) ->
  pile_place_ok from -> pile_place_ok to ->
  exists f', fo_move (plain_fo card0) from to f = Ok f' /\
    quiet (with_zone z2 (Some x) (with_zone z1 None K)) no_debts f' left.
Proof.
  intros K f left z1 z2 x from to Q Z1 Z2 S1 S2 O1 O2.
  assert (I := q_inv _ _ _ _ Q). assert (V := q_view _ _ _ _ Q).
  assert (Sh : shape (f_lay f)) by apply (inv_lay _ _ I).
  assert (Nz : z1 <> z2) by congruence.
  assert (M : move_pre from to x (view (f_lay f))).
  { split; [exact O1|]. split; [exact O2|]. do 4 eexists. split; [exact S1|]. split; [exact S2|].
    unfold view. rewrite !V. cbn [seen]. rewrite Z1, Z2. repeat split. }
  apply move_pre_iff in M; [|exact Sh]. destruct M as [L' M].
  destruct (card_move_view _ _ _ _ _ Sh M) as [W _].
  assert (F : fstep card0 (OpMove from to) f = Ok (with_lay f L')).
  { cbn [fstep]. unfold f_card_move. rewrite M. cbn [obind].
    destruct (shown_card f _ I V (CCard z1) x) as [c G]; [cbn [seen]; rewrite Z1; now left|].
    unfold card_of in G. rewrite G. reflexivity. }
  exists (with_lay f L'). split; [exact F|].
  set (K' := with_zone z2 (Some x) (with_zone z1 None K)).
  assert (Zs : forall z, k_zone K' z = if zref_eq_dec z z2 then Some x else if zref_eq_dec z z1 then None else k_zone K z).
  { intros z. reflexivity. }
  constructor.
  - eapply inv_step; [exact I|exact F].
  - apply Q.
  - intros k. change (contents k (f_lay (with_lay f L'))) with (view L' k). rewrite W. unfold move_view.
    rewrite S1, S2. unfold view_set, view. rewrite !V.
    destruct k as [r|z|z]; cbn [seen].
    + repeat (destruct (cont_eq_dec _ _); [discriminate|]). reflexivity.
    + rewrite Zs. destruct (cont_eq_dec _ _) as [E|E]; [injection E as ->; destruct (zref_eq_dec z2 z2); [reflexivity|congruence]|].
      destruct (cont_eq_dec _ _); [discriminate|].
      destruct (zref_eq_dec z z2); [congruence|].
      destruct (cont_eq_dec _ _) as [X|X]; [injection X as ->; destruct (zref_eq_dec z1 z1); [reflexivity|congruence]|].
      destruct (cont_eq_dec _ _); [discriminate|]. destruct (zref_eq_dec z z1); [congruence|]. reflexivity.
    + rewrite Zs, Z1. destruct (cont_eq_dec _ _); [discriminate|].
      destruct (cont_eq_dec _ _) as [E|E]; [injection E as ->; destruct (zref_eq_dec z2 z2); [reflexivity|congruence]|].
      destruct (zref_eq_dec z z2); [congruence|]. destruct (cont_eq_dec _ _); [discriminate|].
      destruct (cont_eq_dec _ _) as [X|X]; [injection X as ->; destruct (zref_eq_dec z1 z1); [reflexivity|congruence]|].
      destruct (zref_eq_dec z z1); [congruence|]. reflexivity.
  - exact (q_info _ _ _ _ Q).
  - intros y U. destruct (q_under _ _ _ _ Q y U) as [[r L]|[z L]]; [left; exists r; exact L|].
    right. destruct (N.eq_dec y x) as [->|Ny].
    + exists z2. rewrite Zs. destruct (zref_eq_dec z2 z2); congruence.
    + exists z. rewrite Zs. destruct (zref_eq_dec z z2); [congruence|]. destruct (zref_eq_dec z z1); congruence.
  - intros z h O. discriminate.
  - exact (q_left _ _ _ _ Q).
Qed.

(** ** New cards *)
Lemma heap_get_cons : forall C y c (v : C) h, heap_get y ((c, v) :: h) = if c =? y then Some v else heap_get y h.
Proof. reflexivity. Qed.

Lemma field_card0 : forall fl, card_field fl card0 = blank fl.
Proof. intros []; reflexivity. Qed.

Lemma quiet_add : forall K owed f left q K' k i to, quiet K owed f left ->
  put_in q (k_next K) (snd (new_card K)) = Some K' -> target q k i ->
  slot to = Some (k, i) ->
  (is_in_zone q = true -> owed = no_debts) ->
  forall left',
  (forall r i h, nth_error (k_pile K' r) i = Some h -> k_under K' h <> [] ->
     exists z pz, owed z = Some h /\ find_left (pplace r i) left' = Some pz /\ zone_named pz = Some z) ->
  exists f', fo_add (plain_fo card0) to f = Ok f' /\ quiet K' owed f' left'.
Proof.
  intros K owed f left q K' k i to Q Put Tg Sl Fld left' Left.
  set (x := k_next K) in *. set (K1 := snd (new_card K)) in *.
  assert (I := q_inv _ _ _ _ Q). assert (V := q_view _ _ _ _ Q).
  assert (Sn : forall y, seen K1 owed y = seen K owed y) by (intros y; reflexivity).
  assert (Ux : k_under K x = []) by (apply (fresh_under _ _ _ _ Q); unfold x; lia).
  destruct (put_seen K1 owed q x K' k i Put Tg) as [A [B C]].
  { intros z j h -> Z. split.
    - intros y Y. eapply (zone_inj _ _ _ _ Q); eauto.
    - intros y Oy _. now apply (proj2 (q_owed _ _ _ _ Q _ _ Oy) z). }
  { intros z ->. rewrite (Fld eq_refl). change (k_under K1 x) with (k_under K x). rewrite Ux. cbn [seen].
    cbn [put_in] in Put. destruct (k_zone K1 z); [discriminate|reflexivity]. }
  assert (Rm : room_for k i (contents k (f_lay f))).
  { split; [rewrite V, map_length; exact B|]. destruct k; auto. rewrite V, <- Sn, C. reflexivity. }
  destruct (card_add_succeeds _ card0 to f k i I Sl Rm) as [id [f' E]].
  destruct (card_add_Ok _ card0 to f id f' I E) as (k' & i' & Sl' & _ & _ & _ & _ & _ & W).
  rewrite Sl in Sl'. injection Sl' as <- <-.
  assert (Ef : id = f_next f /\ f_next f' = f_next f + 1 /\ f_heap f' = (f_next f, card0) :: f_heap f).
  { unfold card_add, construct_card in E. cbn [f_lay] in E. apply obind_Ok in E. destruct E as [L [_ E]].
    inversion E; subst. repeat split. }
  destruct Ef as [-> [Nx Hp]]. exists f'. split.
  { cbn [fo_add plain_fo]. rewrite E. reflexivity. }
  destruct (put_rest _ _ _ _ Put) as [R1 R2].
  assert (Zn : forall y, k_zone K' y = match q with InZone z => set_at zref_eq_dec z (Some x) (k_zone K) y | _ => k_zone K y end).
  { intros y. exact (zone_put _ _ _ _ y Put). }
  assert (Vs : shown f' (seen K' owed)).
  { intros y. change (contents y (f_lay f')) with (view (f_lay f') y). rewrite W.
    rewrite A. unfold view_insert, view_set, vins, view. rewrite (q_next _ _ _ _ Q).
    destruct (cont_eq_dec y k); rewrite V; [rewrite map_insert|]; reflexivity. }
  constructor; auto.
  - eapply inv_add; eauto.
  - rewrite Nx, R2. cbn. now rewrite (q_next _ _ _ _ Q).
  - intros y c Hy fl. unfold card_of in Hy. rewrite Hp, heap_get_cons in Hy. rewrite R1.
    change (k_field K1) with (set_at N.eq_dec x blank (k_field K)). unfold set_at.
    rewrite (q_next _ _ _ _ Q) in Hy. change (k_next K) with x in Hy. destruct (N.eqb_spec x y) as [<-|Ny].
    + inversion Hy. destruct (N.eq_dec x x); [apply field_card0|congruence].
    + destruct (N.eq_dec y x); [congruence|]. apply (q_info _ _ _ _ Q). exact Hy.
  - intros y U. destruct (put_under _ _ _ _ _ Put U) as [X|X].
    + change (k_under K1 y) with (k_under K y) in X. apply (q_under _ _ _ _ Q) in X.
      apply (located_seen K owed) in X. destruct X as [c [X E']]. apply (located_seen K' owed).
      exists c. split; [|exact E']. rewrite A. unfold vins. destruct (cont_eq_dec c k) as [->|]; [|exact X].
      apply In_insert. right. exact X.
    + destruct q as [|r j|z|r j m|z m]; try discriminate X; [now inversion Tg|]. right. exists z.
      rewrite Zn. exact X.
  - intros z h O. destruct q as [|r j|z0|r j m|z0 m]; try (now inversion Tg);
      try (split; [rewrite Zn; apply (q_owed _ _ _ _ Q _ _ O)|intros y; rewrite Zn; apply (q_owed _ _ _ _ Q _ _ O)]).
    rewrite (Fld eq_refl) in O. discriminate.
Qed.

(** ** Cards that cease to exist *)
Lemma heap_remove_get : forall C c (h h' : list (N * C)) y v, heap_remove c h = Some h' ->
  NoDup (map fst h) -> heap_get y h' = Some v -> heap_get y h = Some v.
Proof.
  intros C c h. induction h as [|[a b] h IH]; intros h' y v R D G; [discriminate|].
  cbn [heap_remove fst] in R. cbn [map fst] in D. inversion D as [|? ? D1 D2]; subst.
  cbn [heap_get fst snd]. destruct (N.eqb_spec a c) as [->|Na].
  - inversion R; subst. destruct (N.eqb_spec c y) as [->|]; [|exact G]. exfalso. apply D1.
    apply heap_get_In. congruence.
  - destruct (heap_remove c h) as [h1|] eqn:E; [|discriminate]. inversion R; subst. cbn [heap_get fst snd] in G.
    destruct (a =? y); [exact G|]. eapply IH; eauto.
Qed.

Lemma quiet_remove : forall K owed f left p x k i from, quiet K owed f left ->
  stands K owed p k i -> card_on p K = Some x -> k_under K x = [] -> slot from = Some (k, i) ->
  forall left',
  (forall r i h, nth_error (k_pile (take_out p K) r) i = Some h -> k_under (take_out p K) h <> [] ->
     exists z pz, owed_after p x owed z = Some h /\ find_left (pplace r i) left' = Some pz /\ zone_named pz = Some z) ->
  exists f', fo_remove (plain_fo card0) from f = Ok f' /\
    quiet (take_out p K) (owed_after p x owed) f' left'.
Proof.
  intros K owed f left p x k i from Q St On Ux Sl left' Left.
  assert (I := q_inv _ _ _ _ Q). assert (V := q_view _ _ _ _ Q).
  assert (T := take_seen _ _ _ _ Q _ _ _ _ St On).
  assert (Px := stands_seen _ _ _ _ Q _ _ _ _ St On).
  assert (Hc : has_card from (f_lay f) = Ok true).
  { rewrite (has_card_slot _ _ _ _ (proj1 (inv_lay _ _ I)) Sl). f_equal. apply Nat.ltb_lt.
    rewrite V, map_length. apply nth_error_Some. congruence. }
  destruct (card_remove_succeeds _ from f I Hc) as [f' E].
  destruct (card_remove_Ok _ from f f' I E) as (k' & i' & id & Sl' & Nid & Lv & W).
  rewrite Sl in Sl'. injection Sl' as <- <-.
  assert (id = x).
  { rewrite V in Nid. apply (proj1 (nth_map_some _ _ _ _)) in Nid.
    assert (X : Some id = Some x) by exact (eq_trans (eq_sym Nid) Px). now injection X. }
  subst id. exists f'. split; [exact E|].
  assert (Ef : f_next f' = f_next f /\ exists h, heap_remove x (f_heap f) = Some h /\ f_heap f' = h).
  { unfold card_remove in E. apply obind_Ok in E. destruct E as [b [_ E]]. apply obind_Ok in E. destruct E as [_ [_ E]].
    apply obind_Ok in E. destruct E as [[c L] [Ec E]]. apply destruct_card_Ok in E. destruct E as [h [Hr ->]].
    cbn [with_lay f_heap f_next] in *. split; [reflexivity|]. exists h. split; [|reflexivity].
    apply card_erase_slot in Ec; [|apply (inv_lay _ _ I)].
    destruct Ec as [k' [i' [Sl' [Nc _]]]]. rewrite Sl in Sl'. injection Sl' as <- <-.
    rewrite Nid in Nc. injection Nc as <-. exact Hr. }
  destruct Ef as [Nx [h [Hr Hp]]]. destruct (take_rest p K) as [R1 R2].
  constructor; auto.
  - eapply inv_remove; eauto.
  - rewrite Nx, R2. apply Q.
  - intros y. change (contents y (f_lay f')) with (view (f_lay f') y). rewrite W.
    rewrite T. unfold view_remove, view_set, vrem, view.
    destruct (cont_eq_dec y k); rewrite V; [rewrite map_remove|]; reflexivity.
  - intros y c Hy fl. rewrite R1. apply (q_info _ _ _ _ Q). unfold card_of in *. rewrite Hp in Hy.
    eapply heap_remove_get; eauto. apply I.
  - intros y U. apply take_under in U. assert (Ny : y <> x) by congruence.
    apply (q_under _ _ _ _ Q) in U. apply (located_seen K owed) in U. destruct U as [c [U C]].
    apply (located_seen (take_out p K) (owed_after p x owed)). exists c. split; [|exact C]. rewrite T.
    unfold vrem. destruct (cont_eq_dec c k) as [->|]; [|exact U]. eapply In_remove_other; eauto.
  - intros z h' O. destruct p as [|r j|z0|r j m|z0 m]; cbn [owed_after] in O;
        try (split; [rewrite zone_take; apply (q_owed _ _ _ _ Q _ _ O)|
             intros y; rewrite zone_take; apply (q_owed _ _ _ _ Q _ _ O)]).
      cbn [card_on] in On. split; [|intros y]; rewrite zone_take; unfold set_at in *.
      + destruct (zref_eq_dec z z0); [reflexivity|]. apply (q_owed _ _ _ _ Q _ _ O).
      + destruct (zref_eq_dec y z0) as [->|Ny]; [discriminate|]. destruct (zref_eq_dec z z0) as [->|Nz].
        * inversion O; subst. intros Y. apply Ny. eapply (zone_inj _ _ _ _ Q); eauto.
        * apply (q_owed _ _ _ _ Q _ _ O).
Qed.
