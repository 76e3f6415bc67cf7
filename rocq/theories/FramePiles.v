(** Inverses of card_swap and pile_splice; preservation of the layout
    invariant by the operations that neither create nor destroy cards. *)
From Verif Require Import Base BaseProofs Place PlaceProofs Frame FrameSpec FrameLens
  FrameProofs FrameMove FrameOps.

Local Open Scope N_scope.

(** ** The layout invariant *)
Definition lay_ok (L : layout) : Prop := shape L /\ nonull L.

Definition all_some (l : list (option N)) : Prop := ~ In None l.

Lemma nonull_contents : forall L, nonull L <-> forall k, all_some (contents k L).
Proof.
  intros L. unfold nonull, all_some, occupant. split.
  - intros H k I. apply In_nth_error in I. destruct I as [i I]. apply (H (k, i)). exact I.
  - intros H [k i] E. apply (H k). eapply nth_error_In. exact E.
Qed.

Lemma all_some_nth : forall l i, all_some l -> nth_error l i <> Some None.
Proof. intros l i H E. apply H. eapply nth_error_In; eauto. Qed.

Lemma nonull_put : forall k l L, shape L -> valid_cont k -> fits k l -> nonull L -> all_some l ->
  nonull (put k l L).
Proof.
  intros k l L S V F N A. rewrite nonull_contents in *. intros x.
  rewrite contents_put by auto. unfold view_set, view. destruct (cont_eq_dec x k); auto.
Qed.

Lemma all_some_app : forall a b, all_some (a ++ b) <-> all_some a /\ all_some b.
Proof. intros. unfold all_some. rewrite in_app_iff. tauto. Qed.

Lemma all_some_firstn : forall n l, all_some l -> all_some (firstn n l).
Proof. intros n l H I. apply H. rewrite <- (firstn_skipn n l). apply in_or_app. auto. Qed.
Lemma all_some_skipn : forall n l, all_some l -> all_some (skipn n l).
Proof. intros n l H I. apply H. rewrite <- (firstn_skipn n l). apply in_or_app. auto. Qed.

Lemma all_some_insert : forall i c l, all_some l -> all_some (insert_nth i (Some c) l).
Proof.
  intros i c l H. unfold insert_nth. apply all_some_app. split.
  - apply all_some_firstn; auto.
  - intros [E|I]; [discriminate|]. eapply all_some_skipn; eauto.
Qed.

Lemma all_some_remove : forall i l, all_some l -> all_some (remove_nth i l).
Proof.
  intros i l H. unfold remove_nth. apply all_some_app.
  split; auto using all_some_firstn, all_some_skipn.
Qed.

Lemma all_some_rev : forall l, all_some l <-> all_some (rev l).
Proof. intros. unfold all_some. rewrite <- in_rev. tauto. Qed.

Lemma all_some_cons : forall c l, all_some (Some c :: l) <-> all_some l.
Proof. intros. unfold all_some. simpl. split; [tauto|]. intros H [E|E]; [discriminate|tauto]. Qed.

Lemma nonull_get : forall L k, nonull L -> all_some (contents k L).
Proof. intros L k H. rewrite nonull_contents in H. auto. Qed.

Lemma verify_pile_Ok : forall l, verify_pile l = Ok tt <-> all_some l.
Proof.
  intros l. unfold verify_pile, all_some, assert_. split.
  - intros H I. destruct (forallb _ l) eqn:F; [|discriminate]. rewrite forallb_forall in F.
    specialize (F _ I). discriminate.
  - intros H. replace (forallb (fun c => negb (is_null c)) l) with true; auto.
    symmetry. apply forallb_forall. intros [x|] I; [reflexivity|tauto].
Qed.

Lemma verify_pile_inv : forall l u, verify_pile l = Ok u -> all_some l.
Proof. intros l [] H. apply verify_pile_Ok; auto. Qed.

(** ** A new layout's positions, in terms of counts *)

Lemma lay_ok_insert : forall p c L L', lay_ok L -> card_insert p c L = Ok L' ->
  lay_ok L' /\ forall id, cntL L' id = (cntL L id + cnt [Some c] id)%nat.
Proof.
  intros p c L L' [S N] H. pose proof (shape_insert _ _ _ _ S H) as S'.
  apply card_insert_slot in H; auto. destruct H as [k [i [Sl [Le [F ->]]]]].
  pose proof (slot_valid _ _ _ Sl) as V.
  split; [split; auto|].
  - apply nonull_put; auto. apply all_some_insert, nonull_get; auto.
  - intros id. pose proof (cntL_put k _ L id S V F) as H. rewrite cnt_insert in H. lia.
Qed.

Lemma lay_ok_erase : forall p c L L', lay_ok L -> card_erase p L = Ok (c, L') ->
  lay_ok L' /\ forall id, cntL L id = (cntL L' id + cnt [Some c] id)%nat.
Proof.
  intros p c L L' [S N] H. pose proof (shape_erase _ _ _ _ S H) as S'.
  apply card_erase_slot in H; auto. destruct H as [k [i [Sl [Nt ->]]]].
  pose proof (slot_valid _ _ _ Sl) as V.
  assert (F : fits k (remove_nth i (contents k L))) by auto using fits_remove, contents_fits.
  split; [split; auto|].
  - apply nonull_put; auto. apply all_some_remove, nonull_get; auto.
  - intros id. pose proof (cntL_put k _ L id S V F) as H.
    pose proof (cnt_remove i _ _ id Nt). lia.
Qed.

(** Replacing both halves of a zone. *)
Lemma set_zone_put : forall r z L, get_zone r L <> None ->
  set_zone r z L = put (CMats r) (z_mats z)
                     (put (CCard r) (match z_card z with Some c => [Some c] | None => [] end) L).
Proof.
  intros r [c m] L H. simpl. destruct (get_zone r L) as [z0|] eqn:G; [|congruence].
  rewrite get_set_zone_same by congruence. rewrite set_set_zone. simpl. destruct c; reflexivity.
Qed.

Definition card_list (c : option N) : list (option N) :=
  match c with Some c => [Some c] | None => [] end.
Definition zcnt (z : zone) (id : N) : nat := (cnt (card_list (z_card z)) id + cnt (z_mats z) id)%nat.

Lemma cntL_set_zone : forall r z z0 L id, shape L -> get_zone r L = Some z0 ->
  (cntL (set_zone r z L) id + zcnt z0 id = cntL L id + zcnt z id)%nat.
Proof.
  intros r z z0 L id S G. pose proof (get_zone_valid _ _ _ S G) as V.
  rewrite set_zone_put by congruence.
  set (L1 := put (CCard r) _ L).
  assert (F : fits (CCard r) (match z_card z with Some c => [Some c] | None => [] end)).
  { simpl. destruct (z_card z); eauto. }
  assert (S1 : shape L1) by (apply shape_put; auto).
  pose proof (cntL_put (CMats r) (z_mats z) L1 id S1 V I) as H1.
  pose proof (cntL_put (CCard r) _ L id S V F) as H2. fold L1 in H2.
  assert (E : contents (CMats r) L1 = z_mats z0).
  { unfold L1. rewrite contents_put_other by discriminate. simpl. rewrite G. reflexivity. }
  rewrite E in H1. simpl contents in H2. rewrite G in H2. unfold zcnt, card_list. lia.
Qed.

Lemma nonull_set_zone : forall r z L, shape L -> get_zone r L <> None -> nonull L ->
  all_some (z_mats z) -> nonull (set_zone r z L).
Proof.
  intros r z L S G N A. destruct (get_zone r L) as [z0|] eqn:E; [|congruence].
  pose proof (get_zone_valid _ _ _ S E) as V.
  rewrite set_zone_put by congruence. apply nonull_put; simpl; auto.
  - apply (shape_put (CCard r)); auto.
  - apply (nonull_put (CCard r)); simpl; auto.
    + destruct (z_card z); eauto.
    + destruct (z_card z); simpl; intros X; simpl in X; tauto || (destruct X; [discriminate|tauto]).
Qed.

Lemma nonull_zone : forall r z L, nonull L -> get_zone r L = Some z -> all_some (z_mats z).
Proof.
  intros r z L N G. pose proof (nonull_get L (CMats r) N) as H. simpl in H. rewrite G in H. exact H.
Qed.

(** Two zones exchange their contents. *)
Lemma lay_ok_swap_zones : forall ra rb za zb L, lay_ok L ->
  get_zone ra L = Some za -> get_zone rb L = Some zb ->
  let L' := set_zone rb za (set_zone ra zb L) in
  lay_ok L' /\ forall id, cntL L' id = cntL L id.
Proof.
  intros ra rb za zb L [S N] Ga Gb L'.
  assert (S1 : shape (set_zone ra zb L)) by (apply shape_set_zone; auto).
  split; [split|].
  - unfold L'. auto using shape_set_zone.
  - apply nonull_set_zone; auto.
    + apply set_zone_some; congruence.
    + apply nonull_set_zone; auto; try congruence. eapply nonull_zone; eauto.
    + eapply nonull_zone; eauto.
  - intros id. pose proof (cntL_set_zone ra zb za L id S Ga) as H1. unfold L'.
    destruct (zref_eq_dec ra rb) as [<-|Ne].
    + rewrite Ga in Gb. injection Gb as <-. rewrite set_set_zone. lia.
    + assert (G2 : get_zone rb (set_zone ra zb L) = Some zb) by (rewrite get_set_zone_other; auto).
      pose proof (cntL_set_zone rb za zb _ id S1 G2). lia.
Qed.

Lemma lay_ok_move : forall from to c L L', lay_ok L -> card_move from to L = Ok (c, L') ->
  lay_ok L' /\ forall id, cntL L' id = cntL L id.
Proof.
  intros from to c L L' K H. destruct (both_cards from to) eqn:B.
  - apply card_move_cards in H; auto. 2: apply K.
    destruct H as [r1 [r2 [z1 [_ [_ [G1 [_ [G2 ->]]]]]]]].
    replace (set_zone r1 zone0 (set_zone r2 z1 L)) with (set_zone r1 zone0 (set_zone r2 z1 L)) by auto.
    apply lay_ok_swap_zones; auto.
  - apply card_move_simple in H; auto. 2: apply K. destruct H as [_ [_ [L1 [E I]]]].
    apply lay_ok_erase in E; auto. destruct E as [K1 E].
    apply lay_ok_insert in I; auto. destruct I as [K2 I]. split; auto.
    intros id. specialize (E id). specialize (I id). lia.
Qed.

Lemma all_some_upd : forall i c l, all_some l -> all_some (upd i (Some c) l).
Proof.
  induction i; intros c [|x l] H; simpl; auto.
  - intros [E|I]; [discriminate|]. apply H. right; auto.
  - intros [E|I]; [subst; apply H; left; auto|]. eapply IHi; [|exact I]. intros J. apply H. right; auto.
Qed.

Lemma cnt_upd : forall i x c l id, nth_error l i = Some x ->
  (cnt (upd i c l) id + cnt [x] id = cnt l id + cnt [c] id)%nat.
Proof.
  induction i; intros x c [|y l] id H; try discriminate; simpl in H.
  - injection H as ->. cbn [upd]. rewrite (cnt_cons c l), (cnt_cons x l). lia.
  - cbn [upd]. rewrite (cnt_cons y (upd i c l)), (cnt_cons y l). specialize (IHi x c l id H). lia.
Qed.

Lemma lay_ok_swap_pos : forall a b x y L, lay_ok L -> valid_cont (fst a) -> valid_cont (fst b) ->
  occupant L a = Some (Some x) -> occupant L b = Some (Some y) ->
  lay_ok (swap_pos a b x y L) /\ forall id, cntL (swap_pos a b x y L) id = cntL L id.
Proof.
  intros a b x y L [S N] Va Vb Oa Ob. split; [split|].
  - apply shape_swap_pos; auto.
  - intros pos. rewrite occupant_swap_pos by auto. destruct (pos_eq_dec pos a); [discriminate|].
    destruct (pos_eq_dec pos b); [discriminate|]. apply N.
  - intros id. destruct a as [ka ia], b as [kb ib]. unfold swap_pos, occupant in *. cbn [fst snd] in *.
    set (L1 := put ka _ L).
    assert (F : fits ka (upd ia (Some y) (contents ka L))) by auto using fits_upd, contents_fits.
    assert (S1 : shape L1) by (apply shape_put; auto).
    pose proof (cntL_put ka _ L id S Va F) as H1. fold L1 in H1.
    pose proof (cnt_upd ia (Some x) (Some y) (contents ka L) id Oa) as H2.
    assert (F2 : fits kb (upd ib (Some x) (contents kb L1))) by auto using fits_upd, contents_fits.
    pose proof (cntL_put kb _ L1 id S1 Vb F2) as H3.
    assert (O1 : nth_error (contents kb L1) ib = Some (Some y)).
    { unfold L1. rewrite contents_put by auto. unfold view_set, view.
      destruct (cont_eq_dec kb ka) as [->|]; auto.
      destruct (Nat.eq_dec ib ia) as [->|].
      - apply upd_same. apply nth_error_Some. congruence.
      - rewrite upd_other; auto. }
    pose proof (cnt_upd ib (Some y) (Some x) (contents kb L1) id O1). lia.
Qed.

Lemma swap_lval_a_valid : forall a b wa, swap_lval_a a b wa -> valid_cont (fst (lpos wa)).
Proof.
  intros a b wa W. unfold swap_lval_a in W. destruct (_ && _) in W.
  - destruct W as [r [Z ->]]. apply zone_of_inv in Z. simpl. tauto.
  - eapply plval_valid; eauto.
Qed.

Lemma lay_ok_swap : forall a b L L', lay_ok L -> card_swap a b L = Ok L' ->
  lay_ok L' /\ forall id, cntL L' id = cntL L id.
Proof.
  intros a b L L' K H. destruct (both_cards a b) eqn:B.
  - apply card_swap_cards in H; auto. 2: apply K.
    destruct H as [ra [rb [za [zb [_ [_ [Ga [Gb [_ [_ ->]]]]]]]]]].
    apply lay_ok_swap_zones; auto.
  - pose proof K as [S N]. apply card_swap_simple in H; auto.
    destruct H as [_ [_ [_ [_ [va [wa [vb [x [y [Pa [Pb [_ [W [Ox [Oy ->]]]]]]]]]]]]]]].
    apply lay_ok_swap_pos; auto.
    + eapply swap_lval_a_valid; eauto.
    + eapply plval_valid; eauto.
Qed.

(** ** card_swap twice *)
Lemma swap_ok_dec : forall a b, swap_ok a b \/
  (is_pile a = false /\ not_mat a = false /\ is_pile b = false).
Proof.
  intros a b. unfold swap_ok. destruct (is_pile a), (not_mat a), (is_pile b); auto.
Qed.

Lemma card_swap_twice : forall a b L L', lay_ok L ->
  card_swap a b L = Ok L' -> card_swap a b L' = Ok L.
Proof.
  intros a b L L' K H. destruct (lay_ok_swap _ _ _ _ K H) as [K' _].
  pose proof K as [S N]. pose proof K' as [S' N'].
  destruct (both_cards a b) eqn:B.
  - apply card_swap_cards in H; auto.
    destruct H as [ra [rb [za [zb [Za [Zb [Ga [Gb [Na [Nb ->]]]]]]]]]].
    apply card_swap_cards; auto. exists ra, rb.
    destruct (zref_eq_dec ra rb) as [<-|Ne].
    + rewrite Ga in Gb. injection Gb as <-. exists za, za.
      rewrite !set_set_zone. rewrite get_set_zone_same by congruence.
      repeat split; auto. symmetry. apply set_zone_id; auto.
    + exists zb, za. rewrite get_set_zone_other by auto. rewrite get_set_zone_same by congruence.
      rewrite get_set_zone_same by zs. repeat split; auto.
      rewrite (set_zone_comm rb ra) by auto. rewrite !set_set_zone.
      rewrite (set_zone_comm rb ra) by auto. rewrite set_set_zone.
      rewrite (set_zone_id rb) by auto. rewrite set_zone_id; auto.
  - apply card_swap_simple in H; auto.
    destruct H as [AI [BI [MA [MB [va [wa [vb [x [y [Pa [Pb [Oa [W [Ox [Oy ->]]]]]]]]]]]]]]].
    apply card_swap_simple; auto. split; auto. split; auto.
    destruct (swap_ok_dec a b) as [G|[PA [NA PB]]].
    2: { (* the material indexed is not the one named, but it is the same one twice *)
      pose proof (swap_lval_a_valid _ _ _ W) as Vw. pose proof (plval_valid _ _ Pb) as Vb.
      split; [intros r Z NM; congruence|]. split; [intros r Z NM Pl; congruence|].
      destruct (swap_pos_back (lpos wa) (lpos vb) x y L S Vw Vb Ox Oy) as [x' [y' [Ox' [Oy' Bk]]]].
      exists va, wa, vb, x', y'. split; auto. split; auto. split; [|repeat split; auto; congruence].
      rewrite occupant_swap_pos by auto. destruct (pos_eq_dec (lpos va) (lpos wa)); [discriminate|].
      destruct (pos_eq_dec (lpos va) (lpos vb)); [discriminate|]. exact Oa. }
    pose proof (swap_ok_lval _ _ _ _ G W Pa) as ->.
    pose proof (plval_valid _ _ Pa) as Va. pose proof (plval_valid _ _ Pb) as Vb.
    assert (Mats : forall r, (forall i, lpos va <> (CMats r, i)) -> (forall i, lpos vb <> (CMats r, i)) ->
      contents (CMats r) (swap_pos (lpos va) (lpos vb) x y L) = contents (CMats r) L).
    { intros r Na Nb. unfold swap_pos. rewrite contents_put_other. 2: { destruct (lpos vb); simpl in *; intros ->. eapply Nb; eauto. }
      rewrite contents_put_other; auto. destruct (lpos va); simpl in *; intros ->. eapply Na; eauto. }
    split; [|split].
    + intros r Z NM Pl. rewrite Mats; auto.
      * intros i E. destruct Pa as [[P _]|[_ [r' [Z' ->]]]].
        { apply zone_of_inv in Z. destruct Z. congruence. }
        rewrite NM in E. discriminate.
      * intros i E. destruct Pb as [[_ [r' [Z' ->]]]|[P _]]; [discriminate|congruence].
    + intros r Z NM Pl. rewrite Mats; auto.
      * intros i E. destruct Pa as [[_ [r' [Z' ->]]]|[P _]]; [discriminate|congruence].
      * intros i E. destruct Pb as [[P _]|[_ [r' [Z' ->]]]].
        { apply zone_of_inv in Z. destruct Z. congruence. }
        rewrite NM in E. discriminate.
    + destruct (swap_pos_back (lpos va) (lpos vb) x y L S Va Vb Ox Oy) as [x' [y' [Ox' [Oy' Bk]]]].
      exists va, va, vb, x', y'. repeat split; auto. congruence.
Qed.

(** ** pile_swap *)
Lemma pile_swap_Ok : forall a b L L', pile_swap a b L = Ok L' <->
  exists ra rb, pile_of a = Ok ra /\ pile_of b = Ok rb /\
    L' = set_pile rb (get_pile ra L) (set_pile ra (get_pile rb L) L).
Proof.
  intros a b L L'. unfold pile_swap. split.
  - intros H. inv_ok. subst. eauto 10.
  - intros [ra [rb [Ra [Rb ->]]]]. rewrite (pile_of_is_pile _ _ Ra), (pile_of_is_pile _ _ Rb). run.
    reflexivity.
Qed.

Lemma pile_swap_twice : forall a b L L', pile_swap a b L = Ok L' -> pile_swap a b L' = Ok L.
Proof.
  intros a b L L' H. apply pile_swap_Ok in H. destruct H as [ra [rb [Ra [Rb ->]]]].
  apply pile_swap_Ok. exists ra, rb. split; auto. split; auto.
  destruct (pref_eq_dec ra rb) as [<-|N].
  - rewrite !set_set_pile, !get_set_pile_same. rewrite set_pile_id. auto.
  - rewrite get_set_pile_same. rewrite get_set_pile_other by auto. rewrite get_set_pile_same.
    rewrite (set_pile_comm ra rb) by auto. rewrite !set_set_pile.
    rewrite set_pile_id. rewrite set_pile_id. auto.
Qed.

Lemma cntL_set_pile : forall r l L id, shape L ->
  (cntL (set_pile r l L) id + cnt (get_pile r L) id = cntL L id + cnt l id)%nat.
Proof. intros. apply (cntL_put (CPile r)); simpl; auto. Qed.

Lemma nonull_set_pile : forall r l L, shape L -> nonull L -> all_some l -> nonull (set_pile r l L).
Proof. intros. apply (nonull_put (CPile r)); simpl; auto. Qed.

Lemma nonull_pile : forall r L, nonull L -> all_some (get_pile r L).
Proof. intros r L N. exact (nonull_get L (CPile r) N). Qed.

Lemma lay_ok_pile_swap : forall a b L L', lay_ok L -> pile_swap a b L = Ok L' ->
  lay_ok L' /\ forall id, cntL L' id = cntL L id.
Proof.
  intros a b L L' [S N] H. apply pile_swap_Ok in H. destruct H as [ra [rb [_ [_ ->]]]].
  set (L1 := set_pile ra (get_pile rb L) L).
  assert (S1 : shape L1) by (apply shape_set_pile; auto).
  split; [split|].
  - apply shape_set_pile; auto.
  - apply nonull_set_pile; auto using nonull_pile. apply nonull_set_pile; auto using nonull_pile.
  - intros id. pose proof (cntL_set_pile ra (get_pile rb L) L id S) as H1. fold L1 in H1.
    pose proof (cntL_set_pile rb (get_pile ra L) L1 id S1) as H2.
    destruct (pref_eq_dec ra rb) as [<-|Ne].
    + unfold L1 in H2 at 2. rewrite get_set_pile_same in H2. lia.
    + unfold L1 in H2 at 2. rewrite get_set_pile_other in H2 by auto. lia.
Qed.

(** ** pile_splice *)
Definition spliced (rev_ : bool) (l : list (option N)) := if rev_ then rev l else l.

Lemma pile_splice_Ok : forall from count to rev_ L L',
  pile_splice from count to rev_ L = Ok L' <->
  exists r1 r2, pile_of from = Ok r1 /\ pile_of to = Ok r2 /\
    let s := N.to_nat (p_seq from) in
    let n := N.to_nat count in
    let t := N.to_nat (p_seq to) in
    let l1 := get_pile r1 L in
    let L1 := set_pile r1 (firstn s l1 ++ skipn (s + n) l1) L in
    let l2 := get_pile r2 L1 in
    (s + n <= length l1)%nat /\ (t <= length l2)%nat /\
    all_some (firstn s l1 ++ skipn (s + n) l1) /\
    all_some (firstn t l2 ++ spliced rev_ (firstn n (skipn s l1)) ++ skipn t l2) /\
    L' = set_pile r2 (firstn t l2 ++ spliced rev_ (firstn n (skipn s l1)) ++ skipn t l2) L1.
Proof.
  intros from count to rev_ L L'. unfold pile_splice. split.
  - intros H. inv_ok. cbv zeta in H. inv_ok.
    match type of H with (if ?b then _ else _) = _ => destruct b eqn:LE; [|discriminate] end.
    inv_ok. unfold lenN in *.
    repeat match goal with V : verify_pile _ = Ok _ |- _ => apply verify_pile_inv in V end.
    do 2 eexists. split; [eassumption|]. split; [eassumption|]. cbv zeta.
    split; [lia|]. split; [lia|]. split; [assumption|]. split; [assumption|reflexivity].
  - intros [r1 [r2 [R1 [R2 H]]]]. cbv zeta in H. destruct H as [H1 [H2 [V1 [V2 ->]]]].
    rewrite (pile_of_is_pile _ _ R1), (pile_of_is_pile _ _ R2). run. cbv zeta. unfold lenN.
    replace (count + p_seq from <=? N.of_nat (length (get_pile r1 L))) with true by lia. run.
    apply verify_pile_Ok in V1. rewrite V1. run.
    match goal with |- (if ?b then _ else _) = _ => replace b with true by lia end.
    apply verify_pile_Ok in V2. unfold spliced in V2. rewrite V2. run. reflexivity.
Qed.

Lemma firstn_app_exact : forall A n (a b : list A), n = length a -> firstn n (a ++ b) = a.
Proof. intros A n a b ->. rewrite firstn_app, Nat.sub_diag, firstn_all. simpl. apply app_nil_r. Qed.
Lemma skipn_app_exact : forall A n (a b : list A), n = length a -> skipn n (a ++ b) = b.
Proof. intros A n a b ->. rewrite skipn_app, Nat.sub_diag, skipn_all. reflexivity. Qed.

Lemma spliced_length : forall r l, length (spliced r l) = length l.
Proof. intros [] l; simpl; auto. apply rev_length. Qed.
Lemma spliced_twice : forall r l, spliced r (spliced r l) = l.
Proof. intros [] l; simpl; auto. apply rev_involutive. Qed.
Lemma spliced_some : forall r l, all_some (spliced r l) <-> all_some l.
Proof. intros [] l; simpl; [|tauto]. symmetry. apply all_some_rev. Qed.
Lemma spliced_cnt : forall r l id, cnt (spliced r l) id = cnt l id.
Proof. intros [] l id; simpl; auto. apply cnt_rev. Qed.

Lemma skipn_add : forall A s n (l : list A), skipn (s + n) l = skipn n (skipn s l).
Proof. induction s; intros n [|x l]; simpl; auto. destruct n; reflexivity. Qed.

Lemma split3 : forall A s n (l : list A),
  firstn s l ++ firstn n (skipn s l) ++ skipn (s + n) l = l.
Proof.
  intros. rewrite skipn_add. rewrite firstn_skipn, firstn_skipn. auto.
Qed.

Lemma pile_splice_back : forall from count to rev_ L L',
  pile_splice from count to rev_ L = Ok L' -> pile_splice to count from rev_ L' = Ok L.
Proof.
  intros from count to rev_ L L' H. apply pile_splice_Ok in H.
  destruct H as [r1 [r2 [R1 [R2 H]]]]. cbv zeta in H. destruct H as [Hs [Ht [V1 [V2 ->]]]].
  apply pile_splice_Ok. exists r2, r1. split; auto. split; auto. cbv zeta.
  set (s := N.to_nat (p_seq from)) in *. set (n := N.to_nat count) in *.
  set (t := N.to_nat (p_seq to)) in *. set (l1 := get_pile r1 L) in *.
  set (cut := firstn n (skipn s l1)) in *.
  set (L1 := set_pile r1 (firstn s l1 ++ skipn (s + n) l1) L) in *.
  set (l2 := get_pile r2 L1) in *.
  rewrite get_set_pile_same.
  assert (Lc : length cut = n). { unfold cut. rewrite firstn_length, skipn_length. lia. }
  assert (Lt : length (firstn t l2) = t) by (rewrite firstn_length; lia).
  assert (F1 : firstn t (firstn t l2 ++ spliced rev_ cut ++ skipn t l2) = firstn t l2).
  { apply firstn_app_exact; auto. }
  assert (F2 : firstn n (skipn t (firstn t l2 ++ spliced rev_ cut ++ skipn t l2)) = spliced rev_ cut).
  { rewrite skipn_app_exact by auto. apply firstn_app_exact. rewrite spliced_length; auto. }
  assert (F3 : skipn (t + n) (firstn t l2 ++ spliced rev_ cut ++ skipn t l2) = skipn t l2).
  { rewrite app_assoc. apply skipn_app_exact. rewrite app_length, spliced_length. lia. }
  rewrite F1, F2, F3, spliced_twice, firstn_skipn, set_set_pile.
  assert (E : set_pile r2 l2 L1 = L1) by (apply set_pile_id). rewrite E.
  assert (G1 : get_pile r1 L1 = firstn s l1 ++ skipn (s + n) l1) by (apply get_set_pile_same).
  rewrite G1. assert (Ls : length (firstn s l1) = s) by (rewrite firstn_length; lia).
  rewrite firstn_app_exact by auto. rewrite skipn_app_exact by auto.
  apply all_some_app in V2. destruct V2 as [V2a V2b]. apply all_some_app in V2b.
  destruct V2b as [V2b V2c]. apply (proj1 (spliced_some _ _)) in V2b.
  split; [|split; [|split; [|split]]].
  - rewrite !app_length, spliced_length. lia.
  - rewrite app_length. lia.
  - rewrite <- (firstn_skipn t l2). apply all_some_app; auto.
  - apply all_some_app in V1. rewrite !all_some_app. tauto.
  - unfold L1. rewrite set_set_pile. unfold cut. rewrite split3. symmetry. apply set_pile_id.
Qed.

Lemma lay_ok_splice : forall from count to rev_ L L', lay_ok L ->
  pile_splice from count to rev_ L = Ok L' ->
  lay_ok L' /\ forall id, cntL L' id = cntL L id.
Proof.
  intros from count to rev_ L L' [S N] H. apply pile_splice_Ok in H.
  destruct H as [r1 [r2 [R1 [R2 H]]]]. cbv zeta in H. destruct H as [Hs [Ht [V1 [V2 ->]]]].
  set (L1 := set_pile r1 _ L) in *.
  assert (S1 : shape L1) by (apply shape_set_pile; auto).
  split; [split|].
  - apply shape_set_pile; auto.
  - apply nonull_set_pile; auto. apply nonull_set_pile; auto.
  - intros id.
    match goal with |- cntL (set_pile r2 ?l L1) id = _ =>
      pose proof (cntL_set_pile r2 l L1 id S1) as H2 end.
    pose proof (cntL_set_pile r1 (firstn (N.to_nat (p_seq from)) (get_pile r1 L) ++
      skipn (N.to_nat (p_seq from) + N.to_nat count) (get_pile r1 L)) L id S) as H1.
    fold L1 in H1.
    rewrite !cnt_app, spliced_cnt in H2. rewrite cnt_app in H1.
    pose proof (cnt_split (N.to_nat (p_seq to)) (get_pile r2 L1) id).
    pose proof (f_equal (fun l => cnt l id) (split3 _ (N.to_nat (p_seq from)) (N.to_nat count) (get_pile r1 L))) as H3.
    cbv beta in H3. rewrite !cnt_app in H3. lia.
Qed.
