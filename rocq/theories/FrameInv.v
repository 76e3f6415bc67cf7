(** Conservation of cards: the frame invariant and its preservation by every
    public operation. *)
From Verif Require Import Base BaseProofs Place PlaceProofs Frame FrameSpec FrameLens
  FrameProofs FrameMove FrameOps FramePiles.

Local Open Scope N_scope.

(** ** card_shuffle keeps the layout invariant *)
Lemma swap_zones_Ok : forall a b L L', swap_zones a b L = Ok L' <->
  exists za zb, get_zone a L = Some za /\ get_zone b L = Some zb /\
    L' = set_zone b za (set_zone a zb L).
Proof.
  intros. unfold swap_zones, read_zone. split.
  - intros H. inv_ok. eauto.
  - intros [za [zb [Ga [Gb ->]]]]. run. reflexivity.
Qed.

Lemma lay_ok_shuffle_loop : forall todo i cur seqs L L', lay_ok L ->
  shuffle_loop todo i cur seqs L = Ok L' -> lay_ok L' /\ forall id, cntL L' id = cntL L id.
Proof.
  induction todo as [|todo IH]; intros i cur seqs L L' K H; simpl in H.
  - injection H as <-. auto.
  - destruct cur as [|p cur]; [discriminate|]. destruct (is_empty p); [eapply IH; eauto|].
    inv_ok. match goal with S : swap_zones _ _ _ = Ok _ |- _ => apply swap_zones_Ok in S;
      destruct S as [za [zb [Ga [Gb ->]]]] end.
    destruct (lay_ok_swap_zones _ _ _ _ _ K Ga Gb) as [K1 C1].
    destruct (IH _ _ _ _ _ K1 H) as [K2 C2]. split; auto. intros id. rewrite C2, C1. auto.
Qed.

Lemma lay_ok_shuffle : forall prev cur L L', lay_ok L -> card_shuffle prev cur L = Ok L' ->
  lay_ok L' /\ forall id, cntL L' id = cntL L id.
Proof.
  intros prev cur L L' K H. unfold card_shuffle in H. destruct prev; [discriminate|].
  inv_ok. eapply lay_ok_shuffle_loop; eauto.
Qed.

(** ** The frame invariant *)
Section Inv.
Variable C : Type.
Variable c0 : C.

Definition ids (f : frame C) : list N := map fst (f_heap f).
Definition hcnt (h : list (N * C)) (id : N) : nat := count_occ N.eq_dec (map fst h) id.

Record inv (f : frame C) : Prop := {
  inv_lay : lay_ok (f_lay f);
  inv_cnt : forall id, cntL (f_lay f) id = hcnt (f_heap f) id;
  inv_nodup : NoDup (map fst (f_heap f));
  inv_lt : forall id, In id (map fst (f_heap f)) -> id < f_next f
}.

Lemma nonull0 : nonull layout0.
Proof.
  apply nonull_contents. intros k X.
  assert (E : contents k layout0 = []).
  { destruct (valid_cont_dec k) as [V|V].
    - destruct k as [[[] []]|[[[] []] i]|[[[] []] i]]; simpl in V; try reflexivity;
        do 8 (destruct i; [reflexivity|try lia]).
    - apply contents_invalid; auto using shape0. }
  rewrite E in X. exact X.
Qed.

Lemma lay_ok0 : lay_ok layout0.
Proof. split; [exact shape0|exact nonull0]. Qed.

Lemma inv0 : inv frame0.
Proof.
  split; simpl.
  - exact lay_ok0.
  - intros id. vm_compute. reflexivity.
  - constructor.
  - tauto.
Qed.

Lemma inv_with_lay : forall f L, inv f -> lay_ok L ->
  (forall id, cntL L id = cntL (f_lay f) id) -> inv (with_lay f L).
Proof.
  intros f L [A B Cc D] K E. split; simpl; auto. intros id. rewrite E. auto.
Qed.

Lemma inv_conserved : forall f, inv f -> conserved f.
Proof.
  intros f [[S N] B Cc D]. split.
  - intros id Lv. unfold live in Lv.
    assert (H1 : cntL (f_lay f) id = 1%nat).
    { rewrite B. unfold hcnt. apply NoDup_count_occ'; auto. }
    unfold cntL in H1. destruct (sum_over_pos _ (fun k => cnt (contents k (f_lay f)) id) all_conts) as [k [Ik Pk]].
    { rewrite H1. lia. }
    apply cnt_In in Pk. apply In_nth_error in Pk. destruct Pk as [i E].
    exists (k, i). split; [exact E|]. intros [k' i'] E'. unfold occupant in *. simpl in *.
    assert (Pk : (0 < cnt (contents k (f_lay f)) id)%nat) by (apply cnt_In; eapply nth_error_In; eauto).
    assert (Pk' : (0 < cnt (contents k' (f_lay f)) id)%nat) by (apply cnt_In; eapply nth_error_In; eauto).
    destruct (cont_eq_dec k k') as [<-|Nk].
    + destruct (Nat.eq_dec i i') as [<-|Ni]; auto. exfalso.
      pose proof (cnt_nth_twice _ _ _ _ Ni E E').
      pose proof (sum_over_In _ (fun k => cnt (contents k (f_lay f)) id) all_conts k Ik). simpl in *. lia.
    + exfalso. assert (Ik' : In k' all_conts).
      { apply in_all_conts. destruct (valid_cont_dec k') as [V|V]; auto. exfalso.
        rewrite contents_invalid in Pk' by auto. rewrite cnt_nil in Pk'. lia. }
      pose proof (sum_over_two _ (fun k => cnt (contents k (f_lay f)) id) all_conts k k' nodup_all_conts Ik Ik' Nk).
      simpl in *. lia.
  - intros [k i] id E. unfold occupant in E. simpl in E. unfold live.
    apply (count_occ_In N.eq_dec). fold (hcnt (f_heap f) id). rewrite <- B.
    assert (Pk : (0 < cnt (contents k (f_lay f)) id)%nat) by (apply cnt_In; eapply nth_error_In; eauto).
    assert (Ik : In k all_conts).
    { apply in_all_conts. destruct (valid_cont_dec k) as [V|V]; auto. exfalso.
      rewrite contents_invalid in Pk by auto. rewrite cnt_nil in Pk. lia. }
    pose proof (sum_over_In _ (fun k => cnt (contents k (f_lay f)) id) all_conts k Ik).
    unfold cntL. simpl in *. lia.
  - exact N.
Qed.

(** ** Constructing and destroying *)

Lemma cnt_single_eq : forall c id, cnt [Some c] id = if N.eq_dec c id then 1%nat else 0%nat.
Proof.
  intros c id. destruct (N.eq_dec c id) as [->|N].
  - apply cnt_single.
  - apply cnt_single_other. congruence.
Qed.

Lemma hcnt_cons : forall c v h id, hcnt ((c, v) :: h) id = (cnt [Some c] id + hcnt h id)%nat.
Proof.
  intros. rewrite cnt_single_eq. unfold hcnt. simpl. destruct (N.eq_dec c id); reflexivity.
Qed.

Lemma heap_remove_Some : forall c (h h' : list (N * C)), heap_remove c h = Some h' ->
  exists h1 v h2, h = h1 ++ (c, v) :: h2 /\ h' = h1 ++ h2.
Proof.
  induction h as [|[x v] h IH]; intros h' H; simpl in H; [discriminate|].
  destruct (N.eqb_spec x c) as [->|N].
  - injection H as <-. exists [], v, h. auto.
  - destruct (heap_remove c h) as [h''|]; [|discriminate]. injection H as <-.
    destruct (IH h'' eq_refl) as [h1 [v' [h2 [-> ->]]]]. exists ((x, v) :: h1), v', h2. auto.
Qed.

Lemma heap_remove_In : forall c (h : list (N * C)), In c (map fst h) -> exists h', heap_remove c h = Some h'.
Proof.
  induction h as [|[x v] h IH]; simpl; intros H; [tauto|].
  destruct (N.eqb_spec x c) as [->|N]; [eauto|].
  destruct H as [H|H]; [congruence|]. destruct (IH H) as [h' ->]. eauto.
Qed.

Lemma hcnt_app : forall a b id, hcnt (a ++ b) id = (hcnt a id + hcnt b id)%nat.
Proof. intros. unfold hcnt. rewrite map_app. apply count_occ_app. Qed.

Lemma hcnt_remove : forall c h h' id, heap_remove c h = Some h' ->
  (hcnt h' id + cnt [Some c] id = hcnt h id)%nat.
Proof.
  intros c h h' id H. apply heap_remove_Some in H. destruct H as [h1 [v [h2 [-> ->]]]].
  rewrite !hcnt_app, hcnt_cons. lia.
Qed.

Lemma nodup_remove : forall c (h h' : list (N * C)), heap_remove c h = Some h' ->
  NoDup (map fst h) -> NoDup (map fst h').
Proof.
  intros c h h' H. apply heap_remove_Some in H. destruct H as [h1 [v [h2 [-> ->]]]].
  rewrite !map_app. simpl. apply NoDup_remove_1.
Qed.

Lemma in_remove : forall c (h h' : list (N * C)) id, heap_remove c h = Some h' ->
  In id (map fst h') -> In id (map fst h).
Proof.
  intros c h h' id H. apply heap_remove_Some in H. destruct H as [h1 [v [h2 [-> ->]]]].
  rewrite !map_app, !in_app_iff. simpl. tauto.
Qed.

(** ** Preservation *)

Lemma inv_add : forall p f c f', inv f -> card_add c0 p f = Ok (c, f') -> inv f'.
Proof.
  intros p f c f' I H. unfold card_add, construct_card in H. inv_ok.
  destruct I as [A B Cc D].
  match goal with E : card_insert _ _ _ = Ok _ |- _ => apply lay_ok_insert in E; auto; destruct E as [K E] end.
  split; simpl.
  - auto.
  - intros id. rewrite E, hcnt_cons. simpl. rewrite B. lia.
  - constructor; auto. intros X. apply D in X. lia.
  - intros id [<-|X]; [lia|]. apply D in X. lia.
Qed.

Lemma destruct_card_Ok : forall c (f f' : frame C), destruct_card c f = Ok f' ->
  exists h, heap_remove c (f_heap f) = Some h /\ f' = mkFrame (f_next f) h (f_lay f).
Proof.
  intros c f f' H. unfold destruct_card in H. destruct (heap_remove c (f_heap f)) eqn:E; [|discriminate].
  injection H as <-. eauto.
Qed.

Lemma inv_remove : forall p (f f' : frame C), inv f -> card_remove p f = Ok f' -> inv f'.
Proof.
  intros p f f' I H. unfold card_remove in H. inv_ok. destruct I as [A B Cc D].
  apply destruct_card_Ok in H. destruct H as [h [Hr ->]]. simpl in *.
  match goal with X : card_erase _ _ = Ok _ |- _ => apply lay_ok_erase in X; auto; destruct X as [K Ec] end.
  split; simpl; auto.
  - intros id. specialize (Ec id). specialize (B id).
    match goal with HR : heap_remove _ _ = Some _ |- _ => pose proof (hcnt_remove _ _ _ id HR) end. lia.
  - eapply nodup_remove; eauto.
  - intros id X. apply D. eapply in_remove; eauto.
Qed.

Lemma inv_grow : forall n r f, inv f -> inv (grow_pile c0 n r f).
Proof.
  induction n as [|n IH]; intros r f I; simpl; auto. apply IH. destruct I as [[S N] B Cc D]. split; simpl.
  - split; [apply shape_set_pile; auto|]. apply nonull_set_pile; auto.
    apply all_some_app. split; [apply nonull_pile; auto|]. intros [X|[]]; discriminate.
  - intros id. pose proof (cntL_set_pile r (get_pile r (f_lay f) ++ [Some (f_next f)]) (f_lay f) id S) as H.
    rewrite cnt_app in H. rewrite hcnt_cons. specialize (B id). lia.
  - constructor; auto. intros X. apply D in X. lia.
  - intros id [<-|X]; [lia|]. apply D in X. lia.
Qed.

Lemma firstn_last : forall A (l : list A) x, nth_error l (length l - 1) = Some x ->
  l = firstn (length l - 1) l ++ [x].
Proof.
  intros A l x H. destruct l as [|y l] using rev_ind; [simpl in H; discriminate|].
  rewrite app_length in *. simpl in *. replace (length l + 1 - 1)%nat with (length l) in * by lia.
  rewrite nth_error_app2 in H by lia. rewrite Nat.sub_diag in H. simpl in H. injection H as ->.
  rewrite firstn_app, Nat.sub_diag, firstn_all. simpl. rewrite app_nil_r. auto.
Qed.

Lemma inv_shrink : forall n r f f', inv f -> shrink_pile n r f = Ok f' -> inv f'.
Proof.
  induction n as [|n IH]; intros r f f' I H; simpl in H.
  - injection H as <-. auto.
  - inv_ok. unfold deref in *. inv_ok. subst.
    match goal with D : destruct_card _ _ = Ok _ |- _ => apply destruct_card_Ok in D; destruct D as [h [Hr ->]] end.
    eapply IH; [|exact H]. destruct I as [[S N] B Cc D]. simpl in *.
    match goal with L : nth_error _ _ = Some _ |- _ => apply firstn_last in L; rename L into FL end.
    split; simpl.
    + split; [apply shape_set_pile; auto|]. apply nonull_set_pile; auto.
      apply all_some_firstn, nonull_pile; auto.
    + intros id. pose proof (cntL_set_pile r (firstn (length (get_pile r (f_lay f)) - 1) (get_pile r (f_lay f))) (f_lay f) id S) as Hc.
      apply (f_equal (fun l => cnt l id)) in FL. rewrite cnt_app in FL.
      specialize (B id). pose proof (hcnt_remove _ _ _ id Hr). lia.
    + eapply nodup_remove; eauto.
    + intros id X. apply D. eapply in_remove; eauto.
Qed.

Lemma inv_resize : forall p n f f', inv f -> pile_resize c0 p n f = Ok f' -> inv f'.
Proof.
  intros p n f f' I H. unfold pile_resize in H. inv_ok. cbv zeta in *. inv_ok.
  match goal with E : (if _ then _ else _) = Ok _ |- _ => rename E into E' end.
  destruct (_ <? n) in E'.
  - injection E' as <-. apply inv_grow; auto.
  - destruct (n <? _) in E'.
    + eapply inv_shrink; eauto.
    + injection E' as <-; auto.
Qed.

(** ** clear *)

Lemma destruct_all_Ok : forall l (f f' : frame C), destruct_all l f = Ok f' ->
  f_lay f' = f_lay f /\ f_next f' = f_next f /\
  (forall id, hcnt (f_heap f') id + cnt l id = hcnt (f_heap f) id)%nat /\
  (NoDup (map fst (f_heap f)) -> NoDup (map fst (f_heap f'))) /\
  (forall id, In id (map fst (f_heap f')) -> In id (map fst (f_heap f))).
Proof.
  induction l as [|c l IH]; intros f f' H; simpl in H.
  - injection H as <-. repeat split; auto.
  - inv_ok. unfold deref in *. inv_ok. subst.
    match goal with D : destruct_card _ _ = Ok _ |- _ => apply destruct_card_Ok in D; destruct D as [h [Hr ->]] end.
    apply IH in H. destruct H as [A [B [Cc [D E]]]]. simpl in *. repeat split; auto.
    + intros id. specialize (Cc id). pose proof (hcnt_remove _ _ _ id Hr).
      rewrite (cnt_cons (Some r)). lia.
    + intros ND. apply D. eapply nodup_remove; eauto.
    + intros id X. eapply in_remove; eauto.
Qed.

Lemma destruct_all_run : forall l (f : frame C), all_some l ->
  (forall id, cnt l id <= hcnt (f_heap f) id)%nat -> exists f', destruct_all l f = Ok f'.
Proof.
  induction l as [|[c|] l IH]; intros f A H; simpl; eauto.
  - destruct (heap_remove_In c (f_heap f)) as [h Hr].
    { apply (count_occ_In N.eq_dec). fold (hcnt (f_heap f) c). specialize (H c).
      rewrite cnt_cons, cnt_single in H. lia. }
    unfold destruct_card. rewrite Hr. simpl. apply IH.
    + apply all_some_cons in A. auto.
    + intros id. simpl. specialize (H id). pose proof (hcnt_remove _ _ _ id Hr).
      rewrite cnt_cons in H. lia.
  - exfalso. apply A. left; auto.
Qed.

Lemma cnt_le_cntL : forall k L id, shape L -> valid_cont k -> (cnt (contents k L) id <= cntL L id)%nat.
Proof.
  intros. unfold cntL. apply (sum_over_In _ (fun k => cnt (contents k L) id)).
  apply in_all_conts; auto.
Qed.

Lemma clear_pile_run : forall r f, inv f -> exists f', clear_pile r f = Ok f' /\ inv f' /\
  f_lay f' = set_pile r [] (f_lay f) /\ f_next f' = f_next f.
Proof.
  intros r f [[S N] B Cc D]. unfold clear_pile.
  destruct (destruct_all_run (get_pile r (f_lay f)) f) as [f1 E].
  - apply nonull_pile; auto.
  - intros id. rewrite <- B. apply (cnt_le_cntL (CPile r)); simpl; auto.
  - rewrite E. cbn [obind]. apply destruct_all_Ok in E. destruct E as [E1 [E2 [E3 [E4 E5]]]].
    eexists. split; [reflexivity|]. rewrite E1. split; [|split; auto]. split; simpl; auto.
    + split; [apply shape_set_pile; auto|]. apply nonull_set_pile; auto. intros X; exact X.
    + intros id. pose proof (cntL_set_pile r [] (f_lay f) id S) as H. rewrite cnt_nil in H.
      specialize (E3 id). specialize (B id). lia.
    + intros id X. rewrite E2. auto.
Qed.

Lemma clear_zone_run : forall r f, inv f -> valid_z r -> exists f', clear_zone r f = Ok f' /\ inv f' /\
  f_lay f' = set_zone r zone0 (f_lay f) /\ f_next f' = f_next f.
Proof.
  intros r f [[S N] B Cc D] V. unfold clear_zone, read_zone.
  destruct (shape_get_zone _ _ S V) as [[zc zm] G]. rewrite G. cbn [or_ub obind z_card z_mats].
  assert (Hz : forall id, (zcnt (mkZone zc zm) id <= hcnt (f_heap f) id)%nat).
  { intros id. rewrite <- B. pose proof (cntL_set_zone r zone0 _ (f_lay f) id S G). unfold zcnt in *. simpl in *. rewrite cnt_nil in *. lia. }
  assert (Am : all_some zm) by (apply (nonull_zone r (mkZone zc zm) (f_lay f)); auto).
  assert (exists f1, (match zc with Some id => destruct_card id f | None => Ok f end) = Ok f1 /\
    f_lay f1 = f_lay f /\ f_next f1 = f_next f /\
    (forall id, hcnt (f_heap f1) id + cnt (card_list zc) id = hcnt (f_heap f) id)%nat /\
    NoDup (map fst (f_heap f1)) /\ (forall id, In id (map fst (f_heap f1)) -> In id (map fst (f_heap f)))) as [f1 [E1 [F1 [F2 [F3 [F4 F5]]]]]].
  { destruct zc as [c|].
    - destruct (heap_remove_In c (f_heap f)) as [h Hr].
      { apply (count_occ_In N.eq_dec). fold (hcnt (f_heap f) c). specialize (Hz c).
        unfold zcnt in Hz. simpl card_list in Hz. simpl z_card in Hz. unfold card_list in Hz. rewrite cnt_single in Hz. lia. }
      unfold destruct_card. rewrite Hr. eexists. split; [reflexivity|]. simpl. repeat split; auto.
      + intros id. unfold card_list. apply hcnt_remove; auto.
      + eapply nodup_remove; eauto.
      + intros id X. eapply in_remove; eauto.
    - exists f. repeat split; auto. }
  rewrite E1. cbn [obind].
  destruct (destruct_all_run zm f1) as [f2 E2]; auto.
  { intros id. specialize (Hz id). specialize (F3 id). unfold zcnt in Hz. simpl in Hz. lia. }
  rewrite E2. cbn [obind]. apply destruct_all_Ok in E2. destruct E2 as [G1 [G2 [G3 [G4 G5]]]].
  eexists. split; [reflexivity|]. rewrite G1, F1. simpl. split; [|split; congruence].
  split; simpl; auto.
  - split; [apply shape_set_zone; auto|]. apply nonull_set_zone; auto; try congruence. intros X; exact X.
  - intros id. pose proof (cntL_set_zone r zone0 _ (f_lay f) id S G) as H.
    unfold zcnt in H. simpl in H. rewrite cnt_nil in H. specialize (G3 id). specialize (F3 id). specialize (B id). lia.
  - intros id X. rewrite G2, F2. auto.
Qed.

Lemma ofold_run_pile : forall l f, inv f -> exists f', ofold (@clear_pile C) l f = Ok f' /\ inv f' /\
  (forall r, In r l -> get_pile r (f_lay f') = []) /\
  (forall r, get_pile r (f_lay f) = [] -> get_pile r (f_lay f') = []) /\
  (forall r, get_zone r (f_lay f') = get_zone r (f_lay f)) /\ f_next f' = f_next f.
Proof.
  induction l as [|r l IH]; intros f I; simpl.
  - exists f. split; [auto|]. split; [auto|]. repeat split; auto. tauto.
  - destruct (clear_pile_run r f I) as [f1 [E1 [I1 [L1 N1]]]]. rewrite E1. cbn [obind].
    destruct (IH f1 I1) as [f2 [E2 [I2 [A [B [Cc D]]]]]]. exists f2. split; [auto|]. split; [auto|]. repeat split; auto.
    + intros r' [<-|X]; auto. apply B. rewrite L1. apply get_set_pile_same.
    + intros r' X. apply B. rewrite L1. destruct (pref_eq_dec r r') as [<-|Ne].
      * apply get_set_pile_same.
      * rewrite get_set_pile_other; auto.
    + intros r'. rewrite Cc, L1. apply get_zone_set_pile.
    + congruence.
Qed.

Lemma ofold_run_zone : forall l f, inv f -> (forall r, In r l -> valid_z r) ->
  exists f', ofold (@clear_zone C) l f = Ok f' /\ inv f' /\
  (forall r, In r l -> get_zone r (f_lay f') = Some zone0) /\
  (forall r, get_zone r (f_lay f) = Some zone0 -> get_zone r (f_lay f') = Some zone0) /\
  (forall r, get_pile r (f_lay f') = get_pile r (f_lay f)) /\ f_next f' = f_next f.
Proof.
  induction l as [|r l IH]; intros f I V; simpl.
  - exists f. split; [auto|]. split; [auto|]. repeat split; auto. tauto.
  - assert (Vr : valid_z r) by (apply V; left; auto).
    destruct (clear_zone_run r f I Vr) as [f1 [E1 [I1 [L1 N1]]]]. rewrite E1. cbn [obind].
    destruct (shape_get_zone _ _ (proj1 (inv_lay _ I)) Vr) as [z G].
    destruct (IH f1 I1) as [f2 [E2 [I2 [A [B [Cc D]]]]]]; [intros; apply V; right; auto|].
    exists f2. split; [auto|]. split; [auto|]. repeat split; auto.
    + intros r' [<-|X]; auto. apply B. rewrite L1. apply get_set_zone_same. congruence.
    + intros r' X. apply B. rewrite L1. destruct (zref_eq_dec r r') as [<-|Ne].
      * apply get_set_zone_same. congruence.
      * rewrite get_set_zone_other; auto.
    + intros r'. rewrite Cc, L1. apply get_pile_set_zone.
    + congruence.
Qed.

(** The layout with nothing in it. *)
Lemma layout0_zone : forall r, valid_z r -> get_zone r layout0 = Some zone0.
Proof.
  intros [[[] []] i] V; simpl in V; do 8 (destruct i; [reflexivity|try lia]).
Qed.

Lemma clear_run : forall f, inv f -> clear f = Ok (mkFrame (f_next f) [] layout0).
Proof.
  intros f I. unfold clear.
  destruct (ofold_run_pile all_prefs f I) as [f1 [E1 [I1 [A1 [B1 [C1 D1]]]]]]. rewrite E1. cbn [obind].
  destruct (ofold_run_zone all_zrefs f1 I1) as [f2 [E2 [I2 [A2 [B2 [C2 D2]]]]]].
  { intros r X. apply in_all_zrefs; auto. }
  rewrite E2. f_equal. destruct f2 as [n2 h2 L2]. simpl in *.
  assert (L2 = layout0).
  { apply contents_ext; [apply I2|apply shape0|]. intros k V.
    assert (E : contents k layout0 = []).
    { destruct k as [[[] []]|r|r]; try reflexivity; simpl; rewrite (layout0_zone r V); reflexivity. }
    rewrite E. destruct k as [r|r|r]; simpl.
    - rewrite C2. apply A1, in_all_prefs.
    - rewrite A2 by (apply in_all_zrefs; auto). reflexivity.
    - rewrite A2 by (apply in_all_zrefs; auto). reflexivity. }
  subst L2. assert (h2 = []).
  { destruct h2 as [|[x v] h2]; auto. exfalso. pose proof (inv_cnt _ I2 x) as X. simpl in X.
    rewrite hcnt_cons, cnt_single in X. assert (Z : cntL layout0 x = 0%nat) by (vm_compute; reflexivity). lia. }
  subst. f_equal. congruence.
Qed.

Lemma inv_clear : forall f f', inv f -> clear f = Ok f' -> inv f'.
Proof.
  intros f f' I H. rewrite (clear_run f I) in H. injection H as <-.
  split; simpl.
  - exact lay_ok0.
  - intros id. vm_compute. reflexivity.
  - constructor.
  - tauto.
Qed.

(** ** Every operation *)
Lemma inv_step : forall o f f', inv f -> fstep c0 o f = Ok f' -> inv f'.
Proof.
  intros o f f' I H. destruct o; simpl in H.
  - inv_ok. subst. eapply inv_add; eauto.
  - eapply inv_remove; eauto.
  - unfold f_card_move in H. inv_ok. subst.
    match goal with E : (let! _ := _ in _) = Ok _ |- _ => idtac | _ => idtac end.
    match goal with E : card_move _ _ _ = Ok _ |- _ => apply lay_ok_move in E; [destruct E as [K E]|apply I] end.
    apply inv_with_lay; auto.
  - unfold lift in H. inv_ok.
    match goal with E : card_swap _ _ _ = Ok _ |- _ => apply lay_ok_swap in E; [destruct E as [K E]|apply I] end.
    apply inv_with_lay; auto.
  - unfold lift in H. inv_ok.
    match goal with E : card_shuffle _ _ _ = Ok _ |- _ => apply lay_ok_shuffle in E; [destruct E as [K E]|apply I] end.
    apply inv_with_lay; auto.
  - eapply inv_resize; eauto.
  - unfold lift in H. inv_ok.
    match goal with E : pile_splice _ _ _ _ _ = Ok _ |- _ => apply lay_ok_splice in E; [destruct E as [K E]|apply I] end.
    apply inv_with_lay; auto.
  - unfold lift in H. inv_ok.
    match goal with E : pile_swap _ _ _ = Ok _ |- _ => apply lay_ok_pile_swap in E; [destruct E as [K E]|apply I] end.
    apply inv_with_lay; auto.
  - eapply inv_clear; eauto.
Qed.

Lemma inv_run : forall ops f f', inv f -> frun c0 ops f = Ok f' -> inv f'.
Proof.
  intros ops f f' I H. unfold frun in H.
  eapply (ofold_inv inv); [|exact I|exact H]. intros. eapply inv_step; eauto.
Qed.

Lemma reachable_inv : forall f, reachable c0 f -> inv f.
Proof. intros f [ops H]. eapply inv_run; [apply inv0|exact H]. Qed.

End Inv.
