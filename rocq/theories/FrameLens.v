(** Lens laws for the layout and the container view. *)
From Verif Require Import Base BaseProofs Place PlaceProofs Frame FrameSpec.

Local Open Scope N_scope.

(** ** Piles *)
Lemma get_set_pile_same : forall r p L, get_pile r (set_pile r p L) = p.
Proof. intros [[] []] p []; reflexivity. Qed.

Lemma get_set_pile_other : forall r r' p L, r <> r' ->
  get_pile r' (set_pile r p L) = get_pile r' L.
Proof. intros [[] []] [[] []] p [] H; try reflexivity; congruence. Qed.

Lemma set_pile_id : forall r L, set_pile r (get_pile r L) L = L.
Proof. intros [[] []] [[] [] [] [] [] []]; reflexivity. Qed.

Lemma set_set_pile : forall r p q L, set_pile r p (set_pile r q L) = set_pile r p L.
Proof. intros [[] []] p q []; reflexivity. Qed.

Lemma set_pile_comm : forall r r' p q L, r <> r' ->
  set_pile r p (set_pile r' q L) = set_pile r' q (set_pile r p L).
Proof. intros [[] []] [[] []] p q [] H; try reflexivity; congruence. Qed.

(** ** Zones *)
Lemma get_zone_set_pile : forall r z p L, get_zone z (set_pile r p L) = get_zone z L.
Proof. intros [[] []] [[c z] i] p []; reflexivity. Qed.

Lemma get_pile_set_zone : forall r z v L, get_pile r (set_zone z v L) = get_pile r L.
Proof. intros [[] []] [[c z] i] v []; reflexivity. Qed.

Lemma get_set_zone_same : forall r v L, get_zone r L <> None ->
  get_zone r (set_zone r v L) = Some v.
Proof.
  intros [[c z] i] v [? ? ? ? ? [s0 s1]] H. unfold get_zone, set_zone in *. simpl in *.
  destruct c, s0, s1, z; simpl in *; apply upd_same, nth_error_Some, H.
Qed.

Lemma get_set_zone_other : forall r r' v L, r <> r' ->
  get_zone r' (set_zone r v L) = get_zone r' L.
Proof.
  intros [[c z] i] [[c' z'] i'] v [? ? ? ? ? [s0 s1]] H. unfold get_zone, set_zone. simpl.
  destruct c, c', s0, s1, z, z'; simpl; try reflexivity; apply upd_other; congruence.
Qed.

Lemma get_zone_none_set : forall r r' v L, get_zone r' L = None ->
  get_zone r' (set_zone r v L) = None.
Proof.
  intros r r' v L H. destruct (zref_eq_dec r r') as [<-|E].
  - destruct r as [[c z] i], L as [? ? ? ? ? [s0 s1]]. unfold get_zone, set_zone in *. simpl in *.
    destruct c, s0, s1, z; simpl in *; rewrite nth_error_None in *; rewrite upd_length; auto.
  - rewrite get_set_zone_other; auto.
Qed.

Lemma set_zone_id : forall r v L, get_zone r L = Some v -> set_zone r v L = L.
Proof.
  intros [[c z] i] v [? ? ? ? ? [s0 s1]] H. unfold get_zone, set_zone in *. simpl in *.
  destruct c, s0, s1, z; simpl in *; rewrite (upd_id _ _ H); reflexivity.
Qed.

Lemma set_set_zone : forall r v w L, set_zone r v (set_zone r w L) = set_zone r v L.
Proof.
  intros [[c z] i] v w [? ? ? ? ? [s0 s1]]. unfold set_zone. simpl.
  destruct c, s0, s1, z; simpl; rewrite upd_upd; reflexivity.
Qed.

Lemma set_zone_comm : forall r r' v w L, r <> r' ->
  set_zone r v (set_zone r' w L) = set_zone r' w (set_zone r v L).
Proof.
  intros [[c z] i] [[c' z'] i'] v w [? ? ? ? ? [s0 s1]] H. unfold set_zone. simpl.
  destruct c, c', s0, s1, z, z'; simpl; try reflexivity; rewrite upd_comm by congruence; reflexivity.
Qed.

Lemma set_pile_zone_comm : forall r z p v L,
  set_pile r p (set_zone z v L) = set_zone z v (set_pile r p L).
Proof. intros [[] []] [[c z] i] p v []; reflexivity. Qed.

(** ** Shape: the arrays have their declared lengths *)
Definition shape (L : layout) : Prop :=
  forall c z, length (get_zones z (sel c (l_field L))) = zlen z.

Definition valid_z (r : zref) : Prop := let '(c, z, i) := r in (i < zlen z)%nat.
Definition valid_cont (k : cont) : Prop :=
  match k with CPile _ => True | CCard r => valid_z r | CMats r => valid_z r end.

Lemma shape0 : shape layout0.
Proof. intros [] []; reflexivity. Qed.

Lemma shape_get_zone : forall L r, shape L -> valid_z r -> exists z, get_zone r L = Some z.
Proof.
  intros L [[c z] i] H V. simpl in *. destruct (nth_error _ i) eqn:E; eauto.
  apply nth_error_None in E. rewrite H in E. lia.
Qed.

Lemma get_zone_valid : forall L r z, shape L -> get_zone r L = Some z -> valid_z r.
Proof.
  intros L [[c zl] i] z H G. simpl in *. rewrite <- (H c zl). apply nth_error_Some. congruence.
Qed.

Lemma shape_set_pile : forall r p L, shape L -> shape (set_pile r p L).
Proof. intros [[] []] p [] H; exact H. Qed.

Lemma shape_set_zone : forall r v L, shape L -> shape (set_zone r v L).
Proof.
  intros [[c z] i] v [? ? ? ? ? [s0 s1]] H c' z'. specialize (H c' z').
  unfold set_zone. simpl in *.
  destruct c, c', s0, s1, z, z'; simpl in *; rewrite ?upd_length; auto.
Qed.

(** Two layouts of the right shape with the same piles and zones are equal. *)
Lemma lay_ext : forall L1 L2,
  (forall r, get_pile r L1 = get_pile r L2) ->
  (forall r, get_zone r L1 = get_zone r L2) -> L1 = L2.
Proof.
  intros [[a0 a1] [b0 b1] [c0 c1] [d0 d1] [e0 e1] [s0 s1]]
         [[a0' a1'] [b0' b1'] [c0' c1'] [d0' d1'] [e0' e1'] [s0' s1']] HP HZ.
  assert (P := fun c l => HP (c, l)). clear HP.
  pose proof (P false LDeck). pose proof (P true LDeck).
  pose proof (P false LHand). pose proof (P true LHand).
  pose proof (P false LGrave). pose proof (P true LGrave).
  pose proof (P false LBan). pose proof (P true LBan).
  pose proof (P false LExtra). pose proof (P true LExtra).
  unfold get_pile in *. simpl in *. subst.
  assert (Z : forall c z, get_zones z (sel c (s0, s1)) = get_zones z (sel c (s0', s1'))).
  { intros c z. apply nth_error_ext. intros i. exact (HZ (c, z, i)). }
  clear HZ. f_equal. f_equal.
  - destruct s0, s0'. pose proof (Z false ZMonster). pose proof (Z false ZSpell).
    pose proof (Z false ZField). pose proof (Z false ZPend). pose proof (Z false ZSkill).
    simpl in *. congruence.
  - destruct s1, s1'. pose proof (Z true ZMonster). pose proof (Z true ZSpell).
    pose proof (Z true ZField). pose proof (Z true ZPend). pose proof (Z true ZSkill).
    simpl in *. congruence.
Qed.

(** ** The container view *)

(** Replace what a container holds. *)
Definition put (k : cont) (l : list ptr) (L : layout) : layout :=
  match k with
  | CPile r => set_pile r l L
  | CCard r => match get_zone r L with
               | Some z => set_zone r (mkZone (hd None l) (z_mats z)) L
               | None => L
               end
  | CMats r => match get_zone r L with
               | Some z => set_zone r (mkZone (z_card z) l) L
               | None => L
               end
  end.

(** Lists a container can hold. *)
Definition fits (k : cont) (l : list ptr) : Prop :=
  match k with
  | CCard _ => l = [] \/ exists c, l = [Some c]
  | _ => True
  end.

Lemma contents_fits : forall k L, fits k (contents k L).
Proof.
  intros [r|r|r] L; simpl; auto. destruct (get_zone r L); auto.
  destruct (z_card z); eauto.
Qed.

Lemma shape_put : forall k l L, shape L -> shape (put k l L).
Proof.
  intros [r|r|r] l L H; simpl; auto using shape_set_pile.
  - destruct (get_zone r L); auto using shape_set_zone.
  - destruct (get_zone r L); auto using shape_set_zone.
Qed.

Lemma contents_put_same : forall k l L, shape L -> valid_cont k -> fits k l ->
  contents k (put k l L) = l.
Proof.
  intros [r|r|r] l L S V F; simpl in *.
  - apply get_set_pile_same.
  - destruct (shape_get_zone L _ S V) as [z G]. rewrite G.
    rewrite get_set_zone_same by congruence. simpl.
    destruct F as [->|[c ->]]; reflexivity.
  - destruct (shape_get_zone L _ S V) as [z G]. rewrite G.
    rewrite get_set_zone_same by congruence. reflexivity.
Qed.

Lemma contents_put_other : forall k k' l L, k <> k' ->
  contents k' (put k l L) = contents k' L.
Proof.
  intros [r|r|r] [r'|r'|r'] l L H; simpl.
  - rewrite get_set_pile_other; congruence.
  - rewrite get_zone_set_pile; reflexivity.
  - rewrite get_zone_set_pile; reflexivity.
  - destruct (get_zone r L); auto. apply get_pile_set_zone.
  - destruct (get_zone r L); auto. rewrite get_set_zone_other by congruence; reflexivity.
  - destruct (get_zone r L) eqn:G; auto. destruct (zref_eq_dec r r') as [<-|E].
    + rewrite get_set_zone_same by congruence. rewrite G. reflexivity.
    + rewrite get_set_zone_other by congruence; reflexivity.
  - destruct (get_zone r L); auto. apply get_pile_set_zone.
  - destruct (get_zone r L) eqn:G; auto. destruct (zref_eq_dec r r') as [<-|E].
    + rewrite get_set_zone_same by congruence. rewrite G. reflexivity.
    + rewrite get_set_zone_other by congruence; reflexivity.
  - destruct (get_zone r L); auto. rewrite get_set_zone_other by congruence; reflexivity.
Qed.

Lemma contents_put : forall k l L x, shape L -> valid_cont k -> fits k l ->
  contents x (put k l L) = view_set k l (view L) x.
Proof.
  intros k l L x S V F. unfold view_set, view. destruct (cont_eq_dec x k) as [->|N].
  - apply contents_put_same; auto.
  - apply contents_put_other; auto.
Qed.

Lemma contents_invalid : forall k L, shape L -> ~ valid_cont k -> contents k L = [].
Proof.
  intros [r|r|r] L S V; simpl in *.
  - tauto.
  - destruct (get_zone r L) eqn:G; auto. apply get_zone_valid in G; tauto.
  - destruct (get_zone r L) eqn:G; auto. apply get_zone_valid in G; tauto.
Qed.

Lemma valid_cont_dec : forall k, {valid_cont k} + {~ valid_cont k}.
Proof.
  intros [r|[[c z] i]|[[c z] i]]; simpl.
  - left; exact I.
  - apply lt_dec.
  - apply lt_dec.
Qed.

(** A layout of the right shape is determined by its containers. *)
Lemma contents_ext : forall L1 L2, shape L1 -> shape L2 ->
  (forall k, valid_cont k -> contents k L1 = contents k L2) -> L1 = L2.
Proof.
  intros L1 L2 S1 S2 H. apply lay_ext.
  - intros r. exact (H (CPile r) I).
  - intros r. destruct (valid_cont_dec (CCard r)) as [V|V].
    + simpl in V. pose proof (H (CCard r) V) as HC. pose proof (H (CMats r) V) as HM.
      simpl in HC, HM.
      destruct (shape_get_zone L1 _ S1 V) as [[c1 m1] G1], (shape_get_zone L2 _ S2 V) as [[c2 m2] G2].
      rewrite G1, G2 in *. simpl in *. subst. destruct c1, c2; congruence.
    + simpl in V.
      destruct (get_zone r L1) eqn:G1.
      { apply get_zone_valid in G1; tauto. }
      destruct (get_zone r L2) eqn:G2; auto.
      apply get_zone_valid in G2; tauto.
Qed.

Lemma put_contents : forall k L, put k (contents k L) L = L.
Proof.
  intros [r|r|r] L; simpl.
  - apply set_pile_id.
  - destruct (get_zone r L) as [[[c|] m]|] eqn:G; simpl; auto using set_zone_id.
  - destruct (get_zone r L) as [[c m]|] eqn:G; simpl; auto using set_zone_id.
Qed.

Lemma put_put : forall k l l' L, put k l (put k l' L) = put k l L.
Proof.
  intros [r|r|r] l l' L; simpl.
  - apply set_set_pile.
  - destruct (get_zone r L) eqn:G; [|rewrite G; auto].
    rewrite get_set_zone_same by congruence. rewrite set_set_zone. reflexivity.
  - destruct (get_zone r L) eqn:G; [|rewrite G; auto].
    rewrite get_set_zone_same by congruence. rewrite set_set_zone. reflexivity.
Qed.

Lemma put_comm : forall k k' l l' L, shape L -> valid_cont k -> valid_cont k' ->
  fits k l -> fits k' l' -> k <> k' ->
  put k l (put k' l' L) = put k' l' (put k l L).
Proof.
  intros k k' l l' L S V V' F F' N. apply contents_ext.
  - auto using shape_put.
  - auto using shape_put.
  - intros x Vx. destruct (cont_eq_dec x k) as [->|E1].
    + rewrite contents_put_same; auto using shape_put.
      rewrite contents_put_other by auto. rewrite contents_put_same; auto.
    + rewrite contents_put_other by auto. destruct (cont_eq_dec x k') as [->|E2].
      * rewrite !contents_put_same; auto using shape_put.
      * rewrite !contents_put_other by auto. reflexivity.
Qed.

(** ** Enumerating the containers *)
Definition all_conts : list cont :=
  map CPile all_prefs ++ flat_map (fun r => [CCard r; CMats r]) all_zrefs.

Lemma in_all_prefs : forall r, In r all_prefs.
Proof. intros [[] []]; simpl; tauto. Qed.

Lemma in_all_zrefs : forall r, In r all_zrefs <-> valid_z r.
Proof.
  intros [[c z] i]. unfold all_zrefs. rewrite in_flat_map. split.
  - intros [c' [_ H]]. apply in_flat_map in H. destruct H as [z' [_ H]].
    apply in_map_iff in H. destruct H as [i' [E H]]. apply in_seq in H.
    injection E as -> -> ->. simpl. lia.
  - intros V. exists c. split; [destruct c; simpl; auto|].
    apply in_flat_map. exists z. split; [destruct z; simpl; tauto|].
    apply in_map. apply in_seq. simpl in V. lia.
Qed.

Lemma in_all_conts : forall k, In k all_conts <-> valid_cont k.
Proof.
  intros k. unfold all_conts. rewrite in_app_iff, in_map_iff, in_flat_map. split.
  - intros [[r [<- _]]|[r [H [<-|[<-|[]]]]]]; simpl; auto; apply in_all_zrefs; auto.
  - destruct k as [r|r|r]; simpl; intros V.
    + left. exists r. split; auto. apply in_all_prefs.
    + right. exists r. split; [apply in_all_zrefs; auto|auto].
    + right. exists r. split; [apply in_all_zrefs; auto|auto].
Qed.

Fixpoint nodupb (l : list cont) : bool :=
  match l with
  | [] => true
  | x :: l' => negb (existsb (fun y => if cont_eq_dec x y then true else false) l') && nodupb l'
  end.

Lemma nodupb_spec : forall l, nodupb l = true -> NoDup l.
Proof.
  induction l as [|x l IH]; simpl; intros H; constructor.
  - apply andb_true_iff in H. destruct H as [H _]. intros I.
    apply negb_true_iff in H. assert (E : existsb (fun y => if cont_eq_dec x y then true else false) l = true).
    { apply existsb_exists. exists x. split; auto. destruct (cont_eq_dec x x); auto. }
    congruence.
  - apply IH. apply andb_true_iff in H. tauto.
Qed.

Lemma nodup_all_conts : NoDup all_conts.
Proof. apply nodupb_spec. vm_compute. reflexivity. Qed.

(** ** Counting occurrences *)
Definition cnt (l : list ptr) (id : cid) : nat := count_occ ptr_eq_dec l (Some id).

Fixpoint sum_over {A} (f : A -> nat) (l : list A) : nat :=
  match l with [] => 0%nat | x :: l' => (f x + sum_over f l')%nat end.

Lemma sum_over_ext : forall A (f g : A -> nat) l,
  (forall x, In x l -> f x = g x) -> sum_over f l = sum_over g l.
Proof.
  induction l as [|x l IH]; simpl; intros H; [reflexivity|].
  rewrite (H x), IH by auto. reflexivity.
Qed.

Lemma sum_over_change : forall A (f g : A -> nat) l k, NoDup l -> In k l ->
  (forall x, x <> k -> f x = g x) -> (sum_over f l + g k = sum_over g l + f k)%nat.
Proof.
  induction l as [|x l IH]; simpl; intros k ND I H; [tauto|].
  inversion ND; subst. destruct I as [->|I].
  - rewrite (sum_over_ext _ f g l); [lia|]. intros y Iy. apply H. intros ->. tauto.
  - assert (x <> k) by (intros ->; tauto).
    specialize (IH k H3 I H). rewrite (H x) by auto. lia.
Qed.

Lemma sum_over_In : forall A (f : A -> nat) l k, In k l -> (f k <= sum_over f l)%nat.
Proof.
  induction l as [|x l IH]; simpl; intros k H; [tauto|].
  destruct H as [->|I]; [lia|]. specialize (IH k I). lia.
Qed.

Lemma sum_over_pos : forall A (f : A -> nat) l, (0 < sum_over f l)%nat ->
  exists k, In k l /\ (0 < f k)%nat.
Proof.
  induction l as [|x l IH]; simpl; intros H; [lia|].
  destruct (f x) eqn:E.
  - destruct IH as [k [I P]]; [lia|]. eauto.
  - exists x. split; auto. lia.
Qed.

Lemma sum_over_two : forall A (f : A -> nat) l a b, NoDup l -> In a l -> In b l -> a <> b ->
  (f a + f b <= sum_over f l)%nat.
Proof.
  induction l as [|x l IH]; simpl; intros a b ND Ha Hb N; [tauto|].
  inversion ND; subst.
  destruct Ha as [->|Ia], Hb as [->|Ib]; try tauto.
  - pose proof (sum_over_In _ f l b Ib). lia.
  - pose proof (sum_over_In _ f l a Ia). lia.
  - specialize (IH a b H2 Ia Ib N). lia.
Qed.

(** How often a card occurs in the whole layout. *)
Definition cntL (L : layout) (id : cid) : nat :=
  sum_over (fun k => cnt (contents k L) id) all_conts.

Lemma cntL_put : forall k l L id, shape L -> valid_cont k -> fits k l ->
  (cntL (put k l L) id + cnt (contents k L) id = cntL L id + cnt l id)%nat.
Proof.
  intros k l L id S V F. unfold cntL.
  pose proof (sum_over_change _ (fun x => cnt (contents x (put k l L)) id)
    (fun x => cnt (contents x L) id) all_conts k nodup_all_conts
    (proj2 (in_all_conts k) V)) as H.
  simpl in H. rewrite contents_put_same in H by auto. apply H.
  intros x N. rewrite contents_put_other by auto. reflexivity.
Qed.

Lemma cnt_app : forall a b id, cnt (a ++ b) id = (cnt a id + cnt b id)%nat.
Proof. intros. apply count_occ_app. Qed.

Lemma cnt_nil : forall id, cnt [] id = 0%nat.
Proof. reflexivity. Qed.

Lemma cnt_cons : forall p l id, cnt (p :: l) id = (cnt [p] id + cnt l id)%nat.
Proof. intros. change (p :: l) with ([p] ++ l). apply cnt_app. Qed.

Lemma cnt_rev : forall l id, cnt (rev l) id = cnt l id.
Proof.
  induction l as [|x l IH]; intros id; simpl; auto.
  rewrite cnt_app, IH, (cnt_cons x l). lia.
Qed.

Lemma cnt_In : forall l id, (0 < cnt l id)%nat <-> In (Some id) l.
Proof. intros. unfold cnt. rewrite (count_occ_In ptr_eq_dec). lia. Qed.

Lemma cnt_split : forall n l id, cnt l id = (cnt (firstn n l) id + cnt (skipn n l) id)%nat.
Proof. intros. rewrite <- cnt_app, firstn_skipn. reflexivity. Qed.

Lemma cnt_insert : forall n p l id, cnt (insert_nth n p l) id = (cnt l id + cnt [p] id)%nat.
Proof.
  intros. unfold insert_nth. rewrite cnt_app, cnt_cons, (cnt_split n l). lia.
Qed.

Lemma cnt_remove : forall n p l id, nth_error l n = Some p ->
  (cnt (remove_nth n l) id + cnt [p] id = cnt l id)%nat.
Proof.
  intros n p l id H. rewrite <- (insert_remove _ _ H) at 2. rewrite cnt_insert. lia.
Qed.

Lemma cnt_single : forall id, cnt [Some id] id = 1%nat.
Proof.
  intros. unfold cnt. rewrite count_occ_cons_eq by reflexivity. reflexivity.
Qed.

Lemma cnt_single_other : forall p id, p <> Some id -> cnt [p] id = 0%nat.
Proof. intros. unfold cnt. rewrite count_occ_cons_neq by auto. reflexivity. Qed.

(** Two different indices holding the same card count twice. *)
Lemma cnt_nth_twice : forall l i j id, i <> j ->
  nth_error l i = Some (Some id) -> nth_error l j = Some (Some id) -> (2 <= cnt l id)%nat.
Proof.
  induction l as [|x l IH]; intros i j id N Hi Hj.
  - destruct i; discriminate.
  - rewrite cnt_cons. destruct i, j; simpl in Hi, Hj; try congruence.
    + injection Hi as ->. apply nth_error_In in Hj. apply cnt_In in Hj.
      rewrite cnt_single. lia.
    + injection Hj as ->. apply nth_error_In in Hi. apply cnt_In in Hi.
      rewrite cnt_single. lia.
    + assert (2 <= cnt l id)%nat; [|lia]. apply (IH i j id); auto.
Qed.
