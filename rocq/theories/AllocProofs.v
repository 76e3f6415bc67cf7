(** A frame does the same whatever addresses its cards get. *)
From Verif Require Import Base BaseProofs Place Frame FrameSpec FrameLens FrameOps FramePiles FrameInv Msg Event EventProofs Query
  Encode EncodeState UReplaySpec LateSpec Rename Alloc.

Set Implicit Arguments.
Local Open Scope N_scope.

Definition one_one (rho : N -> N) : Prop := forall i j, rho i = rho j -> i = j.

(** ** Frames whose cards have the addresses [rho] says *)
Section Rho.
Variable rho : N -> N.
Hypothesis inj : one_one rho.
Variable C : Type.

Definition mf (f : frame C) : frame C := mkFrame (f_next f) (rh rho (f_heap f)) (rL rho (f_lay f)).
Definition gm (f g : frame C) : Prop := g = mf f.

Lemma lift_m : forall op, (forall L, orel (gL rho) (op L) (op (rL rho L))) ->
  forall f : frame C, orel gm (lift op f) (lift op (mf f)).
Proof.
  intros op H f. unfold lift. apply orel_bind with (R := gL rho); [apply H|]. intros L ? ->. reflexivity.
Qed.
Lemma destruct_m : forall i f, orel gm (destruct_card i f) (destruct_card (rho i) (mf f)).
Proof.
  intros i f. unfold destruct_card. cbn [mf f_heap f_next f_lay].
  rewrite (@heap_remove_r rho inj C i (f_heap f)). destruct (heap_remove i (f_heap f)); reflexivity.
Qed.
Lemma card_remove_m : forall p f, orel gm (card_remove p f) (card_remove p (mf f)).
Proof.
  intros p f. unfold card_remove. cbn [mf f_lay]. rewrite has_card_r. do 2 (apply orel_bind_same; intros ?).
  apply orel_bind with (R := giL rho); [apply card_erase_r|]. intros [c L] ? ->. cbn [fst snd].
  apply (destruct_m c (with_lay f L)).
Qed.
Lemma f_move_m : forall a b f,
  orel (fun x y => gm (snd x) (snd y)) (f_card_move a b f) (f_card_move a b (mf f)).
Proof.
  intros a b f. unfold f_card_move. cbn [mf f_lay f_heap].
  apply orel_bind with (R := giL rho); [apply card_move_r|]. intros [c L] ? ->. cbn [fst snd].
  rewrite (@heap_get_r rho inj C c (f_heap f)). apply orel_bind_same. intros _. reflexivity.
Qed.
Lemma shrink_m : forall n r f, orel gm (shrink_pile n r f) (shrink_pile n r (mf f)).
Proof.
  induction n as [|n IH]; intros r f; cbn [shrink_pile]; [reflexivity|].
  cbn [mf f_lay]. rewrite get_pile_r, length_r. apply orel_bind with (R := gp rho).
  { rewrite nth_r. destruct (nth_error _ _); reflexivity. }
  intros c ? ->. apply orel_bind with (R := gi rho); [apply deref_r|]. intros i ? ->.
  apply orel_bind with (R := gm); [apply destruct_m|]. intros f1 ? ->.
  rewrite firstn_r. cbn [mf f_lay]. rewrite set_pile_r. apply (IH r (with_lay f1 _)).
Qed.
Lemma destruct_all_m : forall l f, orel gm (destruct_all l f) (destruct_all (rl rho l) (mf f)).
Proof.
  induction l as [|c l IH]; intros f; cbn [destruct_all]; [reflexivity|].
  change (rl rho (c :: l)) with (rp rho c :: rl rho l). cbn [destruct_all].
  apply orel_bind with (R := gi rho); [apply deref_r|]. intros i ? ->.
  apply orel_bind with (R := gm); [apply destruct_m|]. intros f1 ? ->. apply IH.
Qed.
Lemma clear_pile_m : forall r f, orel gm (clear_pile r f) (clear_pile r (mf f)).
Proof.
  intros r f. unfold clear_pile. cbn [mf f_lay]. rewrite get_pile_r.
  apply orel_bind with (R := gm); [apply destruct_all_m|]. intros f1 ? ->. cbn. unfold gm, mf, with_lay. cbn.
  f_equal. apply (set_pile_r rho r []).
Qed.
Lemma clear_zone_m : forall r f, orel gm (clear_zone r f) (clear_zone r (mf f)).
Proof.
  intros r f. unfold clear_zone. cbn [mf f_lay].
  apply orel_bind with (R := gz rho); [apply read_zone_r|]. intros z ? ->. cbn [rz z_card z_mats].
  apply orel_bind with (R := gm). { destruct (z_card z); [apply destruct_m|reflexivity]. }
  intros f1 ? ->. apply orel_bind with (R := gm); [apply destruct_all_m|]. intros f2 ? ->.
  cbn. unfold gm, mf, with_lay. cbn. f_equal. apply (set_zone_r rho r zone0).
Qed.
Lemma clear_m : forall f, orel gm (clear f) (clear (mf f)).
Proof.
  intros f. unfold clear. apply orel_bind with (R := gm).
  - apply orel_fold; [|reflexivity]. intros r x ? ->. apply clear_pile_m.
  - intros x ? ->. apply orel_fold; [|reflexivity]. intros r y ? ->. apply clear_zone_m.
Qed.
Lemma card_at_m : forall p (f : frame C), orel (gi rho) (card_at_place p f) (card_at_place p (mf f)).
Proof.
  intros p f. unfold card_at_place. cbn [mf f_lay f_heap]. rewrite has_card_r.
  do 3 (apply orel_bind_same; intros ?).
  apply orel_bind with (R := gp rho).
  - destruct (is_pile p); apply orel_bind_same; intros r.
    + rewrite get_pile_r. apply nth_ptr_r.
    + apply orel_bind with (R := gz rho); [apply read_zone_r|]. intros z ? ->.
      destruct (not_mat p); [reflexivity|]. apply nth_ptr_r.
  - intros c ? ->. apply orel_bind with (R := gi rho); [apply deref_r|]. intros i ? ->.
    unfold gi. rewrite (@heap_get_r rho inj C i (f_heap f)). apply orel_bind_same. reflexivity.
Qed.
Lemma mf_alike : forall f : frame C, alike f (mf f).
Proof.
  intros f k. cbn [mf f_lay]. rewrite contents_r. unfold rl. rewrite map_map. apply map_ext. intros [i|]; cbn; [|reflexivity].
  symmetry. apply (@heap_get_r rho inj C i (f_heap f)).
Qed.
End Rho.
Arguments mf rho {C} f.
Arguments gm rho {C} f g.

Lemma query_m : forall rho, one_one rho -> forall use q f, orel (fun x y => fst x = fst y /\ gm rho (snd x) (snd y))
  (parse_query use q f) (parse_query use q (mf rho f)).
Proof.
  intros rho inj use q f. unfold parse_query. cbn [mf f_lay f_heap f_next]. rewrite has_card_r.
  do 2 (apply orel_bind_same; intros ?).
  apply orel_bind with (R := gi rho); [apply (card_at_m inj (qr_place q) f)|]. intros i ? ->. unfold gi.
  rewrite (@heap_get_r rho inj card i (f_heap f)). apply orel_bind_same. intros c.
  destruct (parse_data use (qr_data q) c) as [c' hits]. cbn. split; [reflexivity|]. unfold gm, mf. cbn.
  now rewrite (@heap_set_r rho inj card i c' (f_heap f)).
Qed.

(** ** The addresses of the cards a frame has *)
Section Agree.
Variable C : Type.

Lemma held_live : forall (f : frame C) k id, inv C f -> valid_cont k -> In (Some id) (contents k (f_lay f)) ->
  In id (map fst (f_heap f)).
Proof.
  intros f k id I V H. pose proof (@cnt_le_cntL k (f_lay f) id (proj1 (inv_lay _ _ I)) V) as L.
  rewrite (inv_cnt _ _ I) in L. unfold hcnt in L. apply (count_occ_In N.eq_dec).
  assert (0 < cnt (contents k (f_lay f)) id)%nat by (apply (count_occ_In ptr_eq_dec), H). lia.
Qed.

Lemma rl_ext : forall r s l, (forall i, In (Some i) l -> r i = s i) -> rl r l = rl s l.
Proof. intros r s l H. apply map_ext_in. intros [i|] K; cbn; [|reflexivity]. f_equal. now apply H. Qed.

Lemma rL_ext : forall r s (f : frame C), inv C f -> (forall i, In i (map fst (f_heap f)) -> r i = s i) ->
  rL r (f_lay f) = rL s (f_lay f).
Proof.
  intros r s f I H.
  assert (P : forall x, rl r (get_pile x (f_lay f)) = rl s (get_pile x (f_lay f))).
  { intros x. apply rl_ext. intros i K. apply H. now apply (held_live (CPile x)). }
  assert (Z : forall c z, map (rz r) (get_zones z (sel c (l_field (f_lay f)))) =
                          map (rz s) (get_zones z (sel c (l_field (f_lay f))))).
  { intros c z. apply map_ext_in. intros zn K. apply In_nth_error in K as (n & K).
    assert (V : valid_z (c, z, n)).
    { cbn. rewrite <- (proj1 (inv_lay _ _ I) c z). apply nth_error_Some. congruence. }
    assert (G : get_zone (c, z, n) (f_lay f) = Some zn) by exact K.
    unfold rz. f_equal.
    - destruct (z_card zn) as [i|] eqn:E; [|reflexivity]. cbn. f_equal. apply H.
      apply (@held_live f (CCard (c, z, n)) i I V). cbn [contents]. rewrite G, E. now left.
    - apply rl_ext. intros i Q. apply H. apply (@held_live f (CMats (c, z, n)) i I V). cbn [contents]. now rewrite G. }
  unfold rL. f_equal.
  - unfold r2. f_equal; [apply (P (false, LDeck))|apply (P (true, LDeck))].
  - unfold r2. f_equal; [apply (P (false, LHand))|apply (P (true, LHand))].
  - unfold r2. f_equal; [apply (P (false, LGrave))|apply (P (true, LGrave))].
  - unfold r2. f_equal; [apply (P (false, LBan))|apply (P (true, LBan))].
  - unfold r2. f_equal; [apply (P (false, LExtra))|apply (P (true, LExtra))].
  - unfold r2. f_equal.
    + pose proof (Z false) as Z0. unfold rs. f_equal; [apply (Z0 ZMonster)|apply (Z0 ZSpell)|apply (Z0 ZField)|apply (Z0 ZPend)|apply (Z0 ZSkill)].
    + pose proof (Z true) as Z0. unfold rs. f_equal; [apply (Z0 ZMonster)|apply (Z0 ZSpell)|apply (Z0 ZField)|apply (Z0 ZPend)|apply (Z0 ZSkill)].
Qed.

Lemma rh_ext : forall r s (h : list (cid * C)), (forall i, In i (map fst h) -> r i = s i) -> rh r h = rh s h.
Proof. intros r s h H. apply map_ext_in. intros [i c] K. cbn. f_equal. apply H. apply (in_map fst _ _ K). Qed.

(** Give [n] the address [a], keep those of [live], move all others out of the way. *)
Definition extend (rho : N -> N) (live : list N) (n a : N) : N -> N :=
  fun i => if i =? n then a else if existsb (N.eqb i) live then rho i
           else i + 1 + a + fold_right N.max 0 (map rho live).

Lemma max_le : forall l x, In x l -> x <= fold_right N.max 0 l.
Proof. induction l as [|y l IH]; intros x []; cbn; [subst; lia|]. specialize (IH _ H). lia. Qed.

Lemma extend_one : forall rho live n a, one_one rho -> ~ In a (map rho live) -> one_one (extend rho live n a).
Proof.
  intros rho live n a J F i j. unfold extend.
  assert (M : forall k, existsb (N.eqb k) live = true -> In (rho k) (map rho live)).
  { intros k H. apply existsb_exists in H as (x & X & E). apply N.eqb_eq in E. subst x. now apply in_map. }
  destruct (N.eqb_spec i n) as [->|Ni], (N.eqb_spec j n) as [->|Nj]; intros H; try reflexivity.
  - destruct (existsb (N.eqb j) live) eqn:E; [|lia]. exfalso. apply F. rewrite H. now apply M.
  - destruct (existsb (N.eqb i) live) eqn:E; [|lia]. exfalso. apply F. rewrite <- H. now apply M.
  - destruct (existsb (N.eqb i) live) eqn:E, (existsb (N.eqb j) live) eqn:E'.
    + now apply J.
    + apply M, max_le in E. lia.
    + apply M, max_le in E'. lia.
    + lia.
Qed.
Lemma extend_new : forall rho live n a, extend rho live n a n = a.
Proof. intros. unfold extend. now rewrite N.eqb_refl. Qed.
Lemma extend_old : forall rho live n a i, In i live -> i <> n -> extend rho live n a i = rho i.
Proof.
  intros rho live n a i H N. unfold extend. destruct (N.eqb_spec i n); [contradiction|].
  replace (existsb (N.eqb i) live) with true; [reflexivity|]. symmetry. apply existsb_exists. exists i. now rewrite N.eqb_refl.
Qed.
End Agree.

(** ** Any allocator *)
Section Alloc.
Variable A : allocator.
Hypothesis sound : forall k l, ~ In (A k l) l.
Variable C : Type.
Variable c0 : C.

(** The frame of the model and the one with the allocator. *)
Definition moved (f g : frame C) : Prop := inv C f /\ exists rho, one_one rho /\ g = mf rho f.

Lemma keys_rh : forall rho (h : list (cid * C)), map fst (rh rho h) = map rho (map fst h).
Proof. intros. unfold rh. rewrite !map_map. reflexivity. Qed.

(** A new card: the same frame with one more address. *)
Lemma construct_s : forall f rho, inv C f -> one_one rho -> exists rho', one_one rho' /\
  rL rho' (f_lay f) = rL rho (f_lay f) /\
  a_construct A c0 (mf rho f) = (rho' (f_next f), mkFrame (f_next f + 1) (rh rho' ((f_next f, c0) :: f_heap f)) (rL rho (f_lay f))).
Proof.
  intros f rho I J. unfold a_construct. cbn [mf f_next f_heap f_lay]. rewrite keys_rh.
  set (a := A (f_next f) (map rho (map fst (f_heap f)))). set (live := map fst (f_heap f)).
  assert (O : forall i, In i live -> extend rho live (f_next f) a i = rho i).
  { intros i H. apply extend_old; [exact H|]. pose proof (inv_lt _ _ I i H). lia. }
  exists (extend rho live (f_next f) a). split; [|split].
  - apply extend_one; [exact J|]. apply sound.
  - now apply rL_ext.
  - rewrite extend_new. cbn [rh map fst snd]. rewrite extend_new. f_equal. f_equal. f_equal.
    symmetry. now apply rh_ext.
Qed.

Lemma card_add_s : forall p f g, moved f g ->
  orel (fun x y => moved (snd x) (snd y)) (card_add c0 p f) (a_card_add A c0 p g).
Proof.
  intros p f g (I & rho & J & ->). pose proof (fun c f' => @inv_add C c0 p f c f' I) as K.
  destruct (construct_s I J) as (r & Jr & E & Q). unfold a_card_add. rewrite Q. cbn [f_lay].
  unfold card_add in *. cbn [construct_card f_lay] in *. rewrite <- E.
  pose proof (@card_insert_r r p (f_next f) (f_lay f)) as X.
  destruct (card_insert p (f_next f) (f_lay f)) as [L| | |], (card_insert p (r (f_next f)) (rL r (f_lay f))) as [L'| | |];
    cbn in X |- *; try contradiction; auto.
  split; [eapply K; reflexivity|]. exists r. split; [exact Jr|]. rewrite X. reflexivity.
Qed.

Lemma grow_s : forall n r f g, moved f g -> moved (grow_pile c0 n r f) (a_grow A c0 n r g).
Proof.
  induction n as [|n IH]; intros r f g H; [exact H|]. destruct H as (I & rho & J & ->).
  destruct (construct_s I J) as (s & Js & E & Q). cbn [a_grow]. rewrite Q. cbn [f_lay].
  cbn [grow_pile construct_card f_lay]. apply IH. split; [apply (@inv_grow C c0 1 r f I)|].
  exists s. split; [exact Js|]. unfold with_lay, mf. cbn [f_next f_heap f_lay]. f_equal.
  rewrite <- E, get_pile_r, <- set_pile_r. f_equal. rewrite <- app_r. reflexivity.
Qed.

(** Operations that construct nothing. *)
Lemma same_s : forall (op : frame C -> outcome (frame C)) f g,
  (forall rho, one_one rho -> orel (gm rho) (op f) (op (mf rho f))) ->
  (forall f', inv C f -> op f = Ok f' -> inv C f') -> moved f g -> orel moved (op f) (op g).
Proof.
  intros op f g H K (I & rho & J & ->). specialize (H rho J).
  destruct (op f) as [f'| | |], (op (mf rho f)) as [g'| | |]; cbn in H |- *; auto.
  split; [now apply K|]. now exists rho.
Qed.

Lemma resize_s : forall p n f g, moved f g -> orel moved (pile_resize c0 p n f) (a_resize A c0 p n g).
Proof.
  intros p n f g H. unfold pile_resize, a_resize. do 2 (apply orel_bind_same; intros ?). cbv zeta.
  assert (E : lenN (get_pile a0 (f_lay g)) = lenN (get_pile a0 (f_lay f))).
  { destruct H as (_ & rho & _ & ->). cbn [mf f_lay]. now rewrite get_pile_r, len_r. }
  rewrite E. apply orel_bind with (R := moved).
  - destruct (_ <? n); [apply grow_s, H|]. destruct (n <? _); [|exact H].
    apply (@same_s (fun f => shrink_pile _ a0 f)); [| |exact H].
    + intros rho J. now apply shrink_m.
    + intros f' I. now apply inv_shrink.
  - intros f1 g1 (I & rho & J & ->). cbn [mf f_lay]. rewrite get_pile_r, verify_r. apply orel_bind_same. intros _.
    split; [exact I|]. now exists rho.
Qed.

(** ** Events *)
Definition sb (a b : pboard C) : Prop := exists g, moved (b_frame a) g /\ b = set_frame g a.

Lemma on_frame_s : forall op op' : frame C -> outcome (frame C), (forall f g, moved f g -> orel moved (op f) (op' g)) ->
  forall a b, sb a b -> orel sb (on_frame op a) (on_frame op' b).
Proof.
  intros op op' H a b (g & K & ->). unfold on_frame. apply orel_bind with (R := moved); [apply H, K|].
  intros x y Q. exists y. split; [exact Q|reflexivity].
Qed.
Lemma fold_s : forall {B} (op op' : B -> frame C -> outcome (frame C)), (forall x f g, moved f g -> orel moved (op x f) (op' x g)) ->
  forall l f g, moved f g -> orel moved (ofold op l f) (ofold op' l g).
Proof. intros B op op' H l f g K. apply orel_fold; auto. Qed.

Lemma add_s : forall p f g, moved f g -> orel moved (fo_add (plain_fo c0) p f) (fo_add (a_fo A c0) p g).
Proof.
  intros p f g H. cbn. apply orel_bind with (R := fun x y => moved (snd x) (snd y)); [now apply card_add_s|].
  intros [] []. cbn. auto.
Qed.
Lemma remove_s : forall p f g, moved f g -> orel moved (fo_remove (plain_fo c0) p f) (fo_remove (a_fo A c0) p g).
Proof.
  intros p f g. cbn. apply same_s.
  - intros rho J. now apply card_remove_m.
  - intros f' I. now apply inv_remove.
Qed.
Lemma move_s : forall a b f g, moved f g -> orel moved (fo_move (plain_fo c0) a b f) (fo_move (a_fo A c0) a b g).
Proof.
  intros a b f g. cbn. apply (@same_s (fun f => let! (_, f') := f_card_move a b f in Ok f')).
  - intros rho J. eapply orel_bind; [now apply f_move_m|]. intros [] []. cbn. auto.
  - intros f' I. apply (@inv_step C c0 (OpMove a b)); exact I.
Qed.
Lemma lift_s : forall op (o : fop) f g, (forall rho L, orel (gL rho) (op L) (op (rL rho L))) ->
  (forall f, fstep c0 o f = lift op f) -> moved f g -> orel moved (lift op f) (lift op g).
Proof.
  intros op o f g H E. apply same_s.
  - intros rho J. apply lift_m. apply H.
  - intros f' I. rewrite <- E. now apply inv_step.
Qed.
Lemma swap_s : forall a b f g, moved f g -> orel moved (fo_swap (plain_fo c0) a b f) (fo_swap (a_fo A c0) a b g).
Proof. intros a b f g. apply (@lift_s _ (OpSwap a b)); [intros; apply card_swap_r|reflexivity]. Qed.
Lemma shuffle_s : forall a b f g, moved f g -> orel moved (fo_shuffle (plain_fo c0) a b f) (fo_shuffle (a_fo A c0) a b g).
Proof. intros a b f g. apply (@lift_s _ (OpShuffle a b)); [intros; apply card_shuffle_r|reflexivity]. Qed.
Lemma splice_s : forall a n b r f g, moved f g ->
  orel moved (fo_splice (plain_fo c0) a n b r f) (fo_splice (a_fo A c0) a n b r g).
Proof. intros a n b r f g. apply (@lift_s _ (OpSplice a n b r)); [intros; apply pile_splice_r|reflexivity]. Qed.
Lemma pile_swap_s : forall a b f g, moved f g -> orel moved (fo_pile_swap (plain_fo c0) a b f) (fo_pile_swap (a_fo A c0) a b g).
Proof. intros a b f g. apply (@lift_s _ (OpPileSwap a b)); [intros; apply pile_swap_r|reflexivity]. Qed.
Lemma clear_s : forall f g, moved f g -> orel moved (fo_clear (plain_fo c0) f) (fo_clear (a_fo A c0) g).
Proof.
  intros f g. cbn. apply same_s.
  - intros rho J. now apply clear_m.
  - intros f' I. now apply inv_clear.
Qed.

Lemma adds_s : forall l f g, moved f g -> orel moved (do_adds (plain_fo c0) l f) (do_adds (a_fo A c0) l g).
Proof. intros l f g. apply fold_s. intros. now apply add_s. Qed.
Lemma removes_s : forall l f g, moved f g -> orel moved (do_removes (plain_fo c0) l f) (do_removes (a_fo A c0) l g).
Proof. intros l f g. apply fold_s. intros. now apply remove_s. Qed.
Lemma resizes_s : forall l f g, moved f g -> orel moved (do_resizes (plain_fo c0) l f) (do_resizes (a_fo A c0) l g).
Proof. intros l f g. apply fold_s. intros. now apply resize_s. Qed.

Lemma parse_s : forall e a b, sb a b -> orel sb (pparse c0 e a) (aparse A c0 e b).
Proof.
  intros e a b H. unfold pparse, aparse.
  assert (V : forall (a' : pboard C) x, b_frame a' = b_frame a -> x = set_frame (b_frame b) a' -> sb a' x).
  { intros a' x E ->. destruct H as (g & G & ->). exists g. rewrite E. split; [exact G|reflexivity]. }
  destruct e as [|[|x|s]|rs [|l|l|l|l|p c]|[|c|x]|con|w mr ft|con t|m|ph|rs [|l|x|l]|r|l]; cbn [parse_event];
    try exact H.
  - apply on_frame_s; [|exact H]. intros f g G.
    apply orel_bind with (R := moved); [now apply resizes_s|intros f1 g1 G1].
    apply orel_bind with (R := moved); [now apply removes_s|intros f2 g2 G2]. now apply adds_s.
  - destruct H as (g & G & ->). unfold parse_state. cbv zeta. destruct (0 <=? bs_turn_counter s)%Z;
    (apply orel_bind_same; intros l0; unfold assign_lp; change (lp_index 0) with (Ok false); change (lp_index 1) with (Ok true); cbn [obind];
      destruct (nth_error (bs_lps s) 1) as [l1|]; cbn [or_ub obind]; [|exact Logic.I]).
    + apply on_frame_s.
      * intros f g0 G0. apply orel_bind with (R := moved); [now apply clear_s|intros f1 g1 G1].
        apply orel_bind with (R := moved); [now apply adds_s|intros f2 g2 G2]. now apply resizes_s.
      * exists g. split; [exact G|reflexivity].
    + apply on_frame_s.
      * intros f g0 G0. apply orel_bind with (R := moved); [now apply clear_s|intros f1 g1 G1].
        apply orel_bind with (R := moved); [now apply adds_s|intros f2 g2 G2]. now apply resizes_s.
      * exists g. split; [exact G|reflexivity].
  - apply on_frame_s; [|exact H]. intros f g. apply adds_s.
  - apply on_frame_s; [|exact H]. intros f g. apply fold_s. intros. now apply swap_s.
  - apply on_frame_s; [|exact H]. intros f g. apply fold_s. intros. now apply move_s.
  - apply on_frame_s; [|exact H]. intros f g. apply removes_s.
  - apply on_frame_s; [|exact H]. intros f g. apply shuffle_s.
  - destruct H as (g & G & ->). cbn. exists g. now split.
  - destruct H as (g & G & ->). cbn [set_frame b_chain]. apply orel_bind_same. intros y. cbn. exists g. now split.
  - destruct H as (g & G & ->). cbn. exists g. now split.
  - destruct H as (g & G & ->). cbn [set_frame b_lp]. do 2 (apply orel_bind_same; intros ?). cbn. exists g. now split.
  - destruct H as (g & G & ->). cbn. exists g. now split.
  - apply on_frame_s; [|exact H]. intros f g. apply fold_s. intros. now apply pile_swap_s.
  - apply on_frame_s; [|exact H]. intros f g. apply fold_s. intros. now apply splice_s.
  - destruct H as (g & G & ->). cbn. exists g. now split.
Qed.
End Alloc.
