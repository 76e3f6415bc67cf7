(** C94: queries leave the board alone, and cards show what queries told last. *)
From Verif Require Import Base BaseProofs Place Frame FrameSpec FrameInv FrameFacts Limbo LimboSpec LimboNat FrameNat
  Msg EncodeQuery Query QuerySpec QueryProofs UQuery UQuerySpec UReplay LostProofs LateSpec QueryRunSpec QueryTellSpec
  PropsQuery PropsUQuery PropsQueryRun.

Local Open Scope N_scope.

(** ** The board *)
Definition blank {C} (_ : C) : unit := tt.
Lemma hmap_blank : forall C (h : list (cid * C)) D (k : list (cid * D)),
  hmap C unit blank h = hmap D unit blank k <-> map fst h = map fst k.
Proof.
  induction h as [|[i c] h IH]; intros D [|[j d] k]; cbn; try (split; [discriminate|discriminate]); [tauto|].
  split; intros H; injection H as -> H; f_equal; apply (IH D k); exact H.
Qed.
Lemma same_board_blank : forall C D (f : frame C) (g : frame D),
  same_board f g <-> fmap C unit blank f = fmap D unit blank g.
Proof.
  intros C D [n h L] [m k M]. unfold fmap. cbn. split.
  - intros [A B E]. cbn in *. subst. f_equal. apply hmap_blank. exact B.
  - intros H. injection H as E1 E2 E3. apply hmap_blank in E2. split; auto.
Qed.
Lemma same_memory_blank : forall C D (w : limbo C) (v : limbo D),
  same_memory w v <-> lmap C unit blank w = lmap D unit blank v.
Proof.
  intros C D [f o p l] [g o' p' l']. unfold lmap. cbn. split.
  - intros [A B E F]. cbn in *. subst. f_equal. apply same_board_blank. exact A.
  - intros H. injection H as E1 E2 E3 E4. split; auto. cbn. apply same_board_blank. unfold fmap. cbn. congruence.
Qed.

Lemma alike_blank : forall X Y Z (a : X -> Z) (b : Y -> Z) (R : X -> Y -> Prop) m n,
  (forall x y, a x = b y -> R x y) -> omap a m = omap b n -> ends_alike R m n.
Proof.
  intros X Y Z a b R [x| | |] [y| | |] H E; cbn in *; try discriminate; auto. injection E as E. auto.
Qed.

Lemma fstep_alike : forall C D (c0 : C) (d0 : D) o f g, same_board f g ->
  ends_alike same_board (fstep c0 o f) (fstep d0 o g).
Proof.
  intros C D c0 d0 o f g H. apply alike_blank with (a := fmap C unit blank) (b := fmap D unit blank).
  { intros. now apply same_board_blank. }
  rewrite <- (fstep_map C unit blank c0 tt eq_refl), <- (fstep_map D unit blank d0 tt eq_refl).
  apply same_board_blank in H. now rewrite H.
Qed.
Lemma lstep_alike : forall C D (c0 : C) (d0 : D) o f g, same_memory f g ->
  ends_alike same_memory (lstep c0 o f) (lstep d0 o g).
Proof.
  intros C D c0 d0 o f g H. apply alike_blank with (a := lmap C unit blank) (b := lmap D unit blank).
  { intros. now apply same_memory_blank. }
  rewrite <- (lstep_map C unit blank c0 tt eq_refl), <- (lstep_map D unit blank d0 tt eq_refl).
  apply same_memory_blank in H. now rewrite H.
Qed.

Lemma heap_set_same : forall C D (f : frame C) (g : frame D) id c, same_board f g ->
  same_board (mkFrame (f_next f) (heap_set id c (f_heap f)) (f_lay f)) g.
Proof. intros C D f g id c [A B E]. split; cbn; auto. now rewrite heap_set_ids. Qed.

Lemma qrun_alike : forall D (d0 : D) l f (g : frame D) f', same_board f g -> qrun l f = Ok f' ->
  exists g', frun d0 (ops_of l) g = Ok g' /\ same_board f' g'.
Proof.
  intros D d0. induction l as [|a l IH]; intros f g f' S H.
  - injection H as <-. exists g. auto.
  - unfold qrun in H. cbn [ofold] in H. apply obind_Ok in H as [f1 [H1 H2]].
    destruct a as [o|use q]; cbn [qstep] in H1.
    + pose proof (fstep_alike _ _ card0 d0 o f g S) as A. rewrite H1 in A.
      destruct (fstep d0 o g) as [g1| | |] eqn:E; try contradiction.
      destruct (IH _ _ _ A H2) as [g' [R S']]. exists g'. split; auto. unfold frun. cbn [ops_of ofold]. rewrite E. exact R.
    + apply obind_Ok in H1 as [[h f2] [H1 E]]. injection E as ->. unfold parse_query in H1. inv_ok.
      destruct (parse_data use (qr_data q) _). injection H1 as _ <-. eapply IH; [|exact H2]. now apply heap_set_same.
Qed.

Lemma l_set_card_same : forall D (w : limbo ucard) (v : limbo D) id c, same_memory w v -> same_memory (l_set_card id c w) v.
Proof. intros D w v id c [A B E F]. split; auto. now apply heap_set_same. Qed.

Lemma urun_alike : forall D (d0 : D) l f (g : limbo D) f', same_memory f g -> urun l f = Ok f' ->
  exists g', lrun d0 (acts_of l) g = Ok g' /\ same_memory f' g'.
Proof.
  intros D d0. induction l as [|a l IH]; intros f g f' S H.
  - injection H as <-. exists g. auto.
  - unfold urun in H. cbn [ofold] in H. apply obind_Ok in H as [f1 [H1 H2]].
    destruct a as [o|use q|q hits]; cbn [ustep] in H1.
    + pose proof (lstep_alike _ _ ucard0 d0 o f g S) as A. rewrite H1 in A.
      destruct (lstep d0 o g) as [g1| | |] eqn:E; try contradiction.
      destruct (IH _ _ _ A H2) as [g' [R S']]. exists g'. split; auto. unfold lrun. cbn [acts_of ofold]. rewrite E. exact R.
    + apply obind_Ok in H1 as [[h w2] [H1 E]]. injection E as ->. apply uquery_run in H1.
      destruct H1 as [_ [id [_ E]]]. injection E as -> _. eapply IH; [|exact H2]. now apply l_set_card_same.
    + unfold take_back_query in H1. inv_ok. subst. eapply IH; [|exact H2]. now apply l_set_card_same.
Qed.

(** A board that was used with queries in between is the board the operations
    alone make, up to what is written on the cards, and whatever is done next
    goes the same way on both. *)
Theorem C94_board : forall l f, qrun l frame0 = Ok f ->
  exists g : frame unit, frun tt (ops_of l) frame0 = Ok g /\ same_board f g /\
    forall o, ends_alike same_board (fstep card0 o f) (fstep tt o g).
Proof.
  intros l f H. destruct (qrun_alike _ tt l frame0 frame0 f) as [g [R S]]; auto; [split; reflexivity|].
  exists g. split; [exact R|]. split; [exact S|]. intros o. now apply fstep_alike.
Qed.
Print Assumptions C94_board.

(** Boards that remember, with queries taken back at will. *)
Theorem C94_undoable_board : forall l w, urun l limbo0 = Ok w ->
  exists v : limbo unit, lrun tt (acts_of l) limbo0 = Ok v /\ same_memory w v /\
    forall a, ends_alike same_memory (lstep ucard0 a w) (lstep tt a v).
Proof.
  intros l w H. destruct (urun_alike _ tt l limbo0 limbo0 w) as [v [R S]]; auto; [repeat split|].
  exists v. split; [exact R|]. split; [exact S|]. intros o. now apply lstep_alike.
Qed.
Print Assumptions C94_undoable_board.

(** ** The cards *)
Section Written.
Variable C : Type.
Variable c0 : C.

(** Cards are kept or new. *)
Definition kept_or_new (f f' : frame C) : Prop :=
  f_next f <= f_next f' /\ forall x, In x (f_heap f') -> In x (f_heap f) \/ (f_next f <= fst x /\ snd x = c0).
Lemma kn_refl : forall f L, kept_or_new f (with_lay f L).
Proof. intros. split; [apply N.le_refl|]. cbn. auto. Qed.
Lemma kn_trans : forall f g h, kept_or_new f g -> kept_or_new g h -> kept_or_new f h.
Proof.
  intros f g h [A B] [D E]. split; [lia|]. intros x X. destruct (E x X) as [Y|[Y Z]]; [auto|]. right. split; auto. lia.
Qed.
Lemma destruct_kn : forall id f f', destruct_card id f = Ok f' -> kept_or_new f f'.
Proof.
  intros id f f' H. unfold destruct_card in H. destruct (heap_remove id (f_heap f)) as [h|] eqn:E; [|discriminate].
  injection H as <-. split; [apply N.le_refl|]. cbn [f_heap]. intros x X. left.
  apply heap_remove_Some in E. destruct E as [h1 [v [h2 [E1 E2]]]]. rewrite E1. subst h. apply in_app_iff in X. apply in_app_iff. cbn. tauto.
Qed.
Lemma grow_kn : forall n r f, kept_or_new f (grow_pile c0 n r f).
Proof.
  intros n r f. destruct (grow_new C c0 n r f) as [A [new [E F]]]. split; [exact A|]. intros x X. rewrite E in X.
  apply in_app_iff in X as [X|X]; [|auto]. right. rewrite Forall_forall in F. apply F in X. cbn in X. tauto.
Qed.
Lemma shrink_kn : forall n r f f', shrink_pile n r f = Ok f' -> kept_or_new f f'.
Proof.
  induction n; intros r f f' H; cbn [shrink_pile] in H; [injection H as <-; destruct f; apply kn_refl|].
  cbv zeta in H. inv_ok. eapply kn_trans; [eapply destruct_kn; eassumption|]. eapply kn_trans; [apply kn_refl|eapply IHn; eassumption].
Qed.
Lemma destruct_all_kn : forall l f f', destruct_all l f = Ok f' -> kept_or_new f f'.
Proof.
  induction l as [|c l IH]; intros f f' H; cbn [destruct_all] in H; [injection H as <-; destruct f; apply kn_refl|].
  inv_ok. eapply kn_trans; [eapply destruct_kn; eassumption|]. eapply IH; eassumption.
Qed.
Lemma ofold_kn : forall X (k : X -> frame C -> outcome (frame C)), (forall x f f', k x f = Ok f' -> kept_or_new f f') ->
  forall l f f', ofold k l f = Ok f' -> kept_or_new f f'.
Proof.
  intros X k K. induction l as [|x l IH]; intros f f' H; cbn [ofold] in H; [injection H as <-; destruct f; apply kn_refl|].
  apply obind_Ok in H as [f1 [H1 H2]]. eapply kn_trans; [eapply K|eapply IH]; eassumption.
Qed.
Lemma clear_pile_kn : forall r f f', clear_pile r f = Ok f' -> kept_or_new f f'.
Proof. intros r f f' H. unfold clear_pile in H. inv_ok. eapply kn_trans; [eapply destruct_all_kn; eassumption|]. apply kn_refl. Qed.
Lemma clear_zone_kn : forall r f f', clear_zone r f = Ok f' -> kept_or_new f f'.
Proof.
  intros r f f' H. unfold clear_zone in H. apply obind_Ok in H as [z [_ H]]. apply obind_Ok in H as [f1 [H1 H]].
  apply obind_Ok in H as [f2 [H2 H]]. injection H as <-.
  eapply kn_trans; [|eapply kn_trans; [eapply destruct_all_kn; eassumption|apply kn_refl]].
  destruct (z_card z); [eapply destruct_kn; eassumption|injection H1 as <-; destruct f; apply kn_refl].
Qed.

Lemma fstep_kn : forall o f f', fstep c0 o f = Ok f' -> kept_or_new f f'.
Proof.
  assert (Lf : forall op f f', lift op f = Ok f' -> kept_or_new f f').
  { intros op f f' H. unfold lift in H. inv_ok. apply kn_refl. }
  intros o f f' H. destruct o; cbn [fstep] in H; try (eapply Lf; eassumption).
  - apply obind_Ok in H as [[c f1] [H X]]. injection X as <-. unfold card_add, construct_card in H. inv_ok.
    split; cbn; [lia|]. intros x [<-|X]; [right; split; [apply N.le_refl|reflexivity]|auto].
  - unfold card_remove in H. inv_ok. eapply kn_trans; [apply kn_refl|]. eapply destruct_kn. eassumption.
  - apply obind_Ok in H as [[c f1] [H X]]. injection X as <-. unfold f_card_move in H. inv_ok. apply kn_refl.
  - unfold pile_resize in H. cbv zeta in H. apply obind_Ok in H as [? [_ H]]. apply obind_Ok in H as [r [_ H]].
    apply obind_Ok in H as [f1 [H1 H]]. apply obind_Ok in H as [? [_ H]]. injection H as <-.
    destruct (_ <? count); [injection H1 as <-; apply grow_kn|].
    destruct (count <? _); [eapply shrink_kn; eassumption|injection H1 as <-; destruct f; apply kn_refl].
  - unfold clear in H. apply obind_Ok in H as [f1 [H1 H2]].
    eapply kn_trans; [eapply ofold_kn; [|eassumption]; apply clear_pile_kn|eapply ofold_kn; [|eassumption]; apply clear_zone_kn].
Qed.
End Written.

Lemma heap_get_mem : forall C (h : list (cid * C)) id c, NoDup (map fst h) -> (heap_get id h = Some c <-> In (id, c) h).
Proof.
  induction h as [|[k v] h IH]; intros id c ND; cbn; [split; [discriminate|tauto]|].
  inversion ND as [|? ? N1 N2]; subst. destruct (N.eqb_spec k id) as [->|Ne].
  - split; [intros H; injection H as ->; auto|]. intros [H|H]; [congruence|]. exfalso. apply N1.
    change id with (fst (id, c)). now apply in_map.
  - rewrite IH; auto. split; [auto|]. intros [H|H]; [congruence|auto].
Qed.

Lemma told_step : forall l f f' id c x, inv _ f -> qrun l f = Ok f' -> card_of f' id = Some c ->
  exists v, card_field x c = latest x (told id l f) v /\
    match card_of f id with Some c1 => v = card_field x c1 | None => f_next f <= id /\ v = card_field x card0 end.
Proof.
  induction l as [|a l IH]; intros f f' id c x I H G.
  - injection H as <-. cbn [told latest]. rewrite G. eauto.
  - unfold qrun in H. cbn [ofold] in H. apply obind_Ok in H as [f1 [H1 H2]].
    assert (I1 : inv _ f1).
    { eapply (qrun_inv [a]); [exact I|]. unfold qrun. cbn [ofold]. rewrite H1. reflexivity. }
    destruct (IH _ _ _ _ x I1 H2 G) as [v [E M]]. cbn [told]. rewrite H1.
    destruct a as [o|use q]; cbn [qstep app] in *.
    + exists v. split; [exact E|]. apply fstep_kn in H1. destruct H1 as [Nx K].
      destruct (card_of f1 id) as [c1|] eqn:G1.
      * unfold card_of in G1. apply heap_get_mem in G1; [|apply (inv_nodup _ _ I1)]. apply K in G1 as [G1|[G1 G2]].
        -- apply heap_get_mem in G1; [|apply (inv_nodup _ _ I)]. unfold card_of. now rewrite G1.
        -- cbn [fst snd] in *. subst c1. destruct (card_of f id) as [c2|] eqn:G2; [|auto].
           exfalso. unfold card_of in G2.
           assert (X : In id (map fst (f_heap f))) by (apply heap_get_In; congruence).
           apply (inv_lt _ _ I) in X. lia.
      * destruct M as [M1 M2]. destruct (card_of f id) as [c2|] eqn:G2; [|split; auto; lia].
        exfalso. unfold card_of in G2.
        assert (X : In id (map fst (f_heap f))) by (apply heap_get_In; congruence).
        apply (inv_lt _ _ I) in X. lia.
    + apply obind_Ok in H1 as [[h f2] [H1 E2]]. injection E2 as ->.
      assert (Nx : f_next f1 = f_next f).
      { unfold parse_query in H1. inv_ok. destruct (parse_data _ _ _). injection H1 as _ <-. reflexivity. }
      apply C33_parse_query in H1. destruct H1 as (i & d & d' & P & D & D' & Fi & O & _).
      rewrite P. destruct (N.eqb_spec i id) as [->|Ne].
      * cbn [app latest]. rewrite D. rewrite D' in M. subst v. rewrite Fi in E. eauto.
      * cbn [app]. exists v. split; [exact E|]. rewrite <- (O id) by congruence. now rewrite <- Nx.
Qed.

(** Every field of every card on the board holds what the latest query about it
    told, among the queries that found this card at their place, and what a new
    card holds if there was none; moving, shuffling and so on forget nothing. *)
Theorem C94_cards : forall l f id c x, qrun l frame0 = Ok f -> card_of f id = Some c ->
  card_field x c = latest x (told id l frame0) (card_field x card0).
Proof.
  intros l f id c x H G. destruct (told_step l frame0 f id c x (inv0 _) H G) as [v [E [_ ->]]]. exact E.
Qed.
Print Assumptions C94_cards.

Example C94_ex : exists f c, qrun [QOp (OpAdd (C93_deck 0)); QQuery true (C93_q (C93_deck 0)); QOp (OpAdd (C93_deck 0));
    QQuery false (mkQuery (C93_deck 0) (set_code 9)); QOp (OpMove (C93_deck 0) (mkPlace 0 4 3 (-1)));
    QQuery true (mkQuery (mkPlace 0 4 3 (-1)) ex_data)] frame0 = Ok f /\
  card_of f 1 = Some c /\ card_field F_code c = VN 89631139 /\ card_field F_atk c = VZ 3000.
Proof. eexists. eexists. split; [vm_compute; reflexivity|]. vm_compute. auto. Qed.
Example C94_ex_undoable : exists w v, urun [UOp (LAdd (C93_deck 0)); UQuery true (C93_q (C93_deck 0)); UOp (LAdd (C93_deck 1));
    UTakeBack (C93_q (C93_deck 0)) 0; UOp (LMove (C93_deck 0) (mkPlace 0 4 3 (-1)))] limbo0 = Ok w /\
  lrun tt [LAdd (C93_deck 0); LAdd (C93_deck 1); LMove (C93_deck 0) (mkPlace 0 4 3 (-1))] limbo0 = Ok v /\ same_memory w v.
Proof. eexists. eexists. split; [vm_compute; reflexivity|]. split; [vm_compute; reflexivity|]. repeat split. Qed.
