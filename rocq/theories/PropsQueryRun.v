(** C93: queries that make no sense are stopped by an assertion. *)
From Verif Require Import Base BaseProofs Place Frame FrameSpec FrameLens FrameProofs FrameInv FrameFacts Limbo LimboSpec LimboProofs
  Msg EncodeQuery Query QuerySpec UQuery UQuerySpec UReplay HazardSpec HazardProofs LostProofs PropsFrameExact PropsUQuery QueryRunSpec.

Local Open Scope N_scope.

Lemma inv_write : forall C id (c : C) f, inv C f -> inv C (mkFrame (f_next f) (heap_set id c (f_heap f)) (f_lay f)).
Proof.
  intros C id c f [A B D E]. split; cbn [f_lay f_heap f_next]; auto.
  - intros x. rewrite B. unfold hcnt. now rewrite heap_set_ids.
  - now rewrite heap_set_ids.
  - rewrite heap_set_ids. exact E.
Qed.

Lemma qrun_inv : forall l f f', inv _ f -> qrun l f = Ok f' -> inv _ f'.
Proof.
  induction l as [|a l IH]; intros f f' I H.
  - injection H as <-. exact I.
  - unfold qrun in H. cbn [ofold] in H. apply obind_Ok in H as [f1 [H1 H2]]. eapply IH; [|exact H2].
    destruct a as [o|use q]; cbn [qstep] in H1.
    + eapply inv_step; eauto.
    + apply obind_Ok in H1 as [[h f2] [H1 E]]. injection E as ->. unfold parse_query in H1. inv_ok.
      destruct (parse_data use (qr_data q) _). injection H1 as _ <-. now apply inv_write.
Qed.

Lemma linv_write : forall id c w, linv ucard w -> linv ucard (l_set_card id c w).
Proof.
  intros id c w [nx [h [L [P [F [-> O]]]]]]. exists nx, (heap_set id c h), L, P, F. split; [reflexivity|].
  now apply tape_ok_set.
Qed.

Lemma urun_inv : forall l w w', linv _ w -> urun l w = Ok w' -> linv _ w'.
Proof.
  induction l as [|a l IH]; intros w w' I H.
  - injection H as <-. exact I.
  - unfold urun in H. cbn [ofold] in H. apply obind_Ok in H as [w1 [H1 H2]]. eapply IH; [|exact H2].
    destruct a as [o|use q|q hits]; cbn [ustep] in H1.
    + eapply linv_step; eauto.
    + apply obind_Ok in H1 as [[h w2] [H1 E]]. injection E as ->. apply uquery_run in H1.
      destruct H1 as [_ [id [_ E]]]. injection E as -> _. now apply linv_write.
    + unfold take_back_query in H1. inv_ok. subst. now apply linv_write.
Qed.

Lemma halt_bind : forall A B (m : outcome A) (k : A -> outcome B), m <> Diverge -> (forall a, k a <> Diverge) ->
  obind m k <> Diverge.
Proof. intros A B [a| | |] k H K; cbn [obind]; auto; discriminate. Qed.
Lemma con_index_halts : forall c, con_index c <> Diverge.
Proof. intros c. unfold con_index. repeat (destruct (Z.eqb _ _); try discriminate). Qed.
Lemma pile_of_halts : forall p, pile_of p <> Diverge.
Proof.
  intros p. unfold pile_of, pile_ref. apply halt_bind; [unfold assert_; destruct (Z.leb _ _); discriminate|]. intros _.
  apply halt_bind; [unfold assert_; destruct (loc_is_pile _); discriminate|]. intros _.
  repeat (destruct (N.eqb _ _); [apply halt_bind; [apply con_index_halts|intros; discriminate]|]). discriminate.
Qed.
Lemma zone_of_halts : forall p, zone_of p <> Diverge.
Proof.
  intros p. unfold zone_of, zone_ref. apply halt_bind; [unfold assert_; destruct (Z.leb _ _); discriminate|]. intros _.
  apply halt_bind; [unfold zone_seq_lim; repeat (destruct (N.eqb _ _)); discriminate|]. intros lim.
  apply halt_bind; [unfold assert_; destruct (N.ltb _ _); discriminate|]. intros _.
  apply halt_bind; [apply con_index_halts|]. intros c. apply halt_bind; [|intros; discriminate].
  unfold side_at. apply halt_bind; [unfold assert_; destruct (loc_is_zone _); discriminate|]. intros _.
  repeat (destruct (N.eqb _ _)); discriminate.
Qed.
Lemma has_card_halts : forall p L, has_card p L <> Diverge.
Proof.
  intros p L. unfold has_card. apply halt_bind; [unfold assert_; destruct (negb _); discriminate|]. intros _.
  destruct (is_pile p); [apply halt_bind; [apply pile_of_halts|intros; discriminate]|].
  apply halt_bind; [unfold assert_; destruct (is_zone _); discriminate|]. intros _.
  apply halt_bind; [unfold zone_seq_lim; repeat (destruct (N.eqb _ _)); discriminate|]. intros lim.
  apply halt_bind; [unfold assert_; destruct (N.ltb _ _); discriminate|]. intros _.
  apply halt_bind; [apply zone_of_halts|]. intros r.
  apply halt_bind; [unfold read_zone, or_ub; destruct (get_zone _ _); discriminate|]. intros z.
  destruct (not_mat p); discriminate.
Qed.

(** What decides. *)
Lemma asked : forall C p (f : frame C), shape (f_lay f) ->
  (forall i, slot p = Some i -> occupant (f_lay f) i <> None -> exists id, card_at_place p f = Ok id) ->
  (occupied p (f_lay f) /\ has_card p (f_lay f) = Ok true /\ exists id, card_at_place p f = Ok id) \/
  (~ occupied p (f_lay f) /\ ((stray p /\ has_card p (f_lay f) = UB) \/
     (~ stray p /\ (has_card p (f_lay f) = Ok false \/ has_card p (f_lay f) = Abort)))).
Proof.
  intros C p f S H. pose proof (has_card_ub p (f_lay f) S) as U. pose proof (occupied_has p S) as O.
  destruct (has_card p (f_lay f)) as [[|]| | |] eqn:E.
  - left. destruct O as [_ O]. specialize (O eq_refl). split; [exact O|]. split; [reflexivity|].
    destruct O as [i [A B]]. eapply H; eauto.
  - right. split; [intros X; apply O in X; discriminate|]. right. split; [intros X; apply U in X; discriminate|auto].
  - right. split; [intros X; apply O in X; discriminate|]. right. split; [intros X; apply U in X; discriminate|auto].
  - right. split; [intros X; apply O in X; discriminate|]. left. split; [now apply U|reflexivity].
  - exfalso. revert E. apply has_card_halts.
Qed.

Lemma run_shape : forall l f, qrun l frame0 = Ok f -> inv _ f.
Proof. intros l f H. eapply qrun_inv; [|exact H]. apply inv0. Qed.

Lemma qrun_asked : forall l f p, qrun l frame0 = Ok f ->
  forall i, slot p = Some i -> occupant (f_lay f) i <> None -> exists id, card_at_place p f = Ok id.
Proof.
  intros l f p H [k i] Sl Oc. pose proof (run_shape _ _ H) as I.
  destruct (card_at_place_iff _ _ _ _ _ I Sl) as [[_ [id [A _]]]|[A _]]; [eauto|]. exfalso.
  assert (X : occupied p (f_lay f)) by (exists (k, i); auto).
  apply occupied_has in X; [congruence|apply I].
Qed.

Lemma urun_asked : forall l w p, urun l limbo0 = Ok w ->
  forall i, slot p = Some i -> occupant (lb_lay w) i <> None -> exists id, card_at_place p (lb_frame w) = Ok id.
Proof.
  intros l w p H [k i] Sl Oc. assert (I : linv _ w) by (eapply urun_inv; [apply linv0|exact H]).
  destruct I as [nx [h [L [P [F [-> O]]]]]]. rewrite lb_lay_tape in Oc. pose proof (to_lay _ _ _ _ _ _ O) as K.
  unfold occupant in Oc. cbn [fst snd] in Oc.
  destruct (nth_error (contents k L) i) as [[id|]|] eqn:E; [| |congruence].
  - exists id. eapply card_at_place_slot; [apply K|exact Sl|exact E|].
    cbn [lb_frame f_heap tape]. apply heap_get_In. apply (to_cnt _ _ _ _ _ _ O).
    destruct (valid_cont_dec k) as [V|V].
    + pose proof (cnt_le_cntL k L id (proj1 K) V). apply nth_error_In, cnt_In in E. lia.
    + rewrite contents_invalid in E; auto. { destruct i; discriminate. } apply K.
  - exfalso. apply (proj2 K (k, i)). exact E.
Qed.

(** Whatever was done with the board before, a query succeeds exactly if there
    is a card at its place; it is undefined exactly for places whose player is
    negative or whose location is no single one (C17), and stopped by an
    assertion otherwise. *)
Theorem C93_query_partial : forall l f use q, qrun l frame0 = Ok f ->
  ((exists r, parse_query use q f = Ok r) <-> occupied (qr_place q) (f_lay f)) /\
  (parse_query use q f = UB <-> stray (qr_place q)) /\
  (parse_query use q f = Abort <-> ~ occupied (qr_place q) (f_lay f) /\ ~ stray (qr_place q)).
Proof.
  intros l f use q H. pose proof (run_shape _ _ H) as I.
  destruct (asked _ (qr_place q) f (proj1 (inv_lay _ _ I)) (qrun_asked _ _ _ H)) as [[O [E [id A]]]|[O [[U E]|[U E]]]].
  - assert (X : exists r, parse_query use q f = Ok r).
    { unfold parse_query. rewrite E. cbn [assert_ obind]. rewrite A. cbn [obind].
      destruct (heap_get id (f_heap f)) as [c|] eqn:G; [cbn [or_ub obind]; destruct (parse_data _ _ _); eauto|].
      exfalso. unfold card_at_place in A. inv_ok. congruence. }
    assert (N : ~ stray (qr_place q)) by (intros Y; apply (has_card_ub _ _ (proj1 (inv_lay _ _ I))) in Y; congruence).
    destruct X as [r X]. rewrite X. split; [split; eauto|]. split; [split; [discriminate|tauto]|split; [discriminate|tauto]].
  - unfold parse_query. rewrite E. cbn [obind].
    split; [split; [intros [r X]; discriminate|tauto]|]. split; [tauto|split; [discriminate|tauto]].
  - assert (X : parse_query use q f = Abort) by (unfold parse_query; destruct E as [-> | ->]; reflexivity). rewrite X.
    split; [split; [intros [r Y]; discriminate|tauto]|]. split; [split; [discriminate|tauto]|tauto].
Qed.
Print Assumptions C93_query_partial.

(** The same for boards that remember. *)
Theorem C93_undoable_query_partial : forall l w use q, urun l limbo0 = Ok w ->
  ((exists r, uparse_query use q w = Ok r) <-> occupied (qr_place q) (lb_lay w)) /\
  (uparse_query use q w = UB <-> stray (qr_place q)) /\
  (uparse_query use q w = Abort <-> ~ occupied (qr_place q) (lb_lay w) /\ ~ stray (qr_place q)).
Proof.
  intros l w use q H. assert (I : linv _ w) by (eapply urun_inv; [apply linv0|exact H]).
  assert (S : shape (lb_lay w)).
  { destruct I as [nx [h [L [P [F [-> O]]]]]]. rewrite lb_lay_tape. apply (to_lay _ _ _ _ _ _ O). }
  destruct (asked _ (qr_place q) (lb_frame w) S (urun_asked _ _ _ H)) as [[O [E [id A]]]|[O [[U E]|[U E]]]].
  - assert (X : exists r, uparse_query use q w = Ok r).
    { eexists (_, _). apply uquery_run. split; [exact E|]. exists id. split; [exact A|reflexivity]. }
    assert (N : ~ stray (qr_place q)) by (intros Y; apply (has_card_ub _ _ S) in Y; unfold lb_lay in Y; congruence).
    destruct X as [r X]. rewrite X. split; [split; eauto|]. split; [split; [discriminate|tauto]|split; [discriminate|tauto]].
  - change (f_lay (lb_frame w)) with (lb_lay w) in *. unfold uparse_query. rewrite E. cbn [obind].
    split; [split; [intros [r X]; discriminate|tauto]|]. split; [tauto|split; [discriminate|tauto]].
  - change (f_lay (lb_frame w)) with (lb_lay w) in *.
    assert (X : uparse_query use q w = Abort) by (unfold uparse_query; destruct E as [-> | ->]; reflexivity). rewrite X.
    split; [split; [intros [r Y]; discriminate|tauto]|]. split; [split; [discriminate|tauto]|tauto].
Qed.
Print Assumptions C93_undoable_query_partial.

(** Missing: the undefined ones. *)
Theorem C93_query_refuted : exists use q, parse_query use q frame0 = UB /\ uparse_query use q limbo0 = UB.
Proof. exists true, (mkQuery (mkPlace (-1) 1 0 (-1)) qdata0). split; reflexivity. Qed.
Print Assumptions C93_query_refuted.

Definition C93_q (p : place) : query := mkQuery p (set_code 7).
Definition C93_deck (i : N) : place := mkPlace 0 1 i (-1).
Example C93_ex : exists f, qrun [QOp (OpAdd (C93_deck 0)); QQuery true (C93_q (C93_deck 0)); QOp (OpAdd (C93_deck 1));
    QOp (OpMove (C93_deck 0) (mkPlace 0 4 3 (-1)))] frame0 = Ok f /\
  (exists r, parse_query true (C93_q (mkPlace 0 4 3 (-1))) f = Ok r) /\
  parse_query true (C93_q (C93_deck 1)) f = Abort /\ parse_query true (C93_q (mkPlace 0 3 0 (-1))) f = UB.
Proof. eexists. split; [vm_compute; reflexivity|]. split; [eexists; vm_compute; reflexivity|]. split; vm_compute; reflexivity. Qed.
Example C93_ex_undoable : exists w, urun [UOp (LAdd (C93_deck 0)); UQuery true (C93_q (C93_deck 0)); UOp (LAdd (C93_deck 1));
    UTakeBack (C93_q (C93_deck 0)) 0; UOp (LMove (C93_deck 0) (mkPlace 0 4 3 (-1)))] limbo0 = Ok w /\
  (exists r, uparse_query true (C93_q (mkPlace 0 4 3 (-1))) w = Ok r) /\
  uparse_query true (C93_q (C93_deck 1)) w = Abort /\ uparse_query true (C93_q (mkPlace 0 3 0 (-1))) w = UB.
Proof. eexists. split; [vm_compute; reflexivity|]. split; [eexists; vm_compute; reflexivity|]. split; vm_compute; reflexivity. Qed.
