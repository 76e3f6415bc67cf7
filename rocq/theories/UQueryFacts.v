(** What a query does to one undoable card, and taking it back. *)
From Verif Require Import Base BaseProofs Place PlaceProofs Frame Limbo Msg Query QuerySpec QueryProofs
  UQuery UQuerySpec UQueryProofs.

Local Open Scope N_scope.

Lemma fval_eqb_eq : forall a b, fval_eqb a b = true -> a = b.
Proof.
  intros [] [] H; cbn in H; try discriminate; f_equal.
  - apply N.eqb_eq; auto.
  - apply Z.eqb_eq; auto.
  - apply Bool.eqb_prop; auto.
  - apply place_eqb_eq; auto.
Qed.
Lemma fval_eqb_refl : forall x c, listy x = false -> fval_eqb (card_field x c) (card_field x c) = true.
Proof.
  intros [] c L; try discriminate; cbn; auto using N.eqb_refl, Z.eqb_refl.
  - apply place_eqb_eq. reflexivity.
  - destruct (c_is_public c); reflexivity.
  - destruct (c_is_hidden c); reflexivity.
Qed.

(** The hits tell which members recorded a value. *)
Lemma needs_records : forall use d c x,
  needs_undo d (snd (parse_data use d c)) x =
  match records use d x (card_field x c) with Some _ => true | None => false end.
Proof.
  intros use d c x. unfold needs_undo, records. destruct (query_field x d) as [v|] eqn:Q; auto.
  destruct (listy x) eqn:L; cbn [orb negb]; [rewrite andb_false_r; reflexivity|]. rewrite andb_true_r.
  assert (K : cached_field x) by (destruct x; try discriminate; split; discriminate).
  pose proof (data_hit use d c x K) as H. rewrite Q in H.
  destruct (N.eqb_spec (N.land (snd (parse_data use d c)) (flag x)) 0) as [E|E].
  - destruct use; auto. cbn [andb]. destruct (fval_eqb (card_field x c) v) eqn:F; auto.
    apply fval_eqb_eq in F. exfalso. apply H; auto. split; auto. congruence.
  - apply H in E. destruct E as [-> E]. injection E as ->. rewrite fval_eqb_refl by auto. reflexivity.
Qed.

Lemma put_in_cur : forall o u, u_next u = [] ->
  u_get (put_in o u) = match o with Some v => v | None => u_get u end /\ u_next (put_in o u) = [].
Proof. intros [v|] [p c n] H; cbn in *; subst; auto. Qed.

(** At the newest values a query shows the same as on a plain card. *)
Theorem udata_plain : forall use d c, all_newest c ->
  shown (fst (uparse_data use d c)) = fst (parse_data use d (shown c)) /\
  snd (uparse_data use d c) = snd (parse_data use d (shown c)) /\
  all_newest (fst (uparse_data use d c)).
Proof.
  intros use d c A. refine (conj _ (conj _ _)).
  - apply card_ext. intros x. rewrite shown_field, udata_field, data_fields.
    destruct (put_in_cur (records use d x (u_get (ucard_field x c))) _ (A x)) as [-> _].
    unfold records. rewrite <- shown_field. destruct (query_field x d) as [v|]; auto.
    destruct (use && negb (listy x) && fval_eqb (card_field x (shown c)) v) eqn:E; auto.
    apply andb_prop in E as [_ E]. apply fval_eqb_eq in E. auto.
  - apply udata_hits.
  - intros x. rewrite udata_field. apply put_in_cur. apply A.
Qed.

(** What each member records: nothing when absent or found in the cache,
    otherwise one value on top of what was there. *)
Theorem udata_history : forall use d c x, all_newest c ->
  ucard_field x (fst (uparse_data use d c)) =
  match query_field x d with
  | Some v =>
      if use && negb (listy x) && fval_eqb (u_cur (ucard_field x c)) v then ucard_field x c
      else mkUndoable (u_cur (ucard_field x c) :: u_past (ucard_field x c)) v []
  | None => ucard_field x c
  end.
Proof.
  intros use d c x A. rewrite udata_field. unfold records. destruct (query_field x d) as [v|]; auto.
  change (u_get (ucard_field x c)) with (u_cur (ucard_field x c)).
  destruct (use && negb (listy x) && fval_eqb (u_cur (ucard_field x c)) v); auto.
  cbn [put_in]. unfold u_set. rewrite (A x). reflexivity.
Qed.

Lemma undo_put : forall o u, exists u',
  u_undo_if (match o with Some _ => true | None => false end) (put_in o u) = Ok u' /\
  u_cur u' = u_cur u /\ u_past u' = u_past u /\ put_in o u' = put_in o u.
Proof.
  intros [v|] [p c n]; [|exists (mkUndoable p c n); auto].
  destruct n as [|a n]; cbn; eexists; repeat split; reflexivity.
Qed.

(** A choice of one value per field. *)
Lemma undo_if_total : forall (T : Type) b (u : undoable T), (b = true -> u_past u <> []) ->
  exists u', u_undo_if b u = Ok u'.
Proof.
  intros T [] [[|a p] c n] H; cbn.
  - exfalso. exact (H eq_refl eq_refl).
  - eexists. reflexivity.
  - eexists. reflexivity.
  - eexists. reflexivity.
Qed.

Lemma take_back_exists : forall d hits c,
  (forall x, needs_undo d hits x = true -> u_past (ucard_field x c) <> []) ->
  exists c', take_back d hits c = Ok c'.
Proof.
  intros d hits c H. unfold take_back.
  assert (M : forall T (g : T -> fval) (q : option T) x (u : undoable T), listy x = false ->
    query_field x d = option_map g q -> ucard_field x c = u_map g u ->
    exists u', u_undo_if (missed q hits (flag x)) u = Ok u').
  { intros T g q x u L Q U. apply undo_if_total. intros B. specialize (H x).
    unfold needs_undo in H. rewrite Q, L in H. unfold missed in B. destruct q; cbn in *; [|discriminate].
    apply H in B. rewrite U in B. intros X. apply B. cbn. rewrite X. reflexivity. }
  assert (G : forall T (g : T -> fval) (q : option T) x (u : undoable T), listy x = true ->
    query_field x d = option_map g q -> ucard_field x c = u_map g u ->
    exists u', u_undo_if (given q) u = Ok u').
  { intros T g q x u L Q U. apply undo_if_total. intros B. specialize (H x).
    unfold needs_undo in H. rewrite Q, L in H. destruct q; cbn in *; [|discriminate].
    specialize (H eq_refl). rewrite U in H. intros X. apply H. cbn. rewrite X. reflexivity. }
  repeat match goal with
  | |- exists c', obind (u_undo_if (missed ?q ?h (flag ?x)) ?u) _ = _ =>
      let u' := fresh "v" in let E := fresh "E" in
      destruct (M _ _ q x u eq_refl eq_refl eq_refl) as [u' E]; rewrite E; cbn [obind]; clear E
  | |- exists c', obind (u_undo_if (given ?q) ?u) _ = _ =>
      let u' := fresh "v" in let E := fresh "E" in
      (destruct (G _ _ q F_targets u eq_refl eq_refl eq_refl) as [u' E] ||
       destruct (G _ _ q F_counters u eq_refl eq_refl eq_refl) as [u' E]); rewrite E; cbn [obind]; clear E
  end.
  eauto.
Qed.

(** A query can be taken back with the hits it returned: the card is as it was
    before, apart from remembering what to replay, and parsing the query again
    leads to the very same card and hits. *)
Theorem take_back_ok : forall use d c c1 hits, uparse_data use d c = (c1, hits) ->
  exists c2, take_back d hits c1 = Ok c2 /\ same_so_far c2 c /\ uparse_data use d c2 = (c1, hits).
Proof.
  intros use d c c1 hits E.
  assert (E1 : c1 = fst (uparse_data use d c)) by (rewrite E; auto).
  assert (E2 : hits = snd (parse_data use d (shown c))) by (rewrite <- udata_hits, E; auto). clear E.
  assert (R : forall x, needs_undo d hits x =
    match records use d x (u_get (ucard_field x c)) with Some _ => true | None => false end).
  { intros x. rewrite E2, needs_records, shown_field. reflexivity. }
  assert (F : forall x, ucard_field x c1 = put_in (records use d x (u_get (ucard_field x c))) (ucard_field x c)).
  { intros x. rewrite E1. apply udata_field. }
  destruct (take_back_exists d hits c1) as [c2 T].
  { intros x H. rewrite R in H. rewrite F. destruct (records _ _ _ _) as [v|]; [|discriminate].
    destruct (ucard_field x c) as [p k [|a l]]; cbn; discriminate. }
  assert (P : forall x, u_cur (ucard_field x c2) = u_cur (ucard_field x c) /\
    u_past (ucard_field x c2) = u_past (ucard_field x c) /\
    put_in (records use d x (u_get (ucard_field x c))) (ucard_field x c2) = ucard_field x c1).
  { intros x. pose proof (proj1 (take_back_fields d hits c1 c2) T x) as U. rewrite R, F in U.
    destruct (undo_put (records use d x (u_get (ucard_field x c))) (ucard_field x c)) as [u' [U' [A [B D]]]].
    rewrite U' in U. injection U as <-. rewrite F. auto. }
  exists c2. split; [exact T|]. split.
  - intros x. split; apply P.
  - apply injective_projections; cbn [fst snd].
    + apply ucard_ext. intros x. rewrite udata_field. destruct (P x) as [A [_ B]].
      unfold u_get at 1. rewrite A. exact B.
    + assert (X : shown c2 = shown c).
      { apply card_ext. intros x. rewrite !shown_field. apply (P x). }
      rewrite udata_hits, E2, X. reflexivity.
Qed.
