(** C76: exactly when a query on an undoable card shows its values. *)
From Verif Require Import Base BaseProofs Place Frame FrameSpec Limbo LimboSpec Msg Event EventSpec EventUndo
  LimboNat Query QuerySpec QueryProofs UQuery UQuerySpec UQueryProofs UQueryFacts UReplaySpec UReplay PropsBoard
  PropsQuery PropsUQuery.

Local Open Scope N_scope.

(** Whatever was undone before, a member shows the value of the query if and only
    if nothing of it was undone, or the value undone last is the queried one, or
    caching found the value there. *)
Theorem C76_shows_iff_partial : forall use q w hits w', uparse_query use q w = Ok (hits, w') ->
  exists id c c', card_at_place (qr_place q) (lb_frame w) = Ok id /\ cell w id = Some c /\ cell w' id = Some c' /\
    forall x v, query_field x (qr_data q) = Some v ->
      (u_cur (ucard_field x c') = v <->
       u_next (ucard_field x c) = [] \/ (exists l, u_next (ucard_field x c) = v :: l) \/
       (use = true /\ cached_field x /\ u_cur (ucard_field x c) = v)).
Proof.
  intros use q w hits w' H. apply uquery_run in H. destruct H as [_ [id [P E]]]. injection E as -> _.
  pose proof (place_alive _ _ _ P) as A. unfold holds. destruct (cell w id) as [c|] eqn:Hc; [|congruence].
  exists id, c, (fst (uparse_data use (qr_data q) c)). split; auto. split; auto. split.
  { cbn. rewrite heap_set_get' by congruence. destruct (N.eq_dec id id); congruence. }
  intros x v Q. rewrite udata_field. unfold records. rewrite Q.
  change (u_get (ucard_field x c)) with (u_cur (ucard_field x c)).
  assert (B : (use && negb (listy x) && fval_eqb (u_cur (ucard_field x c)) v)%bool = true <->
    use = true /\ cached_field x /\ u_cur (ucard_field x c) = v).
  { rewrite !andb_true_iff. split.
    - intros [[U L] F]. apply fval_eqb_eq in F. split; auto. split; auto.
      destruct x; try discriminate; split; discriminate.
    - intros [U [[C1 C2] F]]. assert (L : listy x = false) by (destruct x; auto; congruence).
      rewrite L. split; auto. rewrite <- F.
      change (u_cur (ucard_field x c)) with (u_get (ucard_field x c)). rewrite <- shown_field.
      apply fval_eqb_refl; auto. }
  destruct (use && negb (listy x) && fval_eqb (u_cur (ucard_field x c)) v)%bool; cbn [put_in].
  - split; [intros _; right; right; apply B; reflexivity|intros _; apply B; reflexivity].
  - unfold u_set. destruct (u_next (ucard_field x c)) as [|y l] eqn:Nx; cbn [u_cur].
    + split; auto.
    + split; [intros ->; right; left; eauto|]. intros [X|[[l' X]|X]]; [discriminate X|congruence|]. apply B in X. discriminate X.
Qed.
Print Assumptions C76_shows_iff_partial.

(** A card's code set to 5 and undone: a query for 5 shows, one for 7 does not,
    with and without caching. *)
Example C76_shows_ex : exists w, (exists w1 hits w2, lrun ucard0 [LAdd (mkPlace 0 4 2 (-1))] limbo0 = Ok w1 /\
    uparse_query true (mkQuery (mkPlace 0 4 2 (-1)) (set_code 5)) w1 = Ok (hits, w2) /\
    take_back_query (mkQuery (mkPlace 0 4 2 (-1)) (set_code 5)) hits w2 = Ok w) /\
  forall use v, In v [5; 7] -> exists hits w' c', uparse_query use (mkQuery (mkPlace 0 4 2 (-1)) (set_code v)) w = Ok (hits, w') /\
    cell w' 0 = Some c' /\ u_cur (ucard_field F_code c') = VN 5.
Proof.
  eexists. split; [do 3 eexists; split; [vm_compute; reflexivity|]; split; vm_compute; reflexivity|].
  intros [] v [<-|[<-|[]]]; do 3 eexists; (split; [vm_compute; reflexivity|]); split; vm_compute; reflexivity.
Qed.
