(** C33-C34: filling in cards from queries. *)
From Verif Require Import Base BaseProofs Place Frame FrameSpec Msg Query QuerySpec QueryProofs.

Local Open Scope N_scope.

Definition ex_qops : list fop :=
  [OpResize (mkPlace 0 1 0 (-1)) 3; OpAdd (mkPlace 0 4 2 (-1)); OpAdd (mkPlace 0 4 2 0)].
Definition ex_qframe : frame card :=
  match frun card0 ex_qops frame0 with Ok f => f | _ => frame0 end.
Definition ex_data : qdata :=
  mkQData (Some 89631139) None None (Some 17) (Some 8%Z) None None None (Some 3000%Z) (Some 2500%Z)
    None None None (Some [mkPlace 1 4 0 (-1)]) None None None (Some true) None None None None None None.
Definition ex_query : query := mkQuery (mkPlace 0 4 2 0) ex_data.

(** C33: every present field is set, every other field, card and position is
    kept; with or without caching. *)
Theorem C33_parse_query : forall use q f hits f', parse_query use q f = Ok (hits, f') ->
  exists id c c', card_at_place (qr_place q) f = Ok id /\ card_of f id = Some c /\
    card_of f' id = Some c' /\
    (forall x, card_field x c' =
       match query_field x (qr_data q) with Some v => v | None => card_field x c end) /\
    (forall y, y <> id -> card_of f' y = card_of f y) /\
    f_lay f' = f_lay f /\ (forall y, live f' y <-> live f y).
Proof.
  intros use q f hits f' H. destruct (query_run _ _ _ _ _ H) as (id & c & E & Hc & L & _ & Ids & C' & O & _).
  exists id, c, (fst (parse_data use (qr_data q) c)).
  split; auto. split; auto. split; auto. split; [apply data_fields|].
  split; auto. split; auto. intros y. unfold live. rewrite Ids. tauto.
Qed.
Print Assumptions C33_parse_query.

(** It works for every card the frame has. *)
Theorem C33_parse_query_succeeds : forall use q (c0 : card) f, reachable c0 f ->
  has_card (qr_place q) (f_lay f) = Ok true -> exists hits f', parse_query use q f = Ok (hits, f').
Proof. exact query_succeeds. Qed.
Print Assumptions C33_parse_query_succeeds.

Example C33_ex : reachable card0 ex_qframe /\
  has_card (qr_place ex_query) (f_lay ex_qframe) = Ok true /\
  exists f' c', parse_query false ex_query ex_qframe = Ok (0, f') /\ card_of f' 4 = Some c' /\
    card_field F_code c' = VN 89631139 /\ card_field F_atk c' = VZ 3000 /\
    card_field F_base_atk c' = VZ 0 /\ card_of f' 3 = Some card0.
Proof.
  split; [exists ex_qops; vm_compute; reflexivity|]. split; [vm_compute; reflexivity|].
  do 2 eexists. split; [vm_compute; reflexivity|]. vm_compute. auto 10.
Qed.

(** C34 as stated fails for the two repeated fields: they never hit. *)
Theorem C34_repeated_fields_never_hit : forall d c x, ~ cached_field x ->
  N.land (snd (parse_data true d c)) (flag x) = 0 /\
  exists d, query_field x d = Some (card_field x c).
Proof.
  intros d c x Nx. split.
  - apply N.bits_inj_0. intros n. rewrite N.land_spec.
    destruct (N.testbit (snd (parse_data true d c)) n) eqn:E; [|reflexivity].
    destruct (data_no_hit _ _ _ _ E) as (y & Cy & Fy & _ & _).
    destruct (N.testbit (flag x) n) eqn:T; [exfalso|reflexivity].
    assert (G : forall k, flag x = 2 ^ k -> k = n).
    { intros k K. rewrite K, N.pow2_bits_eqb in T. apply N.eqb_eq in T. auto. }
    destruct x; try (apply Nx; split; discriminate);
      [specialize (G 15 eq_refl)|specialize (G 17 eq_refl)]; subst n;
      destruct y; try discriminate; exact (Nx Cy).
  - destruct x; try (exfalso; apply Nx; split; discriminate).
    + exists (mkQData None None None None None None None None None None None None
        None (Some (c_targets c)) None None None None None None None None None None). reflexivity.
    + exists (mkQData None None None None None None None None None None None None
        None None (Some (c_counters c)) None None None None None None None None None). reflexivity.
Qed.
Print Assumptions C34_repeated_fields_never_hit.
Theorem C34_repeated_fields_refuted : exists d c x, query_field x d = Some (card_field x c) /\
  N.land (snd (parse_data true d c)) (flag x) = 0.
Proof.
  exists (mkQData None None None None None None None None None None None None
    None (Some []) None None None None None None None None None None), card0, F_targets.
  split; reflexivity.
Qed.
Print Assumptions C34_repeated_fields_refuted.

(** For all other fields: the bit is set exactly when the field is present and
    equal, no other bit is set, and caching does not change the result. *)
Theorem C34_hits_partial : forall use q f hits f', parse_query use q f = Ok (hits, f') ->
  exists id c, card_at_place (qr_place q) f = Ok id /\ card_of f id = Some c /\
    (forall x, cached_field x ->
       (N.land hits (flag x) <> 0 <-> use = true /\ query_field x (qr_data q) = Some (card_field x c))) /\
    (forall n, N.testbit hits n = true -> exists x, cached_field x /\ flag x = 2 ^ n) /\
    (use = false -> hits = 0).
Proof.
  intros use q f hits f' H. destruct (query_run _ _ _ _ _ H) as (id & c & E & Hc & _ & _ & _ & _ & _ & ->).
  exists id, c. split; auto. split; auto. split; [intros; apply data_hit; auto|]. split.
  - intros n T. destruct (data_no_hit _ _ _ _ T) as (x & Cx & Fx & _). eauto.
  - intros ->. apply N.bits_inj_0. intros n.
    destruct (N.testbit (snd (parse_data false (qr_data q) c)) n) eqn:T; auto.
    destruct (data_no_hit _ _ _ _ T) as (x & _ & _ & X & _). discriminate.
Qed.
Print Assumptions C34_hits_partial.

(** Distinct fields have distinct bits, so the hit mask identifies the fields. *)
Theorem C34_flags_distinct : forall x y, N.land (flag x) (flag y) <> 0 -> x = y.
Proof. intros x y H. destruct x, y; try reflexivity; exfalso; apply H; reflexivity. Qed.
Print Assumptions C34_flags_distinct.

Theorem C34_cache_same_card : forall q f hits f' , parse_query true q f = Ok (hits, f') ->
  parse_query false q f = Ok (0, f').
Proof. exact cache_same. Qed.
Print Assumptions C34_cache_same_card.

Example C34_ex : exists f1, parse_query false ex_query ex_qframe = Ok (0, f1) /\
  exists f2, parse_query true (mkQuery (mkPlace 0 4 2 0)
    (mkQData (Some 89631139) None None (Some 33) (Some 8%Z) None None None (Some 3001%Z) None
      None None None None None None None None None None None None None None)) f1 = Ok (0x11, f2).
Proof. eexists. split; [vm_compute; reflexivity|]. eexists. vm_compute. reflexivity. Qed.
