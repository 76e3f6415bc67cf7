(** Proofs about parse_query. *)
From Verif Require Import Base BaseProofs Place PlaceProofs Frame FrameSpec FrameProofs FrameInv FrameFacts
  Msg Query QuerySpec.

Local Open Scope N_scope.

(** One field at a time. *)
Lemma step_val : forall T use (eqb : T -> T -> bool) bit qv cur hits,
  (forall a b, eqb a b = true -> a = b) ->
  fst (field_step use eqb bit qv cur hits) = match qv with Some v => v | None => cur end.
Proof.
  intros T use eqb bit [v|] cur hits E; simpl; auto. destruct use; auto.
  destruct (eqb cur v) eqn:X; simpl; auto.
Qed.

Definition hit {T} (use : bool) (eqb : T -> T -> bool) (qv : option T) (cur : T) : bool :=
  match qv with Some v => use && eqb cur v | None => false end.

Lemma step_hits : forall T use (eqb : T -> T -> bool) bit qv cur hits,
  snd (field_step use eqb bit qv cur hits) = N.lor hits (if hit use eqb qv cur then bit else 0).
Proof.
  intros T use eqb bit [v|] cur hits; unfold field_step, hit.
  - destruct use; simpl; [|rewrite N.lor_0_r; auto]. destruct (eqb cur v); simpl; auto.
    rewrite N.lor_0_r; auto.
  - simpl. rewrite N.lor_0_r. auto.
Qed.

Lemma step_pair : forall T use (eqb : T -> T -> bool) bit qv cur hits,
  (forall a b, eqb a b = true -> a = b) ->
  field_step use eqb bit qv cur hits =
  (match qv with Some v => v | None => cur end, N.lor hits (if hit use eqb qv cur then bit else 0)).
Proof.
  intros T use eqb bit qv cur hits E. rewrite (surjective_pairing (field_step _ _ _ _ _ _)).
  rewrite step_val, step_hits; auto.
Qed.

Lemma Neqb_eq : forall a b : N, N.eqb a b = true -> a = b. Proof. apply N.eqb_eq. Qed.
Lemma Zeqb_eq : forall a b : Z, Z.eqb a b = true -> a = b. Proof. apply Z.eqb_eq. Qed.
Lemma Beqb_eq : forall a b : bool, Bool.eqb a b = true -> a = b. Proof. apply Bool.eqb_prop. Qed.
Lemma Peqb_eq : forall a b : place, place_eqb a b = true -> a = b. Proof. apply place_eqb_eq. Qed.

(** The hits as a list of bits. *)
Definition hit_list (use : bool) (d : qdata) (c : card) : list (N * bool) := [
  (0, hit use N.eqb (q_code d) (c_code c));
  (1, hit use N.eqb (q_position d) (c_position c));
  (2, hit use N.eqb (q_alias d) (c_alias c));
  (3, hit use N.eqb (q_type d) (c_type c));
  (4, hit use Z.eqb (q_level d) (c_level c));
  (5, hit use N.eqb (q_xyz_rank d) (c_xyz_rank c));
  (6, hit use N.eqb (q_attribute d) (c_attribute c));
  (7, hit use N.eqb (q_race d) (c_race c));
  (8, hit use Z.eqb (q_atk d) (c_atk c));
  (9, hit use Z.eqb (q_def d) (c_def c));
  (10, hit use Z.eqb (q_base_atk d) (c_base_atk c));
  (11, hit use Z.eqb (q_base_def d) (c_base_def c));
  (14, hit use place_eqb (q_equipped_to d) (c_equipped_to c));
  (18, hit use Z.eqb (q_owner d) (c_owner c));
  (19, hit use N.eqb (q_status d) (c_status c));
  (20, hit use Bool.eqb (q_is_public d) (c_is_public c));
  (21, hit use N.eqb (q_pend_l_scale d) (c_pend_l_scale c));
  (22, hit use N.eqb (q_pend_r_scale d) (c_pend_r_scale c));
  (24, hit use Bool.eqb (q_is_hidden d) (c_is_hidden c));
  (25, hit use N.eqb (q_cover d) (c_cover c));
  (32, hit use N.eqb (q_link_rate d) (c_link_rate c));
  (33, hit use N.eqb (q_link_arrow d) (c_link_arrow c)) ].

Definition bits_of (l : list (N * bool)) : N :=
  fold_left (fun (h : N) (x : N * bool) => N.lor h (if snd x then 2 ^ fst x else 0)) l 0.

Lemma data_eq : forall use d c, parse_data use d c =
  (mkCard (match q_code d with Some v => v | None => c_code c end)
    (match q_position d with Some v => v | None => c_position c end)
    (match q_alias d with Some v => v | None => c_alias c end)
    (match q_type d with Some v => v | None => c_type c end)
    (match q_level d with Some v => v | None => c_level c end)
    (match q_xyz_rank d with Some v => v | None => c_xyz_rank c end)
    (match q_attribute d with Some v => v | None => c_attribute c end)
    (match q_race d with Some v => v | None => c_race c end)
    (match q_atk d with Some v => v | None => c_atk c end)
    (match q_def d with Some v => v | None => c_def c end)
    (match q_base_atk d with Some v => v | None => c_base_atk c end)
    (match q_base_def d with Some v => v | None => c_base_def c end)
    (match q_equipped_to d with Some v => v | None => c_equipped_to c end)
    (list_step (q_targets d)
    (c_targets c))
    (list_step (q_counters d)
    (c_counters c))
    (match q_owner d with Some v => v | None => c_owner c end)
    (match q_status d with Some v => v | None => c_status c end)
    (match q_is_public d with Some v => v | None => c_is_public c end)
    (match q_pend_l_scale d with Some v => v | None => c_pend_l_scale c end)
    (match q_pend_r_scale d with Some v => v | None => c_pend_r_scale c end)
    (match q_is_hidden d with Some v => v | None => c_is_hidden c end)
    (match q_cover d with Some v => v | None => c_cover c end)
    (match q_link_rate d with Some v => v | None => c_link_rate c end)
    (match q_link_arrow d with Some v => v | None => c_link_arrow c end),
   bits_of (hit_list use d c)).
Proof.
  intros use d c. unfold parse_data, bits_of, hit_list. cbv zeta. cbn [fold_left fst snd].
  repeat match goal with
  | |- (let (_, _) := field_step ?u ?e ?b ?q ?v ?h in _) = _ =>
      let E := fresh "E" in destruct (field_step u e b q v h) as [? ?] eqn:E;
      first [ rewrite (step_pair N _ _ _ _ _ _ Neqb_eq) in E
            | rewrite (step_pair Z _ _ _ _ _ _ Zeqb_eq) in E
            | rewrite (step_pair bool _ _ _ _ _ _ Beqb_eq) in E
            | rewrite (step_pair place _ _ _ _ _ _ Peqb_eq) in E ];
      apply pair_equal_spec in E; destruct E as [? E]; symmetry in E
  end.
  subst. reflexivity.
Qed.

Theorem data_fields : forall use d c x,
  card_field x (fst (parse_data use d c)) =
  match query_field x d with Some v => v | None => card_field x c end.
Proof.
  intros use d c x. rewrite data_eq. cbn [fst].
  destruct x; cbn [card_field query_field c_code c_position c_alias c_type c_level c_xyz_rank c_attribute
    c_race c_atk c_def c_base_atk c_base_def c_equipped_to c_targets c_counters c_owner c_status c_is_public
    c_pend_l_scale c_pend_r_scale c_is_hidden c_cover c_link_rate c_link_arrow]; unfold list_step;
    match goal with |- context [match ?o with Some _ => _ | None => _ end] => destruct o; reflexivity end.
Qed.

Lemma data_hits : forall use d c, snd (parse_data use d c) = bits_of (hit_list use d c).
Proof. intros use d c. rewrite data_eq. reflexivity. Qed.

Lemma bits_testbit : forall l h n,
  N.testbit (fold_left (fun (h : N) (x : N * bool) => N.lor h (if snd x then 2 ^ fst x else 0)) l h) n =
  N.testbit h n || existsb (fun x : N * bool => snd x && (fst x =? n)) l.
Proof.
  induction l as [|x l IH]; intros h n; simpl; [rewrite orb_false_r; auto|].
  rewrite IH, N.lor_spec, <- orb_assoc. f_equal. f_equal.
  destruct (snd x); [rewrite N.pow2_bits_eqb; reflexivity|rewrite N.bits_0; reflexivity].
Qed.

Lemma hits_testbit : forall use d c n, N.testbit (snd (parse_data use d c)) n =
  existsb (fun x : N * bool => snd x && (fst x =? n)) (hit_list use d c).
Proof.
  intros. rewrite data_hits. unfold bits_of. rewrite bits_testbit, N.bits_0. reflexivity.
Qed.

Lemma hit_iff : forall T use (eqb : T -> T -> bool) (inj : T -> fval) qv cur,
  (forall a b, eqb a b = true <-> a = b) -> (forall a b, inj a = inj b -> a = b) ->
  (hit use eqb qv cur = true <-> use = true /\ option_map inj qv = Some (inj cur)).
Proof.
  intros T use eqb inj [v|] cur E J; simpl.
  - rewrite andb_true_iff, E. split; intros [A B]; split; auto; [congruence|].
    injection B as B. symmetry. auto.
  - split; [discriminate|intros [_ X]; discriminate].
Qed.

Theorem data_hit : forall use d c x, cached_field x ->
  (N.land (snd (parse_data use d c)) (flag x) <> 0 <->
   use = true /\ query_field x d = Some (card_field x c)).
Proof.
  intros use d c x [X1 X2].
  assert (B : forall n h, N.land h (2 ^ n) <> 0 <-> N.testbit h n = true).
  { intros n h. split.
    - intros H. destruct (N.testbit h n) eqn:E; auto. exfalso. apply H. apply N.bits_inj_0. intros m.
      rewrite N.land_spec, N.pow2_bits_eqb. destruct (N.eqb_spec n m); [subst; rewrite E; auto|].
      apply andb_false_r.
    - intros H E. assert (Y : N.testbit (N.land h (2 ^ n)) n = false) by (rewrite E; apply N.bits_0).
      rewrite N.land_spec, H, N.pow2_bits_true in Y. discriminate. }
  assert (Bl : forall b, b && false = false) by (intros []; auto).
  assert (Bt : forall b, b && true = b) by (intros []; auto).
  assert (Bo : forall b, b || false = b) by (intros []; auto).
  assert (PE : forall a b, place_eqb a b = true <-> a = b).
  { intros a b. apply place_eqb_eq. }
  assert (BE : forall a b, Bool.eqb a b = true <-> a = b) by (intros [] []; simpl; split; congruence).
  destruct x; try congruence; cbn [flag card_field query_field];
  match goal with
  | |- N.land _ ?f <> 0 <-> _ => let n := eval vm_compute in (N.log2 f) in change f with (2 ^ n)
  end; rewrite B, hits_testbit; unfold hit_list; cbn [existsb snd fst N.eqb Pos.eqb];
  rewrite ?Bl, ?Bt, ?Bo, ?orb_false_l;
  apply hit_iff; auto using N.eqb_eq, Z.eqb_eq; congruence.
Qed.

Theorem data_no_hit : forall use d c n, N.testbit (snd (parse_data use d c)) n = true ->
  exists x, cached_field x /\ flag x = 2 ^ n /\ use = true /\ query_field x d = Some (card_field x c).
Proof.
  intros use d c n H.
  assert (G : exists x, cached_field x /\ flag x = 2 ^ n).
  { rewrite hits_testbit in H. apply existsb_exists in H as [[k b] [I H]]. cbn [fst snd] in H.
    apply andb_prop in H as [_ E]. apply N.eqb_eq in E. subst n.
    unfold hit_list in I. cbn [In] in I.
    repeat (destruct I as [I|I]; [injection I as <- _; vm_compute|]); [..|destruct I];
    unfold cached_field;
    first [ exists F_code; vm_compute; split; [split; discriminate|reflexivity] | idtac ].
    all: first
    [ exists F_position; split; [split; discriminate|reflexivity]
    | exists F_alias; split; [split; discriminate|reflexivity]
    | exists F_type; split; [split; discriminate|reflexivity]
    | exists F_level; split; [split; discriminate|reflexivity]
    | exists F_xyz_rank; split; [split; discriminate|reflexivity]
    | exists F_attribute; split; [split; discriminate|reflexivity]
    | exists F_race; split; [split; discriminate|reflexivity]
    | exists F_atk; split; [split; discriminate|reflexivity]
    | exists F_def; split; [split; discriminate|reflexivity]
    | exists F_base_atk; split; [split; discriminate|reflexivity]
    | exists F_base_def; split; [split; discriminate|reflexivity]
    | exists F_equipped_to; split; [split; discriminate|reflexivity]
    | exists F_owner; split; [split; discriminate|reflexivity]
    | exists F_status; split; [split; discriminate|reflexivity]
    | exists F_is_public; split; [split; discriminate|reflexivity]
    | exists F_pend_l_scale; split; [split; discriminate|reflexivity]
    | exists F_pend_r_scale; split; [split; discriminate|reflexivity]
    | exists F_is_hidden; split; [split; discriminate|reflexivity]
    | exists F_cover; split; [split; discriminate|reflexivity]
    | exists F_link_rate; split; [split; discriminate|reflexivity]
    | exists F_link_arrow; split; [split; discriminate|reflexivity] ]. }
  destruct G as [x [Cx E]]. exists x. split; auto. split; auto.
  apply data_hit; auto. rewrite E. intros Z0.
  assert (Y : N.testbit (N.land (snd (parse_data use d c)) (2 ^ n)) n = false) by (rewrite Z0; apply N.bits_0).
  rewrite N.land_spec, H, N.pow2_bits_true in Y. discriminate.
Qed.

(** ** The frame *)
Lemma heap_set_get : forall id c (h : list (N * card)) x, heap_get id h <> None ->
  heap_get x (heap_set id c h) = if N.eq_dec x id then Some c else heap_get x h.
Proof.
  induction h as [|[k v] h IH]; intros x H; simpl in *; [congruence|].
  destruct (N.eqb_spec k id) as [->|Nk]; simpl.
  - destruct (N.eqb_spec id x) as [->|Nx].
    + destruct (N.eq_dec x x); congruence.
    + destruct (N.eq_dec x id); congruence.
  - rewrite IH by auto. destruct (N.eqb_spec k x) as [->|Nx].
    + destruct (N.eq_dec x id); congruence.
    + auto.
Qed.

Lemma heap_set_ids : forall id c (h : list (N * card)), map fst (heap_set id c h) = map fst h.
Proof.
  induction h as [|[k v] h IH]; simpl; auto. destruct (N.eqb_spec k id) as [->|]; simpl; congruence.
Qed.

Theorem query_run : forall use q f hits f', parse_query use q f = Ok (hits, f') ->
  exists id c, card_at_place (qr_place q) f = Ok id /\ card_of f id = Some c /\
    f_lay f' = f_lay f /\ f_next f' = f_next f /\
    map fst (f_heap f') = map fst (f_heap f) /\
    card_of f' id = Some (fst (parse_data use (qr_data q) c)) /\
    (forall x, x <> id -> card_of f' x = card_of f x) /\
    hits = snd (parse_data use (qr_data q) c).
Proof.
  intros use q f hits f' H. unfold parse_query in H. apply obind_Ok in H as [h [_ H]].
  apply obind_Ok in H as [_ [_ H]]. apply obind_Ok in H as [id [E H]].
  apply obind_Ok in H as [c [G H]]. destruct (heap_get id (f_heap f)) as [c'|] eqn:Hc; [|discriminate].
  injection G as <-. destruct (parse_data use (qr_data q) c') as [d hs] eqn:D. injection H as <- <-.
  exists id, c'. unfold card_of. cbn [f_lay f_next f_heap]. rewrite D. cbn [fst snd].
  split; auto. split; auto. split; auto. split; auto. split; [apply heap_set_ids|].
  split; [|split; auto].
  - rewrite heap_set_get by congruence. destruct (N.eq_dec id id); congruence.
  - intros x Nx. rewrite heap_set_get by congruence. destruct (N.eq_dec x id); congruence.
Qed.

Theorem query_succeeds : forall use q (c0 : card) f, reachable c0 f ->
  has_card (qr_place q) (f_lay f) = Ok true -> exists hits f', parse_query use q f = Ok (hits, f').
Proof.
  intros use q c0 f R H. apply reachable_inv in R. unfold parse_query. rewrite H. cbn [obind assert_].
  destruct (has_card_Ok_slot _ _ _ H) as [k [i S]].
  destruct (card_at_place_iff card (qr_place q) f k i R S) as [[_ [id [E [L _]]]]|[X _]]; [|congruence].
  rewrite E. cbn [obind]. apply heap_get_In in L. destruct (heap_get id (f_heap f)) as [c|]; [|congruence].
  cbn [or_ub obind]. destruct (parse_data use (qr_data q) c). eauto.
Qed.

Theorem cache_same : forall q f hits f', parse_query true q f = Ok (hits, f') ->
  parse_query false q f = Ok (0, f').
Proof.
  intros q f hits f' H. unfold parse_query in *. apply obind_Ok in H as [h [E1 H]]. rewrite E1.
  cbn [obind]. apply obind_Ok in H as [u [E2 H]]. rewrite E2. cbn [obind].
  apply obind_Ok in H as [id [E H]]. rewrite E. cbn [obind]. apply obind_Ok in H as [c [G H]].
  rewrite G. cbn [obind]. rewrite data_eq in *. injection H as _ <-.
  assert (X : bits_of (hit_list false (qr_data q) c) = 0).
  { apply N.bits_inj_0. intros n. rewrite <- data_hits.
    destruct (N.testbit (snd (parse_data false (qr_data q) c)) n) eqn:T; auto.
    destruct (data_no_hit _ _ _ _ T) as (x & _ & _ & X & _). discriminate. }
  rewrite X. reflexivity.
Qed.
