(** Proofs about parse_query on undoable cards. *)
From Verif Require Import Base BaseProofs Place PlaceProofs Frame Limbo Msg Query QuerySpec QueryProofs
  UQuery UQuerySpec.

Local Open Scope N_scope.

(** ** Field by field *)

Lemma ustep_pair : forall T use (eqb : T -> T -> bool) bit qv cur hits,
  ufield_step use eqb bit qv cur hits =
  (match qv with Some v => if hit use eqb qv (u_get cur) then cur else u_set v cur | None => cur end,
   N.lor hits (if hit use eqb qv (u_get cur) then bit else 0)).
Proof.
  intros T use eqb bit [v|] cur hits; unfold ufield_step, hit; [|rewrite N.lor_0_r; auto].
  destruct use; simpl; [|rewrite N.lor_0_r; auto]. destruct (eqb (u_get cur) v); simpl; auto.
  rewrite N.lor_0_r; auto.
Qed.

Definition urec {T} (use : bool) (eqb : T -> T -> bool) (qv : option T) (u : undoable T) : undoable T :=
  match qv with Some v => if hit use eqb qv (u_get u) then u else u_set v u | None => u end.

Lemma udata_eq : forall use d c, uparse_data use d c =
  (mkUCard
    (urec use N.eqb (q_code d) (uc_code c))
    (urec use N.eqb (q_position d) (uc_position c))
    (urec use N.eqb (q_alias d) (uc_alias c))
    (urec use N.eqb (q_type d) (uc_type c))
    (urec use Z.eqb (q_level d) (uc_level c))
    (urec use N.eqb (q_xyz_rank d) (uc_xyz_rank c))
    (urec use N.eqb (q_attribute d) (uc_attribute c))
    (urec use N.eqb (q_race d) (uc_race c))
    (urec use Z.eqb (q_atk d) (uc_atk c))
    (urec use Z.eqb (q_def d) (uc_def c))
    (urec use Z.eqb (q_base_atk d) (uc_base_atk c))
    (urec use Z.eqb (q_base_def d) (uc_base_def c))
    (urec use place_eqb (q_equipped_to d) (uc_equipped_to c))
    (ulist_step (q_targets d) (uc_targets c))
    (ulist_step (q_counters d) (uc_counters c))
    (urec use Z.eqb (q_owner d) (uc_owner c))
    (urec use N.eqb (q_status d) (uc_status c))
    (urec use Bool.eqb (q_is_public d) (uc_is_public c))
    (urec use N.eqb (q_pend_l_scale d) (uc_pend_l_scale c))
    (urec use N.eqb (q_pend_r_scale d) (uc_pend_r_scale c))
    (urec use Bool.eqb (q_is_hidden d) (uc_is_hidden c))
    (urec use N.eqb (q_cover d) (uc_cover c))
    (urec use N.eqb (q_link_rate d) (uc_link_rate c))
    (urec use N.eqb (q_link_arrow d) (uc_link_arrow c)),
   snd (parse_data use d (shown c))).
Proof.
  intros use d c. rewrite data_hits. unfold uparse_data, bits_of, hit_list, urec. cbv zeta.
  cbn [fold_left fst snd].
  repeat match goal with
  | |- (let (_, _) := ufield_step ?u ?e ?b ?q ?v ?h in _) = _ =>
      let E := fresh "E" in destruct (ufield_step u e b q v h) as [? ?] eqn:E;
      rewrite ustep_pair in E;
      apply pair_equal_spec in E; destruct E as [? E]; symmetry in E
  end.
  subst. reflexivity.
Qed.

Definition fval_eqb (a b : fval) : bool :=
  match a, b with
  | VN m, VN n => m =? n
  | VZ m, VZ n => (m =? n)%Z
  | VB m, VB n => Bool.eqb m n
  | VP m, VP n => place_eqb m n
  | _, _ => false
  end.
Definition listy (x : field) : bool :=
  match x with F_targets | F_counters => true | _ => false end.

(** What a query makes a member record. *)
Definition records (use : bool) (d : qdata) (x : field) (cur : fval) : option fval :=
  match query_field x d with
  | Some v => if use && negb (listy x) && fval_eqb cur v then None else Some v
  | None => None
  end.
Definition put_in (o : option fval) (u : undoable fval) : undoable fval :=
  match o with Some v => u_set v u | None => u end.

Lemma u_map_set : forall A B (f : A -> B) v u, u_map f (u_set v u) = u_set (f v) (u_map f u).
Proof. intros A B f v [p c [|x n]]; reflexivity. Qed.
Lemma u_map_get : forall A B (f : A -> B) u, u_get (u_map f u) = f (u_get u).
Proof. reflexivity. Qed.

Theorem udata_field : forall use d c x,
  ucard_field x (fst (uparse_data use d c)) =
  put_in (records use d x (u_get (ucard_field x c))) (ucard_field x c).
Proof.
  intros use d c x. rewrite udata_eq. cbn [fst].
  destruct x; cbn [ucard_field uc_code uc_position uc_alias uc_type uc_level uc_xyz_rank uc_attribute uc_race uc_atk uc_def uc_base_atk uc_base_def uc_equipped_to uc_targets uc_counters uc_owner uc_status uc_is_public uc_pend_l_scale uc_pend_r_scale uc_is_hidden uc_cover uc_link_rate uc_link_arrow];
    unfold records, urec, ulist_step, hit;
    cbn [query_field listy negb ucard_field]; rewrite u_map_get;
    match goal with |- context [match ?o with Some _ => _ | None => _ end] => destruct o as [v|]; cbn [option_map put_in] end;
    try reflexivity; rewrite ?andb_true_r, ?andb_false_r; cbn [fval_eqb andb put_in];
    try (rewrite u_map_set; reflexivity).
  all: match goal with |- context [if ?b then _ else _] => destruct b end; cbn [put_in]; rewrite ?u_map_set; reflexivity.
Qed.

Lemma udata_hits : forall use d c, snd (uparse_data use d c) = snd (parse_data use d (shown c)).
Proof. intros. rewrite udata_eq. reflexivity. Qed.

Lemma shown_field : forall c x, card_field x (shown c) = u_get (ucard_field x c).
Proof. intros c []; reflexivity. Qed.

Lemma u_map_inj : forall A B (f : A -> B), (forall a b, f a = f b -> a = b) ->
  forall u u', u_map f u = u_map f u' -> u = u'.
Proof.
  intros A B f I [p c n] [p' c' n'] H. unfold u_map in H. cbn in H. injection H as Hp Hc Hn.
  assert (J : forall l l', map f l = map f l' -> l = l').
  { induction l as [|a l IH]; intros [|b l'] E; try discriminate; auto.
    injection E as E1 E2. f_equal; auto. }
  f_equal; auto.
Qed.

Lemma ucard_ext : forall c c', (forall x, ucard_field x c = ucard_field x c') -> c = c'.
Proof.
  intros c c' H.
  pose proof (H F_code) as H_code.
  pose proof (H F_position) as H_position.
  pose proof (H F_alias) as H_alias.
  pose proof (H F_type) as H_type.
  pose proof (H F_level) as H_level.
  pose proof (H F_xyz_rank) as H_xyz_rank.
  pose proof (H F_attribute) as H_attribute.
  pose proof (H F_race) as H_race.
  pose proof (H F_atk) as H_atk.
  pose proof (H F_def) as H_def.
  pose proof (H F_base_atk) as H_base_atk.
  pose proof (H F_base_def) as H_base_def.
  pose proof (H F_equipped_to) as H_equipped_to.
  pose proof (H F_targets) as H_targets.
  pose proof (H F_counters) as H_counters.
  pose proof (H F_owner) as H_owner.
  pose proof (H F_status) as H_status.
  pose proof (H F_is_public) as H_is_public.
  pose proof (H F_pend_l_scale) as H_pend_l_scale.
  pose proof (H F_pend_r_scale) as H_pend_r_scale.
  pose proof (H F_is_hidden) as H_is_hidden.
  pose proof (H F_cover) as H_cover.
  pose proof (H F_link_rate) as H_link_rate.
  pose proof (H F_link_arrow) as H_link_arrow.
  clear H. cbn [ucard_field] in *.
  apply u_map_inj in H_code; [|intros ? ? E; injection E; auto].
  apply u_map_inj in H_position; [|intros ? ? E; injection E; auto].
  apply u_map_inj in H_alias; [|intros ? ? E; injection E; auto].
  apply u_map_inj in H_type; [|intros ? ? E; injection E; auto].
  apply u_map_inj in H_level; [|intros ? ? E; injection E; auto].
  apply u_map_inj in H_xyz_rank; [|intros ? ? E; injection E; auto].
  apply u_map_inj in H_attribute; [|intros ? ? E; injection E; auto].
  apply u_map_inj in H_race; [|intros ? ? E; injection E; auto].
  apply u_map_inj in H_atk; [|intros ? ? E; injection E; auto].
  apply u_map_inj in H_def; [|intros ? ? E; injection E; auto].
  apply u_map_inj in H_base_atk; [|intros ? ? E; injection E; auto].
  apply u_map_inj in H_base_def; [|intros ? ? E; injection E; auto].
  apply u_map_inj in H_equipped_to; [|intros ? ? E; injection E; auto].
  apply u_map_inj in H_targets; [|intros ? ? E; injection E; auto].
  apply u_map_inj in H_counters; [|intros ? ? E; injection E; auto].
  apply u_map_inj in H_owner; [|intros ? ? E; injection E; auto].
  apply u_map_inj in H_status; [|intros ? ? E; injection E; auto].
  apply u_map_inj in H_is_public; [|intros ? ? E; injection E; auto].
  apply u_map_inj in H_pend_l_scale; [|intros ? ? E; injection E; auto].
  apply u_map_inj in H_pend_r_scale; [|intros ? ? E; injection E; auto].
  apply u_map_inj in H_is_hidden; [|intros ? ? E; injection E; auto].
  apply u_map_inj in H_cover; [|intros ? ? E; injection E; auto].
  apply u_map_inj in H_link_rate; [|intros ? ? E; injection E; auto].
  apply u_map_inj in H_link_arrow; [|intros ? ? E; injection E; auto].
  destruct c, c'. cbn in *. subst. reflexivity.
Qed.

Lemma card_ext : forall c c', (forall x, card_field x c = card_field x c') -> c = c'.
Proof.
  intros c c' H.
  pose proof (H F_code) as H_code.
  pose proof (H F_position) as H_position.
  pose proof (H F_alias) as H_alias.
  pose proof (H F_type) as H_type.
  pose proof (H F_level) as H_level.
  pose proof (H F_xyz_rank) as H_xyz_rank.
  pose proof (H F_attribute) as H_attribute.
  pose proof (H F_race) as H_race.
  pose proof (H F_atk) as H_atk.
  pose proof (H F_def) as H_def.
  pose proof (H F_base_atk) as H_base_atk.
  pose proof (H F_base_def) as H_base_def.
  pose proof (H F_equipped_to) as H_equipped_to.
  pose proof (H F_targets) as H_targets.
  pose proof (H F_counters) as H_counters.
  pose proof (H F_owner) as H_owner.
  pose proof (H F_status) as H_status.
  pose proof (H F_is_public) as H_is_public.
  pose proof (H F_pend_l_scale) as H_pend_l_scale.
  pose proof (H F_pend_r_scale) as H_pend_r_scale.
  pose proof (H F_is_hidden) as H_is_hidden.
  pose proof (H F_cover) as H_cover.
  pose proof (H F_link_rate) as H_link_rate.
  pose proof (H F_link_arrow) as H_link_arrow.
  clear H. destruct c, c'. cbn in *.
  repeat match goal with E : _ ?a = _ ?b |- _ => injection E as E end. subst. reflexivity.
Qed.

(** ** Taking back *)

Definition needs_undo (d : qdata) (hits : N) (x : field) : bool :=
  match query_field x d with
  | Some _ => listy x || (N.land hits (flag x) =? 0)
  | None => false
  end.

Lemma undo_if_map : forall A B (f : A -> B) b u v,
  u_undo_if b (u_map f u) = Ok v -> exists u', u_undo_if b u = Ok u' /\ v = u_map f u'.
Proof.
  intros A B f [] [p c n] v H; cbn in *.
  - destruct p as [|a p]; cbn in H; inversion H. eexists. split; reflexivity.
  - inversion H. eexists. split; reflexivity.
Qed.
Lemma undo_if_map' : forall A B (f : A -> B) b u u',
  u_undo_if b u = Ok u' -> u_undo_if b (u_map f u) = Ok (u_map f u').
Proof.
  intros A B f [] [p c n] v H; cbn in *.
  - destruct p as [|a p]; cbn in H; inversion H. reflexivity.
  - inversion H. reflexivity.
Qed.

Lemma take_back_fields : forall d hits c c', take_back d hits c = Ok c' <->
  (forall x, u_undo_if (needs_undo d hits x) (ucard_field x c) = Ok (ucard_field x c')).
Proof.
  assert (N1 : forall T (g : T -> fval) (q : option T) d hits x, listy x = false ->
    query_field x d = option_map g q -> missed q hits (flag x) = needs_undo d hits x).
  { intros T g q d hits x L E. unfold needs_undo, missed. rewrite E, L. destruct q; reflexivity. }
  assert (N2 : forall T (g : T -> fval) (q : option T) d hits x, listy x = true ->
    query_field x d = option_map g q -> given q = needs_undo d hits x).
  { intros T g q d hits x L E. unfold needs_undo. rewrite E, L. destruct q; reflexivity. }
  intros d hits c c'. unfold take_back.
  rewrite (N1 _ VN (q_code d) d hits F_code eq_refl eq_refl).
  rewrite (N1 _ VN (q_position d) d hits F_position eq_refl eq_refl).
  rewrite (N1 _ VN (q_alias d) d hits F_alias eq_refl eq_refl).
  rewrite (N1 _ VN (q_type d) d hits F_type eq_refl eq_refl).
  rewrite (N1 _ VZ (q_level d) d hits F_level eq_refl eq_refl).
  rewrite (N1 _ VN (q_xyz_rank d) d hits F_xyz_rank eq_refl eq_refl).
  rewrite (N1 _ VN (q_attribute d) d hits F_attribute eq_refl eq_refl).
  rewrite (N1 _ VN (q_race d) d hits F_race eq_refl eq_refl).
  rewrite (N1 _ VZ (q_atk d) d hits F_atk eq_refl eq_refl).
  rewrite (N1 _ VZ (q_def d) d hits F_def eq_refl eq_refl).
  rewrite (N1 _ VZ (q_base_atk d) d hits F_base_atk eq_refl eq_refl).
  rewrite (N1 _ VZ (q_base_def d) d hits F_base_def eq_refl eq_refl).
  rewrite (N1 _ VP (q_equipped_to d) d hits F_equipped_to eq_refl eq_refl).
  rewrite (N2 _ VPs (q_targets d) d hits F_targets eq_refl eq_refl).
  rewrite (N2 _ VCs (q_counters d) d hits F_counters eq_refl eq_refl).
  rewrite (N1 _ VZ (q_owner d) d hits F_owner eq_refl eq_refl).
  rewrite (N1 _ VN (q_status d) d hits F_status eq_refl eq_refl).
  rewrite (N1 _ VB (q_is_public d) d hits F_is_public eq_refl eq_refl).
  rewrite (N1 _ VN (q_pend_l_scale d) d hits F_pend_l_scale eq_refl eq_refl).
  rewrite (N1 _ VN (q_pend_r_scale d) d hits F_pend_r_scale eq_refl eq_refl).
  rewrite (N1 _ VB (q_is_hidden d) d hits F_is_hidden eq_refl eq_refl).
  rewrite (N1 _ VN (q_cover d) d hits F_cover eq_refl eq_refl).
  rewrite (N1 _ VN (q_link_rate d) d hits F_link_rate eq_refl eq_refl).
  rewrite (N1 _ VN (q_link_arrow d) d hits F_link_arrow eq_refl eq_refl).
  split.
  - intros H. inv_ok. intros []; apply undo_if_map'; assumption.
  - intros H.
    destruct (undo_if_map _ _ _ _ _ _ (H F_code)) as [y_code [E_code G_code]]; rewrite E_code; cbn [obind].
    destruct (undo_if_map _ _ _ _ _ _ (H F_position)) as [y_position [E_position G_position]]; rewrite E_position; cbn [obind].
    destruct (undo_if_map _ _ _ _ _ _ (H F_alias)) as [y_alias [E_alias G_alias]]; rewrite E_alias; cbn [obind].
    destruct (undo_if_map _ _ _ _ _ _ (H F_type)) as [y_type [E_type G_type]]; rewrite E_type; cbn [obind].
    destruct (undo_if_map _ _ _ _ _ _ (H F_level)) as [y_level [E_level G_level]]; rewrite E_level; cbn [obind].
    destruct (undo_if_map _ _ _ _ _ _ (H F_xyz_rank)) as [y_xyz_rank [E_xyz_rank G_xyz_rank]]; rewrite E_xyz_rank; cbn [obind].
    destruct (undo_if_map _ _ _ _ _ _ (H F_attribute)) as [y_attribute [E_attribute G_attribute]]; rewrite E_attribute; cbn [obind].
    destruct (undo_if_map _ _ _ _ _ _ (H F_race)) as [y_race [E_race G_race]]; rewrite E_race; cbn [obind].
    destruct (undo_if_map _ _ _ _ _ _ (H F_atk)) as [y_atk [E_atk G_atk]]; rewrite E_atk; cbn [obind].
    destruct (undo_if_map _ _ _ _ _ _ (H F_def)) as [y_def [E_def G_def]]; rewrite E_def; cbn [obind].
    destruct (undo_if_map _ _ _ _ _ _ (H F_base_atk)) as [y_base_atk [E_base_atk G_base_atk]]; rewrite E_base_atk; cbn [obind].
    destruct (undo_if_map _ _ _ _ _ _ (H F_base_def)) as [y_base_def [E_base_def G_base_def]]; rewrite E_base_def; cbn [obind].
    destruct (undo_if_map _ _ _ _ _ _ (H F_equipped_to)) as [y_equipped_to [E_equipped_to G_equipped_to]]; rewrite E_equipped_to; cbn [obind].
    destruct (undo_if_map _ _ _ _ _ _ (H F_targets)) as [y_targets [E_targets G_targets]]; rewrite E_targets; cbn [obind].
    destruct (undo_if_map _ _ _ _ _ _ (H F_counters)) as [y_counters [E_counters G_counters]]; rewrite E_counters; cbn [obind].
    destruct (undo_if_map _ _ _ _ _ _ (H F_owner)) as [y_owner [E_owner G_owner]]; rewrite E_owner; cbn [obind].
    destruct (undo_if_map _ _ _ _ _ _ (H F_status)) as [y_status [E_status G_status]]; rewrite E_status; cbn [obind].
    destruct (undo_if_map _ _ _ _ _ _ (H F_is_public)) as [y_is_public [E_is_public G_is_public]]; rewrite E_is_public; cbn [obind].
    destruct (undo_if_map _ _ _ _ _ _ (H F_pend_l_scale)) as [y_pend_l_scale [E_pend_l_scale G_pend_l_scale]]; rewrite E_pend_l_scale; cbn [obind].
    destruct (undo_if_map _ _ _ _ _ _ (H F_pend_r_scale)) as [y_pend_r_scale [E_pend_r_scale G_pend_r_scale]]; rewrite E_pend_r_scale; cbn [obind].
    destruct (undo_if_map _ _ _ _ _ _ (H F_is_hidden)) as [y_is_hidden [E_is_hidden G_is_hidden]]; rewrite E_is_hidden; cbn [obind].
    destruct (undo_if_map _ _ _ _ _ _ (H F_cover)) as [y_cover [E_cover G_cover]]; rewrite E_cover; cbn [obind].
    destruct (undo_if_map _ _ _ _ _ _ (H F_link_rate)) as [y_link_rate [E_link_rate G_link_rate]]; rewrite E_link_rate; cbn [obind].
    destruct (undo_if_map _ _ _ _ _ _ (H F_link_arrow)) as [y_link_arrow [E_link_arrow G_link_arrow]]; rewrite E_link_arrow; cbn [obind].
    f_equal. destruct c' as [z_code z_position z_alias z_type z_level z_xyz_rank z_attribute z_race z_atk z_def z_base_atk z_base_def z_equipped_to z_targets z_counters z_owner z_status z_is_public z_pend_l_scale z_pend_r_scale z_is_hidden z_cover z_link_rate z_link_arrow].
    cbn [uc_code uc_position uc_alias uc_type uc_level uc_xyz_rank uc_attribute uc_race uc_atk uc_def uc_base_atk uc_base_def uc_equipped_to uc_targets uc_counters uc_owner uc_status uc_is_public uc_pend_l_scale uc_pend_r_scale uc_is_hidden uc_cover uc_link_rate uc_link_arrow] in *.
    apply u_map_inj in G_code; [|intros ? ? E; injection E; auto]; subst.
    apply u_map_inj in G_position; [|intros ? ? E; injection E; auto]; subst.
    apply u_map_inj in G_alias; [|intros ? ? E; injection E; auto]; subst.
    apply u_map_inj in G_type; [|intros ? ? E; injection E; auto]; subst.
    apply u_map_inj in G_level; [|intros ? ? E; injection E; auto]; subst.
    apply u_map_inj in G_xyz_rank; [|intros ? ? E; injection E; auto]; subst.
    apply u_map_inj in G_attribute; [|intros ? ? E; injection E; auto]; subst.
    apply u_map_inj in G_race; [|intros ? ? E; injection E; auto]; subst.
    apply u_map_inj in G_atk; [|intros ? ? E; injection E; auto]; subst.
    apply u_map_inj in G_def; [|intros ? ? E; injection E; auto]; subst.
    apply u_map_inj in G_base_atk; [|intros ? ? E; injection E; auto]; subst.
    apply u_map_inj in G_base_def; [|intros ? ? E; injection E; auto]; subst.
    apply u_map_inj in G_equipped_to; [|intros ? ? E; injection E; auto]; subst.
    apply u_map_inj in G_targets; [|intros ? ? E; injection E; auto]; subst.
    apply u_map_inj in G_counters; [|intros ? ? E; injection E; auto]; subst.
    apply u_map_inj in G_owner; [|intros ? ? E; injection E; auto]; subst.
    apply u_map_inj in G_status; [|intros ? ? E; injection E; auto]; subst.
    apply u_map_inj in G_is_public; [|intros ? ? E; injection E; auto]; subst.
    apply u_map_inj in G_pend_l_scale; [|intros ? ? E; injection E; auto]; subst.
    apply u_map_inj in G_pend_r_scale; [|intros ? ? E; injection E; auto]; subst.
    apply u_map_inj in G_is_hidden; [|intros ? ? E; injection E; auto]; subst.
    apply u_map_inj in G_cover; [|intros ? ? E; injection E; auto]; subst.
    apply u_map_inj in G_link_rate; [|intros ? ? E; injection E; auto]; subst.
    apply u_map_inj in G_link_arrow; [|intros ? ? E; injection E; auto]; subst.
    reflexivity.
Qed.
