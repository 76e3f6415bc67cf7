(** For exactly which arguments card_shuffle is undefined. *)
From Verif Require Import Base BaseProofs Place Frame FrameSpec FrameLens FrameProofs FrameInv FrameFacts
  HazardSpec HazardProofs.

Set Implicit Arguments.
Local Open Scope N_scope.

(** ** Specification *)

(** A current place that says nothing. *)
Definition no_place : place := mkPlace 0 0 0 0.

(** The shuffle that does only the first [i] of its steps. *)
Definition cut (i n : nat) (cur : list place) : list place := firstn i cur ++ repeat no_place (n - i).

(** The current place of a step is missing, or it is in a pile of one of the two
    players. *)
Definition trap (o : option place) : Prop :=
  match o with
  | None => True
  | Some p => (p_con p <= 1)%Z /\ assocN (p_loc p) pile_table <> None
  end.

(** A shuffle of nothing, or one that gets to such a step. *)
Definition shuffle_fatal (prev cur : list place) (L : layout) : Prop :=
  prev = [] \/
  exists i, (i < length prev)%nat /\ trap (nth_error cur i) /\
    exists L', card_shuffle prev (cut i (length prev) cur) L = Ok L'.

(** ** Proofs *)
Lemma loop_nothing : forall todo i seqs L, shuffle_loop todo i (repeat no_place todo) seqs L = Ok L.
Proof. induction todo as [|todo IH]; intros; cbn; auto. Qed.

Lemma pile_not_zone : forall con loc seq, (con <= 1)%Z -> assocN loc pile_table <> None ->
  zone_ref con loc seq = UB.
Proof.
  intros con loc seq H P. unfold zone_ref. apply Z.leb_le in H. rewrite H. cbn [assert_ obind].
  unfold pile_table in P. cbn [assocN] in P.
  repeat match type of P with context [loc =? ?x] =>
    destruct (N.eqb_spec loc x) as [->|]; [reflexivity|] end. congruence.
Qed.

Lemma loop_ub : forall todo i cur seqs L, shape L -> (i + todo <= length seqs)%nat ->
  Forall (fun p => p_loc p = 0 \/ regular p) cur ->
  shuffle_loop todo i cur seqs L = UB <->
  exists k, (k < todo)%nat /\ trap (nth_error cur k) /\
    exists L', shuffle_loop todo i (cut k todo cur) seqs L = Ok L'.
Proof.
  induction todo as [|todo IH]; intros i cur seqs L S Li F.
  { cbn. split; [discriminate|]. intros (k & H & _). lia. }
  destruct cur as [|p cur].
  { split; [intros _|reflexivity]. exists 0%nat. split; [lia|]. split; [exact Logic.I|].
    unfold cut. cbn [firstn app Nat.sub]. rewrite loop_nothing. eauto. }
  apply Forall_cons_iff in F as [Rp F].
  assert (Cut : forall k, cut (Datatypes.S k) (Datatypes.S todo) (p :: cur) = p :: cut k todo cur) by reflexivity.
  assert (Shift : forall (P : nat -> Prop), ~ P 0%nat -> (exists k, (k < Datatypes.S todo)%nat /\ P k) <->
     exists k, (k < todo)%nat /\ P (Datatypes.S k)).
  { intros P N. split.
    - intros ([|k] & H & K); [contradiction|]. exists k. split; [lia|exact K].
    - intros (k & H & K). exists (Datatypes.S k). split; [lia|exact K]. }
  destruct (is_empty p) eqn:Em.
  { rewrite (Shift (fun k => trap (nth_error (p :: cur) k) /\
      exists L', shuffle_loop (Datatypes.S todo) i (cut k (Datatypes.S todo) (p :: cur)) seqs L = Ok L')).
    - cbn [shuffle_loop]. rewrite Em. rewrite (IH (Datatypes.S i) cur seqs L S); [|lia|exact F].
      split; intros (k & H & T & L' & E); exists k; (split; [exact H|]); (split; [exact T|]); exists L';
        rewrite Cut in *; cbn [shuffle_loop] in *; rewrite Em in *; exact E.
    - intros [[_ T] _]. apply T. unfold is_empty, loc_is_empty in Em. apply N.eqb_eq in Em. rewrite Em. reflexivity. }
  destruct Rp as [Z|Rp]; [unfold is_empty in Em; rewrite Z in Em; discriminate|].
  destruct (nth_error seqs i) as [si|] eqn:En; [|apply nth_error_None in En; lia].
  destruct (is_pile p) eqn:Pp.
  { pose proof (regular_pile_loc Rp Pp) as Lp.
    destruct (Z.leb_spec (p_con p) 1) as [Hc|Hc].
    - split.
      + intros _. exists 0%nat. split; [lia|]. split; [split; assumption|]. unfold cut. cbn [firstn app].
        rewrite loop_nothing. eauto.
      + intros _. cbn [shuffle_loop]. rewrite Em, En. cbn [or_ub obind].
        rewrite pile_not_zone by assumption. reflexivity.
    - assert (Ab : forall cur', shuffle_loop (Datatypes.S todo) i (p :: cur') seqs L = Abort).
      { intros cur'. cbn [shuffle_loop]. rewrite Em, En. cbn [or_ub obind]. unfold zone_ref.
        destruct (Z.leb_spec (p_con p) 1); [lia|reflexivity]. }
      rewrite Ab. split; [discriminate|]. intros ([|k] & H & T & L' & E).
      + cbn in T. lia.
      + rewrite Cut, Ab in E. discriminate. }
  destruct (regular_zone_loc Rp Pp) as [_ [_ Il]].
  rewrite (Shift (fun k => trap (nth_error (p :: cur) k) /\
    exists L', shuffle_loop (Datatypes.S todo) i (cut k (Datatypes.S todo) (p :: cur)) seqs L = Ok L')).
  2: { intros [[_ T] _]. apply T.
       destruct (assocN (p_loc p) pile_table) eqn:A; [|reflexivity]. exfalso.
       unfold pile_table in A. cbn [assocN] in A. unfold is_pile in Pp.
       repeat match type of A with context [p_loc p =? ?x] =>
         destruct (N.eqb_spec (p_loc p) x) as [X|]; [rewrite X in Pp; discriminate Pp|] end. discriminate. }
  assert (Step : (forall cur', shuffle_loop (Datatypes.S todo) i (p :: cur') seqs L = Abort) \/
    exists L1 seqs', shape L1 /\ length seqs' = length seqs /\
      forall cur', shuffle_loop (Datatypes.S todo) i (p :: cur') seqs L = shuffle_loop todo (Datatypes.S i) cur' seqs' L1).
  { cbn [shuffle_loop]. rewrite Em, En. cbn [or_ub obind].
    destruct (@zone_ref_orderly (p_con p) (p_loc p) si (proj1 Rp) Il) as [[ra Za]|Za]; rewrite Za; [|now left].
    destruct (regular_zone Rp Pp) as [[rb Zb]|Zb]; rewrite Zb; cbn [obind]; [|now left].
    assert (Za' : zone_of (mkPlace (p_con p) (p_loc p) si 0) = Ok ra) by exact Za.
    unfold swap_zones.
    pose proof (valid_zone_some _ _ _ S Za') as Ga. pose proof (valid_zone_some _ _ _ S Zb) as Gb.
    unfold read_zone. destruct (get_zone ra L) as [za|]; [|congruence].
    destruct (get_zone rb L) as [zb|]; [|congruence]. cbn [or_ub obind]. right.
    eexists _, _. split; [|split; [|intros; reflexivity]]; [auto using shape_set_zone|].
    now rewrite upd_len, replace_first_length. }
  destruct Step as [Ab|(L1 & seqs' & S1 & Ls & Go)].
  - rewrite Ab. split; [discriminate|]. intros (k & H & T & L' & E). rewrite Cut, Ab in E. discriminate.
  - rewrite Go. rewrite (IH (Datatypes.S i) cur seqs' L1 S1); [|lia|exact F].
    split; intros (k & H & T & L' & E); exists k; (split; [exact H|]); (split; [exact T|]); exists L';
      rewrite Cut, Go in *; exact E.
Qed.

Lemma shuffle_ub : forall prev cur L, shape L -> orderly (shuffle_seqs prev L) ->
  Forall (fun p => p_loc p = 0 \/ regular p) cur ->
  card_shuffle prev cur L = UB <-> shuffle_fatal prev cur L.
Proof.
  intros prev cur L S O F. unfold shuffle_fatal, card_shuffle. destruct prev as [|p0 prev].
  { split; auto. }
  remember (p0 :: prev) as pr eqn:E.
  assert (Ne : pr <> []) by (subst; discriminate).
  transitivity (exists i, (i < length pr)%nat /\ trap (nth_error cur i) /\ exists L',
    (assert_ (negb (is_pile p0)) ;;! assert_ (lenN pr <=? 7) ;;!
     let! seqs := shuffle_seqs pr L in shuffle_loop (length pr) 0 (cut i (length pr) cur) seqs L) = Ok L').
  2: { split; [now right|]. intros [X|X]; [contradiction|exact X]. }
  destruct (negb (is_pile p0)); cbn [assert_ obind].
  2: { split; [discriminate|]. intros (i & _ & _ & L' & X). discriminate. }
  destruct (lenN pr <=? 7); cbn [assert_ obind].
  2: { split; [discriminate|]. intros (i & _ & _ & L' & X). discriminate. }
  destruct O as [[seqs Es]|Es].
  2: { rewrite Es. cbn [obind]. split; [discriminate|]. intros (i & _ & _ & L' & X). discriminate. }
  rewrite Es. cbn [obind]. apply loop_ub; auto. rewrite (seqs_length _ _ Es). lia.
Qed.
