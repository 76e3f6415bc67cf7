(** C104: it does not matter where cards live in memory. *)
From Verif Require Import Base BaseProofs Place Frame FrameSpec FrameInv Msg Event Query EncodeQuery Encode EncodeState UReplaySpec LateSpec Rename
  FlipSpec Alloc AllocProofs AllocSpec.

Local Open Scope N_scope.

Lemma serve_s : forall A, sound_allocator A -> forall x a b,
  sb (fst a) (fst b) /\ snd a = snd b ->
  orel (fun a b => sb (fst a) (fst b) /\ snd a = snd b) (serve (pparse card0) x a) (serve (aparse A card0) x b).
Proof.
  intros A H x a b [K E]. destruct x as [e|u q]; cbn [serve].
  - apply orel_bind with (R := @sb card); [now apply parse_s|]. intros y z Q. cbn. now split.
  - destruct K as (g & (I & rho & J & ->) & K). rewrite K. cbn [set_frame b_frame].
    pose proof (query_m J u q (b_frame (fst a))) as X.
    destruct (parse_query u q (b_frame (fst a))) as [[h f]| | |] eqn:Q, (parse_query u q (mf rho _)) as [[h' f']| | |];
      cbn in X |- *; try contradiction; auto.
    destruct X as [-> ->]. rewrite E. split; [|reflexivity]. exists (mf rho f).
    cbn [fst b_frame set_frame]. split; [|reflexivity]. split; [|now exists rho].
    now apply (query_inv _ _ _ _ _ I Q).
Qed.

Lemma conserved_m : forall rho (f : frame card), one_one rho -> conserved f -> conserved (mf rho f).
Proof.
  intros rho f J [U L N].
  assert (O : forall pos, occupant (f_lay (mf rho f)) pos = option_map (rp rho) (occupant (f_lay f) pos)).
  { intros [k i]. unfold occupant. cbn [mf f_lay fst snd]. now rewrite contents_r, nth_r. }
  assert (V : forall id, live (mf rho f) id <-> exists i, live f i /\ id = rho i).
  { intros id. unfold live. cbn [mf f_heap]. rewrite keys_rh, in_map_iff. split; intros (i & P & Q); exists i; auto. }
  split.
  - intros id H. apply V in H as (i & H & ->). destruct (U i H) as (pos & P & Q). exists pos. split.
    + rewrite O, P. reflexivity.
    + intros pos' P'. apply Q. rewrite O in P'. destruct (occupant (f_lay f) pos') as [[j|]|]; try discriminate.
      cbn in P'. do 2 f_equal. apply J. congruence.
  - intros pos id P. rewrite O in P. destruct (occupant (f_lay f) pos) as [[j|]|] eqn:E; try discriminate.
    cbn in P. apply V. exists j. split; [now apply (L pos)|congruence].
  - intros pos P. rewrite O in P. apply (N pos). now destruct (occupant (f_lay f) pos) as [[j|]|].
Qed.

(** Whatever the server does, with cards wherever the allocator likes: the same
    outcome, and a board that looks the same; every query answers the same. *)
Theorem C104_memory : forall A l, sound_allocator A ->
  ends_alike (fun a b => same_view (fst a) (fst b) /\ snd a = snd b /\ conserved (b_frame (fst b)))
    (ofold (serve (pparse card0)) l (pboard0 card, []))
    (ofold (serve (aparse A card0)) l (pboard0 card, [])).
Proof.
  intros A l H.
  assert (K : orel (fun a b => sb (fst a) (fst b) /\ snd a = snd b)
    (ofold (serve (pparse card0)) l (pboard0 card, [])) (ofold (serve (aparse A card0)) l (pboard0 card, []))).
  { apply orel_fold; [apply (serve_s A H)|]. split; [|reflexivity]. exists (b_frame (pboard0 card)).
    split; [|reflexivity]. split; [apply inv0|]. exists (fun i => i). split; [now intros i j|reflexivity]. }
  destruct (ofold (serve (pparse card0)) l (pboard0 card, [])) as [[a x]| | |],
    (ofold (serve (aparse A card0)) l (pboard0 card, [])) as [[b y]| | |]; cbn [ends_alike orel fst snd] in K |- *; auto.
  destruct K as [(g & (I & rho & J & ->) & ->) ->]. split; [|split; [reflexivity|]].
  - split; cbn [set_frame b_frame].
    + now apply mf_alike.
    + cbn [mf f_heap]. unfold rh. rewrite map_map. reflexivity.
    + destruct a. reflexivity.
  - cbn [set_frame b_frame]. apply conserved_m; [exact J|]. now apply inv_conserved.
Qed.
Print Assumptions C104_memory.

(** The first free address: one card is added and removed again and again, so
    its address is used again and again. *)
Fixpoint least_free (n : nat) (k : N) (l : list cid) : cid :=
  match n with
  | O => k
  | S n' => if existsb (N.eqb k) l then least_free n' (k + 1) l else k
  end.
Definition first_fit : allocator := fun _ l => least_free (S (length l)) 0 l.

Lemma least_free_spec : forall n k l, (forall i, k <= i < k + N.of_nat n -> In i l) \/ ~ In (least_free n k l) l.
Proof.
  induction n as [|n IH]; intros k l; [left; lia|]. cbn [least_free]. destruct (existsb (N.eqb k) l) eqn:E.
  - apply existsb_exists in E as (x & X & Q). apply N.eqb_eq in Q. subst x.
    destruct (IH (k + 1) l) as [H|H]; [left|now right]. intros i B.
    destruct (N.eq_dec i k) as [->|]; [exact X|]. apply H. lia.
  - right. intro X. assert (existsb (N.eqb k) l = true) by (apply existsb_exists; exists k; now rewrite N.eqb_refl). congruence.
Qed.
Lemma first_fit_sound : sound_allocator first_fit.
Proof.
  intros k l. unfold first_fit. destruct (least_free_spec (S (length l)) 0 l) as [H|H]; [exfalso|exact H].
  assert (incl (map N.of_nat (seq 0 (S (length l)))) l).
  { intros i X. apply in_map_iff in X as (n & <- & X). apply in_seq in X. apply H. lia. }
  apply NoDup_incl_length in H0.
  - rewrite map_length, seq_length in H0. lia.
  - apply FinFun.Injective_map_NoDup; [intros x y; lia|apply seq_NoDup].
Qed.

Definition at_hand (s : N) : place := mkPlace 0 LOCATION_HAND s (-1)%Z.
Definition busy : list pcall :=
  [PParse (EvCard 0 (CardAdd [at_hand 0; at_hand 1])); PParse (EvCard 0 (CardRemove [at_hand 0]));
   PParse (EvCard 0 (CardAdd [at_hand 1; at_hand 1]));
   PQuery true (mkQuery (at_hand 2) (qset_code (Some 77) qdata0)); PParse (EvCard 0 (CardRemove [at_hand 1]))].
Example C104_ex : sound_allocator first_fit /\
  exists a b x, ofold (serve (pparse card0)) busy (pboard0 card, []) = Ok (a, x) /\
    ofold (serve (aparse first_fit card0)) busy (pboard0 card, []) = Ok (b, x) /\
    map fst (f_heap (b_frame a)) = [2; 1] /\ map fst (f_heap (b_frame b)) = [0; 1] /\
    contents (CPile (false, LHand)) (f_lay (b_frame b)) = [Some 1; Some 0].
Proof. split; [apply first_fit_sound|]. eexists _, _, _. vm_compute. repeat split. Qed.
