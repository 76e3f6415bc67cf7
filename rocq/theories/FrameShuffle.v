(** card_shuffle realises the announced assignment. *)
From Coq Require Import Permutation.
From Verif Require Import Base BaseProofs Place PlaceProofs Frame FrameSpec FrameLens
  FrameProofs FrameMove FrameOps FramePiles FrameInv.

Local Open Scope N_scope.

Lemma zone_of_named : forall p r, zone_of p = Ok r <-> zone_named p = Some r.
Proof.
  intros [con loc seq oseq] r. rewrite zone_of_slot.
  unfold slot, zslot, zone_named, not_mat. simpl p_con. simpl p_loc. simpl p_seq. simpl p_oseq.
  destruct (side_of_con con); [|split; [discriminate|discriminate]].
  unfold pile_table, zone_table. simpl assocN.
  repeat match goal with
  | |- context [loc =? ?x] => destruct (N.eqb_spec loc x) as [->|?]
  end; simpl; try match goal with
  | |- context [seq <? ?x] => destruct (seq <? x)
  end; destruct (oseq <? 0)%Z; split; intros H; try discriminate; try (injection H as <-; reflexivity).
Qed.

Lemma nth_error_replace_first : forall l x v j, NoDup l ->
  nth_error (replace_first x v l) j =
    match nth_error l j with
    | Some y => if y =? x then Some v else Some y
    | None => None
    end.
Proof.
  induction l as [|y l IH]; intros x v j ND; simpl.
  - destruct j; reflexivity.
  - inversion ND; subst. destruct (N.eqb_spec y x) as [->|N].
    + destruct j as [|j]; simpl.
      * rewrite N.eqb_refl. reflexivity.
      * destruct (nth_error l j) as [z|] eqn:E; auto.
        destruct (N.eqb_spec z x) as [->|]; auto. exfalso. apply H1. eapply nth_error_In; eauto.
    + destruct j as [|j]; simpl.
      * destruct (N.eqb_spec y x); congruence.
      * apply IH; auto.
Qed.

Lemma replace_first_length : forall l x v, length (replace_first x v l) = length l.
Proof. induction l; intros; simpl; auto. destruct (a =? x); simpl; auto. Qed.

(** One iteration's effect on the bookkeeping. *)
Lemma nth_error_step : forall l i a p j, NoDup l -> nth_error l i = Some a ->
  nth_error (upd i p (replace_first p a l)) j =
    match nth_error l j with
    | Some y => if Nat.eq_dec j i then Some p else if y =? p then Some a else Some y
    | None => None
    end.
Proof.
  intros l i a p j ND H. destruct (Nat.eq_dec j i) as [->|N].
  - rewrite H. apply upd_same. rewrite replace_first_length. apply nth_error_Some. congruence.
  - rewrite upd_other by auto. apply nth_error_replace_first; auto.
Qed.

Lemma NoDup_nth_error' : forall (l : list N), NoDup l <->
  (forall i j x, nth_error l i = Some x -> nth_error l j = Some x -> i = j).
Proof.
  intros l. rewrite NoDup_nth_error. split.
  - intros H i j x Hi Hj. apply H; [|congruence]. apply nth_error_Some. congruence.
  - intros H i j Li E. apply nth_error_Some in Li. destruct (nth_error l i) eqn:E'; [|congruence].
    eapply H; eauto.
Qed.

Lemma nodup_step : forall l i a p, NoDup l -> nth_error l i = Some a ->
  NoDup (upd i p (replace_first p a l)).
Proof.
  intros l i a p ND H. apply NoDup_nth_error'. intros j k x Hj Hk.
  rewrite (nth_error_step l i a p j ND H) in Hj. rewrite (nth_error_step l i a p k ND H) in Hk.
  pose proof (proj1 (NoDup_nth_error' l) ND) as U.
  destruct (nth_error l j) as [y|] eqn:Ej; [|discriminate].
  destruct (nth_error l k) as [z|] eqn:Ek; [|discriminate].
  destruct (Nat.eq_dec j i) as [->|Nj], (Nat.eq_dec k i) as [->|Nk]; auto.
  - injection Hj as <-. rewrite H in Ej. injection Ej as <-.
    destruct (N.eqb_spec z p) as [->|Nz]; injection Hk as Hk; [|congruence]. subst.
    eapply U; eauto.
  - injection Hk as <-. rewrite H in Ek. injection Ek as <-.
    destruct (N.eqb_spec y p) as [->|Ny]; injection Hj as Hj; [|congruence]. subst.
    eapply U; eauto.
  - destruct (N.eqb_spec y p) as [->|Ny], (N.eqb_spec z p) as [->|Nz];
      injection Hj as Hj; injection Hk as Hk; subst.
    + eapply U; eauto.
    + exfalso. apply Nk. eapply U; eauto.
    + exfalso. apply Nj. eapply U; eauto.
    + eapply U; eauto.
Qed.

Section Shuffle.
Variables (con : Z) (loc : N) (c : bool) (z : zloc).
Variable (lim : N).
Hypothesis Hzone : forall s r, zone_ref con loc s = Ok r <-> s < lim /\ r = (c, z, N.to_nat s).

Definition zat (L : layout) (s : N) : option zone := get_zone (c, z, N.to_nat s) L.
Definition nonempty (p : place) : bool := negb (is_empty p).

Definition tracks (L0 L : layout) (s0 seqs : list N) : Prop :=
  length seqs = length s0 /\ NoDup seqs /\
  forall j s t, nth_error seqs j = Some s -> nth_error s0 j = Some t -> zat L s = zat L0 t.

(** Only zones of this row change, and they are permuted. *)
Definition row (L : layout) : list zone := get_zones z (sel c (l_field L)).
Definition only_row (L0 L : layout) : Prop :=
  (forall r, get_pile r L = get_pile r L0) /\
  (forall c' z' i, (c', z') <> (c, z) -> get_zone (c', z', i) L = get_zone (c', z', i) L0) /\
  Permutation (row L) (row L0).

Lemma only_row_refl : forall L, only_row L L.
Proof. intros. repeat split; auto. Qed.
Lemma only_row_trans : forall A B D, only_row A B -> only_row B D -> only_row A D.
Proof.
  intros A B D [P1 [Z1 Q1]] [P2 [Z2 Q2]]. repeat split.
  - intros. rewrite P2. auto.
  - intros. rewrite Z2 by auto. auto.
  - etransitivity; eauto.
Qed.

Lemma perm_swap_upd : forall A (l : list A) i j x y,
  nth_error l i = Some x -> nth_error l j = Some y -> Permutation (upd j x (upd i y l)) l.
Proof.
  intros A l i j x y Hi Hj. apply Permutation_sym, Permutation_nth_error.
  rewrite !upd_length. split; auto.
  exists (fun k => if Nat.eq_dec k i then j else if Nat.eq_dec k j then i else k). split.
  - intros a b. destruct (Nat.eq_dec a i), (Nat.eq_dec a j), (Nat.eq_dec b i), (Nat.eq_dec b j); lia.
  - intros k. destruct (Nat.eq_dec k i) as [->|Ni].
    + destruct (Nat.eq_dec j i) as [->|N].
      * rewrite upd_upd. rewrite upd_same; [congruence|]. apply nth_error_Some; congruence.
      * rewrite upd_other by auto. rewrite upd_same; [congruence|]. apply nth_error_Some; congruence.
    + destruct (Nat.eq_dec k j) as [->|Nj].
      * rewrite upd_same; [auto|]. rewrite upd_length. apply nth_error_Some; congruence.
      * rewrite !upd_other by auto. auto.
Qed.
Lemma get_zone_row : forall L i, get_zone (c, z, i) L = nth_error (row L) i.
Proof. reflexivity. Qed.

Lemma row_set_zone : forall L i v, row (set_zone (c, z, i) v L) = upd i v (row L).
Proof.
  intros. unfold row, set_zone, set_field, sel, put2. destruct L. simpl. destruct l_field as [[] []].
  destruct c; simpl; destruct z; reflexivity.
Qed.

Lemma swap_zones_at : forall a b L L',
  swap_zones (c, z, N.to_nat a) (c, z, N.to_nat b) L = Ok L' ->
  only_row L L' /\ zat L' a = zat L b /\ zat L' b = zat L a /\ (forall s, s <> a -> s <> b -> zat L' s = zat L s).
Proof.
  intros a b L L' H. apply swap_zones_Ok in H. destruct H as [za [zb [Ga [Gb ->]]]].
  assert (A : get_zone (c, z, N.to_nat b) (set_zone (c, z, N.to_nat a) zb L) <> None).
  { apply set_zone_some. congruence. }
  unfold zat. split; [|split; [|split]].
  - repeat split.
    + intros. rewrite !get_pile_set_zone. reflexivity.
    + intros c' z' i N. rewrite !get_set_zone_other by congruence. reflexivity.
    + rewrite !row_set_zone. apply perm_swap_upd.
      * rewrite <- get_zone_row. exact Ga.
      * rewrite <- get_zone_row. exact Gb.
  - destruct (N.eq_dec a b) as [<-|N].
    + rewrite get_set_zone_same by auto. congruence.
    + rewrite get_set_zone_other by (intros E; apply N; injection E; lia).
      rewrite get_set_zone_same by congruence. congruence.
  - rewrite get_set_zone_same by auto. congruence.
  - intros s Na Nb. rewrite !get_set_zone_other; auto; intros E; injection E; lia.
Qed.

Definition in_row (p : place) : Prop := p_con p = con /\ p_loc p = loc.
Definition curseqs (cur : list place) : list N := map p_seq (filter nonempty cur).

Lemma loop_step : forall todo i p cur seqs L L', is_empty p = false ->
  in_row p ->
  shuffle_loop (S todo) i (p :: cur) seqs L = Ok L' ->
  exists a L1, nth_error seqs i = Some a /\ a < lim /\ p_seq p < lim /\
    swap_zones (c, z, N.to_nat a) (c, z, N.to_nat (p_seq p)) L = Ok L1 /\
    shuffle_loop todo (S i) cur (upd i (p_seq p) (replace_first (p_seq p) a seqs)) L1 = Ok L'.
Proof.
  intros todo i p cur seqs L L' E [Hc Hl] H. cbn [shuffle_loop] in H. rewrite E in H. inv_ok.
  unfold zone_of in *. rewrite Hc, Hl in *.
  repeat match goal with
  | H : zone_ref con loc _ = Ok _ |- _ => apply Hzone in H; destruct H as [? ->]
  end. eauto 8.
Qed.

Lemma loop_ok : forall L0 s0 todo i cur seqs L L',
  (forall p, In p cur -> is_empty p = false -> in_row p) ->
  NoDup (curseqs cur) ->
  tracks L0 L s0 seqs ->
  shuffle_loop todo i cur seqs L = Ok L' ->
  exists seqs', tracks L0 L' s0 seqs' /\ only_row L L' /\
    (forall j q, (j < todo)%nat -> nth_error cur j = Some q -> is_empty q = false ->
       nth_error seqs' (i + j) = Some (p_seq q)) /\
    (forall j s, (j < i)%nat -> nth_error seqs j = Some s -> ~ In s (curseqs cur) ->
       nth_error seqs' j = Some s) /\
    (forall s, ~ In s seqs -> ~ In s (curseqs cur) -> zat L' s = zat L s).
Proof.
  intros L0 s0. induction todo as [|todo IH]; intros i cur seqs L L' Hr ND T H.
  - injection H as <-. exists seqs. repeat split; auto using only_row_refl; try apply T. lia.
  - destruct cur as [|p cur]; [discriminate|].
    destruct (is_empty p) eqn:E.
    + simpl in H. rewrite E in H.
      assert (Ec : curseqs (p :: cur) = curseqs cur).
      { unfold curseqs, nonempty. simpl. rewrite E. reflexivity. }
      rewrite Ec in *.
      destruct (IH (S i) cur seqs L L') as [s' [T' [O' [A [B D]]]]]; auto.
      { intros; apply Hr; simpl; auto. }
      exists s'. repeat split; auto; try apply T'; try apply O'.
      intros [|j] q Hj Hq Eq; simpl in Hq.
      * congruence.
      * replace (i + S j)%nat with (S i + j)%nat by lia. apply A; auto. lia.
    + destruct (loop_step todo i p cur seqs L L' E) as [a [L1 [Ha [La [Lp [Hs Hl]]]]]]; auto.
      { apply Hr; simpl; auto. }
      destruct (swap_zones_at _ _ _ _ Hs) as [O1 [Z1 [Z2 Z3]]].
      assert (Ec : curseqs (p :: cur) = p_seq p :: curseqs cur).
      { unfold curseqs, nonempty. simpl. rewrite E. reflexivity. }
      rewrite Ec in *. inversion ND as [|? ? Nin ND']; subst.
      destruct T as [TL [TN TZ]].
      set (seqs1 := upd i (p_seq p) (replace_first (p_seq p) a seqs)) in *.
      assert (NS := nth_error_step seqs i a (p_seq p)).
      assert (T1 : tracks L0 L1 s0 seqs1).
      { split; [|split].
        - unfold seqs1. rewrite upd_length, replace_first_length. auto.
        - apply nodup_step; auto.
        - intros j s t Hj Ht. unfold seqs1 in Hj. rewrite NS in Hj by auto.
          destruct (nth_error seqs j) as [y|] eqn:Ej; [|discriminate].
          destruct (Nat.eq_dec j i) as [->|Nj].
          + injection Hj as <-. rewrite Z2. eapply TZ; eauto.
          + destruct (N.eqb_spec y (p_seq p)) as [->|Ny]; injection Hj as <-.
            * rewrite Z1. eapply TZ; eauto.
            * rewrite Z3; auto; [eapply TZ; eauto|]. intros ->.
              apply Nj. eapply (proj1 (NoDup_nth_error' seqs)); eauto. }
      destruct (IH (S i) cur seqs1 L1 L') as [s' [T' [O' [A [B D]]]]]; auto.
      { intros; apply Hr; simpl; auto. }
      exists s'. split; [auto|]. split; [eapply only_row_trans; eauto|]. split; [|split].
      * intros [|j] q Hj Hq Eq; simpl in Hq.
        -- injection Hq as <-. rewrite Nat.add_0_r. apply B; auto.
           unfold seqs1. rewrite NS, Ha by auto. destruct (Nat.eq_dec i i); congruence.
        -- replace (i + S j)%nat with (S i + j)%nat by lia. apply A; auto. lia.
      * intros j s Hj Hs' Hn. simpl in Hn. apply B; [lia| |tauto].
        unfold seqs1. rewrite NS, Hs' by auto. destruct (Nat.eq_dec j i); [lia|].
        destruct (N.eqb_spec s (p_seq p)); [subst; tauto|auto].
      * intros s N1 N2. simpl in N2. rewrite D.
        -- apply Z3; [|intros ->; tauto]. intros ->. apply N1. eapply nth_error_In; eauto.
        -- intros I. apply In_nth_error in I. destruct I as [j I].
           unfold seqs1 in I. rewrite NS in I by auto.
           destruct (nth_error seqs j) as [y|] eqn:Ej; [|discriminate].
           destruct (Nat.eq_dec j i); [injection I; tauto|].
           destruct (y =? p_seq p); injection I as <-; apply N1; eapply nth_error_In; eauto.
        -- tauto.
Qed.

Lemma loop_runs : forall todo i cur seqs L,
  (forall s, s < lim -> zat L s <> None) ->
  (forall p, In p cur -> is_empty p = false -> in_row p /\ p_seq p < lim) ->
  (forall s, In s seqs -> s < lim) -> (i + todo <= length seqs)%nat -> (todo <= length cur)%nat ->
  exists L', shuffle_loop todo i cur seqs L = Ok L'.
Proof.
  induction todo as [|todo IH]; intros i cur seqs L HL Hr Hs Hi Hc; [simpl; eauto|].
  destruct cur as [|p cur]; [simpl in Hc; lia|]. simpl in Hc. simpl.
  destruct (is_empty p) eqn:E.
  - apply IH; auto; try lia. intros; apply Hr; simpl; auto.
  - destruct (Hr p) as [[Rc Rl] Rs]; [simpl; auto|auto|].
    destruct (nth_error seqs i) as [a|] eqn:Ha; [|apply nth_error_None in Ha; lia].
    assert (La : a < lim) by (apply Hs; eapply nth_error_In; eauto).
    simpl. unfold zone_of. rewrite Rc, Rl.
    rewrite (proj2 (Hzone a _) (conj La eq_refl)), (proj2 (Hzone (p_seq p) _) (conj Rs eq_refl)).
    simpl.
    assert (Za := HL a La). assert (Zp := HL _ Rs). unfold zat in Za, Zp.
    destruct (get_zone (c, z, N.to_nat a) L) as [za|] eqn:Ga; [|congruence].
    destruct (get_zone (c, z, N.to_nat (p_seq p)) L) as [zp|] eqn:Gp; [|congruence].
    assert (X := proj2 (swap_zones_Ok (c, z, N.to_nat a) (c, z, N.to_nat (p_seq p)) L _)
              (ex_intro _ za (ex_intro _ zp (conj Ga (conj Gp eq_refl))))).
    rewrite X. cbn [obind]. apply IH; try lia.
    + intros s Ls. unfold zat. apply set_zone_some, set_zone_some. apply HL; auto.
    + intros; apply Hr; simpl; auto.
    + intros s I. apply In_nth_error in I. destruct I as [j I].
      destruct (Nat.eq_dec j i) as [->|Nj].
      * rewrite upd_same in I; [injection I as <-; auto|].
        rewrite replace_first_length. apply nth_error_Some. congruence.
      * rewrite upd_other in I by auto. apply nth_error_In in I.
        clear - I Hs La. induction seqs as [|y seqs IHs]; simpl in *; [tauto|].
        destruct (y =? p_seq p); simpl in I; destruct I as [<-|I]; auto.
    + rewrite upd_length, replace_first_length. lia.
Qed.
End Shuffle.

Lemma shuffle_seqs_Ok : forall prev L l, shuffle_seqs prev L = Ok l <->
  l = map p_seq prev /\ Forall (fun p => has_card p L = Ok true) prev.
Proof.
  induction prev as [|p prev IH]; intros L l; simpl.
  - split; [intros H; injection H as <-; auto|intros [-> _]; auto].
  - split.
    + intros H. inv_ok. match goal with H : shuffle_seqs _ _ = _ |- _ => apply IH in H; destruct H as [-> ?] end.
      subst. split; auto.
    + intros [-> F]. inversion F; subst. rewrite H1. simpl.
      rewrite (proj2 (IH L (map p_seq prev))); auto.
Qed.

Lemma zone_row : forall con loc s0 r0, zone_ref con loc s0 = Ok r0 ->
  exists c z lim, assocN loc zone_table = Some (z, lim) /\ side_of_con con = Some c /\
    forall s r, zone_ref con loc s = Ok r <-> s < lim /\ r = (c, z, N.to_nat s).
Proof.
  intros con loc s0 r0 H.
  assert (Q : forall s r, zone_ref con loc s = Ok r <-> zone_named (mkPlace con loc s 0) = Some r).
  { intros. rewrite <- zone_of_named. reflexivity. }
  apply Q in H. unfold zone_named in *. simpl p_con in *. simpl p_loc in *. simpl p_seq in *.
  destruct (side_of_con con) as [c|]; [|discriminate].
  destruct (assocN loc zone_table) as [[z lim]|]; [|discriminate].
  exists c, z, lim. split; auto. split; auto. intros s r. rewrite Q.
  destruct (N.ltb_spec s lim); split; intros K; try discriminate.
  - injection K as <-. auto.
  - destruct K as [_ ->]. auto.
  - destruct K. lia.
Qed.

(** The zones of a shape's row all exist. *)
Lemma row_zones : forall L loc z lim c s, shape L -> assocN loc zone_table = Some (z, lim) ->
  s < lim -> get_zone (c, z, N.to_nat s) L <> None.
Proof.
  intros L loc z lim c s K A Ls.
  assert (valid_z (c, z, N.to_nat s)).
  { unfold zone_table in A. simpl in A.
    repeat match type of A with
    | context [loc =? ?x] => destruct (loc =? x)
    end; try discriminate; injection A as <- <-; unfold valid_z; simpl; lia. }
  destruct (shape_get_zone L (c, z, N.to_nat s)) as [v E]; auto. congruence.
Qed.

Lemma lay_shape_loop : forall todo i cur seqs L L', shape L ->
  shuffle_loop todo i cur seqs L = Ok L' -> shape L'.
Proof.
  induction todo as [|todo IH]; intros i cur seqs L L' K H; simpl in H.
  - injection H as <-. auto.
  - destruct cur as [|p cur]; [discriminate|]. destruct (is_empty p); [eapply IH; eauto|].
    inv_ok. match goal with S : swap_zones _ _ _ = Ok _ |- _ => apply swap_zones_Ok in S;
      destruct S as [za [zb [Ga [Gb ->]]]] end.
    eapply IH; [|eauto]. apply shape_set_zone, shape_set_zone; auto.
Qed.

Lemma zone_view_zone : forall r r' L L', get_zone r L = get_zone r' L' ->
  zone_view r L = zone_view r' L'.
Proof. intros r r' L L' H. unfold zone_view, contents. rewrite H. reflexivity. Qed.

Lemma row_views : forall c z L, shape L ->
  map (fun i => zone_view (c, z, i) L) (seq 0 (zlen z)) =
  map (fun v => (match z_card v with Some x => [Some x] | None => [] end, z_mats v)) (row c z L).
Proof.
  intros c z L K. apply nth_error_ext. intros i. rewrite !nth_error_map.
  assert (LR : length (row c z L) = zlen z) by apply (K c z).
  destruct (lt_dec i (zlen z)) as [Li|Li].
  - rewrite (nth_error_nth' (seq 0 (zlen z)) 0%nat) by (rewrite seq_length; auto).
    rewrite seq_nth by auto. simpl. unfold zone_view, contents.
    rewrite get_zone_row.
    destruct (nth_error (row c z L) i) as [v|] eqn:E; [|apply nth_error_None in E; lia]. reflexivity.
  - rewrite (proj2 (nth_error_None (seq 0 (zlen z)) i)) by (rewrite seq_length; lia).
    rewrite (proj2 (nth_error_None (row c z L) i)) by lia. reflexivity.
Qed.

Lemma is_empty_loc : forall p, is_empty p = false <-> p_loc p <> 0.
Proof. intros p. unfold is_empty, loc_is_empty. apply N.eqb_neq. Qed.

Lemma filter_nonempty : forall cur, filter nonempty cur = filter disclosed cur.
Proof. reflexivity. Qed.

Lemma card_shuffle_Ok : forall prev cur L L', card_shuffle prev cur L = Ok L' <->
  prev <> [] /\ is_pile (hd (mkPlace 0 0 0 0) prev) = false /\ lenN prev <= 7 /\
  Forall (fun p => has_card p L = Ok true) prev /\
  shuffle_loop (length prev) 0 cur (map p_seq prev) L = Ok L'.
Proof.
  intros [|p prev] cur L L'.
  - split; [discriminate|intros [H _]; congruence].
  - unfold card_shuffle. split.
    + intros H. inv_ok.
      match goal with H : shuffle_seqs _ _ = _ |- _ => apply shuffle_seqs_Ok in H; destruct H as [-> ?] end.
      split; [discriminate|]. split; [simpl; destruct (is_pile p); simpl in *; congruence|].
      split; [apply N.leb_le; auto|]. auto.
    + intros [_ [Hp [Hl [F H]]]]. simpl hd in Hp. rewrite Hp. apply N.leb_le in Hl. rewrite Hl.
      cbn [negb assert_ obind].
      rewrite (proj2 (shuffle_seqs_Ok (p :: prev) L _) (conj eq_refl F)). exact H.
Qed.

Lemma shuffle_correct : forall con loc prev cur L L', shape L ->
  shuffle_input con loc prev cur -> card_shuffle prev cur L = Ok L' ->
  (forall i p q, nth_error prev i = Some p -> nth_error cur i = Some q -> p_loc q <> 0 ->
     exists rp rq, zone_named p = Some rp /\ zone_named q = Some rq /\
       zone_view rq L' = zone_view rp L) /\
  (forall r, ~ In (Some r) (map zone_named prev) ->
     ~ In (Some r) (map zone_named (filter disclosed cur)) ->
     zone_view r L' = zone_view r L) /\
  (forall r, contents (CPile r) L' = contents (CPile r) L) /\
  (forall c z, Permutation (map (fun i => zone_view (c, z, i) L') (seq 0 (zlen z)))
                           (map (fun i => zone_view (c, z, i) L) (seq 0 (zlen z)))).
Proof.
  intros con loc prev cur L L' K [Ip Ic Dp Dc Il] H.
  apply card_shuffle_Ok in H. destruct H as [Np [Pp [Lp [F H]]]].
  assert (ZR : exists s0 r0, zone_ref con loc s0 = Ok r0).
  { destruct prev as [|p0 prev]; [congruence|]. inversion F as [|? ? Hc _]; subst.
    apply has_card_Ok_slot in Hc. destruct Hc as [k [i Hc]].
    simpl in Pp. destruct (Ip p0) as [E1 E2]; [simpl; auto|].
    assert (Z : exists r, zone_named p0 = Some r).
    { clear - Pp Hc. destruct p0 as [con loc seq oseq]. unfold slot, zone_named in *. simpl p_con in *.
      simpl p_loc in *. simpl p_seq in *. destruct (side_of_con con); [|discriminate].
      unfold is_pile in Pp. simpl p_loc in Pp.
      assert (PZ : assocN loc pile_table = None).
      { clear - Pp. unfold pile_table. simpl.
        repeat match goal with
        | |- context [loc =? ?x] => destruct (N.eqb_spec loc x) as [->|?]; [discriminate Pp|]
        end. reflexivity. }
      rewrite PZ in Hc.
      destruct (assocN loc zone_table) as [[? ?]|]; [|discriminate].
      destruct (seq <? _); [eauto|discriminate]. }
    destruct Z as [r Z]. apply zone_of_named in Z. unfold zone_of in Z. rewrite E1, E2 in Z. eauto. }
  destruct ZR as [s0 [r0 ZR]]. destruct (zone_row _ _ _ _ ZR) as [c [z [lim [Az [Ac Hz]]]]].
  assert (NM : forall p, p_con p = con -> p_loc p = loc ->
     forall r, zone_named p = Some r <-> p_seq p < lim /\ r = (c, z, N.to_nat (p_seq p))).
  { intros p E1 E2 r. rewrite <- zone_of_named. unfold zone_of. rewrite E1, E2. apply Hz. }
  assert (ZP : forall p, In p prev -> p_seq p < lim).
  { intros p I. rewrite Forall_forall in F. assert (Hc := F p I). destruct (Ip p I) as [E1 E2].
    apply has_card_Ok_slot in Hc. destruct Hc as [k [i Hc]].
    assert (PZ : assocN loc pile_table = None).
    { clear - Az. unfold zone_table, pile_table in *. simpl in *.
      repeat match goal with
      | |- context [loc =? ?x] => destruct (N.eqb_spec loc x) as [->|?]; [discriminate|]
      end. reflexivity. }
    unfold slot in Hc. rewrite E1, E2, Ac, PZ, Az in Hc.
    destruct (N.ltb_spec (p_seq p) lim); [auto|discriminate]. }
  destruct (loop_ok con loc c z lim Hz L (map p_seq prev) (length prev) 0 cur (map p_seq prev) L L')
    as [seqs' [[TL [TN TZ]] [OR [A [_ D]]]]]; auto.
  { intros p I E. apply is_empty_loc in E. split; apply (Ic p); auto. }
  { split; auto. split; auto. intros j s t E1 E2. congruence. }
  assert (ZC : forall j q, nth_error cur j = Some q -> (j < length prev)%nat -> p_loc q <> 0 ->
             p_seq q < lim).
  { intros j q Hq Lj Nq. destruct (N.ltb_spec (p_seq q) lim) as [|Ge]; auto. exfalso.
    assert (Eq := proj2 (is_empty_loc q) Nq).
    assert (B := A j q Lj Hq Eq). simpl in B.
    destruct (nth_error (map p_seq prev) j) as [t|] eqn:Et;
      [|apply nth_error_None in Et; rewrite map_length in Et; lia].
    assert (C := TZ _ _ _ B Et).
    assert (Lt : t < lim).
    { rewrite nth_error_map in Et. destruct (nth_error prev j) eqn:Ep; [|discriminate].
      injection Et as <-. apply ZP. eapply nth_error_In; eauto. }
    assert (V := row_zones L loc z lim c t K Az Lt). unfold zat in C. rewrite <- C in V.
    assert (K' : shape L').
    { assert (X := lay_shape_loop _ _ _ _ _ _ K H). exact X. }
    destruct (get_zone (c, z, N.to_nat (p_seq q)) L') as [w|] eqn:G; [|congruence].
    apply (get_zone_valid L' _ w K') in G. simpl in G.
    unfold zone_table in Az. simpl in Az.
    repeat match type of Az with
    | context [loc =? ?x] => destruct (loc =? x)
    end; try discriminate; injection Az as <- <-; simpl in G; lia. }
  split; [|split; [|split]].
  - intros i p q Hp Hq Nq. destruct (Ip p) as [E1 E2]; [eapply nth_error_In; eauto|].
    destruct (Ic q) as [E3 E4]; [eapply nth_error_In; eauto|auto|].
    assert (Li : (i < length prev)%nat) by (apply nth_error_Some; congruence).
    exists (c, z, N.to_nat (p_seq p)), (c, z, N.to_nat (p_seq q)).
    split; [apply NM; auto; split; auto; apply ZP; eapply nth_error_In; eauto|].
    split; [apply NM; auto; split; auto; eapply ZC; eauto|].
    apply zone_view_zone. apply (TZ i).
    + apply (A i q); auto. apply is_empty_loc; auto.
    + rewrite nth_error_map, Hp. reflexivity.
  - intros [[c' z'] i] N1 N2. apply zone_view_zone.
    destruct (bool_dec c' c) as [->|Nc]; [destruct (zloc_eq_dec z' z) as [->|Nz]|].
    + destruct (lt_dec i (zlen z)) as [Li|Li].
      * assert (Lim : N.of_nat i < lim).
        { clear - Az Li. unfold zone_table in Az. simpl in Az.
          repeat match type of Az with
          | context [loc =? ?x] => destruct (loc =? x)
          end; try discriminate; injection Az as <- <-; simpl in Li; lia. }
        assert (X := D (N.of_nat i)). unfold zat in X. rewrite Nat2N.id in X. apply X.
        -- intros I. apply in_map_iff in I. destruct I as [p [E I]]. apply N1.
           apply in_map_iff. exists p. split; auto. destruct (Ip p I). apply NM; auto.
           rewrite E, Nat2N.id. auto.
        -- intros I. apply in_map_iff in I. destruct I as [p [E I]]. apply N2.
           apply in_map_iff. exists p. split; auto. rewrite filter_nonempty in I.
           assert (I' := I). apply filter_In in I'. destruct I' as [I' Q].
           destruct (Ic p); auto.
           { apply is_empty_loc. unfold disclosed in Q. unfold is_empty, loc_is_empty.
             destruct (N.eqb_spec (p_loc p) LOCATION_UNSPECIFIED); [|auto].
             unfold LOCATION_UNSPECIFIED in *. rewrite e in Q. discriminate. }
           apply NM; auto. rewrite E, Nat2N.id. auto.
      * assert (K' := lay_shape_loop _ _ _ _ _ _ K H).
        destruct (get_zone (c, z, i) L) eqn:G1.
        { apply get_zone_valid in G1; auto. simpl in G1. lia. }
        destruct (get_zone (c, z, i) L') eqn:G2; auto.
        apply get_zone_valid in G2; auto. simpl in G2. lia.
    + apply OR. congruence.
    + apply OR. congruence.
  - intros r. apply OR.
  - intros c' z'. assert (K' := lay_shape_loop _ _ _ _ _ _ K H).
    rewrite !row_views by auto. apply Permutation_map.
    destruct (bool_dec c' c) as [->|Nc]; [destruct (zloc_eq_dec z' z) as [->|Nz]|].
    + apply OR.
    + replace (row c z' L') with (row c z' L); auto. apply nth_error_ext. intros i.
      rewrite <- !get_zone_row. symmetry. apply OR. congruence.
    + replace (row c' z' L') with (row c' z' L); auto. apply nth_error_ext. intros i.
      rewrite <- !get_zone_row. symmetry. apply OR. congruence.
Qed.

Lemma shuffle_runs : forall con loc prev cur L, shape L ->
  shuffle_input con loc prev cur -> prev <> [] -> (length prev <= 7)%nat ->
  Forall (fun p => exists r, zone_named p = Some r) prev ->
  Forall (fun p => exists r, zone_named p = Some r) (filter disclosed cur) ->
  Forall (fun p => has_card p L = Ok true) prev ->
  exists L', card_shuffle prev cur L = Ok L'.
Proof.
  intros con loc prev cur L K [Ip Ic Dp Dc Il] Np Lp Vp Vc F.
  destruct prev as [|p0 prev0] eqn:Ep; [congruence|]. rewrite <- Ep in *.
  assert (I0 : In p0 prev) by (rewrite Ep; simpl; auto).
  destruct (Ip p0 I0) as [E1 E2].
  rewrite Forall_forall in Vp, Vc.
  destruct (Vp p0 I0) as [r0 Z0]. assert (Z0' := Z0). apply zone_of_named in Z0.
  unfold zone_of in Z0. rewrite E1, E2 in Z0.
  destruct (zone_row _ _ _ _ Z0) as [c [z [lim [Az [Ac Hz]]]]].
  assert (NM : forall p, p_con p = con -> p_loc p = loc ->
     forall r, zone_named p = Some r <-> p_seq p < lim /\ r = (c, z, N.to_nat (p_seq p))).
  { intros p Q1 Q2 r. rewrite <- zone_of_named. unfold zone_of. rewrite Q1, Q2. apply Hz. }
  destruct (loop_runs con loc c z lim Hz (length prev) 0 cur (map p_seq prev) L) as [L' H].
  - intros s Ls. eapply row_zones; eauto.
  - intros p I E. apply is_empty_loc in E. destruct (Ic p I E) as [Q1 Q2].
    split; [split; auto|]. destruct (Vc p) as [r Z].
    { apply filter_In. split; auto. unfold disclosed. apply N.eqb_neq in E. rewrite E. reflexivity. }
    apply NM in Z; auto. tauto.
  - intros s I. apply in_map_iff in I. destruct I as [p [<- I]]. destruct (Ip p I).
    destruct (Vp p I) as [r Z]. apply NM in Z; auto. tauto.
  - rewrite map_length. lia.
  - lia.
  - exists L'. apply card_shuffle_Ok. split; [subst; discriminate|]. split.
    + rewrite Ep. simpl. unfold is_pile, loc_is_pile. rewrite E2. clear - Az.
      unfold zone_table in Az. simpl in Az.
      repeat match type of Az with
      | context [loc =? ?x] => destruct (N.eqb_spec loc x) as [->|?]; [reflexivity|]
      end. discriminate.
    + split; [unfold lenN; lia|]. split; auto.
Qed.
