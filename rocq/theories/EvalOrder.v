(** The two calls of frame.hpp in which C++ leaves the order of evaluation open
    and both arguments may fail: [std::swap(zone(...), zone(p))] (line 331) and
    [std::swap(pile(a), pile(b))] (line 464).  [Frame.v] evaluates the first
    argument first; here is the other order. *)
From Verif Require Import Base Place Frame FrameSpec HazardSpec.

Set Implicit Arguments.
Local Open Scope N_scope.

(** frame.hpp:459-465, right to left. *)
Definition pile_swap_rl (a b : place) (L : layout) : outcome layout :=
  assert_ (is_pile a) ;;!
  assert_ (is_pile b) ;;!
  let! rb := pile_of b in
  let! ra := pile_of a in
  let la := get_pile ra L in
  let lb := get_pile rb L in
  Ok (set_pile rb la (set_pile ra lb L)).

(** frame.hpp:326-341, right to left. *)
Fixpoint shuffle_loop_rl (todo i : nat) (cur : list place) (seqs : list N) (L : layout)
  : outcome layout :=
  match todo with
  | O => Ok L
  | S todo' =>
      match cur with
      | [] => UB
      | p :: cur' =>
          if is_empty p then shuffle_loop_rl todo' (S i) cur' seqs L
          else
            let! si := or_ub (nth_error seqs i) in
            let! b := zone_of p in
            let! a := zone_ref (p_con p) (p_loc p) si in
            let! L' := swap_zones a b L in
            let seqs' := upd i (p_seq p) (replace_first (p_seq p) si seqs) in
            shuffle_loop_rl todo' (S i) cur' seqs' L'
      end
  end.

(** frame.hpp:310-342, right to left. *)
Definition card_shuffle_rl (prev cur : list place) (L : layout) : outcome layout :=
  match prev with
  | [] => UB
  | p0 :: _ =>
      assert_ (negb (is_pile p0)) ;;!
      assert_ (lenN prev <=? 7) ;;!
      let! seqs := shuffle_seqs prev L in
      shuffle_loop_rl (length prev) 0 cur seqs L
  end.

Lemma con_index_pos : forall c, (0 <= c)%Z -> (c <=? 1)%Z = true -> exists b, con_index c = Ok b.
Proof.
  intros c H K. apply Z.leb_le in K. unfold con_index.
  destruct (Z.eqb_spec c 0); [eauto|]. destruct (Z.eqb_spec c 1); [eauto|lia].
Qed.

Lemma pile_of_kind : forall p, regular p -> is_pile p = true ->
  pile_of p = Abort \/ exists r, pile_of p = Ok r.
Proof.
  intros p [H R] K. unfold pile_of, pile_ref. unfold is_pile in K. rewrite K.
  destruct (p_con p <=? 1)%Z eqn:E; [|now left]. right.
  destruct (con_index_pos H E) as [b ->].
  cbn in R. repeat (destruct R as [R|R]; [rewrite <- R in *; try discriminate K; cbn; eauto|]). destruct R.
Qed.

Lemma pile_swap_order : forall a b L, regular a -> regular b ->
  pile_swap_rl a b L = pile_swap a b L.
Proof.
  intros a b L Ha Hb. unfold pile_swap, pile_swap_rl.
  destruct (is_pile a) eqn:Pa; [|reflexivity]. destruct (is_pile b) eqn:Pb; [|reflexivity]. cbn [assert_ obind].
  destruct (pile_of_kind Ha Pa) as [-> |[ra ->]], (pile_of_kind Hb Pb) as [-> |[rb ->]]; reflexivity.
Qed.

(** Two zones of the same controller and location. *)
Lemma zone_refs_order : forall con loc s t K, (0 <= con)%Z ->
  (let! b := zone_ref con loc t in let! a := zone_ref con loc s in K a b) =
  (let! a := zone_ref con loc s in let! b := zone_ref con loc t in K a b) :> outcome layout.
Proof.
  intros con loc s t K H. unfold zone_ref.
  destruct (con <=? 1)%Z eqn:E; [|reflexivity]. cbn [assert_ obind].
  destruct (zone_seq_lim loc) as [lim| | |] eqn:Z; try reflexivity. cbn [obind].
  destruct (con_index_pos H E) as [b ->]. cbn [obind].
  assert (A : exists z, side_at loc = Ok z).
  { unfold zone_seq_lim in Z. unfold side_at.
    repeat match type of Z with context [loc =? ?l] => destruct (N.eqb_spec loc l); [subst; cbn; eauto|] end.
    discriminate. }
  destruct A as [z ->]. destruct (s <? lim), (t <? lim); reflexivity.
Qed.

Lemma shuffle_loop_order : forall todo i cur seqs L, Forall (fun p => p_loc p = 0 \/ (0 <= p_con p)%Z) cur ->
  shuffle_loop_rl todo i cur seqs L = shuffle_loop todo i cur seqs L.
Proof.
  induction todo as [|todo IH]; intros i cur seqs L F; [reflexivity|]. cbn [shuffle_loop shuffle_loop_rl].
  destruct F as [|p cur Hp F]; [reflexivity|].
  destruct (is_empty p) eqn:E; [now apply IH|].
  destruct (or_ub (nth_error seqs i)) as [si| | |]; try reflexivity. cbn [obind].
  assert (H : (0 <= p_con p)%Z).
  { destruct Hp as [Hp|]; [|assumption]. unfold is_empty, loc_is_empty in E. rewrite Hp in E. discriminate. }
  unfold zone_of.
  rewrite (@zone_refs_order _ _ _ _ (fun a b => let! L' := swap_zones a b L in
    shuffle_loop_rl todo (S i) cur (upd i (p_seq p) (replace_first (p_seq p) si seqs)) L') H).
  destruct (zone_ref _ _ si); try reflexivity. cbn [obind].
  destruct (zone_ref _ _ (p_seq p)); try reflexivity. cbn [obind].
  destruct (swap_zones _ _ L); try reflexivity. cbn [obind]. now apply IH.
Qed.

Lemma card_shuffle_order : forall prev cur L, Forall (fun p => p_loc p = 0 \/ (0 <= p_con p)%Z) cur ->
  card_shuffle_rl prev cur L = card_shuffle prev cur L.
Proof.
  intros [|p0 prev] cur L F; [reflexivity|]. unfold card_shuffle, card_shuffle_rl.
  destruct (is_pile p0); [reflexivity|]. cbn [negb assert_ obind].
  destruct (lenN (p0 :: prev) <=? 7); [|reflexivity]. cbn [assert_ obind].
  destruct (shuffle_seqs (p0 :: prev) L); try reflexivity. cbn [obind]. now apply shuffle_loop_order.
Qed.
