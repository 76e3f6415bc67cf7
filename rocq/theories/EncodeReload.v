(** Start messages and field reloads, from the bytes to the board. *)
From Verif Require Import Base BaseProofs Place PlaceProofs Frame FrameSpec FrameLens FrameProofs FrameInv
  Msg Event EventSpec EventProofs Query QuerySpec.
From Verif Require Import Encode CoreMsg EncodeSpec EncodeQueryProofs EncodeState EncodeE2E.

Local Open Scope N_scope.
Local Opaque le_bytes ser_loc ser_loc4 ser_loc1 ser_loc44 ser_effect ser_counter bb bi4.

Lemma state_feed : forall m c s rest, ctx_sound c -> core_ok m ->
  core_event m = Some (EvBoard (BoardState s)) -> state_ok s ->
  exists c' l0 l1 l, feed c (ser m ++ rest) = Ok c' /\ bs_lps s = l0 :: l1 :: l /\
    b_lp (cx_board c') = (l0, l1) /\ b_chain (cx_board c') = bs_chains s /\
    b_turn (cx_board c') =
      (if (0 <=? bs_turn_counter s)%Z then Z.to_N (bs_turn_counter s) else b_turn (cx_board c)) /\
    (forall k, length (contents k (ctx_layout c')) = described s k) /\
    (forall id x, In (id, x) (f_heap (b_frame (cx_board c'))) -> x = card0) /\
    agree_but [MLp; MChain; MFrame; MTurn] (cx_board c) (cx_board c') /\
    cx_mwr c' = cx_mwr c /\ cx_left c' = cx_left c /\ cx_deferred c' = cx_deferred c.
Proof.
  intros m c s rest S K E Ok_s. apply sound_inv in S.
  pose proof (event_encode m _ K E c rest) as En. rewrite (feed_event _ _ _ _ _ En).
  destruct (state_run card card0 s (cx_board c) S) as [R X].
  destruct (proj2 R Ok_s) as [b P]. rewrite P. cbn [obind].
  destruct (X b P) as (F & Kn & _ & l0 & l1 & l & El & Lp & Ch & T & Tc & Ph & Bl).
  exists (set_board b c), l0, l1, l. split; [reflexivity|]. split; [exact El|].
  cbn [set_board cx_board cx_mwr cx_left cx_deferred]. split; [exact Lp|]. split; [exact Ch|].
  split; [exact T|]. split; [exact Kn|]. split.
  { intros id x Hin. unfold fresh in F. rewrite Forall_forall in F. apply (F _ Hin). }
  split; [|repeat split].
  unfold agree_but. repeat split; intros Hm; auto; exfalso; apply Hm; simpl; auto 10.
Qed.

(** ** Start *)
Lemma start_ok : forall r lp0 lp1 md0 ed0 md1 ed1 s,
  core_event (CmStart r lp0 lp1 md0 ed0 md1 ed1) = Some (EvBoard (BoardState s)) ->
  state_ok s /\ bs_lps s = [lp0; lp1] /\ bs_chains s = [] /\ bs_turn_counter s = 0%Z /\
  forall k, described s k = N.to_nat (start_count md0 ed0 md1 ed1 k).
Proof.
  intros r lp0 lp1 md0 ed0 md1 ed1 s H. cbn [core_event] in H. inversion H; subst s. clear H.
  cbn [bs_lps bs_chains bs_turn_counter]. split; [|split; [|split; [|split]]]; try reflexivity.
  - split; [cbn; lia|]. split; [exact I|]. cbn [bs_resize].
    repeat (apply Forall_cons; [do 2 eexists; reflexivity|]). apply Forall_nil.
  - intros k. unfold described. cbn [bs_resize bs_add fold_left].
    destruct k as [[[] []]|[[w z] i]|[[w z] i]]; reflexivity.
Qed.

(** ** Field reload *)

(** A zone: its place, its name, what is in it. *)
Definition zentry : Type := place * zref * czone.
Definition zone_adds (e : zentry) : list place :=
  match snd e with
  | None => []
  | Some (_, m) =>
      set_oseq (-1) (fst (fst e)) :: map (fun o => set_oseq (Z.of_nat o) (fst (fst e))) (List.seq 0 (N.to_nat m))
  end.
Definition named (e : zentry) : Prop :=
  forall o, slot (set_oseq o (fst (fst e))) =
    Some (if (o <? 0)%Z then (CCard (snd (fst e)), 0%nat) else (CMats (snd (fst e)), Z.to_nat o)).
Definition zcount (e : zentry) (x : cont) : nat :=
  match snd e with
  | None => 0
  | Some (_, m) =>
      if cont_eq_dec x (CCard (snd (fst e))) then 1
      else if cont_eq_dec x (CMats (snd (fst e))) then N.to_nat m else 0
  end.
Definition zsum (es : list zentry) (x : cont) : nat := fold_right (fun e n => zcount e x + n)%nat 0%nat es.

Lemma mats_adds : forall e, named e -> forall n i k, (i <= k (CMats (snd (fst e))))%nat ->
  let l := map (fun o => set_oseq (Z.of_nat o) (fst (fst e))) (List.seq i n) in
  adds_ok l k /\
  forall x, fold_left (fun k p => count_add p k) l k x =
    (k x + if cont_eq_dec x (CMats (snd (fst e))) then n else 0)%nat.
Proof.
  intros e H n. induction n as [|n IH]; intros i k L; cbn [List.seq map adds_ok fold_left].
  - split; [exact I|]. intros x. destruct (cont_eq_dec _ _); lia.
  - assert (Sl : slot (set_oseq (Z.of_nat i) (fst (fst e))) = Some (CMats (snd (fst e)), i)).
    { rewrite H. destruct (Z.ltb_spec (Z.of_nat i) 0); [lia|]. now rewrite Nat2Z.id. }
    assert (L1 : (S i <= count_add (set_oseq (Z.of_nat i) (fst (fst e))) k (CMats (snd (fst e))))%nat).
    { unfold count_add. rewrite Sl. destruct (cont_eq_dec _ _); [lia|congruence]. }
    destruct (IH (S i) _ L1) as [A F]. split.
    + split; [|exact A]. exists (CMats (snd (fst e))), i. auto.
    + intros x. rewrite F. unfold count_add. rewrite Sl. destruct (cont_eq_dec _ _); lia.
Qed.

Lemma zone_adds_run : forall e k, named e -> k (CCard (snd (fst e))) = 0%nat ->
  adds_ok (zone_adds e) k /\
  forall x, fold_left (fun k p => count_add p k) (zone_adds e) k x = (k x + zcount e x)%nat.
Proof.
  intros [[p r] [[pos m]|]] k H Z; unfold zone_adds, zcount; cbn [fst snd] in *.
  - cbn [adds_ok fold_left].
    assert (Sl : slot (set_oseq (-1) p) = Some (CCard r, 0%nat)) by exact (H (-1)%Z).
    assert (L : (0 <= count_add (set_oseq (-1) p) k (CMats r))%nat) by lia.
    destruct (mats_adds (p, r, Some (pos, m)) H (N.to_nat m) 0 _ L) as [A F]. cbn [fst snd] in *. split.
    + split; [|exact A]. exists (CCard r), 0%nat. rewrite Z. auto.
    + intros x. rewrite F. unfold count_add. rewrite Sl.
      destruct (cont_eq_dec x (CCard r)) as [->|]; [|lia].
      destruct (cont_eq_dec (CCard r) (CMats r)); [congruence|]. lia.
  - split; [exact I|]. intros x. cbn [fold_left]. lia.
Qed.

Lemma adds_ok_app : forall a b k, adds_ok (a ++ b) k <->
  adds_ok a k /\ adds_ok b (fold_left (fun k p => count_add p k) a k).
Proof.
  induction a as [|p a IH]; intros b k; cbn [app adds_ok fold_left]; [tauto|]. rewrite IH. tauto.
Qed.

Lemma zones_run : forall es k, Forall named es -> NoDup (map (fun e => snd (fst e)) es) ->
  (forall e, In e es -> k (CCard (snd (fst e))) = 0%nat) ->
  adds_ok (flat_map zone_adds es) k /\
  forall x, fold_left (fun k p => count_add p k) (flat_map zone_adds es) k x = (k x + zsum es x)%nat.
Proof.
  induction es as [|e es IH]; intros k F D Z; cbn [flat_map zsum fold_right].
  - split; [exact I|]. intros x. cbn [fold_left]. lia.
  - inversion F; subst. inversion D as [|? ? D1 D2]; subst.
    destruct (zone_adds_run e k) as [A Q]; [assumption|apply Z; now left|].
    destruct (IH (fold_left (fun k p => count_add p k) (zone_adds e) k)) as [A2 Q2]; [assumption|assumption| |].
    + intros e' I'. rewrite Q, (Z e') by now right. unfold zcount. destruct (snd e) as [[? m]|]; [|reflexivity].
      destruct (cont_eq_dec _ _) as [X|X].
      * injection X as X. exfalso. apply D1. rewrite <- X. now apply (in_map (fun e => snd (fst e))).
      * destruct (cont_eq_dec _ _); [discriminate|reflexivity].
    + split; [apply adds_ok_app; auto|]. intros x. rewrite fold_left_app, Q2, Q. unfold zsum. lia.
Qed.

(** The zones of one side. *)
Definition side_entries (who : bool) (s : cside) : list zentry :=
  let at_ loc seq r z := (mkPlace (con_of who) loc seq 0, r, nth z (sd_monster s) None) in
  let sp loc seq r z := (mkPlace (con_of who) loc seq 0, r, nth z (sd_spell s) None) in
  [ at_ 0x4 0 (who, ZMonster, 0%nat) 0%nat; at_ 0x4 1 (who, ZMonster, 1%nat) 1%nat;
    at_ 0x4 2 (who, ZMonster, 2%nat) 2%nat; at_ 0x4 3 (who, ZMonster, 3%nat) 3%nat;
    at_ 0x4 4 (who, ZMonster, 4%nat) 4%nat; at_ 0x4 5 (who, ZMonster, 5%nat) 5%nat;
    at_ 0x4 6 (who, ZMonster, 6%nat) 6%nat;
    sp 0x8 0 (who, ZSpell, 0%nat) 0%nat; sp 0x8 1 (who, ZSpell, 1%nat) 1%nat;
    sp 0x8 2 (who, ZSpell, 2%nat) 2%nat; sp 0x8 3 (who, ZSpell, 3%nat) 3%nat;
    sp 0x8 4 (who, ZSpell, 4%nat) 4%nat; sp 0x100 0 (who, ZField, 0%nat) 5%nat;
    sp 0x200 0 (who, ZPend, 0%nat) 6%nat; sp 0x200 1 (who, ZPend, 1%nat) 7%nat ].

Lemma list7 : forall A (l : list A), length l = 7%nat -> exists a b c d e f g, l = [a; b; c; d; e; f; g].
Proof. intros A l H. do 7 (destruct l as [|? l]; [discriminate|]). destruct l; [|discriminate]. eauto 10. Qed.
Lemma list8 : forall A (l : list A), length l = 8%nat -> exists a b c d e f g h, l = [a; b; c; d; e; f; g; h].
Proof. intros A l H. do 8 (destruct l as [|? l]; [discriminate|]). destruct l; [|discriminate]. eauto 10. Qed.

Lemma side_places_entries : forall who s, cside_ok s ->
  side_places (con_of who) s = flat_map zone_adds (side_entries who s).
Proof.
  intros who s [_ [M _] [Sp _] _ _]. unfold side_places, side_entries.
  destruct (list7 _ _ M) as (a1 & a2 & a3 & a4 & a5 & a6 & a7 & ->).
  destruct (list8 _ _ Sp) as (c1 & c2 & c3 & c4 & c5 & c6 & c7 & c8 & ->).
  cbn [row_places nth flat_map]. rewrite !app_nil_r, <- !app_assoc.
  repeat (apply f_equal2; [match goal with |- match ?z with _ => _ end = _ => destruct z as [[? ?]|] end; reflexivity|]).
  match goal with |- match ?z with _ => _ end = _ => destruct z as [[? ?]|] end; reflexivity.
Qed.
Lemma side_named : forall who s, Forall named (side_entries who s).
Proof.
  intros who s. unfold side_entries.
  repeat (apply Forall_cons; [intros o; destruct who; unfold slot; cbn;
     destruct (o <? 0)%Z; reflexivity|]).
  apply Forall_nil.
Qed.

Lemma entries_nodup : forall s0 s1,
  NoDup (map (fun e => snd (fst e)) (side_entries false s0 ++ side_entries true s1)).
Proof.
  intros s0 s1. rewrite map_app. unfold side_entries. cbn [map fst snd app].
  repeat (apply NoDup_cons; [cbn [In]; intuition discriminate|]). apply NoDup_nil.
Qed.

Lemma zcount_other : forall e x, x <> CCard (snd (fst e)) -> x <> CMats (snd (fst e)) -> zcount e x = 0%nat.
Proof.
  intros e x H1 H2. unfold zcount. destruct (snd e) as [[? ?]|]; [|reflexivity].
  destruct (cont_eq_dec _ _); [congruence|]. destruct (cont_eq_dec _ _); [congruence|reflexivity].
Qed.
Definition held (x : cont) : option zref :=
  match x with CPile _ => None | CCard r | CMats r => Some r end.
Lemma zsum_out : forall es x, (forall r, held x = Some r -> ~ In r (map (fun e => snd (fst e)) es)) ->
  zsum es x = 0%nat.
Proof.
  induction es as [|e es IH]; intros x H; [reflexivity|]. cbn [zsum fold_right]. fold (zsum es x).
  rewrite IH by (intros r Hr Ir; apply (H r Hr); now right).
  rewrite zcount_other; [reflexivity| |]; intros ->; eapply H; try reflexivity; now left.
Qed.
Lemma zsum_In : forall es e x, NoDup (map (fun e => snd (fst e)) es) -> In e es ->
  held x = Some (snd (fst e)) -> zsum es x = zcount e x.
Proof.
  induction es as [|d es IH]; intros e x D I0 H; [contradiction|]. cbn [zsum fold_right]. fold (zsum es x).
  inversion D as [|? ? D1 D2]; subst. destruct I0 as [->|I0].
  - rewrite (zsum_out es x); [lia|]. intros r Hr. rewrite Hr in H. injection H as ->. exact D1.
  - rewrite (IH e x D2 I0 H). rewrite (zcount_other d x); [lia| |]; intros ->; injection H as H;
      apply D1; rewrite H; now apply (in_map (fun e => snd (fst e))).
Qed.

Lemma zsum_side : forall who s x, cside_ok s -> held x <> None ->
  zsum (side_entries who s) x =
    if Bool.eqb (cont_side x) who then N.to_nat (side_count s x) else 0%nat.
Proof.
  intros who s x [_ [M _] [Sp _] _ _] Hx.
  assert (D : NoDup (map (fun e : zentry => snd (fst e)) (side_entries who s))).
  { unfold side_entries. cbn [map fst snd].
    repeat (apply NoDup_cons; [cbn [In]; intuition discriminate|]). apply NoDup_nil. }
  assert (O : forall es y, held y <> None ->
     (forall e, In e es -> held y <> Some (snd (fst e))) -> zsum es y = 0%nat).
  { intros es y _ He. apply zsum_out. intros r Hr Ir. apply in_map_iff in Ir.
    destruct Ir as [e [<- Ie]]. now apply (He e Ie). }
  destruct (list7 _ _ M) as (a1 & a2 & a3 & a4 & a5 & a6 & a7 & E1).
  destruct (list8 _ _ Sp) as (c1 & c2 & c3 & c4 & c5 & c6 & c7 & c8 & E2).
  destruct (Bool.eqb_spec (cont_side x) who) as [<-|Nw].
  - destruct x as [r|[[w z] i]|[[w z] i]]; [cbn in Hx; congruence| |]; cbn [cont_side] in *;
      destruct z; (do 8 (try destruct i as [|i]));
      try (rewrite O; [unfold side_count, zone_data; rewrite ?E1, ?E2; reflexivity|exact Hx|];
           unfold side_entries; intros e Ie; cbn [In] in Ie;
           repeat (destruct Ie as [<-|Ie]; [discriminate|]); contradiction);
      (unfold side_entries in *;
       match goal with |- zsum (?es) (?k (?w, ?z, ?i)) = _ =>
         match es with context [(?p, (w, z, i), ?c)] =>
           rewrite (zsum_In es (p, (w, z, i), c)); [|exact D|cbn [In]; tauto|reflexivity] end end;
       unfold side_count, zone_data, zcount; cbn [fst snd];
       rewrite ?E1, ?E2; cbn [nth Nat.ltb Nat.leb Nat.add];
       match goal with |- match ?c with _ => _ end = _ => destruct c as [[? ?]|] end;
       [|reflexivity]; repeat (destruct (cont_eq_dec _ _); try congruence); try reflexivity).
  - apply O; [exact Hx|]. unfold side_entries. intros e Ie. cbn [In] in Ie.
    repeat (destruct Ie as [<-|Ie]; [destruct x as [r|[[w z] i]|[[w z] i]]; cbn in *; congruence|]); contradiction.
Qed.

Lemma zsum_app : forall a b x, zsum (a ++ b) x = (zsum a x + zsum b x)%nat.
Proof. induction a as [|e a IH]; intros b x; cbn [app zsum fold_right]; [reflexivity|]. fold (zsum (a ++ b) x) (zsum a x). rewrite IH. lia. Qed.

Lemma reload_ok : forall f s0 s1 l, cside_ok s0 -> cside_ok s1 ->
  state_ok (reload_state f s0 s1 l) /\
  forall k, described (reload_state f s0 s1 l) k = N.to_nat (reload_count s0 s1 k).
Proof.
  intros f s0 s1 l K0 K1.
  assert (E : bs_add (reload_state f s0 s1 l) = flat_map zone_adds (side_entries false s0 ++ side_entries true s1)).
  { cbn [reload_state bs_add]. rewrite flat_map_app.
    now rewrite <- (side_places_entries false s0 K0), <- (side_places_entries true s1 K1). }
  destruct (zones_run (side_entries false s0 ++ side_entries true s1) (fun _ => 0%nat)) as [A F].
  { apply Forall_app. split; apply side_named. }
  { apply entries_nodup. }
  { reflexivity. }
  rewrite <- E in A, F. split.
  - split; [cbn; lia|]. split; [exact A|]. cbn [reload_state bs_resize side_piles app].
    repeat (apply Forall_cons; [do 2 eexists; reflexivity|]). apply Forall_nil.
  - intros k. unfold described.
    set (k0 := fold_left (fun k p => count_add p k) (bs_add (reload_state f s0 s1 l)) (fun _ => 0%nat)) in *.
    cbn [reload_state bs_resize side_piles app fold_left].
    destruct k as [[[] []]|r|r]; try reflexivity.
    + replace (count_resize _ _ (CCard r)) with (k0 (CCard r)) by reflexivity.
      rewrite F, zsum_app. cbn [Nat.add].
      rewrite (zsum_side false s0), (zsum_side true s1) by (assumption || discriminate).
      destruct r as [[[] z] i]; cbn [cont_side Bool.eqb]; unfold reload_count; cbn [cont_side]; lia.
    + replace (count_resize _ _ (CMats r)) with (k0 (CMats r)) by reflexivity.
      rewrite F, zsum_app. cbn [Nat.add].
      rewrite (zsum_side false s0), (zsum_side true s1) by (assumption || discriminate).
      destruct r as [[[] z] i]; cbn [cont_side Bool.eqb]; unfold reload_count; cbn [cont_side]; lia.
Qed.
