From Verif Require Import Base BaseProofs Place PlaceProofs Frame FrameSpec FrameLens FrameProofs FrameMove FrameOps FramePiles FrameInv FrameShuffle FrameFacts
  Msg Event EventSpec EventProofs Query QuerySpec QueryProofs.
From Verif Require Import Encode EncodeLocal CoreMsg EncodeSpec EncodeQueryProofs EncodeFrame EncodeState EncodeE2E
  Duel DuelView DuelMove DuelCalm DuelFeed DuelFlush DuelMsg DuelRest DuelTell DuelRun DuelFree.

Local Open Scope N_scope.

Ltac spots := repeat match goal with
  | H : obind_ ?o _ = Some _ |- _ => let E := fresh "E" in destruct o eqn:E; cbn [obind_] in H; [|discriminate H]
  | H : option_map _ ?o = Some _ |- _ => let E := fresh "E" in destruct o eqn:E; cbn [option_map] in H; [|discriminate H]
  | H : guard ?b _ = Some _ |- _ => let E := fresh "G" in unfold guard in H; destruct b eqn:E; [|discriminate H]
  | H : Some _ = Some _ |- _ => injection H as <-
  end.

Lemma attach_free : forall h p r i k K K', attach h p r i k K = Some K' -> free_move p (UnderPile r i k) K = Some K'.
Proof.
  intros h p r i k K K' H. unfold attach in H. unfold free_move.
  destruct p; try discriminate; spots; cbn [obind_] in *; cbn [put_in holder_of];
    (destruct (nth_error _ i) as [h'|]; [|discriminate]); spots;
    apply andb_prop in G; destruct G as [G Gk]; apply andb_prop in G; destruct G as [Gh _];
    apply N.eqb_eq in Gh; subst h'; apply Nat.eqb_eq in Gk; subst k; rewrite Nat.leb_refl, insert_last; reflexivity.
Qed.

Lemma calm_free : forall p q K K', calm_move p q K = Some K' -> free_move p q K = Some K'.
Proof.
  intros p q K K' H. unfold calm_move, free_move in *.
  destruct p, q; try discriminate; unfold new_card in *; spots; cbn [obind_ option_map] in *;
    repeat match goal with E : card_on _ _ = _ |- _ => rewrite E; clear E end; cbn [obind_ option_map]; auto.
Qed.

Lemma move_free : forall p q D D', duel_move p q D = Some D' -> free_move p q (d_cards D) = Some (d_cards D').
Proof.
  intros p q D D' H. unfold duel_move in H. destruct (d_doing D) as [[h from]|].
  - destruct p, q; try discriminate; spots; try reflexivity;
      try (match goal with E : attach _ _ _ _ _ _ = _ |- _ => apply attach_free in E; exact E end).
    cbn [d_cards with_doing with_cards]. unfold free_move. rewrite E. cbn [obind_]. exact E0.
  - destruct p, q; spots; try reflexivity;
      first [ match goal with E : attach _ _ _ _ _ _ = _ |- _ => apply attach_free in E; exact E end
            | match goal with E : calm_move _ _ _ = _ |- _ => apply calm_free in E; exact E end ].
Qed.

Lemma rearranged_free : forall o D D', rearranged o D = Some D' -> o (d_cards D) = Some (d_cards D').
Proof.
  intros o D D' H. apply rearranged_inv in H. destruct H as [_ [K' [H [-> _]]]]. exact H.
Qed.

Lemma step_free : forall m D D', duel_step m D = Some D' -> free_cards m (d_cards D) = Some (d_cards D').
Proof.
  intros m D D' H. destruct m; cbn [duel_step free_cards] in *;
    try (injection H as <-; reflexivity); try discriminate.
  all: try (spots; cbn [obind_]; try reflexivity; apply rearranged_free; assumption).
  - spots. apply rearranged_free in H. spots. reflexivity.
  - destruct (spot_of _) as [[| |x| |]|]; try discriminate. destruct (spot_of _) as [[| |y| |]|]; try discriminate.
    apply rearranged_free in H. unfold guard in H. destruct (_ && _); [exact H|discriminate].
  - destruct (d_chain D); [discriminate|]. injection H as <-. reflexivity.
  - cbn [core_queries obind_] in *. unfold told in H. spots. reflexivity.
  - cbn [core_queries obind_] in *. unfold told in H. spots. reflexivity.
  - destruct (spot_of _); [|discriminate]. destruct (spot_of _); [|discriminate]. now apply move_free.
  - apply rearranged_free in H. unfold guard in H. destruct (_ && _); [exact H|discriminate].
Qed.

Lemma free_none : forall ms, fold_left (fun o m => obind_ o (free_cards m)) ms (@None cards) = None.
Proof. induction ms as [|m ms IH]; [reflexivity|exact IH]. Qed.
Theorem run_free : forall ms D D', duel_run ms D = Some D' -> free_run ms (d_cards D) = Some (d_cards D').
Proof.
  unfold duel_run, free_run. induction ms as [|m ms IH]; intros D D' H; cbn [fold_left] in *.
  - injection H as <-. reflexivity.
  - cbn [obind_] in *. destruct (duel_step m D) as [D1|] eqn:E.
    2:{ rewrite run_none in H. discriminate. }
    rewrite (step_free _ _ _ E). now apply IH.
Qed.

(** ** A second start *)
Definition dealt (l : list (pref * N)) (K : cards) : cards :=
  fold_left (fun K x => deal (N.to_nat (snd x)) (fst x) K) l K.
Lemma deal_facts : forall n r K, k_zone (deal n r K) = k_zone K /\ k_under (deal n r K) = k_under K /\
  (forall r', length (k_pile (deal n r K) r') = length (k_pile K r') + if pref_eq_dec r' r then n else 0)%nat /\
  ((forall x f, k_field K x f = blank f) -> forall x f, k_field (deal n r K) x f = blank f).
Proof.
  induction n as [|n IH]; intros r K; cbn [deal].
  - repeat split; auto. intros r'. destruct (pref_eq_dec r' r); lia.
  - cbn [new_card]. match goal with |- context [deal n r ?K1] => destruct (IH r K1) as (A & B & C & D) end.
    split; [exact A|]. split; [exact B|]. split.
    + intros r'. rewrite C. cbn [with_pile k_pile new_card snd]. unfold set_at.
      destruct (pref_eq_dec r' r) as [->|]; [|reflexivity]. rewrite app_length. cbn. lia.
    + intros F. apply D. intros x f. cbn. unfold set_at. destruct (N.eq_dec x (k_next K)); [reflexivity|apply F].
Qed.

Definition deck_sizes (md0 ed0 md1 ed1 : N) (r : pref) : N :=
  match r with
  | (false, LDeck) => md0 | (false, LExtra) => ed0
  | (true, LDeck) => md1 | (true, LExtra) => ed1
  | _ => 0
  end.

Lemma start_field : forall c r lp0 lp1 md0 ed0 md1 ed1, ctx_sound c -> core_ok (CmStart r lp0 lp1 md0 ed0 md1 ed1) ->
  exists c', feed c (ser (CmStart r lp0 lp1 md0 ed0 md1 ed1)) = Ok c' /\
    fresh_field lp0 lp1 (deck_sizes md0 ed0 md1 ed1) c' /\
    b_turn_controller (cx_board c') = b_turn_controller (cx_board c) /\
    b_phase (cx_board c') = b_phase (cx_board c) /\ b_blocked (cx_board c') = b_blocked (cx_board c) /\
    cx_deferred c' = cx_deferred c.
Proof.
  intros c r lp0 lp1 md0 ed0 md1 ed1 Snd K. assert (I := sound_inv _ Snd).
  destruct (quiet_start _ (cx_left c) I) as [Q0 B0].
  set (l := [((false, LDeck), md0); ((false, LExtra), ed0); ((true, LDeck), md1); ((true, LExtra), ed1)]).
  destruct (quiet_resizes l _ _ _ Q0 B0) as (f' & R & Q'); [nodup|reflexivity|].
  eexists. split; [eapply event_feed; [exact K|reflexivity|]; eapply state_runs; [exact I|reflexivity|reflexivity|]; exact R|].
  split; [|cbn; auto].
  change (fold_left _ l _) with (dealt l (no_cards (f_next (b_frame (cx_board c))))) in Q'.
  set (K' := dealt l _) in Q'.
  assert (F : k_zone K' = (fun _ => None) /\ k_under K' = (fun _ => []) /\
    (forall r', N.of_nat (length (k_pile K' r')) = deck_sizes md0 ed0 md1 ed1 r') /\
    (forall x f, k_field K' x f = blank f)).
  { subst K'. unfold dealt. cbn [fold_left l fst snd].
    match goal with |- context [deal ?n4 ?r4 (deal ?n3 ?r3 (deal ?n2 ?r2 (deal ?n1 ?r1 ?K0)))] =>
      destruct (deal_facts n1 r1 K0) as (A1 & B1 & C1 & D1);
      destruct (deal_facts n2 r2 (deal n1 r1 K0)) as (A2 & B2 & C2 & D2);
      destruct (deal_facts n3 r3 (deal n2 r2 (deal n1 r1 K0))) as (A3 & B3 & C3 & D3);
      destruct (deal_facts n4 r4 (deal n3 r3 (deal n2 r2 (deal n1 r1 K0)))) as (A4 & B4 & C4 & D4) end.
    split; [rewrite A4, A3, A2, A1; reflexivity|]. split; [rewrite B4, B3, B2, B1; reflexivity|]. split.
    - intros r'. rewrite C4, C3, C2, C1. cbn [no_cards k_pile length].
      destruct r' as [[] []];
        repeat match goal with |- context [pref_eq_dec ?a ?b] =>
          destruct (pref_eq_dec a b) as [X|X]; try discriminate X; try (exfalso; apply X; reflexivity); clear X end;
        cbn [deck_sizes Nat.add]; rewrite ?Nat.add_0_r, ?N2Nat.id; reflexivity.
    - apply D4, D3, D2, D1. reflexivity. }
  destruct F as (Fz & Fu & Fp & Ff).
  constructor; try reflexivity.
  - intros r'. cbn [set_board cx_board]. unfold ctx_layout. cbn [cx_board b_frame set_board].
    rewrite (q_view _ _ _ _ Q' (CPile r')). rewrite lenN_map. apply Fp.
  - intros z. unfold ctx_layout. cbn [cx_board b_frame set_board].
    rewrite (q_view _ _ _ _ Q' (CCard z)), (q_view _ _ _ _ Q' (CMats z)). cbn [seen]. rewrite Fz. now split.
  - intros k i x v _ H f. rewrite (q_info _ _ _ _ Q' x v H). apply Ff.
Qed.
