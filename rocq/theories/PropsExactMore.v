(** C03, C29, C34, C70 and C82, exactly. *)
From Verif Require Import Base BaseProofs Bit BitSpec BitProofs Place Frame FrameSpec Msg Event Query QuerySpec QueryProofs.
From Verif Require Import Encode CoreMsg EncodeSpec DuelFree DuelFreeProofs.
From Verif Require PropsDuel.
From Verif Require Import Room RoomSpec RoomProofs RoomInv RoomTotal.
From Verif Require Import PropsBit PropsBoard PropsQuery PropsRoom.

Local Open Scope N_scope.

(** C03: the highest bits are picked exactly unless none is asked for and the
    top bit is set. *)
Theorem C03_choosel_iff_partial : forall w count x, (S w <= 32)%nat -> x < 2 ^ N.of_nat (S w) ->
  ((exists r, choosel (S w) count x = Ok r /\ picks_highest (S w) count x r) <->
   count <> 0 \/ N.testbit x (N.of_nat w) = false).
Proof.
  intros w count x W X. split.
  - intros (r & E & _ & P). destruct (N.eq_dec count 0) as [->|]; [right|left; assumption].
    rewrite C03_choosel_count_zero in E by exact W. destruct (N.testbit x (N.of_nat w)); [|reflexivity].
    injection E as <-. exfalso. cbn [N.to_nat firstn] in P.
    assert (J : In w (BitSpec.bits_of (S w) (2 ^ N.of_nat w))).
    { apply filter_In. split; [apply in_seq; lia|apply N.pow2_bits_true]. }
    apply in_rev in J. rewrite P in J. destruct J.
  - intros [Nz|T].
    + apply C03_choosel_picks_highest_partial; [exact W|lia|exact X].
    + destruct (N.eq_dec count 0) as [->|]; [|apply C03_choosel_picks_highest_partial; [exact W|lia|exact X]].
      exists 0. rewrite C03_choosel_count_zero by exact W. rewrite T. split; [reflexivity|]. split; [lia|].
      cbn [N.to_nat firstn]. unfold BitSpec.bits_of. induction (seq 0 (S w)) as [|i l IH]; [reflexivity|exact IH].
Qed.
Print Assumptions C03_choosel_iff_partial.

Example C03_choosel_iff_ex :
  picks_highest 8 0 0x7f 0 /\ choosel 8 0 0x7f = Ok 0 /\ N.testbit 0x7f 7 = false /\
  choosel 8 0 0x80 = Ok 0x80 /\ N.testbit 0x80 7 = true.
Proof. repeat split. Qed.

(** C29: of all ints but 0 and 1, exactly 2 is not stopped by the assertion. *)
Theorem C29_lp_controller_iff_partial : forall con, (- 2 ^ 31 <= con < 2 ^ 31)%Z -> con <> 0%Z -> con <> 1%Z ->
  (lp_index con = Abort <-> con <> 2%Z) /\
  forall C (c0 : C) (b : pboard C) t, pparse c0 (EvLp con t) b = Abort <-> con <> 2%Z.
Proof.
  intros con R N0 N1. split; [|intros C c0 b t]; (split; [intros H ->; discriminate H|]);
    intros N2; destruct (C29_lp_controller_partial con R N0 N1 N2) as [A B]; [exact A|apply B].
Qed.
Print Assumptions C29_lp_controller_iff_partial.

Example C29_lp_controller_iff_ex : lp_index 3 = Abort /\ lp_index 2 = UB.
Proof. split; reflexivity. Qed.

(** C34: a field of a query hits exactly when the cache is used, the field is
    no list and the card already has the value. *)
Theorem C34_hits_iff_partial : forall use q f hits f', parse_query use q f = Ok (hits, f') ->
  exists id c, card_at_place (qr_place q) f = Ok id /\ card_of f id = Some c /\
    forall x, N.land hits (flag x) <> 0 <->
      use = true /\ x <> F_targets /\ x <> F_counters /\ query_field x (qr_data q) = Some (card_field x c).
Proof.
  intros use q f hits f' H. destruct (C34_hits_partial _ _ _ _ _ H) as (id & c & A & B & Hc & Hn & Hu).
  exists id, c. split; [exact A|]. split; [exact B|]. intros x.
  assert (D : cached_field x \/ ~ cached_field x).
  { unfold cached_field. destruct x; (left; split; discriminate) || (right; intros [X Y]; now (apply X || apply Y)). }
  destruct D as [D|D].
  - rewrite (Hc x D). destruct D as [D1 D2]. tauto.
  - split.
    + intros L. exfalso. apply L. apply N.bits_inj_0. intros n. rewrite N.land_spec.
      destruct (N.testbit hits n) eqn:E; [|reflexivity]. destruct (Hn n E) as (y & Cy & Fy).
      destruct (N.testbit (flag x) n) eqn:T; [|reflexivity]. exfalso. apply D.
      rewrite (C34_flags_distinct x y); [exact Cy|]. intros Z. apply (f_equal (fun z => N.testbit z n)) in Z.
      rewrite N.land_spec, T, Fy, N.pow2_bits_true, N.bits_0 in Z. discriminate.
    + intros (_ & D1 & D2 & _). exfalso. apply D. now split.
Qed.
Print Assumptions C34_hits_iff_partial.

(** The same targets twice, and the same code: only the code hits. *)
Example C34_hits_iff_ex : exists f1 f2,
  let q := mkQuery (mkPlace 0 4 2 0)
    (mkQData (Some 7) None None None None None None None None None None None
       None (Some [mkPlace 0 4 1 (-1)]) None None None None None None None None None None) in
  parse_query true q ex_qframe = Ok (0, f1) /\ parse_query true q f1 = Ok (1, f2).
Proof. do 2 eexists. split; vm_compute; reflexivity. Qed.

(** C70: while the first turn is being decided, an answer has an effect exactly
    when its sender was asked, the team exists and the host chooses. *)
Theorem C70_decide_iff_partial : forall v host o l r out c t, session v host o l = Ok (r, out) -> deciding r ->
  ((exists s, visit v c (SgFirst (FsTeam t)) r = Ok (r, s) /\ In (host, EvFirst (FeResult t HowNotSet)) s) <->
   asked out c /\ t < 2 /\ op_ftdm o = 0%Z).
Proof.
  intros v host o l r out c t H D. destruct (C70_decide_partial v host o l r out c t H D) as (A & B & C). split.
  - intros (s & E & J). destruct (Z.eq_dec (op_ftdm o) 0) as [M|M].
    2:{ rewrite (C70_ignored v host o l r out c t H M) in E. injection E as <-. destruct J. }
    destruct (N.lt_ge_cases t 2) as [T|T]. 2:{ rewrite (C T) in E. injection E as <-. destruct J. }
    split; [|auto]. unfold asked. rewrite (session_asked _ _ _ _ _ _ H).
    destruct (D) as [d Ed]. destruct d as [d|].
    + destruct (N.eq_dec c d) as [->|Ne]; [exact Ed|]. exfalso.
      rewrite B in E; [injection E as <-; destruct J|]. unfold asked. rewrite (session_asked _ _ _ _ _ _ H). congruence.
    + exfalso. rewrite B in E; [injection E as <-; destruct J|]. unfold asked. rewrite (session_asked _ _ _ _ _ _ H). congruence.
  - intros (K & T & M). eexists. split; [exact (A M K T)|]. unfold broadcast. apply in_map_iff. exists host. split; [reflexivity|].
    apply in_occupants. left. exists 0, 0. apply (C60_kept v host o l r out H).
Qed.
Print Assumptions C70_decide_iff_partial.

Example C70_decide_iff_ex : exists r out, session ex_env 1 (ex_options [] 0) (duel_ready ++ [Signal 1 (start_signal true)]) = Ok (r, out) /\
  deciding r /\ asked out 1 /\ ~ asked out 2.
Proof.
  do 2 eexists. split; [vm_compute; reflexivity|]. split; [eexists; reflexivity|]. split; [vm_compute; tauto|].
  intros X. vm_compute in X. repeat (destruct X as [X|X]; [discriminate|]). exact X.
Qed.

(** C82: MSG_START gives a fresh duel exactly when nothing was left of turn
    player, phase, blocked zones and deferred moves. *)
Theorem C82_start_is_fresh_iff_partial : forall c r lp0 lp1 md0 ed0 md1 ed1, ctx_sound c ->
  core_ok (CmStart r lp0 lp1 md0 ed0 md1 ed1) ->
  exists c', feed c (ser (CmStart r lp0 lp1 md0 ed0 md1 ed1)) = Ok c' /\
    (fresh_duel lp0 lp1 (deck_sizes md0 ed0 md1 ed1) c' <->
     b_turn_controller (cx_board c) = 0%Z /\ b_phase (cx_board c) = 0 /\ b_blocked (cx_board c) = [] /\
     cx_deferred c = []).
Proof.
  intros c r lp0 lp1 md0 ed0 md1 ed1 S K.
  destruct (PropsDuel.C82_start_is_fresh_partial c r lp0 lp1 md0 ed0 md1 ed1 S K) as (c' & E & F & A & B & C & G).
  exists c'. split; [exact E|]. rewrite <- A, <- B, <- C, <- G. split.
  - intros [_ H1 H2 H3 H4]. auto.
  - intros (H1 & H2 & H3 & H4). now constructor.
Qed.
Print Assumptions C82_start_is_fresh_iff_partial.

Example C82_start_is_fresh_iff_ex : exists c, feed_all ctx_value_init PropsDuel.old_duel = Ok c /\ ctx_sound c /\
  b_phase (cx_board c) <> 0.
Proof.
  eexists. split; [vm_compute; reflexivity|]. split; [|vm_compute; discriminate].
  eapply (EncodeE2E.feed_all_sound PropsDuel.old_duel); [apply sound_value|vm_compute; reflexivity].
Qed.
