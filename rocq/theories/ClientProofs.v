(** Proofs about clients following the server. *)
From Verif Require Import LimboUndo.
From Verif Require Import Base BaseProofs Place PlaceProofs Frame FrameSpec FrameLens FrameProofs FrameMove FrameOps FramePiles
  FrameInv FrameFacts Limbo LimboSpec LimboProofs Msg Event EventSpec EventProofs Query QuerySpec QueryProofs
  UQuery UQuerySpec UReplaySpec UReplay BoardAgree UReplayAgree.
From Verif Require Import Reader Encode CoreMsg EncodeSpec EncodeQueryProofs EncodeFrame EncodeLocal EncodeState EncodeE2E
  Duel DuelMsg DuelRun DuelReplaySpec DuelReplay HazardSpec HazardProofs HazardLimbo HazardEvent
  HazardMsgProofs HazardMsgTop ClientSpec.

Local Open Scope N_scope.

(** ** Piles of different places, one after the other *)
Definition sized (P : nat -> nat -> Prop) (f : frame card) (o : resize_op) : Prop :=
  forall r, target o = Some (CPile r) -> P (length (contents (CPile r) (f_lay f))) (N.to_nat (rz_count o)).

Lemma resize_other : forall o (f f' : frame card) r, inv card f -> fstep card0 (OpResize (rz_place o) (rz_count o)) f = Ok f' ->
  target o <> Some (CPile r) -> contents (CPile r) (f_lay f') = contents (CPile r) (f_lay f).
Proof.
  intros o f f' r V H Ne. cbn [fstep] in H.
  assert (Sl : exists r0 i, slot (rz_place o) = Some (CPile r0, i)).
  { destruct (resizes_run card card0 [o] f V) as [[R1 _] _].
    assert (X : exists f1, do_resizes (plain_fo card0) [o] f = Ok f1).
    { exists f'. unfold do_resizes. cbn [ofold plain_fo fo_resize]. rewrite H. reflexivity. }
    apply R1 in X. now inversion X. }
  destruct Sl as (r0 & i & Sl).
  destruct (pile_resize_spec card card0 _ (rz_count o) r0 i f V Sl) as [f2 [new [H2 [_ [Vw _]]]]].
  rewrite H in H2. injection H2 as <-. specialize (Vw (CPile r)). unfold view, view_set in Vw.
  destruct (cont_eq_dec (CPile r) (CPile r0)) as [Eq|_]; [|exact Vw].
  exfalso. apply Ne. unfold target. rewrite Sl. cbn. now rewrite Eq.
Qed.

Lemma sized_later : forall P o l (f f' : frame card), inv card f ->
  fstep card0 (OpResize (rz_place o) (rz_count o)) f = Ok f' -> ~ In (target o) (map target l) ->
  (Forall (sized P f) l <-> Forall (sized P f') l).
Proof.
  intros P o l f f' V H N. induction l as [|x l IH]; [split; constructor|].
  cbn [map] in N. rewrite !Forall_cons_iff, IH by (intros X; apply N; now right).
  assert (E : sized P f x <-> sized P f' x).
  { unfold sized. split; intros S r T; specialize (S r T);
      rewrite (resize_other o f f' r V H) in * by (intros X; apply N; left; congruence); exact S. }
  tauto.
Qed.

Lemma fit_iff : forall l (f f' : frame card), inv card f -> NoDup (map target l) ->
  ofold (fun a => fstep card0 (plain_op a)) (resize_acts l) f = Ok f' ->
  (resizes_fit card0 (resize_acts l) f <-> Forall (sized (fun s n => s <= n \/ 2 * n <= s)%nat f) l).
Proof.
  induction l as [|o l IH]; intros f f' V N H; [split; constructor|].
  unfold resize_acts in *. cbn [map ofold plain_op] in H. apply obind_Ok in H as [f1 [H1 H2]].
  cbn [map] in N. inversion N as [|? ? N1 N2]; subst.
  assert (V1 : inv card f1) by (eapply inv_step; eauto).
  rewrite Forall_cons_iff, (sized_later _ o l f f1 V H1 N1). rewrite <- (IH f1 f' V1 N2 H2).
  cbn [map resizes_fit plain_op]. split.
  - intros [A B]. split; [|exact (B f1 H1)]. intros r T. unfold target in T.
    destruct (slot (rz_place o)) as [[k i]|] eqn:Sl; [|discriminate]. cbn in T. injection T as ->. exact (A r i eq_refl).
  - intros [A B]. split; [|intros g E; rewrite E in H1; injection H1 as ->; exact B].
    intros r i Sl. apply A. unfold target. now rewrite Sl.
Qed.

Lemma undoable_of : forall l w f, fsim w f -> inv card f -> NoDup (map target l) ->
  Forall (sized (fun s n => s <= n \/ s = 2 * n)%nat f) l -> acts_undoable ucard0 (resize_acts l) w.
Proof.
  induction l as [|o l IH]; intros w f Sm V N F; [exact Logic.I|].
  cbn [map] in N. inversion N as [|? ? N1 N2]; subst. apply Forall_cons_iff in F as [F1 F2].
  unfold resize_acts. cbn [map acts_undoable]. split.
  - intros r i Sl. destruct Sm as [_ [_ [_ [EL _]]]]. rewrite <- EL. apply F1. unfold target. now rewrite Sl.
  - intros w' H. destruct (sim_act ucard card ucard0 card0 UReplayAgree.shows shows0 (LResize _ _) Logic.I w f w' Sm H)
      as [f' [E Sm']]. cbn [plain_op] in E. apply (IH w' f'); auto.
    + eapply inv_step; eauto.
    + now apply (sized_later _ o l f f').
Qed.

(** ** Where an undoable board fails and a plain one does not *)
Lemma fit_or_trips : forall acts w f f', Forall event_act acts -> fsim w f ->
  ofold (fun a => fstep card0 (plain_op a)) acts f = Ok f' ->
  resizes_fit card0 acts f \/ trips (@wild_act ucard) (lstep ucard0) acts w.
Proof.
  induction acts as [|a acts IH]; intros w f f' Fa Sm H; [left; exact Logic.I|].
  cbn [ofold] in H. apply obind_Ok in H as [f1 [H1 H2]]. apply Forall_cons_iff in Fa as [Ea Fa].
  assert (D : resizes_fit card0 [a] f \/ wild_act a w).
  { destruct a; try (left; split; [exact Logic.I|intros; exact Logic.I]).
    destruct (slot p) as [[[r|z|z] i]|] eqn:Sl;
      try (left; split; [|intros; exact Logic.I]; intros r' i' X; rewrite X in Sl; discriminate Sl).
    destruct Sm as [_ [Ae [_ [EL _]]]].
    destruct (le_dec (length (contents (CPile r) (f_lay f))) (N.to_nat count)) as [L|L].
    { left. split; [|intros; exact Logic.I]. intros r' i' X. rewrite X in Sl. injection Sl as -> ->. left. exact L. }
    destruct (le_dec (2 * N.to_nat count) (length (contents (CPile r) (f_lay f)))) as [L'|L'].
    { left. split; [|intros; exact Logic.I]. intros r' i' X. rewrite X in Sl. injection Sl as -> ->. right. exact L'. }
    right. exists r, i. split; [exact Sl|]. split; [left; exact Ae|]. cbv zeta. rewrite <- EL. lia. }
  destruct D as [D|D]; [|right; left; exact D].
  destruct (act_back ucard card ucard0 card0 UReplayAgree.shows a w f f1 Ea Sm H1 D) as [w1 W1].
  destruct (sim_act ucard card ucard0 card0 UReplayAgree.shows shows0 a Ea w f w1 Sm W1) as [f2 [E2 S2]].
  rewrite E2 in H1. injection H1 as ->.
  destruct (IH w1 f1 f' Fa S2 H2) as [X|X].
  - left. destruct D as [D _]. split; [exact D|]. intros g G. rewrite G in E2. injection E2 as ->. exact X.
  - right. right. eauto.
Qed.

(** ** The messages *)
Lemma row_not_pile : forall l con loc i, (loc = 0x4 \/ loc = 0x8 /\ i + lenN l <= 8) ->
  Forall not_pile (row_places con loc i l).
Proof.
  induction l as [|z l IH]; intros con loc i B; cbn [row_places]; [constructor|].
  unfold lenN in *. cbn [length] in B. apply Forall_app. split.
  - destruct z as [[pos mats]|]; [|constructor].
    assert (E : assocN (fst (core_spot loc i)) pile_table = None).
    { destruct B as [->|[-> B]]; [reflexivity|].
      assert (E : i = 0 \/ i = 1 \/ i = 2 \/ i = 3 \/ i = 4 \/ i = 5 \/ i = 6 \/ i = 7) by lia.
      repeat destruct E as [->|E]; try subst; reflexivity. }
    destruct (core_spot loc i) as [fl fs]. cbn [fst] in E.
    assert (X : forall o, not_pile (mkPlace con fl fs o)).
    { intros o. unfold not_pile, slot. cbn [p_con p_loc p_seq p_oseq]. destruct (side_of_con con); [|exact Logic.I]. rewrite E.
      destruct (assocN fl zone_table) as [[z lim]|]; [|exact Logic.I]. destruct (fs <? lim); [|exact Logic.I].
      destruct (o <? 0)%Z; exact Logic.I. }
    constructor; [apply X|]. apply Forall_forall. intros x Hx. apply in_map_iff in Hx. destruct Hx as [y [<- _]]. apply X.
  - apply IH. destruct B as [B|[B B']]; [left; auto|right; split; [auto|lia]].
Qed.
Lemma side_not_pile : forall s con, cside_ok s -> Forall not_pile (side_places con s).
Proof.
  intros s con [_ [M _] [P _] _ _]. unfold side_places. apply Forall_app. split; apply row_not_pile; auto.
  right. split; [reflexivity|]. unfold lenN. rewrite P. lia.
Qed.

Definition tag_msg (m : core_msg) : Prop := match m with CmTagSwap _ _ _ _ _ _ _ => True | _ => False end.
Definition shuffle_msg (m : core_msg) : Prop := match m with CmShuffleSetCard _ _ => True | _ => False end.

Lemma msg_good : forall sh m c r c1, core_ok m -> ~ chain_msg m -> ~ tag_msg m -> (sh = false -> ~ shuffle_msg m) ->
  encode_one c (ser m) = Ok (r, c1) -> Forall (good sh) (msg_steps (r_msg r)).
Proof.
  intros sh m c r c1 K Ll Tg Sl En.
  destruct (core_event m) as [e|] eqn:Ev.
  - assert (E := event_encode m e K Ev c []). rewrite app_nil_r, En in E. injection E as -> _.
    cbn [r_msg msg_steps m_t m_queries map app]. constructor; [|constructor].
    destruct m; try discriminate Ev; cbn [core_event] in Ev; injection Ev as <-;
      try (apply calm_good; exact Logic.I).
    + split; [exact Logic.I|]. intros f _. cbn [event_acts]. split; [|intros f' _; exact Logic.I].
      destruct sh; [reflexivity|]. destruct (Sl eq_refl Logic.I).
    + split; [exact Logic.I|]. intros f _. split; [exact Logic.I|intros f' _; exact Logic.I].
    + destruct (Ll Logic.I).
    + destruct (Ll Logic.I).
    + apply state_good; [constructor|]. repeat (apply NoDup_cons; [vm_compute; intuition discriminate|]). constructor.
    + destruct (Tg Logic.I).
    + destruct K as (_ & K0 & K1 & _). apply state_good.
      * unfold reload_state. cbn [bs_add]. apply Forall_app. split; now apply side_not_pile.
      * repeat (apply NoDup_cons; [vm_compute; intuition discriminate|]). constructor.
  - destruct (core_kind m Ev) as [k [Kn Ek]]. apply encode_ok in En.
    destruct En as [b [tl [v [rest [Eb [-> [_ Dp]]]]]]]. unfold ser in Eb. injection Eb as <- <-.
    rewrite Kn in Dp. apply calm_steps. cbn [r_msg]. exact (dispatch_calm k c Ek _ _ _ Dp).
Qed.

(** The resizes of a change of tag partners. *)
Definition tag_resizes (con main extra hand : N) : list resize_op :=
  let z := Z.of_N con in [whole_pile z 0x1 main; whole_pile z 0x40 extra; whole_pile z 0x2 hand].
Lemma tag_sized : forall P c con main extra up hand top l who, side_of_con (Z.of_N con) = Some who ->
  (Forall (sized P (b_frame (cx_board c))) (tag_resizes con main extra hand) <->
   Forall (fun x : nat * nat => P (fst x) (snd x)) (tag_piles c (CmTagSwap con main extra up hand top l))).
Proof.
  intros P c con main extra up hand top l who E. unfold tag_resizes, tag_piles. rewrite E.
  assert (X : forall loc n pl, assocN loc pile_table = Some pl ->
    (sized P (b_frame (cx_board c)) (whole_pile (Z.of_N con) loc n) <-> P (length (pile_now c who pl)) (N.to_nat n))).
  { intros loc n pl A. unfold sized, target, whole_pile, slot. cbn [rz_place rz_count p_con p_loc p_seq]. rewrite E, A.
    cbn [option_map fst]. unfold pile_now, ctx_layout. split.
    - intros H. apply H. reflexivity.
    - intros H r T. injection T as <-. exact H. }
  rewrite !Forall_cons_iff. rewrite (X 0x1 main LDeck eq_refl), (X 0x40 extra LExtra eq_refl), (X 0x2 hand LHand eq_refl).
  cbn [fst snd]. split; intros (A & B & D & _); repeat split; auto.
Qed.
Lemma tag_nodup : forall con main extra hand who, side_of_con (Z.of_N con) = Some who ->
  NoDup (map target (tag_resizes con main extra hand)).
Proof.
  intros con main extra hand who E. unfold tag_resizes, target, whole_pile, slot. cbn [map rz_place p_con p_loc p_seq]. rewrite E.
  repeat (apply NoDup_cons; [cbn; intuition discriminate|]). constructor.
Qed.

Lemma tag_side : forall con main extra hand (f f' : frame card),
  ofold (fun a => fstep card0 (plain_op a)) (resize_acts (tag_resizes con main extra hand)) f = Ok f' ->
  exists who, side_of_con (Z.of_N con) = Some who.
Proof.
  intros con main extra hand f f' Hf. destruct (side_of_con (Z.of_N con)) as [who|] eqn:Sd; [eauto|]. exfalso.
  unfold resize_acts, tag_resizes in Hf. cbn [map ofold plain_op fstep] in Hf. apply obind_Ok in Hf as [f1 [Hf _]].
  unfold pile_resize in Hf. cbn [whole_pile rz_place p_loc] in Hf. apply obind_Ok in Hf as [[] [_ Hf]].
  apply obind_Ok in Hf as [q [Hf _]]. apply pile_of_iff in Hf. destruct Hf as [i Hf]. unfold slot in Hf.
  cbn [p_con] in Hf. rewrite Sd in Hf. discriminate Hf.
Qed.

Lemma bad_iff : forall c m, bad_tag c m <-> ~ Forall (fun x : nat * nat => fst x <= snd x \/ 2 * snd x <= fst x)%nat (tag_piles c m).
Proof.
  intros c m. unfold bad_tag. split.
  - intros H F. induction H as [x l H|x l H IH]; apply Forall_cons_iff in F as [F1 F2]; [lia|auto].
  - intros H. induction (tag_piles c m) as [|x l IH]; [destruct H; constructor|].
    destruct (le_dec (fst x) (snd x)) as [A|A]; [|destruct (le_dec (2 * snd x) (fst x)) as [B|B]].
    + right. apply IH. intros F. apply H. constructor; [now left|exact F].
    + right. apply IH. intros F. apply H. constructor; [now right|exact F].
    + left. lia.
Qed.
Lemma bad_dec : forall c m, bad_tag c m \/ ~ bad_tag c m.
Proof.
  intros c m. unfold bad_tag.
  destruct (Exists_dec (fun x : nat * nat => (snd x < fst x < 2 * snd x)%nat) (tag_piles c m)) as [H|H]; [|left; exact H|right; exact H].
  intros x. destruct (lt_dec (snd x) (fst x)) as [A|A]; [destruct (lt_dec (fst x) (2 * snd x)) as [B|B]|];
    [left; lia|right; lia|right; lia].
Qed.

(** ** One message *)
(** The client may have a board [cx_board c] of its own, with other cards than
    the server [cs]. *)
Lemma msg_client_at : forall use cs c m r c1 p2 u, core_ok m -> encode_one cs (ser m) = Ok (r, c1) ->
  pplay_all use (msg_steps (r_msg r)) (cx_board c) = Ok p2 -> bsim u (cx_board c) ->
  (chain_msg m -> play_all use (msg_steps (r_msg r)) u = Abort) /\
  (bad_tag c m -> play_all use (msg_steps (r_msg r)) u = UB) /\
  (~ chain_msg m -> ~ bad_tag c m -> exists u', play_all use (msg_steps (r_msg r)) u = Ok u' /\ bsim u' p2) /\
  (~ chain_msg m -> reversible c m -> steps_undoable use (msg_steps (r_msg r)) u).
Proof.
  intros use cs c m r c1 p2 u K En P B.
  assert (V : inv card (b_frame (cx_board c))) by apply B.
  split; [|split; [|split]].
  - intros Ch. destruct m; try destruct Ch; cbn [core_event] in *.
    + assert (E := event_encode _ _ K eq_refl cs []). rewrite app_nil_r, En in E. injection E as -> _. reflexivity.
    + assert (E := event_encode _ _ K eq_refl cs []). rewrite app_nil_r, En in E. injection E as -> _. reflexivity.
  - intros Bt. apply bad_iff in Bt. destruct m; try (exfalso; apply Bt; constructor).
    assert (E := event_encode _ _ K eq_refl cs []). rewrite app_nil_r, En in E. injection E as -> _.
    destruct (side_of_con (Z.of_N con)) as [who|] eqn:Sd; [|exfalso; apply Bt; unfold tag_piles; rewrite Sd; constructor].
    cbn [r_msg msg_steps m_t m_queries map app] in *. unfold pplay_all in P. cbn [ofold pplay] in P.
    apply obind_Ok in P as [q1 [P _]]. apply obind_Ok in P as [[h q2] [P _]]. apply obind_Ok in P as [q3 [P _]].
    destruct (pparse_acts card card0 _ _ _ P Logic.I) as [_ [f' Hf]].
    assert (X : event_acts (EvBoard (BoardExchange (mkBExchange (Z.of_N con) [] [] (tag_resizes con main extra hand)))) =
                resize_acts (tag_resizes con main extra hand)) by reflexivity.
    change (EvBoard _) with (EvBoard (BoardExchange (mkBExchange (Z.of_N con) [] [] (tag_resizes con main extra hand)))) in *.
    rewrite X in Hf.
    assert (U : uparse ucard0 (EvBoard (BoardExchange (mkBExchange (Z.of_N con) [] [] (tag_resizes con main extra hand)))) u = UB).
    { apply uparse_ub.
      - apply B.
      - split; [|exact Logic.I]. rewrite X. apply piles_regular. repeat constructor; cbn; lia || tauto.
      - reflexivity.
      - right. rewrite X.
        destruct (fit_or_trips (resize_acts (tag_resizes con main extra hand)) (b_frame u) (b_frame (cx_board c)) f') as [Y|Y];
          [repeat constructor|apply B|exact Hf| |exact Y].
        exfalso. apply Bt. apply (fit_iff _ _ _ V (tag_nodup con main extra hand who Sd) Hf) in Y.
        now apply (tag_sized (fun s n => s <= n \/ 2 * n <= s)%nat c con main extra extra_up hand top cards who Sd). }
    unfold play_all. cbn [ofold play]. rewrite U. reflexivity.
  - intros Ch Nb.
    assert (Fit : steps_fit use (msg_steps (r_msg r)) (cx_board c)).
    { destruct m; try (solve [eapply good_fit; [eapply (msg_good true); [exact K|exact Ch|intros []|discriminate|exact En]|exact V]]).
      assert (E := event_encode _ _ K eq_refl cs []). rewrite app_nil_r, En in E. injection E as -> _.
      cbn [r_msg msg_steps m_t m_queries map app] in *. unfold pplay_all in P. cbn [ofold pplay] in P.
      apply obind_Ok in P as [q1 [P _]]. apply obind_Ok in P as [[h q2] [P _]]. apply obind_Ok in P as [q3 [P _]].
      destruct (pparse_acts card card0 _ _ _ P Logic.I) as [_ [f' Hf]]. cbn [steps_fit]. split; [|intros; exact Logic.I].
      split; [exact Logic.I|].
      change (event_acts _) with (resize_acts (tag_resizes con main extra hand)) in *.
      destruct (tag_side _ _ _ _ _ _ Hf) as [who Sd].
      apply (fit_iff _ _ _ V (tag_nodup con main extra hand who Sd) Hf).
      apply (tag_sized _ c con main extra extra_up hand top cards who Sd).
      destruct (bad_dec c (CmTagSwap con main extra extra_up hand top cards)) as [D|D]; [destruct (Nb D)|].
      clear - D. unfold bad_tag in D. apply Forall_forall. intros x Hx.
      destruct (le_dec (fst x) (snd x)) as [A|A]; [now left|]. destruct (le_dec (2 * snd x) (fst x)) as [Q|Q]; [now right|].
      exfalso. apply D. apply Exists_exists. exists x. split; [exact Hx|]. lia. }
    destruct (play_all_back use _ _ _ _ B P Fit) as [u' U]. exists u'. split; [exact U|].
    destruct (play_all_sim use _ _ _ _ B U) as [p' [P' B']]. rewrite P in P'. injection P' as <-. exact B'.
  - intros Ch [Ns Rv].
    destruct m; try (solve [eapply good_undoable; [eapply (msg_good false); [exact K|exact Ch|intros []|intros _ []|exact En]|exact B]]).
    + destruct Ns.
    + assert (E := event_encode _ _ K eq_refl cs []). rewrite app_nil_r, En in E. injection E as -> _.
      cbn [r_msg msg_steps m_t m_queries map app] in *. unfold pplay_all in P. cbn [ofold pplay] in P.
      apply obind_Ok in P as [q1 [P _]]. apply obind_Ok in P as [[h q2] [P _]]. apply obind_Ok in P as [q3 [P _]].
      destruct (pparse_acts card card0 _ _ _ P Logic.I) as [_ [f' Hf]].
      change (event_acts _) with (resize_acts (tag_resizes con main extra hand)) in Hf.
      destruct (tag_side _ _ _ _ _ _ Hf) as [who Sd].
      cbn [steps_undoable]. split; [|intros; exact Logic.I].
      unfold event_undoable. change (event_acts _) with (resize_acts (tag_resizes con main extra hand)).
      apply (undoable_of _ _ (b_frame (cx_board c))); [apply B|exact V|exact (tag_nodup con main extra hand who Sd)|].
      now apply (tag_sized _ c con main extra extra_up hand top cards who Sd).
Qed.

Lemma msg_client : forall use c m r c1 c2 u, core_ok m -> encode_one c (ser m) = Ok (r, c1) -> follow r c1 = Ok c2 ->
  bsim u (cx_board c) ->
  (chain_msg m -> play_all use (msg_steps (r_msg r)) u = Abort) /\
  (bad_tag c m -> play_all use (msg_steps (r_msg r)) u = UB) /\
  (~ chain_msg m -> ~ bad_tag c m -> exists u', play_all use (msg_steps (r_msg r)) u = Ok u' /\ bsim u' (cx_board c2)) /\
  (~ chain_msg m -> reversible c m -> steps_undoable use (msg_steps (r_msg r)) u).
Proof.
  intros use c m r c1 c2 u K En Fo B.
  assert (P := follow_plays _ _ _ Fo). rewrite (encode_board _ _ _ _ En) in P. apply (pplay_all_same use) in P.
  exact (msg_client_at use c c m r c1 (cx_board c2) u K En P B).
Qed.

(** ** Streams *)
Lemma recording_cons : forall m ms c rs, recording (m :: ms) c = Ok rs -> exists r c1 c2 rs',
  encode_one c (ser m) = Ok (r, c1) /\ follow r c1 = Ok c2 /\ feed c (ser m) = Ok c2 /\
  recording ms c2 = Ok rs' /\ rs = msg_steps (r_msg r) :: rs'.
Proof.
  intros m ms c rs H. cbn [recording] in H. apply obind_Ok in H as [[r c1] [E H]]. apply obind_Ok in H as [c2 [F H]].
  apply obind_Ok in H as [l [R H]]. injection H as <-. exists r, c1, c2, l. repeat split; auto.
  unfold feed. rewrite E. exact F.
Qed.
Lemma play_all_app : forall use a b u, play_all use (a ++ b) u = let! u' := play_all use a u in play_all use b u'.
Proof. intros. unfold play_all. apply ofold_app. Qed.

Lemma fate_total : forall ms c rs, recording ms c = Ok rs -> exists f, client_fate c ms f.
Proof.
  induction ms as [|m ms IH]; intros c rs H; [exists Follows; constructor|].
  destruct (recording_cons _ _ _ _ H) as (r & c1 & c2 & rs' & _ & _ & F & R & _).
  assert (D : chain_msg m \/ ~ chain_msg m) by (destruct m; cbn; tauto).
  destruct D as [D|D]; [exists Stops; now constructor|].
  destruct (bad_dec c m) as [B|B]; [exists Breaks; now constructor|].
  destruct (IH _ _ R) as [f Hf]. exists f. eapply fate_next; eauto.
Qed.

Lemma client_runs : forall use ms c rs u f, Forall core_ok ms -> recording ms c = Ok rs -> bsim u (cx_board c) ->
  client_fate c ms f -> ends_as f (play_all use (concat rs) u).
Proof.
  induction ms as [|m ms IH]; intros c rs u f K H B Ft.
  - cbn in H. injection H as <-. inversion Ft; subst. cbn. eauto.
  - destruct (recording_cons _ _ _ _ H) as (r & c1 & c2 & rs' & E & Fo & F & R & ->).
    apply Forall_cons_iff in K as [K1 K2].
    destruct (msg_client use _ _ _ _ _ _ K1 E Fo B) as (A1 & A2 & A3 & _).
    cbn [concat]. rewrite play_all_app. inversion Ft; subst; cbn [ends_as].
    + rewrite A1 by assumption. reflexivity.
    + rewrite A2 by assumption. reflexivity.
    + match goal with H : feed c _ = Ok ?x |- _ => rewrite H in F; injection F as -> end.
      destruct A3 as [u' [U B']]; auto. rewrite U. cbn [obind]. eapply IH; eauto.
Qed.

Lemma server_runs : forall ms c rs, recording ms c = Ok rs -> length rs = length ms /\
  forall k, exists ck, feed_all c (firstn k ms) = Ok ck /\
    forall use, pplay_all use (concat (firstn k rs)) (cx_board c) = Ok (cx_board ck).
Proof.
  induction ms as [|m ms IH]; intros c rs H.
  - cbn in H. injection H as <-. split; [reflexivity|]. intros k. exists c. rewrite !firstn_nil. split; reflexivity.
  - destruct (recording_cons _ _ _ _ H) as (r & c1 & c2 & rs' & E & Fo & F & R & ->).
    destruct (IH _ _ R) as [Ln P]. split; [cbn [length]; now rewrite Ln|]. intros [|k].
    + exists c. split; reflexivity.
    + destruct (P k) as (ck & A & Q). exists ck. unfold feed_all in *. cbn [firstn ofold]. rewrite F. cbn [obind].
      split; [exact A|]. intros use. cbn [firstn concat]. rewrite pplay_all_app.
      assert (X := follow_plays _ _ _ Fo). rewrite (encode_board _ _ _ _ E) in X. apply (pplay_all_same use) in X.
      rewrite X. cbn [obind]. apply Q.
Qed.

Lemma reversible_runs : forall use ms c rs u, Forall core_ok ms -> recording ms c = Ok rs -> bsim u (cx_board c) ->
  client_fate c ms Follows -> reversible_along c ms -> steps_undoable use (concat rs) u.
Proof.
  induction ms as [|m ms IH]; intros c rs u K H B Ft Rv.
  - cbn in H. injection H as <-. exact Logic.I.
  - destruct (recording_cons _ _ _ _ H) as (r & c1 & c2 & rs' & E & Fo & F & R & ->).
    apply Forall_cons_iff in K as [K1 K2].
    destruct (msg_client use _ _ _ _ _ _ K1 E Fo B) as (_ & _ & A3 & A4).
    cbn [concat]. inversion Ft; subst. destruct Rv as [Rv1 Rv2].
    match goal with H : feed c _ = Ok ?x |- _ => rewrite H in F; injection F as -> end.
    destruct A3 as [u' [U B']]; auto.
    assert (W : steps_undoable use (concat rs') u') by (eapply IH; eauto).
    assert (W1 : steps_undoable use (msg_steps (r_msg r)) u) by auto. clear - W W1 U.
    revert u U W1. induction (msg_steps (r_msg r)) as [|s l IHl]; intros u U W1.
    + cbn in U. injection U as ->. exact W.
    + unfold play_all in U. cbn [ofold] in U. apply obind_Ok in U as [u1 [U1 U2]]. apply obind_Ok in U1 as [[h u2] [U0 U1]].
      injection U1 as ->. cbn [app steps_undoable]. destruct W1 as [W1 W2]. split; [exact W1|].
      intros hits b' Pb. assert (X := W2 _ _ Pb). rewrite U0 in Pb. injection Pb as <- <-. apply IHl; auto.
Qed.

(** ** What cannot be taken back *)
Lemma undone_live : forall e (b b' b'' : uboard ucard), linv ucard (b_frame b) -> at_end (b_frame b) ->
  uparse ucard0 e b = Ok b' -> uundo ucard0 e b' = Ok b'' -> event_undoable ucard0 e b.
Proof.
  intros e b b' b'' Re En H U. apply EventUndo.uparse_iff in H as [A [w' [R ->]]].
  destruct Re as [nx [h [L [P [F [E O]]]]]].
  rewrite E in En. apply at_end_tape in En. subst F. unfold event_undoable. rewrite E in R |- *.
  destruct (live_run ucard ucard0 _ _ _ _ _ _ (event_acts_ok _) O R) as [nx' [new [L' [ps [-> [O' _]]]]]].
  destruct (EventUndo.uundo_frame _ _ _ _ _ U) as [w2 U']. cbn [EventUndo.parsed b_frame] in U'.
  eapply undone_undoable; eauto using event_acts_ok, incl_refl.
Qed.

Lemma undoable_sized : forall l w f w', fsim w f -> inv card f -> NoDup (map target l) ->
  lrun ucard0 (resize_acts l) w = Ok w' ->
  acts_undoable ucard0 (resize_acts l) w -> Forall (sized (fun s n => s <= n \/ s = 2 * n)%nat f) l.
Proof.
  induction l as [|o l IH]; intros w f w' Sm V N R F; [constructor|].
  cbn [map] in N. inversion N as [|? ? N1 N2]; subst.
  unfold lrun, resize_acts in R. cbn [map ofold] in R. apply obind_Ok in R as [w1 [R1 R2]].
  unfold resize_acts in F. cbn [map acts_undoable] in F. destruct F as [F1 F2].
  destruct (sim_act ucard card ucard0 card0 UReplayAgree.shows shows0 (LResize _ _) Logic.I w f w1 Sm R1) as [f' [E Sm']].
  cbn [plain_op] in E. constructor.
  - intros r T. unfold target in T. destruct (slot (rz_place o)) as [[k i]|] eqn:Sl; [|discriminate].
    cbn in T. injection T as ->. cbn [act_undoable] in F1. specialize (F1 r i Sl). cbv zeta in F1.
    destruct Sm as [_ [_ [_ [EL _]]]]. rewrite EL. exact F1.
  - apply (sized_later _ o l f f'); auto. apply (IH w1 f' w'); auto. eapply inv_step; eauto.
Qed.

Lemma stuck : forall use c m r c1 c2 u u', core_ok m -> encode_one c (ser m) = Ok (r, c1) -> follow r c1 = Ok c2 ->
  bsim u (cx_board c) -> play_all use (msg_steps (r_msg r)) u = Ok u' -> ~ reversible c m ->
  exists e, msg_steps (r_msg r) = [REvent e] /\ forall u'', uundo ucard0 e u' <> Ok u''.
Proof.
  intros use c m r c1 c2 u u' K En Fo B H Nr.
  assert (V : inv card (b_frame (cx_board c))) by apply B.
  assert (P := follow_plays _ _ _ Fo). rewrite (encode_board _ _ _ _ En) in P. apply (pplay_all_same use) in P.
  destruct m; try (exfalso; apply Nr; split; [exact Logic.I|constructor]).
  - assert (E := event_encode _ _ K eq_refl c []). rewrite app_nil_r, En in E. injection E as -> _.
    eexists. split; [reflexivity|]. intros u'' X. discriminate X.
  - assert (E := event_encode _ _ K eq_refl c []). rewrite app_nil_r, En in E. injection E as -> _.
    cbn [r_msg msg_steps m_t m_queries map app] in *. eexists. split; [reflexivity|]. intros u'' X.
    unfold play_all in H. cbn [ofold play] in H.
    apply obind_Ok in H as [u1 [H H']]. injection H' as ->. apply obind_Ok in H as [[h u2] [H H']]. injection H' as ->.
    apply obind_Ok in H as [u3 [H H']]. injection H' as <- ->.
    unfold pplay_all in P. cbn [ofold pplay] in P.
    apply obind_Ok in P as [p1 [P _]]. apply obind_Ok in P as [[h' p2] [P _]]. apply obind_Ok in P as [p3 [P _]].
    destruct (pparse_acts card card0 _ _ _ P Logic.I) as [_ [f' Hf]].
    change (event_acts _) with (resize_acts (tag_resizes con main extra hand)) in Hf.
    destruct (tag_side _ _ _ _ _ _ Hf) as [who Sd].
    assert (Un := undone_live _ _ _ _ (proj1 (proj1 B)) (proj1 (proj2 (proj1 B))) H X).
    apply EventUndo.uparse_iff in H as [_ [w' [R _]]].
    unfold event_undoable in Un. change (event_acts _) with (resize_acts (tag_resizes con main extra hand)) in *.
    apply Nr. split; [exact Logic.I|]. apply (tag_sized (fun s n => s <= n \/ s = 2 * n)%nat c con main extra extra_up hand top cards who Sd).
    eapply undoable_sized; eauto; [apply B|exact (tag_nodup con main extra hand who Sd)].
Qed.
