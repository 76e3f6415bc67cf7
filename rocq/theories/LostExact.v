(** Exactly which cards a shrinking pile and a forgotten history lose. *)
From Verif Require Import LimboUndo.
From Verif Require Import Base BaseProofs Place PlaceProofs Frame FrameSpec FrameLens FrameProofs FrameMove FrameOps
  FramePiles FrameInv FrameShuffle FrameFacts Limbo LimboSpec LimboProofs LimboFacts Msg Event EventSpec
  LostSpec LostProofs LostForever.

Section Exact.
Variable C : Type.
Variable c0 : C.
Notation tape := (tape C).

Lemma occupant_set_pile : forall r l L pos,
  occupant (set_pile r l L) pos = if cont_eq_dec (fst pos) (CPile r) then nth_error l (snd pos) else occupant L pos.
Proof.
  intros r l L [k j]. unfold occupant. cbn [fst snd].
  pose proof (view_set_pile r l L k) as V. unfold view, view_set in V. rewrite V.
  destruct (cont_eq_dec k (CPile r)); reflexivity.
Qed.

Definition onboard (L : layout) (id : cid) : Prop := exists pos, occupant L pos = Some (Some id).
Definition noted (P : list lop) (id : cid) : Prop := exists o, In o P /\ op_mentions o id.

Lemma onboard_dec : forall L id, lay_ok L -> onboard L id \/ ~ onboard L id.
Proof.
  intros L id K. destruct (Nat.eq_dec (cntL L id) 0) as [Z|Z].
  - right. intros [[k i] E]. unfold occupant in E. simpl in E.
    destruct (valid_cont_dec k) as [V|V].
    + pose proof (cnt_le_cntL k L id (proj1 K) V). apply nth_error_In, cnt_In in E. lia.
    + rewrite contents_invalid in E; auto. { destruct i; discriminate. } apply K.
  - left. apply inL_occupant. unfold inL. lia.
Qed.

Lemma reach_tape : forall nx h L P F id,
  within_reach (tape nx h L P F) id <-> onboard L id \/ noted P id \/ noted F id.
Proof.
  intros. unfold within_reach, onboard, noted. rewrite lb_lay_tape. cbn [lb_ops LimboProofs.tape]. split.
  - intros [X|[o [X Y]]]; [auto|]. apply in_app_or in X. rewrite <- in_rev in X. destruct X; eauto.
  - intros [X|[[o [X Y]]|[o [X Y]]]]; [auto| |]; right; exists o; (split; [|exact Y]); apply in_or_app;
      [left; now apply in_rev in X|now right].
Qed.

Lemma shrink_loses : forall p r i count w w', linv C w -> slot p = Some (CPile r, i) -> at_end w ->
  let pile := contents (CPile r) (lb_lay w) in
  (N.to_nat count < length pile)%nat -> l_pile_resize c0 p count w = Ok w' ->
  forall id, lost w' id <-> lost w id \/
    (onboard (lb_lay w) id /\
     (forall pos, occupant (lb_lay w) pos = Some (Some id) ->
        exists j, pos = (CPile r, j) /\ (N.to_nat count <= j < length pile - N.to_nat count)%nat) /\
     ~ noted (lb_ops w) id).
Proof.
  intros p r i count w w' I Sl En pile Lt H id. subst pile. destruct I as [nx [h [L [P [F [-> O]]]]]].
  rewrite lb_lay_tape in *. apply at_end_tape in En. subst F. cbn [contents] in *.
  assert (R : pile_of p = Ok r) by (apply pile_of_iff; eauto).
  pose proof (to_lay _ _ _ _ _ _ O) as K. pose proof K as [S Nn].
  apply resize_live in H; [|exact Nn]. destruct H as [r' [l' [s' [R' [E [Ln [A ->]]]]]]].
  assert (r' = r) by congruence. subst r'. cbv zeta.
  set (l := get_pile r L) in *. set (n := N.to_nat count) in *.
  replace (n - length l)%nat with 0%nat by lia. cbn [fresh_cells].
  unfold resized in E. destruct (Nat.ltb_spec (length l) n); [lia|].
  destruct (Nat.ltb_spec n (length l)); [|lia].
  apply obind_Ok in E as [s1 [E1 E]]. injection E as <- <-.
  unfold copy_to in E1. rewrite resize_ptrs_len, skipn_length in E1.
  destruct (Nat.leb_spec (length l - (length l - n)) (length l - n)); [|discriminate]. injection E1 as <-.
  set (s := skipn (length l - n) l ++ _).
  assert (Hs : In (Some id) s <-> exists j, (length l - n <= j)%nat /\ nth_error l j = Some (Some id)).
  { unfold s. rewrite in_app_iff. split.
    - intros [X|X].
      + apply In_nth_error in X. destruct X as [j X]. rewrite nth_error_skipn in X.
        exists (length l - n + j)%nat. split; [lia|exact X].
      + exfalso. unfold resize_ptrs in X. rewrite firstn_nil in X. cbn [app] in X.
        apply In_nth_error in X. destruct X as [j X]. rewrite nth_error_skipn in X. apply nth_error_In, repeat_spec in X. discriminate.
    - intros [j [X Y]]. left. apply nth_error_In with (j - (length l - n))%nat.
      rewrite nth_error_skipn. now replace (length l - n + (j - (length l - n)))%nat with j by lia. }
  unfold lost. rewrite !reach_tape.
  assert (Al : card_alive (tape (nx + N.of_nat 0) (fresh_cells C c0 nx 0 ++ h) (set_pile r (firstn n l) L)
     (ResizeOp (length l) s :: P) []) id <-> card_alive (tape nx h L P []) id) by (cbn; tauto).
  assert (Lb : lb_ops (tape nx h L P []) = rev P ++ []) by reflexivity.
  assert (Nb : noted (lb_ops (tape nx h L P [])) id <-> noted P id).
  { unfold noted. rewrite Lb, app_nil_r. split; intros [o [X Y]]; exists o; split; auto; now apply in_rev in X || apply in_rev in X. }
  rewrite Nb.
  assert (Nf : noted [] id <-> False) by (unfold noted; split; [intros [o [[] _]]|tauto]).
  rewrite !Nf.
  assert (Nc : noted (ResizeOp (length l) s :: P) id <-> In (Some id) s \/ noted P id).
  { unfold noted. split.
    - intros [o [[<-|X] Y]]; [left; exact Y|right; eauto].
    - intros [X|[o [X Y]]]; [exists (ResizeOp (length l) s); split; [now left|exact X]|exists o; split; [now right|exact Y]]. }
  rewrite Nc, Hs.
  assert (Bd : onboard (set_pile r (firstn n l) L) id <->
     exists pos, occupant L pos = Some (Some id) /\ (fst pos = CPile r -> (snd pos < n)%nat)).
  { unfold onboard. split.
    - intros [pos X]. rewrite occupant_set_pile in X. exists pos. destruct (cont_eq_dec (fst pos) (CPile r)) as [Q|Q].
      + assert (Ls : (snd pos < n)%nat).
        { assert (snd pos < length (firstn n l))%nat by (apply nth_error_Some; congruence). rewrite firstn_length in *. lia. }
        split; [|auto]. rewrite nth_error_firstn in X by exact Ls. unfold occupant. rewrite Q. exact X.
      + split; [exact X|tauto].
    - intros [pos [X Y]]. exists pos. rewrite occupant_set_pile. destruct (cont_eq_dec (fst pos) (CPile r)) as [Q|Q]; [|exact X].
      rewrite nth_error_firstn by auto. unfold occupant in X. rewrite Q in X. exact X. }
  rewrite Bd. split.
  - intros [Al1 N]. apply Al in Al1.
    assert (Mid : forall pos, occupant L pos = Some (Some id) -> exists j, pos = (CPile r, j) /\ (n <= j < length l - n)%nat).
    { intros [k j] X. exists j. destruct (cont_eq_dec k (CPile r)) as [->|Q].
      - split; [reflexivity|]. split.
        + destruct (Nat.lt_ge_cases j n) as [Y|Y]; [|exact Y]. destruct N. left. exists (CPile r, j). auto.
        + destruct (Nat.lt_ge_cases j (length l - n)) as [Y|Y]; [exact Y|]. destruct N. right. left. left. exists j. auto.
      - destruct N. left. exists (k, j). split; [exact X|]. intros Y. now destruct Q. }
    destruct (onboard_dec L id K) as [B|B].
    + right. split; [exact B|]. split; [exact Mid|]. tauto.
    + left. split; [exact Al1|]. intros [X|[X|[]]]; tauto.
  - intros [[Al1 N]|[B [Mid N]]].
    + split; [now apply Al|]. intros [[pos [X _]]|[[[j [_ X]]|X]|[]]].
      * apply N. left. now exists pos.
      * apply N. left. exists (CPile r, j). exact X.
      * apply N. auto.
    + split.
      * apply Al. destruct B as [[k j] X]. destruct (Mid _ X) as [j' [Q _]]. injection Q as -> <-.
        apply (to_cnt _ _ _ _ _ _ O). apply (cntL_pile_In r); [exact S|]. now apply nth_error_In in X.
      * intros [[pos [X Y]]|[[[j [Z X]]|X]|[]]]; [| |tauto].
        -- destruct (Mid _ X) as [j [-> Z]]. cbn in Y. specialize (Y eq_refl). lia.
        -- destruct (Mid (CPile r, j) X) as [j' [Q Z']]. injection Q as <-. lia.
Qed.

Lemma noted_dec : forall (h : list (cid * C)) P id, Forall (op_ok C h) P -> noted P id \/ ~ noted P id.
Proof.
  intros h P id V. induction V as [|o P Ho V IH].
  - right. intros [o [[] _]].
  - assert (D : op_mentions o id \/ ~ op_mentions o id).
    { destruct o as [c|k s|L1]; cbn [op_mentions].
      - destruct c as [c|]; [destruct (N.eq_dec c id); [left; congruence|right; congruence]|right; congruence].
      - assert (Dp : forall a b : ptr, {a = b} + {a <> b}).
        { intros [a|] [b|]; [|right; discriminate|right; discriminate|now left].
          destruct (N.eq_dec a b) as [->|Q]; [now left|right; congruence]. }
        destruct (in_dec Dp (Some id) s); auto.
      - apply onboard_dec. exact (proj1 Ho). }
    destruct D as [D|D]; [left; exists o; split; [now left|exact D]|].
    destruct IH as [[o' [X Y]]|N]; [left; exists o'; split; [now right|exact Y]|].
    right. intros [o' [[<-|X] Y]]; [auto|]. apply N. now exists o'.
Qed.

Lemma erase_loses : forall w w', linv C w -> l_erase_history w = Ok w' ->
  forall id, lost w' id <-> lost w id \/
    (card_alive w id /\ ~ onboard (lb_lay w) id /\ noted (skipn (lb_op w) (lb_ops w)) id /\
     ~ noted (firstn (lb_op w) (lb_ops w)) id).
Proof.
  intros w w' I H id. destruct I as [nx [h [L [P [F [-> O]]]]]].
  rewrite erase_tape in H. injection H as <-. unfold lost. rewrite !reach_tape.
  assert (Nf : noted [] id <-> False) by (unfold noted; split; [intros [o [[] _]]|tauto]). rewrite Nf.
  rewrite lb_lay_tape. cbn [lb_op lb_ops LimboProofs.tape].
  assert (Lr : length P = length (rev P)) by now rewrite rev_length.
  assert (E1 : firstn (length P) (rev P ++ F) = rev P) by (rewrite Lr; now apply firstn_app_exact).
  assert (E2 : skipn (length P) (rev P ++ F) = F) by (rewrite Lr; now apply skipn_app_exact).
  rewrite E1, E2.
  assert (Rv : noted (rev P) id <-> noted P id).
  { unfold noted. split; intros [o [X Y]]; exists o; (split; [|exact Y]); [now apply in_rev|now apply in_rev in X]. }
  rewrite Rv.
  assert (Al : card_alive (tape nx h L P []) id <-> card_alive (tape nx h L P F) id) by reflexivity.
  rewrite Al. destruct (noted_dec h F id (to_next _ _ _ _ _ _ O)) as [D|D]; tauto.
Qed.
End Exact.
