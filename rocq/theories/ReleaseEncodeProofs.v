(** The encoder with and without assertions. *)
From Verif Require Import Base BaseProofs Place Frame FrameSpec FrameLens FrameProofs FrameInv FrameFacts Msg Event Query
  Reader EncodeQuery Encode EncodeSpec ReaderProofs EncodeProofs EncodeLocal EncodeState
  Release ReleaseSpec ReleaseProofs ReleaseFrameSpec ReleaseFrameProofs ReleaseEncode ReleaseEncodeSpec.

Set Implicit Arguments.
Local Open Scope N_scope.

(** ** Whatever goes through with assertions *)

Lemma keeps_seq : forall A B (m m' : outcome A) (k k' : A -> outcome B),
  keeps m m' -> (forall a, keeps (k a) (k' a)) -> keeps (obind m k) (obind m' k').
Proof. intros A B m m' k k' H K. apply keeps_bind; [exact H|]. intros a _. apply K. Qed.
Definition kept {A} (m m' : reader A) : Prop := forall bs, keeps (m bs) (m' bs).
Lemma kept_refl : forall A (m : reader A), kept m m.
Proof. intros A m bs. apply keeps_refl. Qed.
Lemma kept_bind : forall A B (m m' : reader A) (k k' : A -> reader B),
  kept m m' -> (forall a, kept (k a) (k' a)) -> kept (rbind m k) (rbind m' k').
Proof. intros A B m m' k k' H K bs. unfold rbind. apply keeps_seq; [apply H|]. intros [a bs']. apply K. Qed.
Lemma kept_lift : forall A (o o' : outcome A), keeps o o' -> kept (rlift o) (rlift o').
Proof. intros A o o' H bs. unfold rlift. apply keeps_seq; [exact H|]. intros a. apply keeps_refl. Qed.
Lemma kept_then : forall A B (m : reader A) (k k' : A -> reader B),
  (forall a, kept (k a) (k' a)) -> kept (rbind m k) (rbind m k').
Proof. intros A B m k k' H. apply kept_bind; [apply kept_refl|exact H]. Qed.

Lemma keeps_pile_size : forall c con loc, keeps (pile_size c con loc) (rel_pile_size c con loc).
Proof. intros. apply keeps_seq; [apply keeps_pile_ref|]. intros r. apply keeps_refl. Qed.
Lemma keeps_has_xyz : forall c p, keeps (has_xyz_mat c p) (rel_has_xyz_mat c p).
Proof. intros. apply keeps_seq; [apply keeps_zone_of|]. intros r. apply keeps_refl. Qed.
Lemma keeps_move_verdict : forall p q r c, keeps (move_verdict p q r c) (rel_move_verdict p q r c).
Proof.
  intros p q r c. unfold move_verdict, rel_move_verdict.
  repeat first [apply keeps_refl | apply keeps_has_xyz | apply keeps_if; intros _
    | apply keeps_seq; [apply keeps_if; intros _; [apply keeps_has_xyz|apply keeps_refl]|intros ?]].
Qed.
Lemma kept_select_card : kept select_card_r rel_select_card_r.
Proof.
  do 4 (apply kept_then; intros ?). intros bs [x rest] H. unfold rbind at 1 in H. cbn [rlift obind] in H.
  destruct (0 <? _) in H; [exact H|discriminate H].
Qed.
Lemma kept_request : forall k m, request_case k = Some m ->
  exists m', rel_request_case k = Some m' /\ forall z, kept (m z) (m' z).
Proof.
  intros k m H. destruct k; try discriminate H;
    try (exists m; split; [exact H|]; intros z; apply kept_refl).
  exists (fun _ => rel_select_card_r). split; [reflexivity|]. injection H as <-. intros _. apply kept_select_card.
Qed.
Lemma request_none : forall k, request_case k = None -> rel_request_case k = None.
Proof. intros k H. destruct k; try discriminate H; reflexivity. Qed.
Lemma event_no_request : forall k m, event_case k = Some m -> rel_request_case k = None.
Proof. intros k m H. destruct k; try discriminate H; reflexivity. Qed.

Lemma kept_dispatch : forall k c, kept (dispatch k c) (rel_dispatch k c).
Proof.
  intros k c. destruct (event_case k) as [m|] eqn:E.
  - unfold rel_dispatch. rewrite (event_no_request _ E). destruct k; try discriminate E; apply kept_refl.
  - unfold rel_dispatch. destruct (request_case k) as [m|] eqn:R.
    + destruct (kept_request k R) as (m' & -> & K). unfold dispatch. rewrite E, R.
      apply kept_then. intros z. apply kept_bind; [apply K|]. intros q. apply kept_refl.
    + rewrite (request_none k R). destruct k; try discriminate E; try discriminate R; try apply kept_refl.
      all: unfold dispatch; cbn [event_case request_case].
      all: unfold deck_top_case, swap_grave_deck_case, draw_case, reverse_deck_case, move_case,
        rel_deck_top_case, rel_swap_grave_deck_case, rel_draw_case, rel_reverse_deck_case, rel_move_case.
      all: repeat first [apply kept_refl | apply kept_bind; [apply kept_lift, keeps_pile_size|intros ?]
        | apply kept_lift, keeps_move_verdict | apply kept_then; intros ?].
Qed.
Lemma keeps_encode : forall c bs, keeps (encode_one c bs) (rel_encode_one c bs).
Proof.
  intros c bs. unfold encode_one, rel_encode_one. apply keeps_seq; [apply keeps_refl|]. intros [b rest].
  apply keeps_seq; [|intros x; apply keeps_refl].
  destruct (kind_of b) as [k|]; [apply kept_dispatch|apply keeps_refl].
Qed.
Lemma keeps_ctx_parse : forall m c, keeps (ctx_parse m c) (rel_ctx_parse m c).
Proof.
  intros m c. unfold ctx_parse, rel_ctx_parse. apply keeps_seq.
  - destruct (m_t m); try apply keeps_refl. apply keeps_seq; [apply keeps_pparse|]. intros b. apply keeps_refl.
  - intros c1. apply keeps_ofold. intros q x. apply keeps_seq; [apply keeps_parse_query|]. intros [h f]. apply keeps_refl.
Qed.
Lemma keeps_feed : forall c bs, keeps (feed c bs) (rel_feed c bs).
Proof.
  intros c bs. apply keeps_seq; [apply keeps_encode|]. intros [r c']. unfold follow, rel_follow.
  destruct (r_msg r); [apply keeps_ctx_parse|apply keeps_refl].
Qed.

(** ** Readers that never stop *)

Definition calm {A} (m : reader A) : Prop := forall bs, m bs <> Abort.
Lemma calm_ret : forall A (x : A), calm (rret x).
Proof. intros A x bs H. discriminate H. Qed.
Lemma calm_bytes : forall n, calm (rbytes n).
Proof. intros n bs H. unfold rbytes in H. destruct (n <=? lenN bs); discriminate H. Qed.
Lemma calm_bind : forall A B (m : reader A) (k : A -> reader B), calm m -> (forall x, calm (k x)) -> calm (rbind m k).
Proof.
  intros A B m k Hm Hk bs H. unfold rbind in H. specialize (Hm bs). destruct (m bs) as [[x r]| | |]; cbn [obind] in H;
    try discriminate H; [exact (Hk x r H)|now apply Hm].
Qed.
Lemma calm_times : forall A (m : reader A) n, calm m -> calm (rtimes n m).
Proof.
  intros A m n H. induction n as [|n IH]; cbn [rtimes]; [apply calm_ret|].
  apply calm_bind; [exact H|]. intros x. apply calm_bind; [exact IH|]. intros. apply calm_ret.
Qed.
Lemma calm_skip : forall n, calm (rskip n).
Proof. intros n. apply calm_bind; [apply calm_bytes|intros; apply calm_ret]. Qed.
Lemma calm_read : forall n, calm (read n).
Proof. intros n. apply calm_bind; [apply calm_bytes|intros; apply calm_ret]. Qed.
Lemma calm_peek : forall A (m : reader A), calm m -> calm (peek m).
Proof. intros A m Hm bs H. unfold peek in H. specialize (Hm bs). destruct (m bs) as [[x r]| | |]; cbn in H; congruence. Qed.
Lemma calm_counted : forall A (m : reader A), calm m -> calm (counted m).
Proof. intros A m Hm bs H. unfold counted in H. specialize (Hm bs). destruct (m bs) as [[x r]| | |]; cbn in H; congruence. Qed.
Lemma calm_ub : forall A, calm (rlift (@UB A)).
Proof. intros A bs H. discriminate H. Qed.
Lemma calm_diverge : forall A, calm (rlift (@Diverge A)).
Proof. intros A bs H. discriminate H. Qed.
Lemma calm_or_ub : forall A (o : option A), calm (rlift (or_ub o)).
Proof. intros A o bs H. destruct o; discriminate H. Qed.

Ltac cal1 :=
  match goal with
  | |- calm (rbind _ _) => apply calm_bind; [|intros ?]
  | |- calm (rret _) => apply calm_ret
  | |- calm (rskip _) => apply calm_skip
  | |- calm (read _) => apply calm_read
  | |- calm (peek _) => apply calm_peek
  | |- calm (counted _) => apply calm_counted
  | |- calm (rlift UB) => apply calm_ub
  | |- calm (rlift Diverge) => apply calm_diverge
  | |- calm (rtimes _ _) => apply calm_times
  | |- calm (rcount _ _) => unfold rcount
  | |- calm (rlist _ _) => unfold rlist
  | |- calm (if ?b then _ else _) => destruct b
  | |- calm (match ?x with _ => _ end) => destruct x
  | |- calm (let _ := _ in _) => cbv zeta
  end.
Lemma calm_con : calm read_con. Proof. unfold read_con. repeat cal1. Qed.
Lemma calm_bool : calm read_bool. Proof. unfold read_bool. repeat cal1. Qed.
Lemma calm_i32 : calm read_i32. Proof. unfold read_i32. repeat cal1. Qed.
Lemma calm_counter : calm read_counter. Proof. unfold read_counter. repeat cal1. Qed.
Lemma calm_effect : calm read_effect. Proof. unfold read_effect. repeat cal1. Qed.
Lemma calm_info_ : forall a b c, calm (read_loc_info_ a b c).
Proof. intros. unfold read_loc_info_, read_con. repeat cal1. Qed.
Ltac cal2 :=
  match goal with
  | |- calm read_con => apply calm_con
  | |- calm read_bool => apply calm_bool
  | |- calm read_i32 => apply calm_i32
  | |- calm read_counter => apply calm_counter
  | |- calm read_effect => apply calm_effect
  | |- calm (read_loc_info_ _ _ _) => apply calm_info_
  | |- calm read_loc_info => apply calm_info_
  | |- calm read_place4 => apply calm_info_
  | |- calm read_place1 => apply calm_info_
  | |- calm (read_card_list _) => unfold read_card_list
  | |- calm (listed_place _) => unfold listed_place
  | _ => cal1
  end.
Lemma calm_zones : forall con loc l, calm (zone_slots con loc l).
Proof.
  intros con loc l. induction l as [|s l IH]; cbn [zone_slots]; [apply calm_ret|].
  apply calm_bind; [unfold zone_slot; repeat cal2|]. intros a.
  apply calm_bind; [exact IH|]. intros. apply calm_ret.
Qed.
Lemma calm_side : forall con, calm (controller_state con).
Proof.
  intros con. unfold controller_state. apply calm_bind; [repeat cal2|]. intros lp.
  apply calm_bind; [apply calm_zones|]. intros ms.
  apply calm_bind; [apply calm_zones|]. intros ss. repeat cal2.
Qed.
Ltac cal3 :=
  match goal with
  | |- calm sel_card_r => unfold sel_card_r
  | |- calm chain_link => unfold chain_link
  | |- calm (controller_state _) => apply calm_side
  | |- calm confirm_event => unfold confirm_event
  | |- calm (shuffle_codes _) => unfold shuffle_codes
  | |- calm (summoning _) => unfold summoning
  | |- calm selected => unfold selected
  | |- calm (lp_event _) => unfold lp_event
  | |- calm (status_event _) => unfold status_event
  | |- calm start_event => unfold start_event
  | |- calm tag_swap_event => unfold tag_swap_event
  | |- calm reload_event => unfold reload_event
  | |- calm act_card_r => unfold act_card_r
  | |- calm select_battle_r => unfold select_battle_r
  | |- calm select_idle_r => unfold select_idle_r
  | _ => cal2
  end.
Lemma calm_event : forall k r, event_case k = Some r -> calm r.
Proof. intros k r H. destruct k; try discriminate H; inversion H; subst; repeat cal3. Qed.
Lemma calm_request : forall k r, k <> KSelectCard -> request_case k = Some r -> forall z, calm (r z).
Proof. intros k r N H z. destruct k; try discriminate H; try congruence; inversion H; subst; repeat cal3. Qed.
Lemma calm_item : forall size flag st, calm (query_item size flag st).
Proof. intros size flag [d ov]. unfold query_item. repeat cal2. Qed.
Lemma calm_query_loop : forall fuel st, calm (query_loop fuel st).
Proof.
  induction fuel as [|fuel IH]; intros st; cbn [query_loop]; [apply calm_diverge|]. do 2 (apply calm_bind; [apply calm_read|intros ?]).
  destruct (_ =? _); [apply calm_ret|]. apply calm_bind; [apply calm_item|]. intros st'. apply IH.
Qed.
Lemma calm_card_queries : forall p, calm (card_queries p).
Proof.
  intros p. unfold card_queries. apply calm_bind; [|intros; apply calm_ret]. intros bs. apply calm_query_loop.
Qed.
Lemma calm_update_loop : forall fuel con loc total i n, calm (update_loop fuel con loc total i n).
Proof.
  induction fuel as [|fuel IH]; intros con loc total i n; cbn [update_loop]; (destruct (n <? total); [|apply calm_ret]);
    [apply calm_diverge|].
  apply calm_bind; [apply calm_peek, calm_read|]. intros s. destruct (s =? 0).
  - apply calm_bind; [apply calm_skip|]. intros _. apply IH.
  - destruct (fix_spell_loc_seq loc i) as [floc fseq]. apply calm_bind; [apply calm_counted, calm_card_queries|].
    intros [q m]. apply calm_bind; [apply IH|]. intros l. apply calm_ret.
Qed.
Lemma calm_update_data : calm update_data.
Proof.
  unfold update_data. do 3 (apply calm_bind; [repeat cal2|intros ?]). intros bs. apply calm_update_loop.
Qed.
Lemma calm_update_card : calm update_card.
Proof. unfold update_card. apply calm_bind; [repeat cal2|]. intros p. apply calm_card_queries. Qed.

Lemma calm_extra : forall con pos data is sseq ssize sent, extra_loop con pos data is sseq ssize sent <> Abort.
Proof.
  intros con pos data is. induction is as [|i is IH]; intros sseq ssize sent H; cbn [extra_loop] in H; [discriminate H|].
  destruct (nth_error data _) as [b|]; cbn [or_ub obind] in H; [|discriminate H].
  destruct (N.testbit b (i mod 8)); [exact (IH _ _ _ H)|]. destruct (0 <? ssize); [|exact (IH _ _ _ H)].
  match type of H with obind ?m _ = _ => destruct m eqn:X; cbn [obind] in H; try discriminate H end. exact (IH _ _ _ X).
Qed.

(** ** The same but for the assertions *)

Definition loose {A} (m m' : reader A) : Prop := forall bs, m' bs = unchecked (m bs).
Lemma loose_calm : forall A (m : reader A), calm m -> loose m m.
Proof. intros A m H bs. specialize (H bs). destruct (m bs); try reflexivity. congruence. Qed.
Lemma loose_bind : forall A B (m m' : reader A) (k k' : A -> reader B),
  loose m m' -> (forall a, loose (k a) (k' a)) -> loose (rbind m k) (rbind m' k').
Proof.
  intros A B m m' k k' H K bs. unfold rbind. rewrite H. destruct (m bs) as [[a r]| | |]; cbn [unchecked obind]; try reflexivity.
  apply K.
Qed.
Lemma loose_then : forall A B (m : reader A) (k k' : A -> reader B),
  calm m -> (forall a, loose (k a) (k' a)) -> loose (rbind m k) (rbind m k').
Proof. intros A B m k k' C H. apply loose_bind; [apply loose_calm, C|exact H]. Qed.
Lemma loose_lift : forall A (o o' : outcome A), o' = unchecked o -> loose (rlift o) (rlift o').
Proof. intros A o o' -> bs. unfold rlift. destruct o; reflexivity. Qed.

Lemma con_index_range : forall con, (con <=? 1)%Z = false -> con_index con = UB.
Proof.
  intros con H. apply Z.leb_gt in H. unfold con_index.
  replace (con =? 0)%Z with false by (symmetry; apply Z.eqb_neq; lia).
  replace (con =? 1)%Z with false by (symmetry; apply Z.eqb_neq; lia). reflexivity.
Qed.
Lemma pile_ref_loose : forall con loc, rel_pile_ref con loc = unchecked (pile_ref con loc).
Proof.
  intros con loc. unfold pile_ref. destruct (con <=? 1)%Z eqn:E; cbn [assert_ obind].
  - destruct (loc_is_pile loc) eqn:P; cbn [assert_ obind].
    + unfold rel_pile_ref. unfold con_index.
      repeat match goal with |- context [if ?b then _ else _] => destruct b end; reflexivity.
    + unfold rel_pile_ref.
      repeat match goal with |- (if loc =? ?k then _ else _) = _ =>
        destruct (N.eqb_spec loc k); [subst loc; discriminate P|] end. reflexivity.
  - unfold rel_pile_ref. rewrite (con_index_range _ E).
    repeat match goal with |- context [if ?b then _ else _] => destruct b end; reflexivity.
Qed.
Lemma pile_size_loose : forall c con loc, rel_pile_size c con loc = unchecked (pile_size c con loc).
Proof.
  intros c con loc. unfold rel_pile_size, pile_size. rewrite pile_ref_loose. destruct (pile_ref con loc); reflexivity.
Qed.
Lemma zone_of_defined : forall p, zone_of p <> Diverge.
Proof.
  intros p H. unfold zone_of, zone_ref, zone_seq_lim, side_at, con_index, assert_ in H.
  repeat match type of H with context [if ?b then _ else _] => destruct b; cbn [obind] in H end; discriminate H.
Qed.
Lemma rel_zone_outcomes : forall p, (exists r, rel_zone_of p = Ok r) \/ rel_zone_of p = UB.
Proof.
  intros p. unfold rel_zone_of, rel_zone_ref, rel_side_at, con_index.
  repeat match goal with |- context [if ?b then _ else _] => destruct b; cbn [obind] end; eauto.
Qed.
Lemma has_xyz_loose : forall c p, shape (ctx_layout c) -> rel_has_xyz_mat c p = unchecked (has_xyz_mat c p).
Proof.
  intros c p S. unfold rel_has_xyz_mat, has_xyz_mat. destruct (zone_of p) as [r| | |] eqn:Z.
  - rewrite (keeps_zone_of p Z). cbn [obind]. pose proof (valid_zone_some p r _ S Z) as V. unfold read_zone.
    destruct (get_zone r (ctx_layout c)); [reflexivity|congruence].
  - cbn [obind unchecked]. destruct (rel_zone_outcomes p) as [[r E]|E]; rewrite E; [|reflexivity]. cbn [obind].
    unfold read_zone. destruct (get_zone r (ctx_layout c)) as [z|] eqn:G; [exfalso|reflexivity].
    apply (rel_zone_slot p S E) in G. apply zone_of_slot in G. congruence.
  - cbn [obind unchecked]. destruct (rel_zone_outcomes p) as [[r E]|E]; rewrite E; [|reflexivity]. cbn [obind].
    unfold read_zone. destruct (get_zone r (ctx_layout c)) as [z|] eqn:G; [exfalso|reflexivity].
    apply (rel_zone_slot p S E) in G. apply zone_of_slot in G. congruence.
  - exfalso. exact (zone_of_defined p Z).
Qed.
Lemma move_verdict_loose : forall p q r c, shape (ctx_layout c) ->
  rel_move_verdict p q r c = unchecked (move_verdict p q r c).
Proof.
  intros p q r c S. unfold move_verdict, rel_move_verdict, take_deferred_xyz_mat, get_xyz_left.
  repeat match goal with |- context [if ?b then _ else _] => destruct b; cbn [obind] end;
    try reflexivity; try (destruct (find_left _ _); reflexivity);
    rewrite (has_xyz_loose _ _ S); destruct (has_xyz_mat c p); reflexivity.
Qed.
Lemma loose_dispatch : forall k c, k <> KSelectCard -> shape (ctx_layout c) -> loose (dispatch k c) (rel_dispatch k c).
Proof.
  intros k c N S. assert (P : forall con loc, loose (rlift (pile_size c con loc)) (rlift (rel_pile_size c con loc))).
  { intros. apply loose_lift, pile_size_loose. }
  unfold rel_dispatch. destruct (event_case k) as [m|] eqn:E.
  - rewrite (event_no_request _ E). assert (X : calm (dispatch k c)).
    { unfold dispatch. rewrite E. apply calm_bind; [eapply calm_event; eauto|]. intros e. apply calm_ret. }
    destruct k; try discriminate E; apply loose_calm, X.
  - destruct (request_case k) as [m|] eqn:R.
    + assert (R' : rel_request_case k = Some m) by (destruct k; try discriminate R; try exact R; congruence).
      rewrite R'. unfold dispatch. rewrite E, R. apply loose_calm. apply calm_bind; [apply calm_con|]. intros z.
      apply calm_bind; [eapply calm_request; eauto|]. intros q. apply calm_ret.
    + rewrite (request_none k R). destruct k; try discriminate E; try discriminate R;
        try (apply loose_calm; unfold dispatch; rewrite ?E, ?R; cbn [event_case request_case]; repeat cal2; fail).
      all: unfold dispatch; cbn [event_case request_case].
      all: unfold win_case, deck_top_case, swap_grave_deck_case, draw_case, reverse_deck_case, move_case,
        rel_deck_top_case, rel_swap_grave_deck_case, rel_draw_case, rel_reverse_deck_case, rel_move_case.
      all: repeat first
        [ apply loose_calm; repeat first [apply calm_update_data | apply calm_update_card | apply calm_or_ub | cal2]; fail
        | apply loose_bind; [apply P|intros ?]
        | apply loose_lift, move_verdict_loose; exact S
        | apply loose_then; [repeat cal2; fail|intros ?] ].
      apply loose_bind; [|intros; apply loose_calm; repeat cal2]. apply loose_calm. intros bs H.
      match type of H with obind ?m _ = _ => destruct m eqn:X; cbn [obind] in H; try discriminate H end.
      exact (calm_extra _ _ _ _ _ _ _ X).
Qed.

(** ** Contexts without assertions *)

(** Parsing is a sequence of frame operations. *)
Section Closed.
Variable C : Type.
Variable c0 : C.
Variable P : frame C -> Prop.
Hypothesis rel_closed_step : forall o f f', P f -> rel_fstep c0 o f = Ok f' -> P f'.

Lemma rel_closed_fold : forall A (g : A -> frame C -> outcome (frame C)) l f f',
  (forall a f f', P f -> g a f = Ok f' -> P f') ->
  P f -> ofold g l f = Ok f' -> P f'.
Proof.
  induction l; intros f f' G R H; cbn [ofold] in H; [injection H as <-; auto|].
  apply obind_Ok in H as [f1 [E H]]. eauto.
Qed.

Lemma rel_closed_adds : forall l f f', P f -> do_adds (rel_plain_fo c0) l f = Ok f' -> P f'.
Proof.
  intros l f f' R H. eapply rel_closed_fold in H; eauto. intros a x x' Rx Hx.
  apply (@rel_closed_step (OpAdd a) x); auto.
Qed.
Lemma rel_closed_removes : forall l f f', P f ->
  do_removes (rel_plain_fo c0) l f = Ok f' -> P f'.
Proof.
  intros l f f' R H. eapply rel_closed_fold in H; eauto. intros a x x' Rx Hx.
  apply (@rel_closed_step (OpRemove a) x); auto.
Qed.
Lemma rel_closed_resizes : forall l f f', P f ->
  do_resizes (rel_plain_fo c0) l f = Ok f' -> P f'.
Proof.
  intros l f f' R H. eapply rel_closed_fold in H; eauto. intros a x x' Rx Hx.
  apply (@rel_closed_step (OpResize (rz_place a) (rz_count a)) x); auto.
Qed.

Lemma rel_on_frame_closed : forall (m : frame C -> outcome (frame C)) (b b' : pboard C),
  (forall f f', P f -> m f = Ok f' -> P f') ->
  P (b_frame b) -> on_frame m b = Ok b' -> P (b_frame b').
Proof.
  intros m b b' G R H. unfold on_frame in H. apply obind_Ok in H as [f [E H]]. injection H as <-.
  cbn. eauto.
Qed.

Lemma rel_pparse_closed : forall e (b b' : pboard C), P (b_frame b) ->
  rel_pparse c0 e b = Ok b' -> P (b_frame b').
Proof.
  intros e b b' R H. unfold rel_pparse in H.
  destruct e as [|[|x|s]|re [|l|l|l|l|pv cu]|[|c|pp]|con|wr mr ft|con t|me|ph'|re [|l|l|l]|rs|zs];
    cbn [rel_parse_event parse_event] in H;
    try (injection H as <-; exact R).
  - unfold parse_exchange in H. eapply rel_on_frame_closed in H; eauto. intros f f' Rf Hf.
    apply obind_Ok in Hf as [f1 [E1 Hf]]. apply obind_Ok in Hf as [f2 [E2 Hf]].
    eapply rel_closed_adds; [|exact Hf]. eapply rel_closed_removes; [|exact E2].
    eapply rel_closed_resizes; eauto.
  - unfold parse_state in H. apply obind_Ok in H as [l0 [_ H]].
    apply obind_Ok in H as [b2 [E2 H]]. apply obind_Ok in H as [l1 [_ H]].
    apply obind_Ok in H as [b3 [E3 H]]. eapply rel_on_frame_closed in H; eauto.
    + intros f f' Rf Hf. apply obind_Ok in Hf as [f1 [E1 Hf]]. apply obind_Ok in Hf as [f2 [E4 Hf]].
      eapply rel_closed_resizes; [|exact Hf]. eapply rel_closed_adds; [|exact E4].
      apply (@rel_closed_step OpClear f); auto.
    + unfold assign_lp in E2, E3. apply obind_Ok in E2 as [i [_ E2]]. apply obind_Ok in E3 as [j [_ E3]].
      injection E2 as <-. injection E3 as <-. cbn. destruct (0 <=? _)%Z; exact R.
  - eapply rel_on_frame_closed in H; eauto. apply rel_closed_adds.
  - eapply rel_on_frame_closed in H; eauto. intros f f' Rf Hf.
    eapply rel_closed_fold in Hf; eauto. intros a x x' Rx Hx.
    apply (@rel_closed_step (OpSwap (po_a a) (po_b a)) x); auto.
  - eapply rel_on_frame_closed in H; eauto. intros f f' Rf Hf.
    eapply rel_closed_fold in Hf; eauto. intros a x x' Rx Hx.
    apply (@rel_closed_step (OpMove (po_a a) (po_b a)) x); auto.
  - eapply rel_on_frame_closed in H; eauto. apply rel_closed_removes.
  - eapply rel_on_frame_closed in H; eauto. intros f f' Rf Hf.
    apply (@rel_closed_step (OpShuffle pv cu) f); auto.
  - apply obind_Ok in H as [x [_ H]]. injection H as <-. exact R.
  - apply obind_Ok in H as [i [_ H]]. apply obind_Ok in H as [j [_ H]]. injection H as <-. exact R.
  - eapply rel_on_frame_closed in H; eauto. intros f f' Rf Hf.
    eapply rel_closed_fold in Hf; eauto. intros a x x' Rx Hx.
    apply (@rel_closed_step (OpPileSwap (po_a a) (po_b a)) x); auto.
  - eapply rel_on_frame_closed in H; eauto. intros f f' Rf Hf.
    eapply rel_closed_fold in Hf; eauto. intros a x x' Rx Hx.
    apply (@rel_closed_step (OpSplice (sp_from a) (sp_count a) (sp_to a) (sp_reverse a)) x); auto.
Qed.
End Closed.

Definition booked {C} (f : frame C) : Prop := exists s, books f s.
Lemma booked_parse : forall C (c0 : C) e (b b' : pboard C), booked (b_frame b) -> rel_pparse c0 e b = Ok b' ->
  booked (b_frame b').
Proof.
  intros C c0. apply rel_pparse_closed. intros o f f' [s B] H. destruct (books_step _ _ B H) as (out & B' & _). now exists (out ++ s).
Qed.
Lemma booked_query : forall use q f hits f', booked f -> rel_parse_query use q f = Ok (hits, f') -> booked f'.
Proof.
  intros use q f hits f' [s [A B D E]] H. unfold rel_parse_query in H. apply obind_Ok in H. destruct H as (id & _ & H).
  apply obind_Ok in H. destruct H as (c & _ & H). destruct (parse_data use (qr_data q) c) as [c' h]. injection H as _ <-.
  exists s. split; cbn [f_lay f_heap f_next]; rewrite ?QueryProofs.heap_set_ids; auto.
  intros id'. unfold hcnt. rewrite QueryProofs.heap_set_ids. apply B.
Qed.
Lemma rel_ctx_parse_booked : forall m c c', booked (b_frame (cx_board c)) -> rel_ctx_parse m c = Ok c' ->
  booked (b_frame (cx_board c')).
Proof.
  intros m c c' I H. unfold rel_ctx_parse in H. apply obind_Ok in H. destruct H as (c1 & E & H).
  assert (I1 : booked (b_frame (cx_board c1))).
  { destruct (m_t m); try (injection E as <-; exact I). apply obind_Ok in E. destruct E as (b & E & F). injection F as <-.
    cbn [set_board cx_board]. eapply booked_parse; eauto. }
  clear E I. revert c1 I1 H. induction (m_queries m) as [|q qs IH]; intros c1 I1 H; cbn [ofold] in H.
  - injection H as <-. exact I1.
  - apply obind_Ok in H. destruct H as (c2 & E & H). eapply IH; [|exact H].
    unfold rel_ctx_query in E. apply obind_Ok in E. destruct E as ([hits f] & E & F). injection F as <-.
    cbn [set_board cx_board set_frame b_frame]. eapply booked_query; eauto.
Qed.

Lemma rel_move_board : forall p q r c v, rel_move_verdict p q r c = Ok v -> cx_board (snd v) = cx_board c.
Proof.
  intros prev curr reason c v H. unfold rel_move_verdict, take_deferred_xyz_mat in H.
  repeat match type of H with
  | context [if ?b then _ else _] => destruct b; cbn [obind or_ub] in H
  end;
  try (apply obind_Ok in H; destruct H as [had [_ H]]);
  repeat match type of H with context [if ?b then _ else _] => destruct b end;
  inversion H; subst; reflexivity.
Qed.
Lemma rel_board_dispatch : forall k c, yields (fun v => cx_board (snd v) = cx_board c) (rel_dispatch k c).
Proof.
  intros k c. unfold rel_dispatch. destruct (rel_request_case k) as [r|] eqn:F.
  - apply yields_bind. intros z. apply yields_bind. intros q. now apply yields_ret.
  - destruct k; try apply board_dispatch;
      unfold rel_deck_top_case, rel_swap_grave_deck_case, rel_draw_case, rel_reverse_deck_case, rel_move_case;
      repeat (apply yields_bind; intros ?); try (now apply yields_ret).
    intros bs v rest H. unfold rlift in H. apply obind_Ok in H. destruct H as [w [H I]].
    inversion I; subst. eapply rel_move_board, H.
Qed.
Lemma rel_encode_board : forall c bs r c', rel_encode_one c bs = Ok (r, c') -> cx_board c' = cx_board c.
Proof.
  intros c bs r c' H. unfold rel_encode_one in H. apply obind_Ok in H. destruct H as ([b tl] & _ & H).
  apply obind_Ok in H. destruct H as ([[v c1] rest] & D & H). assert (c1 = c') by congruence. subst c1.
  destruct (kind_of b) as [k|].
  - exact (rel_board_dispatch k c _ D).
  - assert (c' = c) by congruence. now subst.
Qed.
Lemma rel_sound_booked : forall c, rel_ctx_sound c -> booked (b_frame (cx_board c)).
Proof.
  intros c S. induction S as [| |c bs r c' S IH E|c m c' S IH E].
  - exists []. apply books0.
  - exists []. apply books0.
  - now rewrite (rel_encode_board _ _ E).
  - eapply rel_ctx_parse_booked; eauto.
Qed.
Lemma rel_sound_shape : forall c, rel_ctx_sound c -> shape (ctx_layout c).
Proof. intros c S. destruct (rel_sound_booked S) as [s B]. apply B. Qed.

(** ** A selection without cards *)

Lemma read_split : forall n bs v rest, read n bs = Ok (v, rest) ->
  exists s, bs = s ++ rest /\ lenN s = n /\ le s = v.
Proof.
  intros n bs v rest H. unfold read, rbind in H. apply obind_Ok in H. destruct H as ([s r] & E & H).
  unfold rbytes in E. destruct (N.leb_spec n (lenN bs)) as [L|]; [|discriminate E].
  exists (firstn (N.to_nat n) bs).
  assert (s = firstn (N.to_nat n) bs /\ r = skipn (N.to_nat n) bs) as [-> ->] by (split; congruence).
  assert (v = le (firstn (N.to_nat n) bs) /\ rest = skipn (N.to_nat n) bs) as [-> ->]
    by (unfold rret in H; split; congruence).
  split; [now rewrite firstn_skipn|]. split; [|reflexivity]. unfold lenN in *. rewrite firstn_length_le; lia.
Qed.
Lemma le_zero : forall s, le s = 0 -> s = repeat 0 (length s).
Proof.
  induction s as [|b s IH]; [reflexivity|]. cbn [le length repeat]. intros H.
  assert (b = 0) by lia. subst b. f_equal. apply IH. lia.
Qed.
Lemma loose_at : forall A B (m : reader A) (k k' : A -> reader B) bs, calm m ->
  (forall a rest, m bs = Ok (a, rest) -> k' a rest = unchecked (k a rest)) ->
  rbind m k' bs = unchecked (rbind m k bs).
Proof.
  intros A B m k k' bs C H. unfold rbind. specialize (C bs). destruct (m bs) as [[a r]| | |]; cbn [obind unchecked]; auto.
  congruence.
Qed.
Lemma loose_first : forall A B (m m' : reader A) (k : A -> reader B) bs,
  m' bs = unchecked (m bs) -> (forall a, calm (k a)) -> rbind m' k bs = unchecked (rbind m k bs).
Proof.
  intros A B m m' k bs E C. unfold rbind. rewrite E. destruct (m bs) as [[a r]| | |]; cbn [obind unchecked]; try reflexivity.
  apply loose_calm, C.
Qed.
Lemma read1_split : forall bs v rest, read 1 bs = Ok (v, rest) -> bs = v :: rest.
Proof.
  intros bs v rest H. destruct (read_split _ _ H) as (s & -> & L & <-). unfold lenN in L.
  destruct s as [|x [|y s]]; cbn [length] in L; try lia. cbn [le app]. f_equal. lia.
Qed.
Lemma dispatch_select_card : forall c bs,
  ~ (exists a b mn mx rest, length mn = 4%nat /\ length mx = 4%nat /\ bs = [a; b] ++ mn ++ mx ++ [0; 0; 0; 0] ++ rest) ->
  rel_dispatch KSelectCard c bs = unchecked (dispatch KSelectCard c bs).
Proof.
  intros c bs N. unfold rel_dispatch, dispatch. cbn [rel_request_case event_case request_case].
  apply loose_at; [apply calm_con|]. intros z r1 E1.
  apply loose_first; [|intros q; apply calm_ret].
  unfold rel_select_card_r, select_card_r.
  apply loose_at; [apply calm_bool|]. intros cn r2 E2. apply loose_at; [apply calm_read|]. intros mn r3 E3.
  apply loose_at; [apply calm_read|]. intros mx r4 E4. apply loose_at; [apply calm_read|]. intros n r5 E5.
  destruct (N.ltb_spec 0 n) as [P|P].
  - match goal with |- ?x = unchecked (rbind _ (fun _ => ?k) _) => change (x = unchecked (k r5)) end.
    apply loose_calm. apply calm_bind; [repeat cal2|]. intros l. destruct (negb _); repeat cal3.
  - exfalso. apply N. unfold read_con, read_bool, rbind in E1, E2.
    apply obind_Ok in E1. destruct E1 as ([a r] & E1 & F1). injection F1 as _ ->.
    apply obind_Ok in E2. destruct E2 as ([b r] & E2 & F2). injection F2 as _ ->.
    apply read1_split in E1. apply read1_split in E2.
    destruct (read_split _ _ E3) as (s3 & X3 & L3 & _). destruct (read_split _ _ E4) as (s4 & X4 & L4 & _).
    destruct (read_split _ _ E5) as (s5 & X5 & L5 & Z5).
    assert (Z0 : le s5 = 0) by lia. clear Z5. rename Z0 into Z5. apply le_zero in Z5. unfold lenN in *.
    exists a, b, s3, s4, r5. split; [lia|]. split; [lia|].
    replace (length s5) with 4%nat in Z5 by lia. cbn [repeat] in Z5. now subst.
Qed.

Lemma encode_loose : forall c bs, shape (ctx_layout c) -> ~ asks_for_nothing bs ->
  rel_encode_one c bs = unchecked (encode_one c bs).
Proof.
  intros c bs S N. unfold rel_encode_one, encode_one.
  pose proof (calm_read 1 bs) as C. destruct (read 1 bs) as [[b rest]| | |] eqn:E; cbn [obind unchecked]; try reflexivity;
    [|congruence].
  apply read1_split in E. destruct (kind_of b) as [k|] eqn:K; [|reflexivity].
  assert (D : rel_dispatch k c rest = unchecked (dispatch k c rest)).
  { destruct k; try (apply loose_dispatch; [discriminate|exact S]).
    apply dispatch_select_card. intros (x & y & mn & mx & r & L1 & L2 & ->). apply N. exists x, y, mn, mx, r.
    split; [exact L1|]. split; [exact L2|]. rewrite E. unfold no_cards.
    replace b with 15; [reflexivity|]. symmetry. clear - K. unfold kind_of, kind_table in K. cbn [lookup_kind] in K.
    repeat match type of K with (if b =? ?v then _ else _) = _ =>
      destruct (N.eqb_spec b v); [first [assumption|discriminate K]|] end. discriminate K. }
  rewrite D. destruct (dispatch k c rest) as [[[v c'] r]| | |]; reflexivity.
Qed.
Lemma read_front : forall s n rest, lenN s = n -> read n (s ++ rest) = Ok (le s, rest).
Proof. intros s n rest L. unfold read, rbind. rewrite rbytes_app by exact L. reflexivity. Qed.
Lemma read_cons : forall v rest, read 1 (v :: rest) = Ok (v, rest).
Proof.
  intros v rest. change (v :: rest) with ([v] ++ rest). rewrite read_front by reflexivity. cbn [le]. f_equal. f_equal. lia.
Qed.
Lemma peek_first : forall rest, peek (rskip 5 ;;; read 1) rest =
  match nth_error rest 5 with Some v => Ok (v, rest) | None => UB end.
Proof.
  intros rest. do 5 (destruct rest as [|? rest]; [reflexivity|]). destruct rest as [|v rest].
  - reflexivity.
  - unfold peek, rskip. unfold rbind at 1 2. match goal with |- context [rbytes 5 (?a :: ?b :: ?c :: ?d :: ?e :: v :: rest)] => change (rbytes 5 (a :: b :: c :: d :: e :: v :: rest)) with (rbytes 5 ([a; b; c; d; e] ++ v :: rest)) end.
    rewrite rbytes_app by reflexivity.
    cbn [obind rret]. rewrite read_cons. reflexivity.
Qed.
Lemma empty_selection : forall c replier cancel mn mx rest, length mn = 4%nat -> length mx = 4%nat ->
  encode_one c (no_cards replier cancel mn mx rest) = Abort /\
  rel_encode_one c (no_cards replier cancel mn mx rest) =
    match nth_error rest 5 with
    | None => UB
    | Some loc =>
        let sel := if loc =? 0 then ScLimbo (negb (cancel =? 0)) (le mn) (le mx) []
                   else ScUniqueRange (negb (cancel =? 0)) (le mn) (le mx) [] in
        Ok (mkResult StOk 15 (Some (mkMsg (MsgRequest (Z.of_N replier) (RqCard sel)) [])), c)
    end.
Proof.
  intros c replier cancel mn mx rest L1 L2. unfold no_cards. cbn [app]. unfold encode_one, rel_encode_one.
  rewrite read_cons. cbn [obind]. change (kind_of 15) with (Some KSelectCard).
  unfold dispatch, rel_dispatch. cbn [event_case request_case rel_request_case].
  assert (F : forall A (k : bool -> N -> N -> N -> reader A),
    (b <- read_bool ;; m <- read 4 ;; x <- read 4 ;; n <- read 4 ;; k b m x n) (cancel :: mn ++ mx ++ [0; 0; 0; 0] ++ rest)
    = k (negb (cancel =? 0)) (le mn) (le mx) 0 rest).
  { intros A k. unfold read_bool. unfold rbind at 1 2. rewrite read_cons. cbn [obind rret].
    unfold rbind at 1. rewrite read_front by (unfold lenN; now rewrite L1). cbn [obind].
    unfold rbind at 1. rewrite read_front by (unfold lenN; now rewrite L2). cbn [obind].
    unfold rbind at 1. rewrite read_front by reflexivity. reflexivity. }
  assert (Lb : lenN (15 :: replier :: cancel :: mn ++ mx ++ [0; 0; 0; 0] ++ rest) - lenN rest = 15).
  { unfold lenN. cbn [length]. rewrite !app_length. cbn [length]. rewrite L1, L2. lia. }
  split.
  - unfold rbind at 1. unfold read_con. unfold rbind at 1. rewrite read_cons. cbn [obind rret].
    unfold rbind at 1. unfold select_card_r. change (0 :: 0 :: 0 :: 0 :: rest) with ([0; 0; 0; 0] ++ rest).
    rewrite F. reflexivity.
  - unfold rbind at 1. unfold read_con. unfold rbind at 1. rewrite read_cons. cbn [obind rret].
    unfold rbind at 1. unfold rel_select_card_r. change (0 :: 0 :: 0 :: 0 :: rest) with ([0; 0; 0; 0] ++ rest).
    rewrite F. unfold rbind at 1. rewrite peek_first. destruct (nth_error rest 5) as [loc|]; [|reflexivity].
    cbn [obind]. destruct (loc =? 0); cbn [negb]; unfold rcount; cbn [N.to_nat rtimes rbind rret obind fst snd];
      cbv beta iota zeta; cbn [v_state v_msg]; rewrite Lb; reflexivity.
Qed.
