(** Every buffer goes on to one the encoder handles, or to a wild one. *)
From Verif Require Import Base BaseProofs Place PlaceProofs Frame FrameSpec FrameInv Msg Event Query QuerySpec.
From Verif Require Import Reader EncodeQuery Encode CoreMsg EncodeSpec ReaderProofs EncodeProofs EncodeQueryProofs
  EncodeLocal EncodeState EncodeWildSpec EncodeWild.
From Verif Require Import HazardSpec HazardProofs.

Local Open Scope N_scope.

(** ** Readers that only fail for want of bytes *)
Definition tight {A} (m : reader A) : Prop := local m /\ forall bs, exists pad, bytes pad /\
  (m (bs ++ pad) = Abort \/ exists x rest, m (bs ++ pad) = Ok (x, rest) /\ (pad = [] \/ rest = [])).

Lemma local_more : forall A (m : reader A) bs x rest more, local m -> m bs = Ok (x, rest) ->
  m (bs ++ more) = Ok (x, rest ++ more).
Proof. intros A m bs x rest more L H. destruct (L _ _ _ H) as (s & -> & R). rewrite <- app_assoc. apply R. Qed.

Lemma tight_ret : forall A (x : A), tight (rret x).
Proof.
  intros A x. split; [apply local_ret|]. intros bs. exists []. split; [constructor|]. right. exists x, bs.
  rewrite app_nil_r. auto.
Qed.
Lemma tight_lift : forall A (o : outcome A), orderly o -> tight (rlift o).
Proof.
  intros A o [[a ->]| ->]; (split; [apply local_lift|]); intros bs; exists []; (split; [constructor|]); rewrite app_nil_r.
  - right. exists a, bs. auto.
  - now left.
Qed.
Lemma tight_bytes : forall n, tight (rbytes n).
Proof.
  intros n. split; [apply local_bytes|]. intros bs.
  destruct (fill (N.to_nat n) bs) as (pad & s & rest & P & E & L & T). exists pad. split; [exact P|]. right.
  exists s, rest. rewrite E. split; [|exact T]. apply rbytes_app. unfold lenN. lia.
Qed.
Lemma tight_bind_y : forall A B (P : A -> Prop) (m : reader A) (k : A -> reader B),
  tight m -> yields P m -> (forall x, local (k x)) -> (forall x, P x -> tight (k x)) -> tight (rbind m k).
Proof.
  intros A B P m k [L1 T1] Y L2 T2. split; [now apply local_bind|]. intros bs.
  destruct (T1 bs) as (p1 & B1 & [E1|(x & r1 & E1 & S1)]).
  { exists p1. split; [exact B1|]. left. unfold rbind. now rewrite E1. }
  destruct (T2 x (Y _ _ _ E1)) as [_ T]. destruct (T r1) as (p2 & B2 & R).
  exists (p1 ++ p2). split; [apply bytes_app; auto|].
  pose proof (local_more _ _ _ _ _ p2 L1 E1) as E. rewrite <- app_assoc in E. unfold rbind. rewrite E. cbn [obind].
  destruct R as [R|(y & r2 & R & S2)]; [now left|]. right. exists y, r2. split; [exact R|].
  destruct S2 as [->| ->]; [|now right]. rewrite app_nil_r in *.
  destruct S1 as [->| ->]; [now left|]. right.
  destruct (L2 x _ _ _ R) as (s & X & _). symmetry in X. apply app_eq_nil in X. apply X.
Qed.
Lemma tight_bind : forall A B (m : reader A) (k : A -> reader B),
  tight m -> (forall x, tight (k x)) -> tight (rbind m k).
Proof.
  intros A B m k H1 H2. apply (tight_bind_y _ _ (fun _ => True)); auto.
  - intros ? ? ? _. exact Logic.I.
  - intros x. apply H2.
Qed.
Lemma tight_times : forall A (m : reader A) n, tight m -> tight (rtimes n m).
Proof.
  intros A m n H. induction n as [|n IH]; cbn [rtimes]; [apply tight_ret|].
  apply tight_bind; [exact H|]. intros x. apply tight_bind; [exact IH|]. intros. apply tight_ret.
Qed.
Lemma tight_skip : forall n, tight (rskip n).
Proof. intros n. apply tight_bind; [apply tight_bytes|intros; apply tight_ret]. Qed.
Lemma tight_read : forall n, tight (read n).
Proof. intros n. apply tight_bind; [apply tight_bytes|intros; apply tight_ret]. Qed.
Lemma tight_peek : forall A B (m : reader A) (k : A -> reader B) n,
  tight m -> (forall bs x rest, m bs = Ok (x, rest) -> length bs = (length rest + n)%nat) ->
  (forall x, tight (k x)) -> (forall x, consumes n (k x)) -> tight (rbind (peek m) k).
Proof.
  intros A B m k n [L1 T1] H2 T2 H4.
  split; [eapply local_peek; eauto; intros x; apply T2|]. intros bs.
  destruct (T1 bs) as (p1 & B1 & [E1|(x & r1 & E1 & S1)]).
  { exists p1. split; [exact B1|]. left. unfold rbind, peek. now rewrite E1. }
  destruct (T2 x) as [L T]. destruct (T (bs ++ p1)) as (p2 & B2 & R).
  exists (p1 ++ p2). split; [apply bytes_app; auto|].
  pose proof (local_more _ _ _ _ _ p2 L1 E1) as E. rewrite <- app_assoc in E, R. unfold rbind, peek. rewrite E. cbn [obind].
  destruct R as [R|(y & r2 & R & S2)]; [now left|]. right. exists y, r2. split; [exact R|].
  destruct S2 as [->| ->]; [|now right]. rewrite app_nil_r in *.
  destruct S1 as [->| ->]; [now left|]. right.
  pose proof (H2 _ _ _ E1) as X. pose proof (H4 x _ _ _ R) as Y. cbn [length] in X.
  destruct r2; [reflexivity|]. cbn [length] in Y. lia.
Qed.

Ltac tig1 :=
  match goal with
  | |- tight (rbind _ _) => apply tight_bind; [|intros ?]
  | |- tight (rret _) => apply tight_ret
  | |- tight (rskip _) => apply tight_skip
  | |- tight (read _) => apply tight_read
  | |- tight (rtimes _ _) => apply tight_times
  | |- tight (rcount _ _) => unfold rcount
  | |- tight (rlist _ _) => unfold rlist
  | |- tight (if ?b then _ else _) => destruct b
  | |- tight (match ?x with _ => _ end) => destruct x
  end.
Lemma tight_con : tight read_con. Proof. unfold read_con. repeat tig1. Qed.
Lemma tight_bool : tight read_bool. Proof. unfold read_bool. repeat tig1. Qed.
Lemma tight_i32 : tight read_i32. Proof. unfold read_i32. repeat tig1. Qed.
Lemma tight_counter : tight read_counter. Proof. unfold read_counter. repeat tig1. Qed.
Lemma tight_effect : tight read_effect. Proof. unfold read_effect. repeat tig1. Qed.
Lemma tight_info_ : forall a b c, tight (read_loc_info_ a b c).
Proof. intros. unfold read_loc_info_, read_con. repeat tig1. Qed.
Ltac tig2 :=
  match goal with
  | |- tight read_con => apply tight_con
  | |- tight read_bool => apply tight_bool
  | |- tight read_i32 => apply tight_i32
  | |- tight read_counter => apply tight_counter
  | |- tight read_effect => apply tight_effect
  | |- tight (read_loc_info_ _ _ _) => apply tight_info_
  | |- tight read_loc_info => apply tight_info_
  | |- tight read_place4 => apply tight_info_
  | |- tight read_place1 => apply tight_info_
  | |- tight (read_card_list _) => unfold read_card_list
  | |- tight (listed_place _) => unfold listed_place
  | _ => tig1
  end.

Lemma tight_sel : tight sel_card_r.
Proof. unfold sel_card_r. repeat tig2. Qed.
Lemma tight_select_card : tight select_card_r.
Proof.
  unfold select_card_r. do 3 (apply tight_bind; [repeat tig2|]; intros ?).
  apply tight_bind; [repeat tig2|]. intros count.
  destruct (N.ltb_spec 0 count) as [Hc|Hc].
  2: { split.
       - intros bs y rest H. discriminate H.
       - intros bs. exists []. split; [constructor|]. now left. }
  apply tight_bind; [apply tight_lift, ord_ok|]. intros _.
  apply tight_peek with (n := 6%nat).
  - repeat tig2.
  - intros bs' y rest' E. unfold rbind in E. apply obind_Ok in E. destruct E as [[u r'] [E1 E2]].
    apply exact_read in E2. destruct (reads_of_skip _ _ _ _ E1) as [s' [-> L']].
    rewrite app_length. unfold lenN in L'. change (N.to_nat 1) with 1%nat in E2. lia.
  - intros y. destruct (negb (y =? 0)).
    + apply tight_bind; [apply tight_times, tight_sel | intros; apply tight_ret].
    + repeat tig2.
  - intros y. destruct (negb (y =? 0)).
    + eapply consumes_weaken.
      * apply consumes_bind; [apply consumes_times, consumes_sel | intros; apply consumes_ret].
      * lia.
    + eapply consumes_weaken.
      * apply consumes_bind; [apply consumes_times | intros; apply consumes_ret].
        apply consumes_bind; [apply consumes_read|]. intros c.
        apply consumes_bind; [apply consumes_skip | intros; apply consumes_ret].
      * change (N.to_nat 4) with 4%nat. change (N.to_nat CORE_LOC_INFO_SIZE) with 10%nat. lia.
Qed.
Lemma tight_zones : forall con loc l, tight (zone_slots con loc l).
Proof.
  intros con loc l. induction l as [|s l IH]; cbn [zone_slots]; [apply tight_ret|].
  apply tight_bind; [unfold zone_slot; repeat tig2|]. intros a.
  apply tight_bind; [exact IH|]. intros. apply tight_ret.
Qed.
Lemma tight_side : forall con, tight (controller_state con).
Proof.
  intros con. unfold controller_state. apply tight_bind; [repeat tig2|]. intros lp.
  apply tight_bind; [apply tight_zones|]. intros ms.
  apply tight_bind; [apply tight_zones|]. intros ss. repeat tig2.
Qed.
Lemma tight_chain : tight chain_link.
Proof. unfold chain_link. repeat tig2. Qed.

Ltac tig3 :=
  match goal with
  | |- tight sel_card_r => apply tight_sel
  | |- tight chain_link => apply tight_chain
  | |- tight (controller_state _) => apply tight_side
  | |- tight select_card_r => apply tight_select_card
  | |- tight confirm_event => unfold confirm_event
  | |- tight (shuffle_codes _) => unfold shuffle_codes
  | |- tight (summoning _) => unfold summoning
  | |- tight selected => unfold selected
  | |- tight (lp_event _) => unfold lp_event
  | |- tight (status_event _) => unfold status_event
  | |- tight start_event => unfold start_event
  | |- tight tag_swap_event => unfold tag_swap_event
  | |- tight reload_event => unfold reload_event
  | |- tight act_card_r => unfold act_card_r
  | |- tight select_battle_r => unfold select_battle_r
  | |- tight select_idle_r => unfold select_idle_r
  | _ => tig2
  end.
Lemma tight_event : forall k r, event_case k = Some r -> tight r.
Proof. intros k r H. destruct k; try discriminate H; inversion H; subst; repeat tig3. Qed.
Lemma tight_request : forall k r, request_case k = Some r -> forall z, tight (r z).
Proof. intros k r H z. destruct k; try discriminate H; inversion H; subst; repeat tig3. Qed.

Lemma pile_size_orderly : forall c con loc, (0 <= con)%Z -> In loc board_locs -> orderly (pile_size c con loc).
Proof.
  intros c con loc Hc Hl. unfold pile_size. apply ord_bind; [|intros; apply ord_ok].
  apply (@regular_pile (mkPlace con loc 0 0)). split; auto.
Qed.
Lemma yields_con : yields (fun z => 0 <= z)%Z read_con.
Proof.
  intros bs x rest H. unfold read_con, rbind in H. apply obind_Ok in H. destruct H as [[v r] [_ H]].
  inversion H; subst. lia.
Qed.

(** The messages that can be wild whatever follows. *)
Definition touchy (k : kind) : Prop := In k [KWin; KUpdateData; KUpdateCard; KMove; KSwapGraveDeck].
Lemma tight_dispatch : forall k c, ~ touchy k -> tight (dispatch k c).
Proof.
  intros k c N. pose proof (fun H => local_dispatch k c H) as Ld.
  unfold dispatch in *. destruct (event_case k) as [r|] eqn:E.
  - apply tight_bind; [now apply (tight_event k) | intros; apply tight_ret].
  - destruct (request_case k) as [r|] eqn:F.
    + apply tight_bind; [apply tight_con|]. intros z.
      apply tight_bind; [now apply (tight_request k) | intros; apply tight_ret].
    + destruct k; try discriminate; try (exfalso; apply N; unfold touchy; cbn; tauto); try (repeat tig3; fail).
      * (* KReverseDeck *)
        unfold reverse_deck_case. apply tight_bind; [apply tight_lift, pile_size_orderly; [lia|cbn; tauto]|]. intros d0.
        apply tight_bind; [apply tight_lift, pile_size_orderly; [lia|cbn; tauto]|]. intros d1. apply tight_ret.
      * (* KDeckTop *)
        unfold deck_top_case. apply (tight_bind_y _ _ _ _ _ tight_con yields_con); [intros; repeat loc3|]. intros con Hc.
        apply tight_bind; [apply tight_lift, pile_size_orderly; [lia|cbn; tauto]|]. intros size. repeat tig3.
      * (* KDraw *)
        unfold draw_case. apply (tight_bind_y _ _ _ _ _ tight_con yields_con); [intros; repeat loc3|]. intros con Hc.
        do 2 (apply tight_bind; [repeat tig3|intros ?]).
        apply tight_bind; [apply tight_lift, pile_size_orderly; [lia|cbn; tauto]|]. intros d0.
        apply tight_bind; [apply tight_lift, pile_size_orderly; [lia|cbn; tauto]|]. intros d1. apply tight_ret.
Qed.

(** ** Readers that fail for want of bytes, when what follows is of no interest *)
Definition padded {A} (m : reader A) : Prop := forall bs, bytes bs -> exists pad, bytes pad /\ orderly (m (bs ++ pad)).
Lemma padded_tight : forall A (m : reader A), tight m -> padded m.
Proof.
  intros A m [_ T] bs _. destruct (T bs) as (pad & B & [E|(x & rest & E & _)]); exists pad; (split; [exact B|]); rewrite E.
  - apply ord_abort.
  - apply ord_ok.
Qed.
Lemma local_bytes_rest : forall A (m : reader A) bs x rest, local m -> bytes bs -> m bs = Ok (x, rest) -> bytes rest.
Proof. intros A m bs x rest L B H. destruct (L _ _ _ H) as (s & -> & _). now apply bytes_app in B. Qed.
Lemma padded_bind_y : forall A B (P : A -> Prop) (m : reader A) (k : A -> reader B),
  tight m -> yields P m -> (forall x, P x -> padded (k x)) -> padded (rbind m k).
Proof.
  intros A B P m k [L1 T1] Y T2 bs Hb.
  destruct (T1 bs) as (p1 & B1 & [E1|(x & r1 & E1 & S1)]).
  { exists p1. split; [exact B1|]. unfold rbind. rewrite E1. apply ord_abort. }
  assert (Br : bytes r1) by (eapply local_bytes_rest; [exact L1| |exact E1]; apply bytes_app; auto).
  destruct (T2 x (Y _ _ _ E1) r1 Br) as (p2 & B2 & R).
  exists (p1 ++ p2). split; [apply bytes_app; auto|].
  pose proof (local_more _ _ _ _ _ p2 L1 E1) as E. rewrite <- app_assoc in E. unfold rbind. rewrite E. exact R.
Qed.
Lemma padded_bind : forall A B (m : reader A) (k : A -> reader B),
  tight m -> (forall x, padded (k x)) -> padded (rbind m k).
Proof.
  intros A B m k H1 H2. apply (padded_bind_y _ _ (fun _ => True)); auto. intros ? ? ? _. exact Logic.I.
Qed.

Lemma extra_loop_long : forall con pos d is, (forall i, In i is -> (N.to_nat (i / 8) < length d)%nat) ->
  forall sseq ssize sent, exists l, extra_loop con pos d is sseq ssize sent = Ok l.
Proof.
  intros con pos d is. induction is as [|i is IH]; intros H sseq ssize sent; cbn [extra_loop]; [eauto|].
  destruct (nth_error d (N.to_nat (i / 8))) as [b|] eqn:E.
  2: { apply nth_error_None in E. pose proof (H i (or_introl eq_refl)). lia. }
  cbn [or_ub obind]. assert (G : forall i, In i is -> (N.to_nat (i / 8) < length d)%nat) by (intros; apply H; now right).
  destruct (N.testbit b (i mod 8)); [now apply IH|]. destruct (0 <? ssize); [|now apply IH].
  destruct (IH G sseq 0 (u32 (sent + ssize))) as [l ->]. cbn [obind]. eauto.
Qed.
Lemma padded_swap : forall c, padded (swap_grave_deck_case c).
Proof.
  intros c. unfold swap_grave_deck_case. apply (padded_bind_y _ _ _ _ _ tight_con yields_con). intros con Hc.
  apply padded_bind; [repeat tig3|]. intros pos. apply padded_bind; [repeat tig3|]. intros bufsz.
  apply padded_bind; [apply tight_lift, pile_size_orderly; [lia|cbn; tauto]|]. intros gy.
  apply padded_bind; [apply tight_lift, pile_size_orderly; [lia|cbn; tauto]|]. intros deck.
  intros bs _. exists (repeat 0 (N.to_nat gy + N.to_nat bufsz)). split; [apply bytes_zeros|].
  set (data := bs ++ _). assert (Ld : (N.to_nat gy + N.to_nat bufsz <= length data)%nat).
  { unfold data. rewrite app_length, repeat_length. lia. }
  clearbody data. unfold rbind at 1.
  destruct (extra_loop_long con pos data (seqN gy)) with (sseq := 0) (ssize := 0) (sent := 0) as [l ->].
  { intros i Hi. apply seqN_In in Hi. pose proof (N.div_le_upper_bound i 8 i ltac:(discriminate) ltac:(lia)). lia. }
  cbn [obind]. unfold rbind at 1, rskip, rbind, rbytes.
  destruct (N.leb_spec bufsz (lenN data)) as [_|X]; [cbn; apply ord_ok|]. unfold lenN in X. lia.
Qed.

(** ** Queries and updates *)
Lemma queries_reads : forall p q, whole_query q -> exists x, reads (card_queries p) q x.
Proof.
  intros p q W. destruct (whole_reads q qdata0 W) as [st R]. eexists. unfold card_queries.
  eapply reads_last; [exact R|apply reads_ret].
Qed.
Lemma queries_wild : forall p w, wild_query w -> card_queries p w = UB.
Proof. intros p w W. unfold card_queries, rbind. rewrite wild_ub by exact W. reflexivity. Qed.

Lemma first_two : forall a b l, read 2 (a :: b :: l) = Ok (a + 256 * b, l).
Proof.
  intros a b l. unfold read, rbind, rbytes. change (a :: b :: l) with ([a; b] ++ l).
  destruct (N.leb_spec 2 (lenN ([a; b] ++ l))) as [_|X]; [|rewrite lenN_app in X; unfold lenN in X; cbn [length] in X; lia].
  change (N.to_nat 2) with 2%nat. unfold rret. cbn [firstn skipn app obind le]. do 2 f_equal. lia.
Qed.
Lemma two_zero : forall a b l, firstn 2 (a :: b :: l) <> [0; 0] -> (a + 256 * b =? 0) = false.
Proof. intros a b l H. apply N.eqb_neq. intros X. apply H. cbn. f_equal; [lia|f_equal; lia]. Qed.

Lemma updates_reads : forall total n bs n', updates total n bs n' -> total <= n' ->
  forall fuel con loc i, (length bs < fuel)%nat -> exists y, reads (update_loop fuel con loc total i n) bs y.
Proof.
  intros total n bs n' U Le. induction U as [n|n bs n' Lt U IH|n q bs n' Lt W F U IH]; intros fuel con loc i Lf;
    (destruct fuel as [|fuel]; [lia|]); cbn [update_loop].
  - destruct (N.ltb_spec n total); [lia|]. exists []. apply reads_ret.
  - destruct (N.ltb_spec n total); [|lia]. cbn [length] in Lf.
    destruct (IH Le fuel con loc (u32 (i + 1))) as [y R]; [lia|]. exists y.
    eapply reads_peek with (s0 := [0; 0]) (s1 := bs) (x := 0); [reflexivity|intros rest; apply first_two|]. cbn [N.eqb].
    change (0 :: 0 :: bs) with ([0; 0] ++ bs). eapply reads_bind; [apply reads_skip; reflexivity|exact R].
  - destruct (N.ltb_spec n total); [|lia]. pose proof (whole_length q W) as Lq. rewrite app_length in Lf.
    destruct q as [|a [|b q]]; try (cbn in Lq; lia). set (q0 := a :: b :: q) in *.
    destruct (IH Le fuel con loc (u32 (i + 1))) as [y R]; [lia|].
    destruct (fix_spell_loc_seq loc i) as [fl fs] eqn:FS.
    destruct (queries_reads (mkPlace con fl fs OSEQ_INVALID) q0 W) as [x Q]. exists (x ++ y).
    eapply reads_peek with (s0 := [a; b]) (s1 := q ++ bs) (x := a + 256 * b); [reflexivity|intros rest; apply first_two|].
    rewrite (two_zero a b q F), ?FS.
    eapply reads_bind with (x := (x, lenN q0)).
    { intros rest. unfold counted. rewrite Q. cbn [obind]. do 3 f_equal. rewrite lenN_app. lia. }
    cbv beta iota. eapply reads_last; [exact R|apply reads_ret].
Qed.
Lemma updates_wild : forall total n us n' w, updates total n us n' -> n' < total -> wild_query w -> firstn 2 w <> [0; 0] ->
  forall fuel con loc i, (length us < fuel)%nat -> update_loop fuel con loc total i n (us ++ w) = UB.
Proof.
  intros total n us n' w U Ln Ww Fw. induction U as [n|n bs n' Lt U IH|n q bs n' Lt W F U IH]; intros fuel con loc i Lf;
    (destruct fuel as [|fuel]; [lia|]); cbn [update_loop].
  - destruct (N.ltb_spec n total); [|lia]. cbn [app]. unfold rbind at 1, peek.
    assert (Lw : (6 <= length w)%nat).
    { inversion Ww; subst. rewrite !app_length, !le_bytes_length. lia. }
    destruct w as [|a [|b w]]; try (cbn in Lw; lia). rewrite first_two. cbn [obind]. rewrite (two_zero a b w Fw).
    destruct (fix_spell_loc_seq loc i) as [fl fs]. unfold rbind at 1, counted. rewrite queries_wild by exact Ww. reflexivity.
  - destruct (N.ltb_spec n total); [|lia]. cbn [length] in Lf. cbn [app]. unfold rbind at 1, peek.
    rewrite first_two. cbn [obind N.mul N.add N.eqb]. unfold rbind.
    change (0 :: 0 :: bs ++ w) with ([0; 0] ++ (bs ++ w)). rewrite (reads_skip [0; 0] 2 eq_refl). cbn [obind].
    apply IH; auto. lia.
  - destruct (N.ltb_spec n total); [|lia]. pose proof (whole_length q W) as Lq. rewrite app_length in Lf.
    rewrite <- app_assoc. destruct q as [|a [|b q]]; try (cbn in Lq; lia). set (q0 := a :: b :: q) in *.
    unfold rbind at 1, peek. unfold q0 at 1. cbn [app]. rewrite first_two. cbn [obind]. rewrite (two_zero a b q F).
    change (a :: b :: q ++ bs ++ w) with (q0 ++ (bs ++ w)).
    destruct (fix_spell_loc_seq loc i) as [fl fs].
    destruct (queries_reads (mkPlace con fl fs OSEQ_INVALID) q0 W) as [x Q].
    unfold rbind at 1, counted. rewrite Q. cbn [obind]. unfold rbind.
    replace (lenN (q0 ++ bs ++ w) - lenN (bs ++ w)) with (lenN q0) by (rewrite lenN_app; lia).
    rewrite u32_mod, IH; auto. lia.
Qed.

(** ** Moves *)
Lemma overlay_check : forallb (fun l =>
  (N.ldiff l 0x80 =? l mod 0x80) && Bool.eqb (negb (N.land l 0x80 =? 0)) (0x80 <=? l) &&
  Bool.eqb (negb (N.land (l mod 0x80) 8 =? 0)) (N.testbit (l mod 0x80) 3) &&
  (N.testbit (l mod 0x80) 0 || N.testbit (l mod 0x80) 1 || N.testbit (l mod 0x80) 4 || N.testbit (l mod 0x80) 5 ||
   N.testbit (l mod 0x80) 6 || (l mod 0x80 =? 0) || (l mod 0x80 =? 4) || (l mod 0x80 =? 8) || (l mod 0x80 =? 0xC)))
  (seqN 256) = true.
Proof. vm_compute. reflexivity. Qed.
Lemma seqN_In' : forall i n, i < n -> In i (seqN n).
Proof.
  intros i n H. unfold seqN. apply in_map_iff. exists (N.to_nat i). split; [lia|]. apply in_seq. lia.
Qed.
Lemma overlay_raw : forall l, is_u8 l ->
  N.ldiff l 0x80 = l mod 0x80 /\ negb (N.land l 0x80 =? 0) = (0x80 <=? l) /\
  negb (N.land (l mod 0x80) 8 =? 0) = N.testbit (l mod 0x80) 3 /\
  ((exists b, In b [0; 1; 4; 5; 6] /\ N.testbit (l mod 0x80) b = true) \/ In (l mod 0x80) [0; 4; 8; 0xC]).
Proof.
  intros l H. pose proof overlay_check as C. rewrite forallb_forall in C. specialize (C l (seqN_In' _ _ H)).
  rewrite !andb_true_iff, !orb_true_iff, N.eqb_eq, !Bool.eqb_true_iff, !N.eqb_eq in C.
  destruct C as [[[C1 C2] C3] C4]. split; [exact C1|]. split; [exact C2|]. split; [exact C3|].
  repeat destruct C4 as [C4|C4]; try (right; rewrite C4; cbn; tauto); left; eexists; (split; [|exact C4]); cbn; tauto.
Qed.
Lemma reads_raw : forall c, raw_ok c -> reads read_loc_info (ser_loc c) (raw_place c).
Proof.
  intros c [K1 K2 K3 K4]. destruct (overlay_raw _ K2) as (E1 & E2 & E3 & _).
  unfold read_loc_info, read_loc_info_, ser_loc.
  eapply reads_bind; [now apply reads_con|].
  eapply reads_bind; [now apply reads_1|]. cbv zeta.
  eapply reads_bind; [now apply reads_4|].
  unfold LOCATION_OVERLAY. rewrite E1. unfold raw_place. cbv zeta.
  assert (Sp : fix_spell_loc_seq (cl_loc c mod 0x80) (cl_seq c) =
    if N.testbit (cl_loc c mod 0x80) 3 && (4 <? cl_seq c)
    then if cl_seq c =? 5 then (0x100, 0) else (0x200, cl_seq c - 6) else (cl_loc c mod 0x80, cl_seq c)).
  { unfold fix_spell_loc_seq, LOCATION_SPELL_ZONE. rewrite E3. destruct (_ && _); [|reflexivity].
    destruct (N.eqb_spec (cl_seq c) 5) as [->|]; [reflexivity|]. f_equal. lia. }
  rewrite Sp. destruct (if _ && _ then _ else _) as [l s].
  eapply reads_last; [now apply reads_4|]. rewrite E2. unfold to_signed, wrap.
  rewrite N.mod_small by exact K4. apply reads_ret.
Qed.
