(** encode_one: termination, consumption and locality for every buffer. *)
From Verif Require Import Base BaseProofs Place Frame Msg Event Query QuerySpec.
From Verif Require Import Reader EncodeQuery Encode CoreMsg ReaderProofs EncodeProofs EncodeQueryProofs.

Local Open Scope N_scope.

(** ** Building blocks *)
Lemma local_skip : forall n, local (rskip n).
Proof. intros n. apply local_bind; [apply local_bytes | intros; apply local_ret]. Qed.
Lemma local_read : forall n, local (read n).
Proof. intros n. apply local_bind; [apply local_bytes | intros; apply local_ret]. Qed.
Lemma halts_skip : forall n, halts (rskip n).
Proof. intros n. apply halts_bind; [apply halts_bytes | intros; apply halts_ret]. Qed.
Lemma halts_read : forall n, halts (read n).
Proof. intros n. apply halts_bind; [apply halts_bytes | intros; apply halts_ret]. Qed.

Ltac loc1 :=
  match goal with
  | |- local (rbind _ _) => apply local_bind; [|intros ?]
  | |- local (rret _) => apply local_ret
  | |- local (rskip _) => apply local_skip
  | |- local (read _) => apply local_read
  | |- local (rlift _) => apply local_lift
  | |- local (rtimes _ _) => apply local_times
  | |- local (rcount _ _) => unfold rcount
  | |- local (rlist _ _) => unfold rlist
  | |- local (if ?b then _ else _) => destruct b
  | |- local (match ?x with _ => _ end) => destruct x
  end.
Ltac hal1 :=
  match goal with
  | |- halts (rbind _ _) => apply halts_bind; [|intros ?]
  | |- halts (rret _) => apply halts_ret
  | |- halts (rskip _) => apply halts_skip
  | |- halts (read _) => apply halts_read
  | |- halts (rtimes _ _) => apply halts_times
  | |- halts (rcount _ _) => unfold rcount
  | |- halts (rlist _ _) => unfold rlist
  | |- halts (if ?b then _ else _) => destruct b
  | |- halts (match ?x with _ => _ end) => destruct x
  end.

Lemma local_con : local read_con. Proof. unfold read_con. repeat loc1. Qed.
Lemma local_bool : local read_bool. Proof. unfold read_bool. repeat loc1. Qed.
Lemma local_i32 : local read_i32. Proof. unfold read_i32. repeat loc1. Qed.
Lemma local_counter : local read_counter. Proof. unfold read_counter. repeat loc1. Qed.
Lemma local_effect : local read_effect. Proof. unfold read_effect. repeat loc1. Qed.
Lemma local_info_ : forall a b c, local (read_loc_info_ a b c).
Proof. intros. unfold read_loc_info_, read_con. repeat loc1. Qed.
Lemma halts_con : halts read_con. Proof. unfold read_con. repeat hal1. Qed.
Lemma halts_bool : halts read_bool. Proof. unfold read_bool. repeat hal1. Qed.
Lemma halts_i32 : halts read_i32. Proof. unfold read_i32. repeat hal1. Qed.
Lemma halts_counter : halts read_counter. Proof. unfold read_counter. repeat hal1. Qed.
Lemma halts_effect : halts read_effect. Proof. unfold read_effect. repeat hal1. Qed.
Lemma halts_info_ : forall a b c, halts (read_loc_info_ a b c).
Proof. intros. unfold read_loc_info_, read_con. repeat hal1. Qed.

Ltac loc2 :=
  match goal with
  | |- local read_con => apply local_con
  | |- local read_bool => apply local_bool
  | |- local read_i32 => apply local_i32
  | |- local read_counter => apply local_counter
  | |- local read_effect => apply local_effect
  | |- local (read_loc_info_ _ _ _) => apply local_info_
  | |- local read_loc_info => apply local_info_
  | |- local read_place4 => apply local_info_
  | |- local read_place1 => apply local_info_
  | |- local (read_card_list _) => unfold read_card_list
  | |- local (listed_place _) => unfold listed_place
  | _ => loc1
  end.
Ltac hal2 :=
  match goal with
  | |- halts read_con => apply halts_con
  | |- halts read_bool => apply halts_bool
  | |- halts read_i32 => apply halts_i32
  | |- halts read_counter => apply halts_counter
  | |- halts read_effect => apply halts_effect
  | |- halts (read_loc_info_ _ _ _) => apply halts_info_
  | |- halts read_loc_info => apply halts_info_
  | |- halts read_place4 => apply halts_info_
  | |- halts read_place1 => apply halts_info_
  | |- halts (read_card_list _) => unfold read_card_list
  | |- halts (listed_place _) => unfold listed_place
  | _ => hal1
  end.

(** ** Queries *)
Lemma local_item : forall size flag st, local (query_item size flag st).
Proof. intros size flag [d ov]. unfold query_item. repeat loc2. Qed.
Lemma halts_item : forall size flag st, halts (query_item size flag st).
Proof.
  intros size flag [d ov]. unfold query_item. repeat hal2. apply halts_lift. discriminate.
Qed.

(** The loop terminates as each item takes six bytes. *)
Lemma halts_loop : forall fuel st bs, (length bs < fuel)%nat -> query_loop fuel st bs <> Diverge.
Proof.
  induction fuel as [|fuel IH]; intros st bs F; [lia|]. cbn [query_loop]. unfold rbind at 1.
  pose proof (halts_read 2 bs) as H2. pose proof (consumes_read 2 bs) as C2.
  destruct (read 2 bs) as [[size r]| | |]; cbn [obind]; try discriminate; [|contradiction].
  specialize (C2 _ _ eq_refl). change (N.to_nat 2) with 2%nat in C2. unfold rbind at 1.
  pose proof (halts_read 4 r) as H4. pose proof (consumes_read 4 r) as C4.
  destruct (read 4 r) as [[flag r']| | |]; cbn [obind]; try discriminate; [|contradiction].
  specialize (C4 _ _ eq_refl). destruct (flag =? QUERY_END); [discriminate|]. unfold rbind.
  pose proof (halts_item size flag st r') as H.
  destruct (query_item size flag st r') as [[st' r'']| | |] eqn:E; cbn [obind]; try discriminate;
    [|contradiction].
  apply IH. apply (local_consumes _ _ (local_item size flag st)) in E. lia.
Qed.
Lemma halts_query : forall d, halts (encode_one_query d).
Proof. intros d bs. apply halts_loop. lia. Qed.

(** Any fuel larger than what is consumed does the same. *)
Lemma local_loop : forall fuel st bs x rest, query_loop fuel st bs = Ok (x, rest) ->
  exists s, bs = s ++ rest /\ (6 <= length s)%nat /\
    forall fuel', (length s <= fuel')%nat -> reads (query_loop fuel' st) s x.
Proof.
  induction fuel as [|fuel IH]; intros st bs x rest H; [discriminate|].
  cbn [query_loop] in H. unfold rbind at 1 in H. apply obind_Ok in H. destruct H as [[size r] [E H]].
  pose proof (consumes_read 2 _ _ _ E) as C2.
  destruct (local_read 2 _ _ _ E) as [s1 [-> R1]]. rewrite app_length in C2.
  unfold rbind at 1 in H. apply obind_Ok in H. destruct H as [[flag r'] [E' H]].
  pose proof (consumes_read 4 _ _ _ E') as C4.
  destruct (local_read 4 _ _ _ E') as [s2 [-> R2]]. rewrite app_length in C4.
  change (N.to_nat 2) with 2%nat in *. change (N.to_nat 4) with 4%nat in *.
  destruct (flag =? QUERY_END) eqn:Q.
  - inversion H; subst. exists (s1 ++ s2). split; [apply app_assoc|]. rewrite app_length.
    split; [lia|]. intros fuel' F. destruct fuel' as [|fuel']; [lia|]. cbn [query_loop].
    eapply reads_bind; [exact R1|]. eapply reads_last; [exact R2|]. rewrite Q. apply reads_ret.
  - unfold rbind in H. apply obind_Ok in H. destruct H as [[st' r''] [E'' H]].
    destruct (local_item _ _ _ _ _ _ E'') as [s3 [-> R3]].
    destruct (IH _ _ _ _ H) as [s4 [-> [L4 R4]]].
    exists (s1 ++ s2 ++ s3 ++ s4). rewrite <- !app_assoc. split; [reflexivity|].
    rewrite !app_length. split; [lia|]. intros fuel' F. destruct fuel' as [|fuel']; [lia|].
    cbn [query_loop]. eapply reads_bind; [exact R1|]. eapply reads_bind; [exact R2|]. rewrite Q.
    eapply reads_bind; [exact R3|]. apply R4. lia.
Qed.
Lemma local_query : forall d, local (encode_one_query d).
Proof.
  intros d bs x rest H. destruct (local_loop _ _ _ _ _ H) as [s [-> [_ R]]].
  exists s. split; [reflexivity|]. intros rest'. apply R. rewrite app_length. lia.
Qed.
Lemma consumes_query : forall d, consumes 6 (encode_one_query d).
Proof.
  intros d bs x rest H. destruct (local_loop _ _ _ _ _ H) as [s [-> [L _]]].
  rewrite app_length. lia.
Qed.

Lemma local_card_queries : forall p, local (card_queries p).
Proof. intros p. unfold card_queries. apply local_bind; [apply local_query | intros; apply local_ret]. Qed.
Lemma halts_card_queries : forall p, halts (card_queries p).
Proof. intros p. unfold card_queries. apply halts_bind; [apply halts_query | intros; apply halts_ret]. Qed.
Lemma consumes_card_queries : forall p, consumes 6 (card_queries p).
Proof.
  intros p. unfold card_queries. eapply consumes_weaken.
  - apply consumes_bind; [apply consumes_query | intros; apply consumes_ret].
  - lia.
Qed.

Lemma halts_update : forall fuel con loc total i rs bs, (length bs < fuel)%nat ->
  update_loop fuel con loc total i rs bs <> Diverge.
Proof.
  induction fuel as [|fuel IH]; intros con loc total i rs bs F; [lia|]. cbn [update_loop].
  destruct (rs <? total); [|discriminate]. unfold rbind at 1, peek.
  pose proof (halts_read 2 bs) as H2.
  destruct (read 2 bs) as [[n r]| | |]; cbn [obind]; try discriminate; [|contradiction].
  destruct (n =? 0).
  - unfold rbind. pose proof (halts_skip 2 bs) as H.
    destruct (rskip 2 bs) as [[u r']| | |] eqn:E; cbn [obind]; try discriminate; [|contradiction].
    apply IH. assert (C : consumes 2 (rskip 2)).
    { unfold rskip. eapply consumes_weaken.
      - apply consumes_bind; [apply consumes_bytes | intros; apply consumes_ret].
      - change (N.to_nat 2) with 2%nat. lia. }
    apply C in E. lia.
  - destruct (fix_spell_loc_seq loc i) as [fl fs]. unfold rbind at 1, counted.
    pose proof (halts_card_queries (mkPlace con fl fs OSEQ_INVALID) bs) as H.
    destruct (card_queries _ bs) as [[q r']| | |] eqn:E; cbn [obind]; try discriminate; [|contradiction].
    apply consumes_card_queries in E. unfold rbind.
    specialize (IH con loc total (u32 (i + 1)) (u32 (rs + (lenN bs - lenN r'))) r' ltac:(lia)).
    destruct (update_loop _ _ _ _ _ _ r') as [[l r'']| | |]; cbn [obind]; try discriminate.
    contradiction.
Qed.

Lemma split_prefix : forall (s0 r0 s1 r1 : list N), s0 ++ r0 = s1 ++ r1 ->
  (length s0 <= length s1)%nat -> exists t, s1 = s0 ++ t.
Proof.
  induction s0 as [|x s0 IH]; intros r0 s1 r1 E L.
  - now exists s1.
  - destruct s1 as [|y s1]; [cbn in L; lia|]. cbn in E. inversion E; subst.
    destruct (IH _ _ _ H1) as [t ->]; [cbn in L; lia|]. now exists t.
Qed.

Lemma exact_read : forall n bs x rest, read n bs = Ok (x, rest) ->
  (length bs = length rest + N.to_nat n)%nat.
Proof.
  intros n bs x rest H. unfold read, rbind in H. apply obind_Ok in H.
  destruct H as [[b r] [E H]]. inversion H; subst. unfold rbytes in E.
  destruct (N.leb_spec n (lenN bs)) as [L|L]; [|discriminate]. inversion E; subst.
  rewrite skipn_length. unfold lenN in L. lia.
Qed.

Lemma reads_of_skip : forall n bs u rest, rskip n bs = Ok (u, rest) ->
  exists s, bs = s ++ rest /\ lenN s = n.
Proof.
  intros n bs u rest H. unfold rskip, rbind in H. apply obind_Ok in H.
  destruct H as [[b r] [E H]]. inversion H; subst. unfold rbytes in E.
  destruct (N.leb_spec n (lenN bs)) as [L|L]; [|discriminate]. inversion E; subst.
  exists (firstn (N.to_nat n) bs). split; [symmetry; apply firstn_skipn|].
  unfold lenN in *. rewrite firstn_length. lia.
Qed.

Lemma local_update : forall fuel con loc total i rs bs x rest,
  update_loop fuel con loc total i rs bs = Ok (x, rest) ->
  exists s, bs = s ++ rest /\
    forall fuel', (length s < fuel')%nat -> reads (update_loop fuel' con loc total i rs) s x.
Proof.
  induction fuel as [|fuel IH]; intros con loc total i rs bs x rest H; cbn [update_loop] in H.
  - destruct (rs <? total) eqn:G; [discriminate|]. inversion H; subst. exists [].
    split; [reflexivity|]. intros fuel' F. destruct fuel' as [|fuel']; [lia|]. cbn [update_loop].
    rewrite G. apply reads_ret.
  - destruct (rs <? total) eqn:G.
    2: { inversion H; subst. exists [].
      split; [reflexivity|]. intros fuel' F. destruct fuel' as [|fuel']; [lia|]. cbn [update_loop].
      rewrite G. apply reads_ret. }
    unfold rbind at 1, peek in H. apply obind_Ok in H. destruct H as [[n r] [E H]].
    apply obind_Ok in E. destruct E as [[n' r'] [E E']]. inversion E'; subst n' r. clear E'.
    pose proof (exact_read _ _ _ _ E) as X. change (N.to_nat 2) with 2%nat in X.
    destruct (local_read 2 _ _ _ E) as [s0 [B0 R0]].
    assert (L0 : length s0 = 2%nat) by (rewrite B0, app_length in X; lia).
    destruct (n =? 0) eqn:Z.
    + unfold rbind in H. apply obind_Ok in H. destruct H as [[u r2] [E2 H]].
      destruct (reads_of_skip _ _ _ _ E2) as [s1 [B1 L1]].
      destruct (IH _ _ _ _ _ _ _ _ H) as [s2 [-> R2]].
      exists (s1 ++ s2). split; [rewrite B1; apply app_assoc|]. intros fuel' F.
      rewrite app_length in F. unfold lenN in L1.
      destruct fuel' as [|fuel']; [lia|]. cbn [update_loop]. rewrite G.
      destruct (split_prefix s0 r' s1 (s2 ++ rest)) as [t ->]; [congruence | lia |].
      rewrite app_length in *. assert (t = []) by (destruct t; [reflexivity | cbn in *; lia]). subst t.
      rewrite app_nil_r in *. eapply reads_peek; [reflexivity | exact R0|]. rewrite Z.
      eapply reads_bind; [apply reads_skip; unfold lenN; lia|]. apply R2. lia.
    + destruct (fix_spell_loc_seq loc i) as [fl fs] eqn:FS. unfold rbind at 1, counted in H.
      apply obind_Ok in H. destruct H as [[[q k] r2] [E2 H]]. apply obind_Ok in E2.
      destruct E2 as [[q' r2'] [E2 E3]]. inversion E3; subst q' k r2'. clear E3.
      pose proof (consumes_card_queries _ _ _ _ E2) as C2.
      destruct (local_card_queries _ _ _ _ E2) as [s1 [B1 R1]].
      unfold rbind in H. apply obind_Ok in H. destruct H as [[l r3] [E3 H]].
      inversion H; subst x r3. clear H.
      destruct (IH _ _ _ _ _ _ _ _ E3) as [s2 [B2 R2]].
      assert (L1 : (6 <= length s1)%nat) by (rewrite B1, app_length in C2; lia).
      exists (s1 ++ s2). split; [rewrite B1, B2; apply app_assoc|]. intros fuel' F.
      rewrite app_length in F.
      destruct fuel' as [|fuel']; [lia|]. cbn [update_loop]. rewrite G.
      destruct (split_prefix s0 r' s1 r2) as [t T]; [congruence | lia |].
      eapply reads_peek with (s0 := s0) (s1 := t ++ s2);
        [rewrite T; now rewrite <- app_assoc | exact R0|].
      rewrite Z, FS. eapply reads_bind; [apply reads_counted; exact R1|]. cbv beta iota.
      replace (lenN bs - lenN r2) with (lenN s1) in R2.
      2: { rewrite B1, lenN_app. lia. }
      eapply reads_last; [apply R2; lia | apply reads_ret].
Qed.

Lemma local_update_data : local update_data.
Proof.
  unfold update_data. apply local_bind; [apply local_con|]. intros con.
  apply local_bind; [apply local_read|]. intros loc. apply local_bind; [apply local_read|].
  intros total bs x rest H. destruct (local_update _ _ _ _ _ _ _ _ _ H) as [s [-> R]].
  exists s. split; [reflexivity|]. intros rest'. apply R. rewrite app_length. lia.
Qed.
Lemma halts_update_data : halts update_data.
Proof.
  unfold update_data. apply halts_bind; [apply halts_con|]. intros con.
  apply halts_bind; [apply halts_read|]. intros loc. apply halts_bind; [apply halts_read|].
  intros total bs. apply halts_update. lia.
Qed.

(** ** Looking ahead *)
Lemma local_peek : forall A B (m : reader A) (k : A -> reader B) n,
  local m -> (forall bs x rest, m bs = Ok (x, rest) -> length bs = (length rest + n)%nat) ->
  (forall x, local (k x)) -> (forall x, consumes n (k x)) -> local (rbind (peek m) k).
Proof.
  intros A B m k n H1 H2 H3 H4 bs y rest H. unfold rbind, peek in H.
  apply obind_Ok in H. destruct H as [[x r] [E H]].
  apply obind_Ok in E. destruct E as [[x' r'] [E E']]. inversion E'; subst x' r. clear E'.
  pose proof (H2 _ _ _ E) as X. destruct (H1 _ _ _ E) as [s0 [B0 R0]].
  pose proof (H4 _ _ _ _ H) as C. destruct (H3 _ _ _ _ H) as [s1 [B1 R1]].
  assert (L0 : length s0 = n) by (rewrite B0, app_length in X; lia).
  assert (L1 : (n <= length s1)%nat) by (rewrite B1, app_length in C; lia).
  destruct (split_prefix s0 r' s1 rest) as [t ->]; [congruence | lia |].
  exists (s0 ++ t). split; [exact B1|]. eapply reads_peek; [reflexivity | exact R0 | exact R1].
Qed.
Lemma halts_peek : forall A (m : reader A), halts m -> halts (peek m).
Proof. intros A m H bs. unfold peek. specialize (H bs). destruct (m bs) as [[? ?]| | |]; cbn; congruence. Qed.

Lemma consumes_skip : forall n, consumes (N.to_nat n) (rskip n).
Proof.
  intros n. unfold rskip. eapply consumes_weaken.
  - apply consumes_bind; [apply consumes_bytes | intros; apply consumes_ret].
  - lia.
Qed.
Lemma consumes_times : forall A (m : reader A) k n, consumes k m -> consumes (n * k) (rtimes n m).
Proof.
  intros A m k n H. induction n as [|n IH]; cbn [rtimes Nat.mul].
  - apply consumes_ret.
  - eapply consumes_weaken.
    + apply consumes_bind; [exact H|]. intros x.
      apply consumes_bind; [exact IH|]. intros l. apply consumes_ret.
    + lia.
Qed.

Lemma local_sel : local sel_card_r.
Proof. unfold sel_card_r. repeat loc2. Qed.
Lemma halts_sel : halts sel_card_r.
Proof. unfold sel_card_r. repeat hal2. Qed.
Lemma consumes_sel : consumes 6 sel_card_r.
Proof.
  unfold sel_card_r. eapply consumes_weaken.
  - apply consumes_bind; [apply consumes_read|]. intros c.
    apply consumes_bind; [|intros; apply consumes_ret].
    unfold read_loc_info, read_loc_info_. apply consumes_bind.
    { unfold read_con. apply consumes_bind; [apply consumes_read | intros; apply consumes_ret]. }
    intros con. apply consumes_bind; [apply consumes_read|]. intros l.
    eapply consumes_weaken with (b := 0%nat); [apply consumes_bind; [apply consumes_read|]|lia].
    intros s. destruct (fix_spell_loc_seq _ _).
    apply consumes_bind; [apply consumes_read | intros; apply consumes_ret].
  - change (N.to_nat 4) with 4%nat. change (N.to_nat 1) with 1%nat. lia.
Qed.

Lemma local_select_card : local select_card_r.
Proof.
  unfold select_card_r. do 3 (apply local_bind; [repeat loc2|]; intros ?).
  apply local_bind; [repeat loc2|]. intros count.
  intros bs x9 rest H. unfold rbind at 1 in H. apply obind_Ok in H. destruct H as [[[] r] [E H]].
  destruct (local_lift _ _ _ _ _ E) as [s [-> R]].
  assert (C : (1 <= N.to_nat count)%nat).
  { unfold rlift in E. apply obind_Ok in E. destruct E as [u [E _]]. unfold assert_ in E.
    destruct (N.ltb_spec 0 count); [lia | discriminate]. }
  clear E. revert H. generalize r. clear r. intros r H.
  match type of H with ?m _ = _ => assert (L : local m) end.
  { apply local_peek with (n := 6%nat).
    - repeat loc2.
    - intros bs' y rest' E. unfold rbind in E. apply obind_Ok in E. destruct E as [[u r'] [E1 E2]].
      apply exact_read in E2. destruct (reads_of_skip _ _ _ _ E1) as [s' [-> L']].
      rewrite app_length. unfold lenN in L'. change (N.to_nat 1) with 1%nat in E2. lia.
    - intros y. destruct (negb (y =? 0)).
      + apply local_bind; [apply local_times, local_sel | intros; apply local_ret].
      + repeat loc2.
    - intros y. destruct (negb (y =? 0)).
      + eapply consumes_weaken.
        * apply consumes_bind; [apply consumes_times, consumes_sel | intros; apply consumes_ret].
        * lia.
      + eapply consumes_weaken.
        * apply consumes_bind; [apply consumes_times | intros; apply consumes_ret].
          apply consumes_bind; [apply consumes_read|]. intros c.
          apply consumes_bind; [apply consumes_skip | intros; apply consumes_ret].
        * change (N.to_nat 4) with 4%nat. change (N.to_nat CORE_LOC_INFO_SIZE) with 10%nat. lia. }
  destruct (L _ _ _ H) as [s' [-> R']]. exists (s ++ s'). split; [apply app_assoc|].
  eapply reads_bind; [exact R | exact R'].
Qed.
Lemma halts_select_card : halts select_card_r.
Proof.
  unfold select_card_r. do 4 (apply halts_bind; [repeat hal2|]; intros ?).
  apply halts_bind; [apply halts_lift; unfold assert_; now destruct (0 <? _)|]. intros ?.
  apply halts_bind; [apply halts_peek; repeat hal2|]. intros ?.
  repeat hal2. apply halts_sel.
Qed.

(** ** The cases of the switch *)
Lemma local_zones : forall con loc l, local (zone_slots con loc l).
Proof.
  intros con loc l. induction l as [|s l IH]; cbn [zone_slots]; [apply local_ret|].
  apply local_bind; [unfold zone_slot; repeat loc2|]. intros a.
  apply local_bind; [exact IH|]. intros. apply local_ret.
Qed.
Lemma halts_zones : forall con loc l, halts (zone_slots con loc l).
Proof.
  intros con loc l. induction l as [|s l IH]; cbn [zone_slots]; [apply halts_ret|].
  apply halts_bind; [unfold zone_slot; repeat hal2|]. intros a.
  apply halts_bind; [exact IH|]. intros. apply halts_ret.
Qed.
Lemma local_side : forall con, local (controller_state con).
Proof.
  intros con. unfold controller_state. apply local_bind; [repeat loc2|]. intros lp.
  apply local_bind; [apply local_zones|]. intros ms.
  apply local_bind; [apply local_zones|]. intros ss. repeat loc2.
Qed.
Lemma halts_side : forall con, halts (controller_state con).
Proof.
  intros con. unfold controller_state. apply halts_bind; [repeat hal2|]. intros lp.
  apply halts_bind; [apply halts_zones|]. intros ms.
  apply halts_bind; [apply halts_zones|]. intros ss. repeat hal2.
Qed.
Lemma local_chain : local chain_link.
Proof. unfold chain_link. repeat loc2. Qed.
Lemma halts_chain : halts chain_link.
Proof. unfold chain_link. repeat hal2. Qed.

Ltac loc3 :=
  match goal with
  | |- local sel_card_r => apply local_sel
  | |- local chain_link => apply local_chain
  | |- local (controller_state _) => apply local_side
  | |- local select_card_r => apply local_select_card
  | |- local update_data => apply local_update_data
  | |- local (card_queries _) => apply local_card_queries
  | |- local confirm_event => unfold confirm_event
  | |- local (shuffle_codes _) => unfold shuffle_codes
  | |- local (summoning _) => unfold summoning
  | |- local selected => unfold selected
  | |- local (lp_event _) => unfold lp_event
  | |- local (status_event _) => unfold status_event
  | |- local start_event => unfold start_event
  | |- local tag_swap_event => unfold tag_swap_event
  | |- local reload_event => unfold reload_event
  | |- local act_card_r => unfold act_card_r
  | |- local select_battle_r => unfold select_battle_r
  | |- local select_idle_r => unfold select_idle_r
  | |- local update_card => unfold update_card
  | |- local (win_case _) => unfold win_case
  | |- local (deck_top_case _) => unfold deck_top_case
  | |- local (move_case _) => unfold move_case
  | |- local (draw_case _) => unfold draw_case
  | |- local (reverse_deck_case _) => unfold reverse_deck_case
  | _ => loc2
  end.
Ltac hal3 :=
  match goal with
  | |- halts sel_card_r => apply halts_sel
  | |- halts chain_link => apply halts_chain
  | |- halts (controller_state _) => apply halts_side
  | |- halts select_card_r => apply halts_select_card
  | |- halts update_data => apply halts_update_data
  | |- halts (card_queries _) => apply halts_card_queries
  | |- halts confirm_event => unfold confirm_event
  | |- halts (shuffle_codes _) => unfold shuffle_codes
  | |- halts (summoning _) => unfold summoning
  | |- halts selected => unfold selected
  | |- halts (lp_event _) => unfold lp_event
  | |- halts (status_event _) => unfold status_event
  | |- halts start_event => unfold start_event
  | |- halts tag_swap_event => unfold tag_swap_event
  | |- halts reload_event => unfold reload_event
  | |- halts act_card_r => unfold act_card_r
  | |- halts select_battle_r => unfold select_battle_r
  | |- halts select_idle_r => unfold select_idle_r
  | |- halts update_card => unfold update_card
  | |- halts (win_case _) => unfold win_case
  | |- halts (deck_top_case _) => unfold deck_top_case
  | |- halts (move_case _) => unfold move_case
  | |- halts (draw_case _) => unfold draw_case
  | |- halts (reverse_deck_case _) => unfold reverse_deck_case
  | |- halts (swap_grave_deck_case _) => unfold swap_grave_deck_case
  | _ => hal2
  end.

Lemma local_event : forall k r, event_case k = Some r -> local r.
Proof. intros k r H. destruct k; try discriminate H; inversion H; subst; repeat loc3. Qed.
Lemma halts_event : forall k r, event_case k = Some r -> halts r.
Proof. intros k r H. destruct k; try discriminate H; inversion H; subst; repeat hal3. Qed.
Lemma local_request : forall k r, request_case k = Some r -> forall z, local (r z).
Proof. intros k r H z. destruct k; try discriminate H; inversion H; subst; repeat loc3. Qed.
Lemma halts_request : forall k r, request_case k = Some r -> forall z, halts (r z).
Proof. intros k r H z. destruct k; try discriminate H; inversion H; subst; repeat hal3. Qed.

Lemma local_dispatch : forall k c, k <> KSwapGraveDeck -> local (dispatch k c).
Proof.
  intros k c N. unfold dispatch. destruct (event_case k) as [r|] eqn:E.
  - apply local_bind; [now apply (local_event k) | intros; apply local_ret].
  - destruct (request_case k) as [r|] eqn:F.
    + apply local_bind; [apply local_con|]. intros z.
      apply local_bind; [now apply (local_request k) | intros; apply local_ret].
    + destruct k; try discriminate; try contradiction; repeat loc3.
Qed.

(** ** The graveyard and deck swap *)
Lemma seqN_In : forall i n, In i (seqN n) -> i < n.
Proof.
  intros i n H. unfold seqN in H. apply in_map_iff in H. destruct H as [x [<- H]].
  apply in_seq in H. lia.
Qed.
Lemma extra_loop_local : forall con pos d d' is sseq ssize sent,
  (forall i, In i is -> nth_error d (N.to_nat (i / 8)) = nth_error d' (N.to_nat (i / 8))) ->
  extra_loop con pos d is sseq ssize sent = extra_loop con pos d' is sseq ssize sent.
Proof.
  intros con pos d d' is. induction is as [|i is IH]; intros sseq ssize sent H; cbn [extra_loop];
    [reflexivity|].
  rewrite <- (H i) by now left. destruct (or_ub (nth_error d (N.to_nat (i / 8)))); cbn [obind]; try reflexivity.
  assert (G : forall i, In i is -> nth_error d (N.to_nat (i / 8)) = nth_error d' (N.to_nat (i / 8))).
  { intros j J. apply H. now right. }
  destruct (N.testbit a (i mod 8)); [now apply IH|].
  destruct (0 <? ssize); [now rewrite (IH _ _ _ G) | now apply IH].
Qed.
Lemma extra_loop_halts : forall con pos d is sseq ssize sent,
  extra_loop con pos d is sseq ssize sent <> Diverge.
Proof.
  intros con pos d is. induction is as [|i is IH]; intros sseq ssize sent; cbn [extra_loop];
    [discriminate|].
  destruct (nth_error d (N.to_nat (i / 8))); cbn [or_ub obind]; [|discriminate].
  destruct (N.testbit n (i mod 8)); [apply IH|]. destruct (0 <? ssize); [|apply IH].
  specialize (IH sseq 0 (u32 (sent + ssize))).
  destruct (extra_loop con pos d is sseq 0 (u32 (sent + ssize))); cbn [obind]; congruence.
Qed.

Lemma local_swap : forall c bs v rest, swap_grave_deck_case c bs = Ok (v, rest) ->
  (forall con p0 p1 p2 p3 n0 n1 n2 n3 tail, 
     bs = con :: p0 :: p1 :: p2 :: p3 :: n0 :: n1 :: n2 :: n3 :: tail ->
     forall gy, pile_size c (Z.of_N con) LOCATION_GRAVEYARD = Ok gy ->
     gy <= 8 * (n0 + 256 * (n1 + 256 * (n2 + 256 * n3)))) ->
  exists s, bs = s ++ rest /\ reads (swap_grave_deck_case c) s v.
Proof.
  intros c bs v rest H S. unfold swap_grave_deck_case in H.
  unfold rbind at 1 in H. apply obind_Ok in H. destruct H as [[con r1] [E1 H]].
  unfold rbind at 1 in H. apply obind_Ok in H. destruct H as [[pos r2] [E2 H]].
  unfold rbind at 1 in H. apply obind_Ok in H. destruct H as [[n r3] [E3 H]].
  unfold rbind at 1 in H. apply obind_Ok in H. destruct H as [[gy r4] [E4 H]].
  unfold rlift in E4. apply obind_Ok in E4. destruct E4 as [gy' [G1 G2]]. inversion G2; subst gy' r4. clear G2.
  unfold rbind at 1 in H. apply obind_Ok in H. destruct H as [[deck r4] [E4 H]].
  unfold rlift in E4. apply obind_Ok in E4. destruct E4 as [dk [D1 D2]]. inversion D2; subst dk r4. clear D2.
  unfold rbind at 1 in H. apply obind_Ok in H. destruct H as [[ops r4] [E4 H]].
  apply obind_Ok in E4. destruct E4 as [ops' [O1 O2]]. inversion O2; subst ops' r4. clear O2.
  unfold rbind in H. apply obind_Ok in H. destruct H as [[u r4] [E5 H]].
  inversion H; subst v r4. clear H.
  destruct (reads_of_skip _ _ _ _ E5) as [s5 [-> L5]].
  pose proof (exact_read _ _ _ _ E3) as X3. pose proof (exact_read _ _ _ _ E2) as X2.
  assert (E1' := E1). unfold read_con, rbind in E1'. apply obind_Ok in E1'.
  destruct E1' as [[con' r] [E1' I]]. inversion I; subst con r. clear I.
  pose proof (exact_read _ _ _ _ E1') as X1.
  destruct (local_con _ _ _ E1) as [s1 [-> R1]].
  destruct (local_read 4 _ _ _ E2) as [s2 [-> R2]].
  destruct (local_read 4 _ _ _ E3) as [s3 [-> R3]].
  change (N.to_nat 4) with 4%nat in *. change (N.to_nat 1) with 1%nat in *.
  rewrite !app_length in *.
  destruct s1 as [|con [|? ?]]; cbn [length] in X1; try lia.
  destruct s2 as [|p0 [|p1 [|p2 [|p3 [|? ?]]]]]; cbn [length] in X2; try lia.
  destruct s3 as [|n0 [|n1 [|n2 [|n3 [|? ?]]]]]; cbn [length] in X3; try lia.
  cbn [app] in *.
  assert (con' = con).
  { rewrite read1_cons in E1'. now inversion E1'. } subst con'.
  assert (N0 : n = n0 + 256 * (n1 + 256 * (n2 + 256 * n3))).
  { unfold read, rbind, rbytes, lenN in E3. cbn [length] in E3.
    destruct (4 <=? N.of_nat _); [|discriminate]. cbn in E3. inversion E3. 
    rewrite ?N.add_0_r. unfold le. f_equal; lia. }
  specialize (S con p0 p1 p2 p3 n0 n1 n2 n3 _ eq_refl gy G1). rewrite <- N0 in S.
  exists ([con] ++ [p0; p1; p2; p3] ++ [n0; n1; n2; n3] ++ s5).
  split; [reflexivity|]. unfold swap_grave_deck_case.
  eapply reads_bind; [exact R1|]. eapply reads_bind; [exact R2|]. eapply reads_bind; [exact R3|].
  eapply reads_lift; [exact G1|]. eapply reads_lift; [exact D1|].
  intros rest'. unfold rbind at 1.
  rewrite (extra_loop_local _ _ _ (s5 ++ rest)).
  2: { intros i I. apply seqN_In in I. 
       assert (N.to_nat (i / 8) < length s5)%nat.
       { assert (i / 8 < n) by (apply N.div_lt_upper_bound; lia). unfold lenN in L5. lia. }
       now rewrite !nth_error_app1. }
  rewrite O1. cbn [obind]. eapply reads_last; [|apply reads_ret]. now apply reads_skip.
Qed.

(** ** Termination *)
Lemma pile_ref_halts : forall con loc, pile_ref con loc <> Diverge.
Proof.
  intros con loc. unfold pile_ref, assert_, con_index.
  repeat match goal with |- context [if ?b then _ else _] => destruct b; cbn [obind] end; discriminate.
Qed.
Lemma pile_size_halts : forall c con loc, pile_size c con loc <> Diverge.
Proof.
  intros c con loc. unfold pile_size. pose proof (pile_ref_halts con loc).
  destruct (pile_ref con loc); cbn [obind]; congruence.
Qed.
Lemma zone_of_halts : forall p, zone_of p <> Diverge.
Proof.
  intros p. unfold zone_of, zone_ref, zone_seq_lim, side_at, assert_, con_index.
  repeat match goal with
  | |- context [if ?b then _ else _] => destruct b; cbn [obind]
  | |- context [match ?b with _ => _ end] => destruct b; cbn [obind]
  end; discriminate.
Qed.
Lemma has_xyz_mat_halts : forall c p, has_xyz_mat c p <> Diverge.
Proof.
  intros c p. unfold has_xyz_mat, read_zone. pose proof (zone_of_halts p).
  destruct (zone_of p); cbn [obind]; try congruence.
  destruct (get_zone a (ctx_layout c)); cbn [or_ub obind]; discriminate.
Qed.
Lemma move_verdict_halts : forall prev curr reason c, move_verdict prev curr reason c <> Diverge.
Proof.
  intros prev curr reason c. unfold move_verdict, take_deferred_xyz_mat, get_xyz_left.
  pose proof (has_xyz_mat_halts c prev).
  repeat match goal with
  | |- context [if ?b then _ else _] => destruct b; cbn [obind or_ub]
  | |- context [find_left ?a ?b] => destruct (find_left a b); cbn [obind or_ub]
  end; try discriminate;
  destruct (has_xyz_mat c prev); cbn [obind]; congruence.
Qed.

Lemma halts_dispatch : forall k c, halts (dispatch k c).
Proof.
  intros k c. unfold dispatch. destruct (event_case k) as [r|] eqn:E.
  - apply halts_bind; [now apply (halts_event k) | intros; apply halts_ret].
  - destruct (request_case k) as [r|] eqn:F.
    + apply halts_bind; [apply halts_con|]. intros z.
      apply halts_bind; [now apply (halts_request k) | intros; apply halts_ret].
    + destruct k; try discriminate; repeat hal3; try apply halts_lift;
        try apply pile_size_halts; try apply move_verdict_halts.
      * unfold get_match_win_reason. destruct (cx_mwr c); discriminate.
      * intros bs. pose proof (extra_loop_halts x x0 bs (seqN x2) 0 0 0).
        destruct (extra_loop x x0 bs (seqN x2) 0 0 0); cbn [obind]; congruence.
Qed.

Lemma encode_halts : forall c bs, encode_one c bs <> Diverge.
Proof.
  intros c bs. unfold encode_one. pose proof (halts_read 1 bs) as H.
  destruct (read 1 bs) as [[b r]| | |]; cbn [obind]; try congruence.
  destruct (kind_of b) as [k|].
  - pose proof (halts_dispatch k c r) as D.
    destruct (dispatch k c r) as [[[v c'] r']| | |]; cbn [obind]; congruence.
  - cbn [obind]. discriminate.
Qed.

(** ** What is returned *)
Definition yields {A} (P : A -> Prop) (m : reader A) : Prop :=
  forall bs x rest, m bs = Ok (x, rest) -> P x.
Lemma yields_ret : forall A (P : A -> Prop) x, P x -> yields P (rret x).
Proof. intros A P x H bs y rest E. now inversion E; subst. Qed.
Lemma yields_bind : forall A B (P : B -> Prop) (m : reader A) k,
  (forall x, yields P (k x)) -> yields P (rbind m k).
Proof.
  intros A B P m k H bs y rest E. unfold rbind in E. apply obind_Ok in E.
  destruct E as [[x r] [_ E]]. eapply H, E.
Qed.

(** The four kinds without an implementation. *)
Definition unfinished (k : kind) : bool :=
  match k with KSelectCounter | KSelectSum | KAnnounceCard | KAnnounceCardFilter => true | _ => false end.

Definition settled (k : kind) (v : verdict * ctx) : Prop :=
  match v_state (fst v) with
  | StUnknown => unfinished k = true /\ v_msg (fst v) = None
  | StOk => unfinished k = false /\ exists m, v_msg (fst v) = Some m /\
            match m_t m with MsgNotSet => True | _ => m_queries m = [] end
  | StSwallowed => unfinished k = false /\ v_msg (fst v) = None
  end.

Ltac stl :=
  cbn; first
    [ split; reflexivity
    | split; [reflexivity|]; eexists; split; [reflexivity | first [reflexivity | exact I]] ].

Lemma move_settled : forall p q r c v, move_verdict p q r c = Ok v -> settled KMove v.
Proof.
  intros prev curr reason c v H. unfold move_verdict, take_deferred_xyz_mat in H.
  repeat match type of H with
  | context [if ?b then _ else _] =>
      match b with _ && _ => idtac | negb _ => idtac | _ => idtac end; destruct b; cbn [obind or_ub] in H
  end;
  try (apply obind_Ok in H; destruct H as [had [_ H]]);
  inversion H; subst; stl.
Qed.

Lemma yields_dispatch : forall k c, yields (settled k) (dispatch k c).
Proof.
  intros k c. unfold dispatch. destruct (event_case k) as [r|] eqn:E.
  - apply yields_bind. intros e. apply yields_ret. destruct k; try discriminate E; stl.
  - destruct (request_case k) as [r|] eqn:F.
    + apply yields_bind. intros z. apply yields_bind. intros q. apply yields_ret.
      destruct k; try discriminate F; stl.
    + destruct k; try discriminate;
        unfold win_case, deck_top_case, swap_grave_deck_case, draw_case, reverse_deck_case, move_case;
        repeat (apply yields_bind; intros ?); try (apply yields_ret; stl).
      intros bs v rest H. unfold rlift in H. apply obind_Ok in H. destruct H as [w [H I]].
      inversion I; subst. eapply move_settled, H.
Qed.

Lemma swap_consumes : forall c, consumes 0 (swap_grave_deck_case c).
Proof.
  intros c. unfold swap_grave_deck_case. 
  assert (Z : forall a b, (a + b = 0 -> a = 0 /\ b = 0)%nat) by (intros; lia).
  assert (B : forall A B (m : reader A) (k : A -> reader B),
    consumes 0 m -> (forall x, consumes 0 (k x)) -> consumes 0 (rbind m k)).
  { intros A B m k H1 H2. exact (consumes_bind _ _ m k 0 0 H1 H2). }
  apply B; [apply local_consumes, local_con|]. intros con.
  apply B; [apply local_consumes, local_read|]. intros pos.
  apply B; [apply local_consumes, local_read|]. intros n.
  apply B; [apply local_consumes, local_lift|]. intros gy.
  apply B; [apply local_consumes, local_lift|]. intros deck.
  apply B.
  { intros bs x rest H. apply obind_Ok in H. destruct H as [l [_ H]]. inversion H; subst. lia. }
  intros ops. apply B; [apply local_consumes, local_skip|]. intros _. apply consumes_ret.
Qed.
Lemma consumes_dispatch : forall k c, consumes 0 (dispatch k c).
Proof.
  intros k c. destruct k; try (apply local_consumes, local_dispatch; discriminate).
  exact (swap_consumes c).
Qed.

Lemma encode_ok : forall c bs r c', encode_one c bs = Ok (r, c') ->
  exists b tl v rest, bs = b :: tl /\ r = mkResult (v_state v) (lenN bs - lenN rest) (v_msg v) /\
    (length rest <= length tl)%nat /\
    match kind_of b with
    | Some k => dispatch k c tl = Ok ((v, c'), rest)
    | None => v = v_none /\ c' = c /\ rest = tl
    end.
Proof.
  intros c bs r c' H. unfold encode_one in H. apply obind_Ok in H. destruct H as [[b tl] [E H]].
  destruct bs as [|b' tl']; [discriminate|]. rewrite read1_cons in E. inversion E; subst b' tl'. clear E.
  apply obind_Ok in H. destruct H as [[[v c1] rest] [E H]]. inversion H; subst r c1. clear H.
  exists b, tl, v, rest. destruct (kind_of b) as [k|].
  - pose proof (consumes_dispatch k c _ _ _ E). repeat split; [lia | exact E].
  - inversion E; subst. repeat split. lia.
Qed.
