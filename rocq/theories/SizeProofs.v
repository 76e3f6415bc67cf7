(** Proofs about the size of the messages the encoder makes (SizeSpec.v). *)
From Verif Require Import Base BaseProofs Place Msg Reader ReaderProofs EncodeQuery Encode EncodeLocal
  EncodeWildSpec EncodeWild SizeSpec.

Local Open Scope Z_scope.
Local Open Scope reader_scope.

Definition len {A} (l : list A) : Z := Z.of_N (lenN l).

(** A reader that has made [a] has consumed at least [w a] bytes. *)
Definition spends {A} (m : reader A) (w : A -> Z) : Prop :=
  forall bs a bs', m bs = Ok (a, bs') -> w a <= len bs - len bs'.

Lemma len_nil {A} : len (@nil A) = 0. Proof. reflexivity. Qed.
Lemma len_cons {A} (x : A) l : len (x :: l) = 1 + len l.
Proof. unfold len, lenN. cbn [length]. lia. Qed.
Lemma len_app {A} (a b : list A) : len (a ++ b) = len a + len b.
Proof. unfold len, lenN. rewrite app_length. lia. Qed.
Lemma len_map {A B} (f : A -> B) l : len (map f l) = len l.
Proof. unfold len, lenN. now rewrite map_length. Qed.
Lemma len_pos {A} (l : list A) : 0 <= len l. Proof. unfold len. lia. Qed.

Lemma sp_bind {A B} (m : reader A) (f : A -> reader B) w1 w :
  spends m w1 -> (forall a, spends (f a) (fun b => w b - w1 a)) -> spends (rbind m f) w.
Proof.
  intros Hm Hf bs b bs' E. unfold rbind in E. apply obind_Ok in E as ((a, bs1) & E1 & E2).
  apply Hm in E1. apply Hf in E2. lia.
Qed.
Lemma sp_ret {A} (a : A) w : w a <= 0 -> spends (rret a) w.
Proof. intros H bs x bs' E. injection E as <- <-. lia. Qed.
Lemma sp_lift {A} (o : outcome A) w : (forall a, o = Ok a -> w a <= 0) -> spends (rlift o) w.
Proof.
  intros H bs a bs' E. unfold rlift in E. apply obind_Ok in E as (x & E & F). injection F as <- <-.
  apply H in E. lia.
Qed.
Lemma sp_lift0 {A} (o : outcome A) : spends (rlift o) (fun _ => 0).
Proof. apply sp_lift. intros. lia. Qed.
Lemma sp_weak {A} (m : reader A) w w' : spends m w -> (forall a, w' a <= w a) -> spends m w'.
Proof. intros H K bs a bs' E. apply H in E. specialize (K a). lia. Qed.
Lemma sp_bytes n : spends (rbytes n) (fun _ => Z.of_N n).
Proof.
  intros bs a bs' E. unfold rbytes in E. destruct (N.leb_spec n (lenN bs)); [|discriminate].
  injection E as _ <-. unfold len, lenN in *. rewrite skipn_length. lia.
Qed.
Lemma sp_skip n : spends (rskip n) (fun _ => Z.of_N n).
Proof. eapply sp_bind; [apply sp_bytes|]. intros. apply sp_ret. lia. Qed.
Lemma sp_read n : spends (read n) (fun _ => Z.of_N n).
Proof. eapply sp_bind; [apply sp_bytes|]. intros. apply sp_ret. lia. Qed.
Lemma sp_times {A} (m : reader A) k n : spends m (fun _ => k) ->
  spends (rtimes n m) (fun l => k * len l).
Proof.
  intros H. induction n as [|n IH]; cbn [rtimes].
  - apply sp_ret. rewrite len_nil. lia.
  - eapply sp_bind; [exact H|]. intros a. eapply sp_bind; [exact IH|]. intros l. apply sp_ret.
    rewrite len_cons. lia.
Qed.
Lemma sp_list {A} w (m : reader A) k : spends m (fun _ => k) ->
  spends (rlist w m) (fun l => Z.of_N w + k * len l).
Proof.
  intros H. eapply sp_bind; [apply sp_read|]. intros n. eapply sp_weak; [apply sp_times, H|].
  intros l. cbn beta. lia.
Qed.
Lemma sp_peek {A} (m : reader A) : spends (peek m) (fun _ => 0).
Proof. intros bs a bs' E. unfold peek in E. apply obind_Ok in E as ((x, y) & _ & F). injection F as _ <-. lia. Qed.

Lemma sp_con : spends read_con (fun _ => 1).
Proof. eapply sp_bind; [apply sp_read|]. intros. apply sp_ret. lia. Qed.
Lemma sp_bool : spends read_bool (fun _ => 1).
Proof. eapply sp_bind; [apply sp_read|]. intros. apply sp_ret. lia. Qed.
Lemma sp_i32 : spends read_i32 (fun _ => 4).
Proof. eapply sp_bind; [apply sp_read|]. intros. apply sp_ret. lia. Qed.
Lemma sp_counter : spends read_counter (fun _ => 4).
Proof. eapply sp_bind; [apply sp_read|]. intros. apply sp_ret. lia. Qed.
Lemma sp_effect : spends read_effect (fun _ => 8).
Proof. eapply sp_bind; [apply sp_read|]. intros. apply sp_ret. lia. Qed.
Lemma sp_info_ wl ws wp : spends (read_loc_info_ wl ws wp)
  (fun _ => 1 + Z.of_N wl + Z.of_N ws + match wp with Some w => Z.of_N w | None => 0 end).
Proof.
  eapply sp_bind; [apply sp_con|]. intros. eapply sp_bind; [apply sp_read|]. intros.
  eapply sp_bind; [apply sp_read|]. intros. destruct (fix_spell_loc_seq _ _). destruct wp.
  - eapply sp_bind; [apply sp_read|]. intros. apply sp_ret. lia.
  - apply sp_ret. lia.
Qed.
Lemma sp_loc_info : spends read_loc_info (fun _ => 10).
Proof. exact (sp_info_ 1 4 (Some 4%N)). Qed.
Lemma sp_place4 : spends read_place4 (fun _ => 6).
Proof. exact (sp_info_ 1 4 None). Qed.
Lemma sp_place1 : spends read_place1 (fun _ => 3).
Proof. exact (sp_info_ 1 1 None). Qed.

Lemma sp_listed1 : spends (listed_place read_place1) (fun _ => 7).
Proof. eapply sp_bind; [apply sp_skip|]. intros. eapply sp_weak; [apply sp_place1|]. intros. cbv beta. lia. Qed.
Lemma sp_listed4 : spends (listed_place read_place4) (fun _ => 10).
Proof. eapply sp_bind; [apply sp_skip|]. intros. eapply sp_weak; [apply sp_place4|]. intros. cbv beta. lia. Qed.

(** [lia] for sizes. *)
Ltac sizes :=
  cbn [event_size request_size bx_remove bx_add bx_resize bs_lps bs_chains bs_add bs_resize
       si_activable si_summonable si_spsummonable si_repositionable si_msetable si_ssetable si_can_attack] in *;
  repeat match goal with |- context [lenN ?l] =>
    lazymatch goal with H : 0 <= len l |- _ => fail | _ => pose proof (len_pos l) end end;
  repeat match goal with |- context [len ?l] =>
    lazymatch goal with H : 0 <= len l |- _ => fail | _ => pose proof (len_pos l) end end;
  unfold len, lenN in *; rewrite ?app_length, ?map_length in *; cbn [length] in *; lia.

Ltac sp_prim :=
  first
    [ apply sp_skip | apply sp_read | apply sp_con | apply sp_bool | apply sp_i32 | apply sp_counter
    | apply sp_effect | apply sp_loc_info | apply sp_place4 | apply sp_place1 | apply sp_info_ | apply sp_peek
    | apply sp_listed1 | apply sp_listed4 | apply sp_lift0 ].
Ltac sp_one :=
  lazymatch goal with
  | |- spends (rbind _ _) _ => eapply sp_bind; [|intros ?; cbv beta]
  | |- spends (rret _) _ => apply sp_ret; cbv beta
  | |- spends (rlist _ _) _ => first [apply sp_list; sp_prim | apply (sp_list _ _ 1)]
  | |- spends (rcount _ _) _ => first [apply sp_times; sp_prim | apply (sp_times _ 1)]
  | |- spends (read_card_list _) _ => unfold read_card_list
  | |- spends (if ?b then _ else _) _ => destruct b
  | |- spends (match ?x with _ => _ end) _ => destruct x
  | |- spends _ _ => first [sp_prim | eapply sp_weak; [sp_prim | intros ?; cbv beta]]
  end.
Ltac sp := repeat sp_one; try (sizes || lia).

Lemma sp_chain : spends chain_link (fun _ => 28).
Proof. unfold chain_link. sp. Qed.

Lemma half_places_len con half : len (half_places con half) <= 15.
Proof.
  unfold half_places. rewrite !len_app.
  assert (K : forall (f : N -> N -> list place) l, (forall a b, len (f a b) <= 1) ->
    len (flat_map (fun s => f s s) l) <= len l).
  { intros f l Hf. induction l as [|x l IH]; [reflexivity|]. cbn [flat_map]. rewrite len_app, len_cons.
    specialize (Hf x x). lia. }
  assert (K' : forall k loc, len (flat_map (fun s => if N.testbit half (k + s) then [] else
    [mkPlace (Z.of_N con) loc s OSEQ_INVALID]) [0; 1; 2; 3; 4]%N) <= 5 /\
    len (flat_map (fun s => if N.testbit half (k + s) then [] else
    [mkPlace (Z.of_N con) loc s OSEQ_INVALID]) [0; 1]%N) <= 2).
  { intros k loc. split; cbn [flat_map]; rewrite !len_app; repeat destruct (N.testbit _ _); cbn; lia. }
  assert (K7 : len (flat_map (fun s => if N.testbit half s then [] else
    [mkPlace (Z.of_N con) LOCATION_MONSTER_ZONE s OSEQ_INVALID]) [0; 1; 2; 3; 4; 5; 6]%N) <= 7).
  { cbn [flat_map]. rewrite !len_app. repeat destruct (N.testbit _ _); cbn; lia. }
  pose proof (proj1 (K' 8%N LOCATION_SPELL_ZONE)). pose proof (proj2 (K' 14%N LOCATION_PENDULUM_ZONE)).
  destruct (N.testbit half 13); cbn [len]; rewrite ?len_cons, ?len_nil; lia.
Qed.
Lemma unpack_len z i : len (unpack_zones z i) <= 30.
Proof. unfold unpack_zones. rewrite len_app. pose proof (half_places_len i (u16 z)).
  pose proof (half_places_len (of_signed 8 (1 - Z.of_N i)) (u16 (N.shiftr z 16))). lia. Qed.

(** Events other than reloads. *)
Lemma sp_event k m : event_case k = Some m -> k <> KReloadField ->
  spends m (fun e => Z.of_N (event_size e) - 26).
Proof.
  intros E N. destruct k; try discriminate E; try (destruct N; reflexivity); injection E as <-;
    unfold summoning, selected, lp_event, shuffle_codes, status_event, confirm_event, start_event, tag_swap_event;
    repeat sp_one; try apply sp_chain; try (pose proof (unpack_len a 0)); sizes.
Qed.

Lemma sp_sel : spends sel_card_r (fun _ => 14).
Proof. unfold sel_card_r. sp. Qed.
Lemma sp_act : spends act_card_r (fun _ => 19).
Proof. unfold act_card_r. sp. Qed.
Lemma sp_request k m r : request_case k = Some m ->
  spends (m r) (fun q => Z.of_N (request_size q) - 25).
Proof.
  intros E. destruct k; try discriminate E; injection E as <-;
    unfold select_card_r, select_battle_r, select_idle_r;
    repeat sp_one; try (eapply sp_weak; [apply sp_sel|]); try (eapply sp_weak; [apply sp_act|]);
    intros; cbv beta; try (pose proof (unpack_len a0 (Z.to_N r))); sizes.
Qed.

(** ** Queries *)

Lemma targets_size d l : data_size (qset_targets (qappend (q_targets d) l) d) = (data_size d + lenN l)%N.
Proof.
  destruct d as [a b c e f g h i j k l0 m n o p q r s t u w x y z]. unfold data_size, qappend. cbn [qset_targets q_targets q_counters size_of_option].
  destruct o; cbn [size_of_option app]; unfold lenN; rewrite ?app_length; lia.
Qed.
Lemma counters_size d l : data_size (qset_counters (qappend (q_counters d) l) d) = (data_size d + lenN l)%N.
Proof.
  destruct d as [a b c e f g h i j k l0 m n o p q r s t u w x y z]. unfold data_size, qappend. cbn [qset_counters q_targets q_counters size_of_option].
  destruct p; cbn [size_of_option app]; unfold lenN; rewrite ?app_length; lia.
Qed.
Lemma query_item_size size flag d ov : spends (query_item size flag (d, ov))
  (fun st => Z.of_N (data_size (fst st)) + len (snd st) - (Z.of_N (data_size d) + len ov)).
Proof.
  unfold query_item. pose proof (len_pos ov) as P.
  repeat match goal with
  | |- spends (if ?b then _ else _) _ => destruct b
  end;
  try (apply sp_lift; discriminate); repeat sp_one;
  match goal with |- context [data_size (fst (?X, ?Y))] =>
    change (data_size (fst (X, Y))) with (data_size X); change (snd (X, Y)) with Y;
    first [ replace (data_size X) with (data_size d) by (destruct d; reflexivity)
          | rewrite targets_size | rewrite counters_size ] end;
  unfold len in *; lia.
Qed.
Lemma query_loop_size fuel d ov : spends (query_loop fuel (d, ov))
  (fun st => 6 + Z.of_N (data_size (fst st)) + len (snd st) - (Z.of_N (data_size d) + len ov)).
Proof.
  revert d ov. induction fuel as [|fuel IH]; intros d ov; cbn [query_loop].
  - apply sp_lift. discriminate.
  - eapply sp_bind; [apply sp_read|]. intros size. eapply sp_bind; [apply sp_read|]. intros flag.
    destruct (N.eqb flag QUERY_END).
    + apply sp_ret. cbn [fst snd]. lia.
    + eapply sp_bind; [apply query_item_size|]. intros (d', ov'). eapply sp_weak; [apply IH|].
      intros st. cbn [fst snd]. lia.
Qed.
Lemma overlay_size p i codes : Z.of_N (queries_size (overlay_queries p i codes)) = len codes.
Proof.
  revert i. induction codes as [|x l IH]; intros i; [reflexivity|]. cbn [overlay_queries queries_size qr_data].
  rewrite len_cons, <- (IH (i + 1)%N). change (data_size (qset_code (Some x) qdata0)) with 0%N. lia.
Qed.
Lemma sp_card_queries p : spends (card_queries p) (fun l => 5 + Z.of_N (queries_size l)).
Proof.
  unfold card_queries. eapply sp_bind.
  - intros bs a bs' E. exact (query_loop_size _ _ _ _ _ _ E).
  - intros (d, ov). apply sp_ret. cbn [fst snd queries_size qr_data]. rewrite !N2Z.inj_add, overlay_size.
    change (data_size qdata0) with 0%N. change (len (@nil N)) with 0. lia.
Qed.
Lemma queries_app a b : queries_size (a ++ b) = (queries_size a + queries_size b)%N.
Proof. induction a as [|x a IH]; cbn [app queries_size]; lia. Qed.
Lemma sp_counted {A} (m : reader A) w : spends m w -> spends (counted m) (fun r => w (fst r)).
Proof.
  intros H bs (a, n) bs' E. unfold counted in E. apply obind_Ok in E as ((x, y) & E & F).
  injection F as -> _ ->. exact (H _ _ _ E).
Qed.
Lemma update_loop_size fuel con loc total i n : spends (update_loop fuel con loc total i n)
  (fun l => Z.of_N (queries_size l)).
Proof.
  revert i n. induction fuel as [|fuel IH]; intros i n; cbn [update_loop]; destruct (N.ltb n total);
    try (apply sp_ret; reflexivity).
  - apply sp_lift. discriminate.
  - eapply sp_bind; [apply sp_peek|]. intros s. destruct (N.eqb s 0).
    + eapply sp_bind; [apply sp_skip|]. intros ?. eapply sp_weak; [apply IH|]. intros l. cbv beta. lia.
    + destruct (fix_spell_loc_seq loc i) as (floc, fseq). eapply sp_bind; [apply sp_counted, sp_card_queries|].
      intros (q, k). eapply sp_bind; [apply IH|]. intros l. apply sp_ret. cbn [fst]. rewrite queries_app. lia.
Qed.
Lemma sp_update_data : spends update_data (fun l => 6 + Z.of_N (queries_size l)).
Proof.
  unfold update_data. eapply sp_bind; [apply sp_con|]. intros con. eapply sp_bind; [apply sp_read|]. intros loc.
  eapply sp_bind; [apply sp_read|]. intros total bs l bs' E. apply update_loop_size in E. lia.
Qed.

(** ** The reload *)

Definition mats (l : list place) : Z := len (filter (fun p => negb (p_oseq p =? OSEQ_INVALID)) l).
Lemma mats_app a b : mats (a ++ b) = mats a + mats b.
Proof. unfold mats. rewrite filter_app. apply len_app. Qed.

(** [spends] for buffers of bytes, whose numbers have a range. *)
Definition spends_b {A} (m : reader A) (w : A -> Z) : Prop :=
  forall bs a bs', bytes bs -> m bs = Ok (a, bs') -> w a <= len bs - len bs' /\ bytes bs'.
Lemma spb_of {A} (m : reader A) w : local m -> spends m w -> spends_b m w.
Proof.
  intros L H bs a bs' B E. split; [exact (H _ _ _ E)|]. destruct (L _ _ _ E) as (s & -> & _).
  apply Forall_app in B. apply B.
Qed.
Lemma spb_bind {A B} (m : reader A) (f : A -> reader B) w1 w :
  spends_b m w1 -> (forall a, spends_b (f a) (fun b => w b - w1 a)) -> spends_b (rbind m f) w.
Proof.
  intros Hm Hf bs b bs' By E. unfold rbind in E. apply obind_Ok in E as ((a, bs1) & E1 & E2).
  apply Hm in E1; [|exact By]. apply Hf in E2; [|apply E1]. split; [lia|apply E2].
Qed.
Lemma spb_ret {A} (a : A) w : w a <= 0 -> spends_b (rret a) w.
Proof. intros H. apply spb_of; [apply local_ret|apply sp_ret, H]. Qed.
Lemma In_firstn {A} n (l : list A) x : In x (firstn n l) -> In x l.
Proof. intros H. rewrite <- (firstn_skipn n l). apply in_or_app. now left. Qed.
Lemma spb_read4 w : (forall a, (a < 2 ^ 32)%N -> w a <= 4) -> spends_b (read 4) w.
Proof.
  intros H bs a bs' B E. pose proof (sp_read 4 _ _ _ E) as S. destruct (local_read 4 _ _ _ E) as (s & -> & _).
  pose proof (proj1 (Forall_app _ _ _) B) as [Bs Br]. split; [|exact Br]. unfold read, rbind, rbytes in E.
  destruct (N.leb_spec 4 (lenN (s ++ bs'))) as [L|L]; [|discriminate]. cbn [obind] in E. injection E as <- _.
  set (l := firstn (N.to_nat 4) (s ++ bs')) in *.
  assert (K : bytes l) by (apply Forall_forall; intros x X; apply In_firstn in X; revert x X; apply Forall_forall; exact B).
  apply le_bound in K. assert (Q : lenN l = 4%N).
  { unfold l, lenN in *. rewrite firstn_length. lia. }
  rewrite Q in K. exact (Z.le_trans _ _ _ (H _ K) S).
Qed.

Lemma filter_all {A} (f : A -> bool) l : (forall x, In x l -> f x = true) -> filter f l = l.
Proof.
  induction l as [|x l IH]; intros H; [reflexivity|]. cbn [filter]. rewrite (H x) by now left.
  f_equal. apply IH. intros y Y. apply H. now right.
Qed.
Lemma slot_mats con loc s n : (n < 2 ^ 32)%N ->
  mats (map (fun o => mkPlace con loc s (to_signed 32 o)) (seqN n)) = Z.of_N n.
Proof.
  intros H. unfold mats. rewrite filter_all.
  - rewrite len_map. unfold seqN. rewrite len_map. unfold len, lenN. rewrite seq_length. lia.
  - intros p P. apply in_map_iff in P as (o & <- & O). cbn [p_oseq]. unfold seqN in O.
    apply in_map_iff in O as (i & <- & O). apply in_seq in O. apply negb_true_iff, Z.eqb_neq.
    unfold to_signed, OSEQ_INVALID, wrap. rewrite (N.mod_small (N.of_nat i)) by lia. change (2 ^ Z.of_N 32) with 4294967296.
    change (2 ^ 32)%N with 4294967296%N in H. destruct (_ <? _)%N; lia.
Qed.
Lemma spb_slot con loc s : spends_b (zone_slot con loc s) (fun l => len l - mats l).
Proof.
  unfold zone_slot. eapply spb_bind; [apply spb_of; [apply local_read|apply sp_read]|]. intros h.
  destruct (N.eqb h 0); [apply spb_ret; cbn; lia|].
  eapply spb_bind; [apply spb_of; [apply local_skip|apply sp_skip]|]. intros ?.
  destruct (if N.eqb loc LOCATION_SPELL_ZONE then fix_spell_loc_seq loc s else (loc, s)) as (floc, fseq).
  eapply spb_bind; [apply (spb_read4 (fun a => if (a <? 2 ^ 32)%N then 4 else 5 + Z.of_N a))|].
  - intros x H. apply N.ltb_lt in H. rewrite H. lia.
  - intros n. apply spb_ret. rewrite len_cons, len_map.
    assert (L : len (seqN n) = Z.of_N n).
    { unfold seqN. rewrite len_map. unfold len, lenN. rewrite seq_length. lia. }
    rewrite L. set (p := mkPlace con floc fseq OSEQ_INVALID).
    change (mats (p :: ?l)) with (mats l).
    destruct (N.ltb_spec n (2 ^ 32)) as [H|H].
    + rewrite slot_mats by exact H. lia.
    + pose proof (len_pos (filter (fun p => negb (p_oseq p =? OSEQ_INVALID))
        (map (fun o => mkPlace con loc s (to_signed 32 o)) (seqN n)))). unfold mats. lia.
Qed.
Lemma spb_slots con loc l : spends_b (zone_slots con loc l) (fun l => len l - mats l).
Proof.
  induction l as [|s l IH]; cbn [zone_slots]; [apply spb_ret; cbn; lia|].
  eapply spb_bind; [apply spb_slot|]. intros a. eapply spb_bind; [apply IH|]. intros b. apply spb_ret.
  rewrite len_app, mats_app. lia.
Qed.
Lemma spb_side con : spends_b (controller_state con)
  (fun s => let '(_, add, rz) := s in 23 + len add - mats add + len rz).
Proof.
  unfold controller_state.
  eapply spb_bind; [apply spb_of; [apply local_read|apply sp_read]|]. intros lp.
  eapply spb_bind; [apply spb_slots|]. intros ms. eapply spb_bind; [apply spb_slots|]. intros ss.
  do 5 (eapply spb_bind; [apply spb_of; [apply local_read|apply sp_read]|]; intros ?).
  eapply spb_bind; [apply spb_of; [apply local_skip|apply sp_skip]|]. intros ?. apply spb_ret.
  rewrite len_app, mats_app, !len_cons, len_nil. lia.
Qed.
Lemma spb_reload : spends_b reload_event
  (fun e => Z.of_N (event_size e) - Z.of_N (materials e)).
Proof.
  unfold reload_event.
  eapply spb_bind; [apply spb_of; [apply local_read|apply sp_read]|]. intros flags.
  eapply spb_bind; [apply spb_side|]. intros ((lp0, add0), rz0). eapply spb_bind; [apply spb_side|]. intros ((lp1, add1), rz1).
  eapply spb_bind; [apply spb_of; [unfold rlist, rcount; apply local_bind; [apply local_read|intros; apply local_times, local_chain]
    |apply sp_list, sp_chain]|].
  intros chains. apply spb_ret. cbn [event_size materials bs_lps bs_chains bs_add bs_resize].
  change (Z.of_N (lenN (filter (fun p => negb (p_oseq p =? OSEQ_INVALID)) (add0 ++ add1)))) with (mats (add0 ++ add1)).
  rewrite mats_app. pose proof (len_pos chains). unfold len, lenN in *. rewrite !app_length. cbn [length]. lia.
Qed.

(** ** Special messages *)

Lemma deferred_len curr i l : len (deferred_moves curr i l) <= len l.
Proof.
  revert i. induction l as [|d l IH]; intros i; cbn [deferred_moves]; [reflexivity|]. rewrite len_cons.
  specialize (IH (i + 1)). match goal with |- context [if ?b then _ else _] => destruct b end; rewrite ?len_cons; lia.
Qed.
Definition waiting_len (c : ctx) : Z := len (cx_deferred c).
Definition verdict_size (v : verdict) : Z := Z.of_N (size_of (v_msg v)).
Lemma move_size prev curr reason c v c' : move_verdict prev curr reason c = Ok (v, c') ->
  verdict_size v + waiting_len c' <= waiting_len c + 1.
Proof.
  unfold move_verdict, verdict_size, waiting_len. intros E.
  repeat match type of E with
  | (if ?b then _ else _) = Ok _ => destruct b
  | (let! _ := _ in _) = Ok _ => apply obind_Ok in E as (? & _ & E)
  | (let '(_, _) := take_deferred_xyz_mat c in _) = Ok _ => cbn [take_deferred_xyz_mat] in E
  end; injection E as <- <-;
  repeat match goal with |- context [if ?b then _ else _] => destruct b end;
  cbn [v_event v_swallowed v_msg size_of xyz_left xyz_mat_defer cx_deferred]; unfold msg_size;
  cbn [m_t m_queries event_size queries_size];
  pose proof (deferred_len curr 0 (cx_deferred c)) as K; unfold len, lenN in *; rewrite ?app_length; cbn [length]; lia.
Qed.
Lemma extra_len con pos data is sseq ssize sent l : extra_loop con pos data is sseq ssize sent = Ok l ->
  2 * len l <= len is + (if (0 <? ssize)%N then 2 else 1).
Proof.
  revert sseq ssize sent l. induction is as [|i is IH]; intros sseq ssize sent l E; cbn [extra_loop] in E.
  - destruct (0 <? ssize)%N; injection E as <-; cbn; lia.
  - apply obind_Ok in E as (b & _ & E). rewrite len_cons. destruct (N.testbit b (i mod 8)).
    + apply IH in E. destruct (0 <? u32 (ssize + 1))%N, (N.ltb_spec 0 ssize); lia.
    + destruct (N.ltb_spec 0 ssize).
      * apply obind_Ok in E as (l' & E & F). injection F as <-. apply IH in E. rewrite len_cons. change (0 <? 0)%N with false in E. cbv iota in *. lia.
      * apply IH in E. destruct (N.ltb_spec 0 ssize); lia.
Qed.
(** The switch. *)
Definition sized (c : ctx) (vc : verdict * ctx) : Z :=
  verdict_size (fst vc) + waiting_len (snd vc) - waiting_len c.
Lemma sized_event c e : sized c (v_event e, c) = Z.of_N (event_size e).
Proof. unfold sized, verdict_size. cbn [fst snd v_event v_msg size_of]. unfold msg_size.
  cbn [m_t m_queries queries_size]. lia. Qed.
Lemma sized_request c p r : sized c (mkVerdict StOk (Some (mkMsg (MsgRequest p r) [])), c) = Z.of_N (request_size r).
Proof. unfold sized, verdict_size. cbn [fst snd v_event v_msg size_of]. unfold msg_size.
  cbn [m_t m_queries queries_size]. lia. Qed.
Lemma sized_queries c l : sized c (v_queries l, c) = Z.of_N (queries_size l).
Proof. unfold sized, verdict_size. cbn [fst snd v_queries v_msg size_of]. unfold msg_size. cbn [m_t m_queries]. lia. Qed.
Lemma sized_none c v : v_msg v = None -> sized c (v, c) = 0.
Proof. intros E. unfold sized, verdict_size. cbn [fst snd]. rewrite E. cbn [size_of]. lia. Qed.
Lemma sp_dispatch k c : k <> KReloadField -> k <> KSwapGraveDeck ->
  spends (dispatch k c) (fun vc => sized c vc - 26).
Proof.
  intros N1 N2. unfold dispatch. destruct (event_case k) as [m|] eqn:Ev.
  { eapply sp_bind; [apply (sp_event k m Ev N1)|]. intros e. apply sp_ret. rewrite sized_event. lia. }
  destruct (request_case k) as [m|] eqn:Rq.
  { eapply sp_bind; [apply sp_con|]. intros p. eapply sp_bind; [apply (sp_request k m p Rq)|]. intros r.
    apply sp_ret. rewrite sized_request. lia. }
  assert (Q : forall v, v_msg v = None -> forall x, 0 <= x -> spends (rret (v, c)) (fun vc => sized c vc - 26 - x)).
  { intros v E x X. apply sp_ret. rewrite sized_none by exact E. lia. }
  assert (Q0 : forall v, v_msg v = None -> spends (rret (v, c)) (fun vc => sized c vc - 26)).
  { intros v E. apply sp_ret. rewrite sized_none by exact E. lia. }
  destruct k; try discriminate Ev; try discriminate Rq; try (destruct N1; reflexivity); try (destruct N2; reflexivity);
    try (apply Q0; reflexivity).
  all: try (unfold win_case, deck_top_case, draw_case, reverse_deck_case; repeat sp_one;
            first [rewrite sized_event; cbn; lia | rewrite sized_none by reflexivity; lia]).
  - eapply sp_bind; [apply sp_update_data|]. intros l. apply sp_ret. rewrite sized_queries. lia.
  - unfold update_card. eapply sp_bind.
    + eapply sp_bind; [apply sp_place1|]. intros p. eapply sp_weak; [apply sp_card_queries|]. intros l. cbv beta.
      instantiate (1 := fun l => Z.of_N (queries_size l)). cbv beta. lia.
    + intros l. apply sp_ret. rewrite sized_queries. lia.
  - unfold move_case. eapply sp_bind; [apply sp_skip|]. intros ?. eapply sp_bind; [apply sp_loc_info|]. intros prev.
    eapply sp_bind; [apply sp_loc_info|]. intros curr. eapply sp_bind; [apply sp_read|]. intros reason.
    apply sp_lift. intros (v, c') E. apply move_size in E. unfold sized. cbn [fst snd]. lia.
  - unfold draw_case. repeat sp_one. rewrite sized_event. cbn [event_size]. unfold lenN. cbn [length]. lia.
  - eapply sp_bind; [apply sp_read|]. intros r. apply sp_ret. unfold sized, verdict_size, waiting_len. cbn. lia.
Qed.

Lemma swap_size c con bs v c' bs' : dispatch KSwapGraveDeck c (con :: bs) = Ok ((v, c'), bs') ->
  exists gy, pile_size c (Z.of_N con) LOCATION_GRAVEYARD = Ok gy /\ c' = c /\ 2 * verdict_size v <= Z.of_N gy + 5.
Proof.
  unfold dispatch. cbn [event_case request_case]. unfold swap_grave_deck_case. intros E.
  unfold rbind at 1 in E. apply obind_Ok in E as ((con', bs1) & E1 & E).
  assert (con' = Z.of_N con) as ->.
  { unfold read_con, read, rbind, rbytes in E1. destruct (1 <=? lenN (con :: bs))%N; [|discriminate].
    cbn in E1. injection E1 as <- _. f_equal. destruct con; reflexivity. }
  unfold rbind at 1 in E. apply obind_Ok in E as ((pos, bs2) & _ & E).
  unfold rbind at 1 in E. apply obind_Ok in E as ((bufsz, bs3) & _ & E).
  unfold rbind at 1 in E. apply obind_Ok in E as ((gy, bs4) & E2 & E).
  unfold rlift in E2. apply obind_Ok in E2 as (gy' & G & F). injection F as -> _.
  unfold rbind at 1 in E. apply obind_Ok in E as ((deck, bs5) & _ & E).
  unfold rbind at 1 in E. apply obind_Ok in E as ((ops, bs6) & E3 & E).
  apply obind_Ok in E3 as (l & X & F). injection F as -> _. apply extra_len in X.
  unfold rbind at 1 in E. apply obind_Ok in E as ((u, bs7) & _ & E). injection E as <- <- _.
  exists gy. split; [exact G|]. split; [reflexivity|]. unfold verdict_size. cbn [v_event v_msg size_of]. unfold msg_size.
  cbn [m_t m_queries queries_size event_size]. change (0 <? 0)%N with false in X. cbv iota in X.
  assert (Y : len (seqN gy) = Z.of_N gy).
  { unfold seqN. rewrite len_map. unfold len, lenN. rewrite seq_length. lia. }
  rewrite Y in X. unfold len, lenN in *. rewrite !app_length. destruct (0 <? gy)%N, (0 <? deck)%N; cbn [length]; lia.
Qed.
