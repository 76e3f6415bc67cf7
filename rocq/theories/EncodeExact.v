(** C37 and C53: exactly when. *)
From Verif Require Import Base BaseProofs Place Frame FrameSpec Msg Event EventSpec Query QuerySpec.
From Verif Require Import Reader EncodeQuery Encode CoreMsg EncodeSpec ReaderProofs EncodeProofs EncodeQueryProofs EncodeLocal EncodeFacts EncodeState EncodeHistory.

Local Open Scope N_scope.
Local Opaque le_bytes.

Lemma extra_loop_needs : forall con pos d is sseq ssize sent l, extra_loop con pos d is sseq ssize sent = Ok l ->
  forall i, In i is -> i / 8 < lenN d.
Proof.
  induction is as [|i is IH]; intros sseq ssize sent l H j J; [destruct J|]. cbn [extra_loop] in H.
  apply obind_Ok in H. destruct H as (b & B & H). apply or_ub_Ok in B.
  assert (Hd : i / 8 < lenN d). { assert (X : nth_error d (N.to_nat (i / 8)) <> None) by congruence. apply nth_error_Some in X. unfold lenN. lia. }
  destruct J as [<-|J]; [exact Hd|].
  destruct (N.testbit b (i mod 8)); [exact (IH _ _ _ _ H _ J)|]. destruct (0 <? ssize); [|exact (IH _ _ _ _ H _ J)].
  apply obind_Ok in H. destruct H as (l' & H & _). exact (IH _ _ _ _ H _ J).
Qed.

Lemma swap_needs : forall c con p0 p1 p2 p3 n0 n1 n2 n3 tl v rest,
  swap_grave_deck_case c (con :: p0 :: p1 :: p2 :: p3 :: n0 :: n1 :: n2 :: n3 :: tl) = Ok (v, rest) ->
  exists s gy, tl = s ++ rest /\ lenN s = n0 + 256 * (n1 + 256 * (n2 + 256 * n3)) /\
    pile_size c (Z.of_N con) LOCATION_GRAVEYARD = Ok gy /\ gy <= 8 * lenN tl.
Proof.
  intros c con p0 p1 p2 p3 n0 n1 n2 n3 tl v rest H. unfold swap_grave_deck_case in H.
  unfold rbind at 1 in H. apply obind_Ok in H. destruct H as [[con' r1] [E1 H]].
  unfold rbind at 1 in H. apply obind_Ok in H. destruct H as [[pos r2] [E2 H]].
  unfold rbind at 1 in H. apply obind_Ok in H. destruct H as [[n r3] [E3 H]].
  unfold rbind at 1 in H. apply obind_Ok in H. destruct H as [[gy r4] [E4 H]].
  unfold rlift in E4. apply obind_Ok in E4. destruct E4 as [gy' [G1 G2]]. inversion G2; subst gy' r4. clear G2.
  unfold rbind at 1 in H. apply obind_Ok in H. destruct H as [[deck r4] [E4 H]].
  unfold rlift in E4. apply obind_Ok in E4. destruct E4 as [dk [D1 D2]]. inversion D2; subst dk r4. clear D2.
  unfold rbind at 1 in H. apply obind_Ok in H. destruct H as [[ops r4] [E4 H]].
  apply obind_Ok in E4. destruct E4 as [ops' [O1 O2]]. inversion O2; subst ops' r4. clear O2.
  unfold rbind in H. apply obind_Ok in H. destruct H as [[u r4] [E5 H]].
  inversion H; subst v r4. clear H.
  unfold read_con, rbind in E1. rewrite read1_cons in E1. cbn [obind] in E1. unfold rret in E1. inversion E1; subst con' r1. clear E1.
  assert (r2 = n0 :: n1 :: n2 :: n3 :: tl).
  { unfold read, rbind, rbytes, lenN in E2. cbn [length] in E2. destruct (4 <=? N.of_nat _); [|discriminate]. cbn in E2. now inversion E2. } subst r2.
  assert (N0 : n = n0 + 256 * (n1 + 256 * (n2 + 256 * n3)) /\ r3 = tl).
  { unfold read, rbind, rbytes, lenN in E3. cbn [length] in E3.
    destruct (4 <=? N.of_nat _); [|discriminate]. cbn in E3. inversion E3.
    rewrite ?N.add_0_r. unfold le. split; [f_equal; lia|reflexivity]. }
  destruct N0 as [-> ->]. destruct (reads_of_skip _ _ _ _ E5) as [s5 [-> L5]].
  exists s5, gy. split; [reflexivity|]. split; [exact L5|]. split; [exact G1|].
  destruct (N.eq_dec gy 0) as [->|Nz]; [lia|].
  assert (In (gy - 1) (seqN gy)). { unfold seqN. apply in_map_iff. exists (N.to_nat (gy - 1)). split; [lia|]. apply in_seq. lia. }
  pose proof (extra_loop_needs _ _ _ _ _ _ _ _ O1 _ H) as X. 
  assert (gy - 1 < 8 * lenN (s5 ++ rest)). { pose proof (N.div_mod (gy - 1) 8 ltac:(lia)). pose proof (N.mod_lt (gy - 1) 8 ltac:(lia)). lia. } lia.
Qed.

Theorem local_covered : forall c bs r c', encode_one c bs = Ok (r, c') ->
  (forall rest', encode_one c (firstn (N.to_nat (r_bytes_read r)) bs ++ rest') = Ok (r, c')) ->
  forall con p0 p1 p2 p3 n0 n1 n2 n3 tl,
     bs = 35 :: con :: p0 :: p1 :: p2 :: p3 :: n0 :: n1 :: n2 :: n3 :: tl ->
     flags_cover c (Z.of_N con) (n0 + 256 * (n1 + 256 * (n2 + 256 * n3))).
Proof.
  intros c bs r c' H Lo con p0 p1 p2 p3 n0 n1 n2 n3 tl ->. specialize (Lo []). rewrite app_nil_r in Lo.
  unfold encode_one in H. rewrite read1_cons in H. cbn [obind] in H. change (kind_of 35) with (Some KSwapGraveDeck) in H. cbv iota in H.
  apply obind_Ok in H. destruct H as [[vc rest] [D H]]. unfold dispatch in D. cbn [event_case request_case] in D.
  destruct (swap_needs _ _ _ _ _ _ _ _ _ _ _ _ _ D) as (s & gy & -> & Ls & _). destruct vc as [v cc].
  assert (B : N.to_nat (r_bytes_read r) = length (35 :: con :: p0 :: p1 :: p2 :: p3 :: n0 :: n1 :: n2 :: n3 :: s)).
  { apply (f_equal (fun o => match o with Ok q => r_bytes_read (fst q) | _ => 0 end)) in H. cbv beta iota in H. cbn [fst r_bytes_read] in H. rewrite <- H.
    unfold lenN. cbn [length]. rewrite app_length. lia. }
  rewrite B in Lo. change (35 :: con :: p0 :: p1 :: p2 :: p3 :: n0 :: n1 :: n2 :: n3 :: s ++ rest) with ((35 :: con :: p0 :: p1 :: p2 :: p3 :: n0 :: n1 :: n2 :: n3 :: s) ++ rest) in Lo.
  rewrite firstn_app, Nat.sub_diag, firstn_all, firstn_O, app_nil_r in Lo.
  unfold encode_one in Lo. rewrite read1_cons in Lo. cbn [obind] in Lo. change (kind_of 35) with (Some KSwapGraveDeck) in Lo. cbv iota in Lo.
  apply obind_Ok in Lo. destruct Lo as [[vc rest2] [D2 _]]. unfold dispatch in D2. cbn [event_case request_case] in D2.
  destruct (swap_needs _ _ _ _ _ _ _ _ _ _ _ _ _ D2) as (s2 & gy2 & _ & _ & P & Le).
  intros who W. destruct (pile_size_grave _ _ _ P) as (who' & W' & E). assert (who' = who) by congruence. subst who'. subst gy2. rewrite <- Ls. exact Le.
Qed.

Theorem win_undefined : forall c ms p reason rest, heard ctx_default_init c ms -> last_kill ms = None -> core_ok (CmWin p reason) ->
  encode_one c (ser (CmWin p reason) ++ rest) = UB.
Proof.
  intros c ms p reason rest H L [Kp Kr]. apply heard_mwr in H. rewrite L in H. change (cx_mwr ctx_default_init) with (@None N) in H.
  unfold encode_one, ser. cbn [app]. rewrite read1_cons. cbn [obind msg_number payload]. change (kind_of 5) with (Some KWin). cbv iota.
  unfold dispatch. cbn [event_case request_case]. unfold win_case. rewrite <- !app_assoc.
  unfold rbind at 1. rewrite (reads_1 p Kp). cbn [obind]. unfold rbind at 1. rewrite (reads_1 reason Kr). cbn [obind].
  unfold rbind at 1, rlift, get_match_win_reason. rewrite H. reflexivity.
Qed.
