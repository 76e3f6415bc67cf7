(** C52, exactly: which moves of a detached material are announced from the zone
    its holder left. *)
From Verif Require Import Base BaseProofs Place Frame FrameSpec Msg Event EventSpec Query QuerySpec.
From Verif Require Import Reader EncodeQuery Encode CoreMsg EncodeSpec ReaderProofs EncodeProofs
  EncodeQueryProofs EncodeState EncodeE2E EncodeReload EncodeHistory PropsEncodeE2E.

Local Open Scope N_scope.

(** The three moves C52_detach_partial leaves out are announced otherwise: as a
    removal, not at all, or from the pile the holder went to. *)
Theorem C52_detach_iff_partial : forall c code p q reason z rest r c1 c2 ms code' p' q' reason' rest',
  ctx_sound c -> core_ok (CmMove code p q reason) ->
  zone_named (core_place p) = Some z -> contents (CMats z) (ctx_layout c) <> [] ->
  in_pile (core_place q) -> ~ as_material (core_place q) ->
  encode_one c (ser (CmMove code p q reason) ++ rest) = Ok (r, c1) ->
  heard c1 c2 ms ->
  (forall code p' q' reason, In (CmMove code p' q' reason) ms ->
     core_place q' = core_place q -> zone_named (core_place p') = None) ->
  core_ok (CmMove code' p' q' reason') -> as_material (core_place p') ->
  holder (core_place p') = core_place q ->
  ((exists r' c3, encode_one c2 (ser (CmMove code' p' q' reason') ++ rest') = Ok (r', c3) /\
    r_msg r' = Some (mkMsg (MsgEvent (EvCard reason' (CardMove
      [mkPair (mkPlace (p_con (core_place p)) (p_loc (core_place p)) (p_seq (core_place p))
                       (p_oseq (core_place p'))) (core_place q')]))) [])) <->
   ~ outside (core_place q') /\
   (in_pile (core_place q') /\ ~ as_material (core_place q') \/
    ~ in_pile (core_place q') /\ as_material (core_place q'))).
Proof.
  intros c code p q reason z rest r c1 c2 ms code' p' q' reason' rest' S K Z M P Nm E H Nw K' Am Ho.
  assert (P' : in_pile (core_place p')).
  { unfold in_pile in *. rewrite <- Ho in P. exact P. }
  assert (Np : ~ outside (core_place p')).
  { unfold in_pile, outside in *. intros X. rewrite X in P'. now apply P'. }
  assert (Dm : as_material (core_place q') \/ ~ as_material (core_place q')) by (unfold as_material; lia).
  assert (Dp : in_pile (core_place q') \/ ~ in_pile (core_place q')).
  { unfold in_pile. destruct (assocN (p_loc (core_place q')) pile_table); [left|right]; congruence. }
  split.
  - intros (r' & c3 & E' & R). apply move_encode_inv in E'; [|exact K']. destruct E' as (v & E' & ->).
    cbn [r_msg] in R. pose proof K' as [_ [Kp' [Kq' _]]]. unfold move_verdict in E'.
    assert (X1 : (p_loc (core_place p') =? LOCATION_UNSPECIFIED) = false) by now apply N.eqb_neq.
    assert (X2 : is_pile (core_place p') = true) by now apply in_pile_iff.
    rewrite X1, X2 in E'. cbn [andb negb] in E'.
    assert (No : ~ outside (core_place q')).
    { intros X. unfold outside in X. rewrite X in E'.
      change (0 =? LOCATION_UNSPECIFIED) with true in E'. cbn [obind] in E'.
      assert (V : v = v_event (EvCard reason' (CardRemove [core_place p']))) by congruence.
      subst v. discriminate R. }
    split; [exact No|].
    assert (X3 : (p_loc (core_place q') =? LOCATION_UNSPECIFIED) = false) by now apply N.eqb_neq.
    rewrite X3 in E'.
    destruct Dp as [Dp|Dp], Dm as [Dm|Dm]; [|left; now split|right; now split|]; exfalso.
    + assert (X4 : is_pile (core_place q') = true) by now apply in_pile_iff.
      assert (X5 : not_mat (core_place q') = false).
      { destruct (not_mat (core_place q')) eqn:Y; [|reflexivity]. apply not_mat_iff in Y. contradiction. }
      rewrite X4, X5 in E'. cbn [andb negb] in E'.
      assert (V : v = v_swallowed) by congruence. subst v. discriminate R.
    + assert (X4 : is_pile (core_place q') = false).
      { destruct (is_pile (core_place q')) eqn:Y; [|reflexivity]. apply in_pile_iff in Y; [contradiction|exact Kq']. }
      apply not_mat_iff in Dm. rewrite X4, Dm in E'. cbn [andb negb] in E'.
      destruct (take_deferred_xyz_mat c2) as [defs c4].
      assert (V : v = v_event (EvCard reason' (CardMove (deferred_moves (core_place q') 0 defs
                  ++ [mkPair (core_place p') (core_place q')])))) by congruence.
      subst v. cbn [v_event v_msg] in R.
      assert (L : deferred_moves (core_place q') 0 defs ++ [mkPair (core_place p') (core_place q')] =
                  [] ++ [mkPair (mkPlace (p_con (core_place p)) (p_loc (core_place p)) (p_seq (core_place p))
                           (p_oseq (core_place p'))) (core_place q')]) by (cbn [app]; congruence).
      apply app_inj_tail in L. destruct L as [_ L].
      apply (f_equal (fun x => p_loc (po_a x))) in L. cbn [po_a p_loc] in L.
      destruct (zone_not_pile (core_place p)) as [Z1 _]; [congruence|].
      unfold is_pile in X2, Z1. rewrite L in X2. congruence.
  - intros (No & D). eapply C52_detach_partial; try eassumption; unfold attaches, fields; tauto.
Qed.
Print Assumptions C52_detach_iff_partial.

(** The material of C52_detach_ex: into the graveyard, and below another card of
    the field, it comes from the zone; out of the duel it is removed from the
    graveyard. *)
Example C52_detach_iff_ex :
  let told q := match encode_one (after (left_stream ++ [gone])) (ser (CmMove 2 (mat_of 0 0x10 0 1) q 0)) with
                | Ok (r, _) => r_msg r | _ => None end in
  told (spot 0 0x10 1) = Some (mkMsg (MsgEvent (EvCard 0 (CardMove [mkPair (mkPlace 0 0x4 2 1) (mkPlace 0 0x10 1 (-1))]))) []) /\
  told (mat_of 0 0x4 3 0) = Some (mkMsg (MsgEvent (EvCard 0 (CardMove [mkPair (mkPlace 0 0x4 2 1) (mkPlace 0 0x4 3 0)]))) []) /\
  told (spot 0 0 0) = Some (mkMsg (MsgEvent (EvCard 0 (CardRemove [mkPlace 0 0x10 0 1]))) []).
Proof. vm_compute. auto. Qed.

(** The materials that wait, each with the card it was announced for. *)
Inductive awaiting : list core_msg -> list (place * place) -> Prop :=
| await_nil : awaiting [] []
| await_attach : forall ms l code p q reason, awaiting ms l ->
    attaches (core_place p) (core_place q) ->
    awaiting (ms ++ [CmMove code p q reason]) (l ++ [(core_place p, holder (core_place q))])
| await_field : forall ms l code p q reason, awaiting ms l ->
    fields (core_place p) (core_place q) -> awaiting (ms ++ [CmMove code p q reason]) []
| await_other : forall ms l m, awaiting ms l ->
    (forall code p q reason, m = CmMove code p q reason ->
       ~ attaches (core_place p) (core_place q) /\ ~ fields (core_place p) (core_place q)) ->
    awaiting (ms ++ [m]) l.
Definition announced_for (p : place) (l : list (place * place)) : list place :=
  map fst (filter (fun x => if place_eq_dec (snd x) p then true else false) l).

Lemma awaiting_waiting : forall ms l, awaiting ms l -> waiting ms (map fst l).
Proof.
  induction 1.
  - constructor.
  - rewrite map_app. cbn [map fst]. now apply wait_attach.
  - eapply wait_field; eassumption.
  - now apply wait_other.
Qed.

Lemma attach_all : forall q l i, (forall d, In d l -> holder d <> holder q) ->
  length (attach_moves q i l) = length l.
Proof.
  intros q l. induction l as [|d l IH]; intros i H; [reflexivity|]. cbn [attach_moves].
  rewrite app_length, IH by (intros x J; apply H; now right).
  destruct (place_eq_dec d (material_of q i)) as [->|]; [|reflexivity].
  exfalso. apply (H (material_of q i)); [now left|reflexivity].
Qed.

Lemma filter_len : forall A (f : A -> bool) l, length (filter f l) = length l -> forall x, In x l -> f x = true.
Proof.
  intros A f l. induction l as [|a l IH]; intros H x J; [destruct J|]. cbn [filter] in H.
  assert (G : (length (filter f l) <= length l)%nat).
  { clear. induction l as [|a l IH]; [cbn; lia|]. cbn [filter]. destruct (f a); cbn [length]; lia. }
  destruct (f a) eqn:E; cbn [length] in H; [|lia]. destruct J as [<-|J]; [exact E|]. apply IH; [lia|exact J].
Qed.
Lemma filter_every : forall A (f : A -> bool) l, (forall x, In x l -> f x = true) -> filter f l = l.
Proof.
  intros A f l. induction l as [|a l IH]; intros H; [reflexivity|]. cbn [filter].
  rewrite (H a) by now left. f_equal. apply IH. intros x J. apply H. now right.
Qed.

(** A card that reaches a zone none of the waiting materials is already below
    is announced with exactly its own materials just when every waiting
    material was announced for it. *)
Theorem C52_attach_iff_partial : forall start c ms l code p q reason rest,
  start = ctx_value_init \/ start = ctx_default_init ->
  heard start c ms -> awaiting ms l -> core_ok (CmMove code p q reason) ->
  fields (core_place p) (core_place q) ->
  (forall d h, In (d, h) l -> holder d <> holder (core_place q)) ->
  ((exists r c', encode_one c (ser (CmMove code p q reason) ++ rest) = Ok (r, c') /\
     r_msg r = Some (moves_to (core_place q) (announced_for (core_place p) l) (core_place p) reason)) <->
   forall d h, In (d, h) l -> h = core_place p).
Proof.
  intros start c ms l code p q reason rest S H W K F Away.
  destruct (C52_attach_partial start c ms (map fst l) code p q reason rest S H (awaiting_waiting _ _ W) K F)
    as (r & c' & E & R).
  assert (A1 : forall d, In d (map fst l) -> holder d <> holder (core_place q)).
  { intros d J. apply in_map_iff in J. destruct J as ([d' h] & <- & J). exact (Away _ _ J). }
  assert (A2 : forall d, In d (announced_for (core_place p) l) -> holder d <> holder (core_place q)).
  { intros d J. apply in_map_iff in J. destruct J as ([d' h] & <- & J). apply filter_In in J.
    exact (Away _ _ (proj1 J)). }
  split.
  - intros (r1 & c1 & E1 & R1) d h J. assert (r1 = r) by congruence. subst r1.
    unfold moves_to in R, R1.
    assert (X : attach_moves (core_place q) 0 (map fst l) ++ [mkPair (core_place p) (core_place q)] =
                attach_moves (core_place q) 0 (announced_for (core_place p) l) ++ [mkPair (core_place p) (core_place q)])
      by congruence.
    apply app_inj_tail in X. destruct X as [X _]. apply (f_equal (@length _)) in X.
    rewrite (attach_all _ _ _ A1), (attach_all _ _ _ A2) in X. unfold announced_for in X.
    rewrite !map_length in X. symmetry in X. assert (Y := filter_len _ _ _ X _ J). cbn [snd] in Y.
    destruct (place_eq_dec h (core_place p)); [assumption|discriminate].
  - intros All. exists r, c'. split; [exact E|]. rewrite R. unfold announced_for.
    rewrite filter_every; [reflexivity|]. intros [d h] J. cbn [snd].
    destruct (place_eq_dec h (core_place p)) as [|N]; [reflexivity|]. exfalso. exact (N (All _ _ J)).
Qed.
Print Assumptions C52_attach_iff_partial.

(** The two materials of [xyz_stream] wait for the first card of the extra deck. *)
Example C52_attach_iff_ex : exists l, awaiting xyz_stream l /\
  l = [(mkPlace 0 4 0 (-1), mkPlace 0 0x40 0 (-1)); (mkPlace 0 4 1 (-1), mkPlace 0 0x40 0 (-1))] /\
  heard ctx_value_init (after xyz_stream) xyz_stream /\
  core_place (spot 0 0x40 0) = mkPlace 0 0x40 0 (-1) /\
  core_place (spot 0 0x40 1) <> mkPlace 0 0x40 0 (-1) /\
  fields (core_place (spot 0 0x40 1)) (core_place (spot 0 0x4 2)).
Proof.
  eexists. split.
  { change xyz_stream with ((((([] ++ [CmStart 5 8000 7000 6 3 4 2]) ++ [CmDraw 0 [(1, 8); (2, 8); (3, 8)]]) ++
      [CmMove 1 (spot 0 0x2 0) (spot 0 0x4 0) 0]) ++ [CmMove 2 (spot 0 0x2 0) (spot 0 0x4 1) 0]) ++
      [CmMove 1 (spot 0 0x4 0) (mat_of 0 0x40 0 0) 0] ++ [CmMove 2 (spot 0 0x4 1) (mat_of 0 0x40 0 1) 0]).
    rewrite app_assoc. apply await_attach; [|repeat split; vm_compute; congruence].
    apply await_attach; [|repeat split; vm_compute; congruence].
    eapply await_field; [|repeat split; vm_compute; congruence].
    eapply await_field; [|repeat split; vm_compute; congruence].
    apply await_other; [|discriminate]. apply await_other; [|discriminate]. constructor. }
  split; [reflexivity|].
  split; [apply stream_heard; [streams|vm_compute; reflexivity]|].
  split; [reflexivity|]. split; [vm_compute; discriminate|]. repeat split; vm_compute; congruence.
Qed.
