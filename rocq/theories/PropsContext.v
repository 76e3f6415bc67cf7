(** C114: what the encoder uses of its context. *)
From Verif Require Import Base BaseProofs Place PlaceProofs Frame Msg Event Query Reader Encode CoreMsg EncodeSpec ContextSpec ContextProofs.

Set Implicit Arguments.
Local Open Scope N_scope.

(** Of the board: the sizes of the piles and which zones have materials. *)
Theorem C114_board : forall c b bs, same_outline (ctx_layout c) (f_lay (b_frame b)) ->
  encode_one (with_board b c) bs = leaving (with_board b) (encode_one c bs).
Proof. intros c b bs H. apply encode_carried; [intros k _ _; apply carry_board; exact H|reflexivity]. Qed.
Print Assumptions C114_board.

(** The notes on materials: MSG_MOVE alone. *)
Theorem C114_notes : forall c l d bs, starts_otherwise [type_move] bs ->
  encode_one (with_notes l d c) bs = leaving (with_notes l d) (encode_one c bs).
Proof.
  intros c l d bs H. apply encode_carried; [|reflexivity]. intros k K X. apply carry_notes.
  intros E. destruct bs as [|b rest]; [congruence|]. destruct (kind_number _ K) as (_ & _ & _ & _ & N & _).
  specialize (N E). cbn in H, N. apply H. left. symmetry. exact N.
Qed.
Print Assumptions C114_notes.

(** The reason kept for the end of the match: MSG_WIN, and MSG_MATCH_KILL sets it. *)
Theorem C114_reason : forall c r bs, starts_otherwise [type_win; type_match_kill] bs ->
  encode_one (with_reason r c) bs = leaving (with_reason r) (encode_one c bs).
Proof.
  intros c r bs H. apply encode_carried; [|reflexivity]. intros k K X.
  destruct bs as [|b rest]; [congruence|]. destruct (kind_number _ K) as (N1 & _ & _ & _ & _ & _ & N2).
  cbn [hd] in *. cbn [starts_otherwise In] in H. apply carry_reason; intros E.
  - apply H. left. symmetry. exact (N1 E).
  - apply H. right. left. symmetry. exact (N2 E).
Qed.
Print Assumptions C114_reason.

(** The types of message that have to do with the context are these seven. *)
Theorem C114_exactly : forall t,
  (forall c c' rest, encode_one c' (t :: rest) = leaving (fun _ => c') (encode_one c (t :: rest))) <->
  ~ In t [type_win; type_swap_grave_deck; type_reverse_deck; type_deck_top; type_move; type_draw; type_match_kill].
Proof.
  intros t. split.
  - intros H. pose (c1 := ctx_value_init). pose (c0 := with_reason None (with_notes [] [place0] c1)).
    pose (b := match ctx_parse (mkMsg (MsgEvent (EvBoard (BoardExchange (mkBExchange 0 [] []
      [mkResize (mkPlace 0 0x1 0 (-1)) 9; mkResize (mkPlace 0 0x10 0 (-1)) 9])))) []) c1 with Ok c => c | _ => c1 end).
    cbn [In]. intros [<-|[<-|[<-|[<-|[<-|[<-|[<-|[]]]]]]]].
    + specialize (H c0 c1 [0; 0]). vm_compute in H. discriminate H.
    + specialize (H b c1 [0; 0; 0; 0; 0; 2; 0; 0; 0; 0; 0]). vm_compute in H. discriminate H.
    + specialize (H b c1 []). vm_compute in H. discriminate H.
    + specialize (H b c1 [0; 1; 0; 0; 0; 1; 0; 0; 0; 1; 0; 0; 0]). vm_compute in H. discriminate H.
    + specialize (H c1 c0 [0; 0; 0; 0; 0; 2; 0; 0; 0; 0; 0; 0; 0; 0; 0; 0xC0; 0; 0; 0; 0; 0; 0; 0; 0; 0; 0; 0; 0]). vm_compute in H. discriminate H.
    + specialize (H b c1 [0; 1; 0; 0; 0; 1; 0; 0; 0; 1; 0; 0; 0]). vm_compute in H. discriminate H.
    + specialize (H c1 c0 [0; 0; 0; 0]). vm_compute in H. discriminate H.
  - intros H c c' rest. apply encode_carried; [|reflexivity]. intros k K _. cbn [hd] in K.
    destruct (kind_number _ K) as (N1 & N2 & N3 & N4 & N5 & N6 & N7). cbn [In] in H.
    apply carry_bystander; intros E; apply H.
    + left. symmetry. exact (N1 E).
    + right. left. symmetry. exact (N2 E).
    + do 2 right. left. symmetry. exact (N3 E).
    + do 3 right. left. symmetry. exact (N4 E).
    + do 4 right. left. symmetry. exact (N5 E).
    + do 5 right. left. symmetry. exact (N6 E).
    + do 6 right. left. symmetry. exact (N7 E).
Qed.
Print Assumptions C114_exactly.

(** What it leaves: the same board always, the same notes but for MSG_MOVE,
    which takes one at most, and the same reason but for MSG_MATCH_KILL. *)
Theorem C114_leaves : forall c bs r c', encode_one c bs = Ok (r, c') ->
  cx_board c' = cx_board c /\
  (starts_otherwise [type_move] bs -> cx_left c' = cx_left c /\ cx_deferred c' = cx_deferred c) /\
  (starts_otherwise [type_match_kill] bs -> cx_mwr c' = cx_mwr c) /\
  (noted c' <= S (noted c))%nat.
Proof.
  intros c bs r c' H.
  assert (B : cx_board c' = cx_board c).
  { pose proof (@C114_board c (cx_board c) bs (conj (fun _ => eq_refl) (fun _ => eq_refl))) as E.
    replace (with_board (cx_board c) c) with c in E by (destruct c; reflexivity). rewrite H in E. cbn [leaving obind] in E.
    assert (X : c' = with_board (cx_board c) c') by congruence. rewrite X. reflexivity. }
  assert (N : starts_otherwise [type_move] bs -> cx_left c' = cx_left c /\ cx_deferred c' = cx_deferred c).
  { intros S. pose proof (@C114_notes c (cx_left c) (cx_deferred c) bs S) as E.
    replace (with_notes (cx_left c) (cx_deferred c) c) with c in E by (destruct c; reflexivity). rewrite H in E. cbn [leaving obind] in E.
    assert (X : c' = with_notes (cx_left c) (cx_deferred c) c') by congruence. rewrite X. split; reflexivity. }
  split; [exact B|]. split; [exact N|]. split.
  - intros S. destruct bs as [|b rest]; [discriminate H|]. destruct (N.eq_dec b type_win) as [->|X]; [eapply win_leaves; exact H|].
    assert (S' : starts_otherwise [type_win; type_match_kill] (b :: rest)) by (cbn in *; intuition congruence). clear S.
    rename S' into S. pose proof (@C114_reason c (cx_mwr c) (b :: rest) S) as E.
    replace (with_reason (cx_mwr c) c) with c in E by (destruct c; reflexivity). rewrite H in E. cbn [leaving obind] in E.
    assert (Y : c' = with_reason (cx_mwr c) c') by congruence. rewrite Y. reflexivity.
  - destruct bs as [|b rest]; [discriminate H|]. destruct (N.eq_dec b type_move) as [->|X].
    + eapply noted_encode; exact H.
    + destruct N as [L D]; [cbn; intuition congruence|]. unfold noted. rewrite L, D. lia.
Qed.
Print Assumptions C114_leaves.

(** A duel under way, with a material on the field and another in a pile, and
    the same after a swap of two cards, a turn and some damage. *)
Definition ex_here (con loc seq : N) : cloc := mkCloc con loc seq 0.
Definition ex_before : ctx :=
  match feed_all ctx_value_init [
    CmStart 5 8000 8000 40 15 40 15; CmDraw 0 [(1, 8); (2, 8); (3, 8); (4, 8)];
    CmMove 1 (ex_here 0 0x2 0) (ex_here 0 0x4 2) 0x10; CmMove 2 (ex_here 0 0x40 0) (ex_here 0 0x4 3) 0x800;
    CmMove 1 (ex_here 0 0x4 2) (mkCloc 0 0x84 3 0) 0x8; CmMove 3 (ex_here 0 0x2 0) (ex_here 0 0x4 0) 0x10;
    CmMove 4 (ex_here 0 0x2 0) (ex_here 0 0x4 1) 0x10;
    CmMatchKill 9 ] with Ok c => c | _ => ctx_value_init end.
Definition ex_after : ctx :=
  match feed_all ex_before [CmSwap (mkCcard 3 (ex_here 0 0x4 0)) (mkCcard 4 (ex_here 0 0x4 1)); CmNewTurn 1; CmDamage 0 500] with
  Ok c => c | _ => ex_before end.
Definition ex_to_grave : list N := ser (CmMove 2 (ex_here 0 0x4 3) (ex_here 0 0x10 0) 0x1).

Example C114_board_ex : same_outline (ctx_layout ex_before) (ctx_layout ex_after) /\
  ctx_layout ex_before <> ctx_layout ex_after /\ b_turn (cx_board ex_before) <> b_turn (cx_board ex_after) /\
  exists r, encode_one ex_after ex_to_grave = Ok (r, xyz_left (mkPlace 0 0x10 0 (-1)) (mkPlace 0 0x4 3 (-1)) ex_after) /\
    encode_one ex_before ex_to_grave = Ok (r, xyz_left (mkPlace 0 0x10 0 (-1)) (mkPlace 0 0x4 3 (-1)) ex_before).
Proof.
  split; [|split; [vm_compute; discriminate|split; [vm_compute; discriminate|eexists; split; vm_compute; reflexivity]]].
  split.
  - intros [[] []]; vm_compute; reflexivity.
  - intros [[[] []] i]; do 12 (destruct i as [|i]; [vm_compute; reflexivity|]); vm_compute; reflexivity.
Qed.

(** An empty zone in place of the materials, and the same message leaves no note. *)
Example C114_outline_matters : exists r, encode_one ctx_value_init ex_to_grave = Ok (r, ctx_value_init) /\
  noted ctx_value_init = 0%nat /\ noted (xyz_left (mkPlace 0 0x10 0 (-1)) (mkPlace 0 0x4 3 (-1)) ex_after) = 1%nat.
Proof. eexists. split; [vm_compute; reflexivity|split; reflexivity]. Qed.

Example C114_notes_ex : starts_otherwise [type_move] (ser (CmDraw 0 [(1, 8)])) /\ ~ starts_otherwise [type_move] ex_to_grave /\
  exists r, encode_one (with_notes [(place0, place0)] [place0] ex_before) (ser (CmDraw 0 [(1, 8)])) =
    Ok (r, with_notes [(place0, place0)] [place0] ex_before) /\ r_state r = StOk.
Proof.
  split; [vm_compute; intuition discriminate|]. split; [intros H; apply H; left; reflexivity|].
  eexists. split; vm_compute; reflexivity.
Qed.

Example C114_reason_ex : starts_otherwise [type_win; type_match_kill] ex_to_grave /\ cx_mwr ex_before = Some 9 /\
  encode_one (with_reason None ex_before) (ser (CmWin 0 1)) = UB /\
  exists r, encode_one ex_before (ser (CmWin 0 1)) = Ok (r, ex_before) /\ r_state r = StOk.
Proof.
  split; [vm_compute; intuition discriminate|]. split; [reflexivity|]. split; [vm_compute; reflexivity|].
  eexists. split; vm_compute; reflexivity.
Qed.

Example C114_exactly_ex : ~ In 91 [type_win; type_swap_grave_deck; type_reverse_deck; type_deck_top; type_move; type_draw; type_match_kill] /\
  exists r, encode_one ctx_default_init (ser (CmDamage 0 500)) = Ok (r, ctx_default_init) /\
    encode_one ex_after (ser (CmDamage 0 500)) = Ok (r, ex_after) /\ r_state r = StOk.
Proof.
  split; [cbn; intuition discriminate|]. eexists. split; [vm_compute; reflexivity|]. split; vm_compute; reflexivity.
Qed.
