(** C79: an undoable board and a plain one given the same recording. *)
From Verif Require Import Base BaseProofs Place Frame FrameSpec Limbo LimboSpec Msg Event EventSpec Query
  QuerySpec UQuery UQuerySpec UQueryFacts UReplaySpec UReplay BoardAgree UReplayAgree PropsBoard PropsQuery
  PropsUQuery.

Local Open Scope N_scope.

(** Every recording the undoable board accepts is accepted by the plain one,
    which then shows the same scene; each card on it shows the same data. *)
Theorem C79_same_scene : forall use ss bu, play_all use ss (uboard0 ucard) = Ok bu ->
  exists bp, pplay_all use ss (pboard0 card) = Ok bp /\ plain_scene bp = scene_of bu /\
    forall pos id, occupant (sn_layout (scene_of bu)) pos = Some (Some id) ->
      exists c, content bu id = Some c /\ plain_card bp id = Some (shown c).
Proof.
  intros use ss bu H.
  destruct (play_all_sim use ss _ _ _ (bsim0 ucard card shows) H) as [bp [E S]].
  exists bp. split; [exact E|]. split; [apply bsim_scene; exact S|].
  intros pos id O. destruct (bsim_card _ _ _ _ S O) as [c [A [B _]]]. eauto.
Qed.
Print Assumptions C79_same_scene.

(** The next item is accepted with the same hits. *)
Theorem C79_same_hits : forall use ss s bu bp hits bu',
  play_all use ss (uboard0 ucard) = Ok bu -> pplay_all use ss (pboard0 card) = Ok bp ->
  play use s bu = Ok (hits, bu') -> exists bp', pplay use s bp = Ok (hits, bp').
Proof.
  intros use ss s bu bp hits bu' H P N.
  destruct (play_all_sim use ss _ _ _ (bsim0 ucard card shows) H) as [bp1 [E S]].
  rewrite P in E. injection E as <-. destruct (play_sim _ _ _ _ _ _ S N) as [bp' [E' _]]. eauto.
Qed.
Print Assumptions C79_same_hits.

(** Conversely, of the recordings the plain board accepts, the undoable one
    accepts exactly those without chain links being pushed or popped and with
    piles grown or at least halved. *)
Theorem C79_accepted_iff : forall use ss bp, pplay_all use ss (pboard0 card) = Ok bp ->
  ((exists bu, play_all use ss (uboard0 ucard) = Ok bu) <-> steps_fit use ss (pboard0 card)).
Proof.
  intros use ss bp P. split.
  - intros [bu H]. exact (play_all_fit use ss _ _ _ (bsim0 ucard card shows) H).
  - intros F. exact (play_all_back use ss _ _ _ (bsim0 ucard card shows) P F).
Qed.
Print Assumptions C79_accepted_iff.

(** A viewer scrubbing through the recording sees, at position [i], what a plain
    board shows after the first [i] items. *)
Theorem C79_scrubbing_viewer : forall use ss bn, play_all use ss (uboard0 ucard) = Ok bn ->
  forall ms i hs b, rwalk use ss ms (0%nat, [], uboard0 ucard) = Ok (i, hs, b) ->
  exists bp, (i <= length ss)%nat /\ pplay_all use (firstn i ss) (pboard0 card) = Ok bp /\
    plain_scene bp = scene_of b /\
    forall pos id, occupant (sn_layout (scene_of b)) pos = Some (Some id) ->
      exists c, content b id = Some c /\ plain_card bp id = Some (shown c).
Proof.
  intros use ss bn R ms i hs b W.
  destruct (C78_scrubbing use ss bn R ms i hs b W) as (Le & bi & Pi & Sc & Cs & _).
  destruct (C79_same_scene use (firstn i ss) bi Pi) as (bp & Pp & Sp & Cp).
  exists bp. split; [exact Le|]. split; [exact Pp|]. split; [congruence|].
  intros pos id O. destruct (Cs pos id O) as (c & c' & C1 & C2 & C3).
  rewrite Sc in O. destruct (Cp pos id O) as (d & D1 & D2). rewrite C1 in D1. injection D1 as <-.
  exists c'. split; [exact C2|]. rewrite D2. f_equal. symmetry. apply so_far_shown. exact C3.
Qed.
Print Assumptions C79_scrubbing_viewer.

(** The recording of C78: a board with cards, materials, queries. *)
Example C79_ex : play_all true ex_recording (uboard0 ucard) = Ok ex_rboard /\
  steps_undoable true ex_recording (uboard0 ucard) /\ steps_fit true ex_recording (pboard0 card) /\
  exists bp hs b c, pplay_all true (firstn 9 ex_recording) (pboard0 card) = Ok bp /\
    rwalk true ex_recording (repeat Forward 12 ++ repeat Backward 3) (0%nat, [], uboard0 ucard) = Ok (9%nat, hs, b) /\
    card_at_place (mkPlace 0 4 1 (-1)) (b_frame bp) = Ok 0 /\ plain_card bp 0 = Some c /\ c_code c = 89631139 /\
    sn_lp (scene_of b) = (0, 7700).
Proof.
  assert (P : play_all true ex_recording (uboard0 ucard) = Ok ex_rboard) by (vm_compute; reflexivity).
  split; [exact P|]. split; [apply steps_undoable_true; vm_compute; reflexivity|].
  split; [exact (play_all_fit true _ _ _ _ (bsim0 ucard card shows) P)|].
  do 4 eexists. split; [vm_compute; reflexivity|]. split; [vm_compute; reflexivity|].
  split; [vm_compute; reflexivity|]. split; [vm_compute; reflexivity|]. split; vm_compute; reflexivity.
Qed.

(** Both conditions of [C79_accepted_iff] matter: a chain link, and a pile shrunk
    from five cards to four. *)
Example C79_rejected : exists bp bp',
  pplay_all true [REvent (EvChainStack (ChainPush (mkChain place0 place0 effect0)))] (pboard0 card) = Ok bp /\
  play_all true [REvent (EvChainStack (ChainPush (mkChain place0 place0 effect0)))] (uboard0 ucard) = Abort /\
  pplay_all true (map REvent (firstn 1 ex_events ++
    [EvBoard (BoardExchange (mkBExchange 0 [] [] [mkResize (mkPlace 0 1 0 (-1)) 4]))])) (pboard0 card) = Ok bp' /\
  play_all true (map REvent (firstn 1 ex_events ++
    [EvBoard (BoardExchange (mkBExchange 0 [] [] [mkResize (mkPlace 0 1 0 (-1)) 4]))])) (uboard0 ucard) = UB.
Proof.
  do 2 eexists. split; [vm_compute; reflexivity|]. split; [vm_compute; reflexivity|].
  split; vm_compute; reflexivity.
Qed.
