(** C83: the replay of a duel shows the duel. *)
From Verif Require Import Base BaseProofs Place Frame FrameSpec FrameInv Limbo LimboSpec Msg Event EventSpec Query QuerySpec
  UQuery UQuerySpec UReplaySpec UReplay BoardAgree UReplayAgree PropsUQuery PropsAgree.
From Verif Require Import Encode CoreMsg EncodeSpec Duel DuelMsg DuelRun DuelReplaySpec DuelReplay PropsDuel.

Local Open Scope N_scope.

(** What the encoder makes of a duel without chain links can be watched on an
    undoable board.  However a viewer has scrubbed back and forth, with or
    without the query cache, whenever they stop after the items of the first [k]
    core messages they see the duel as it was then. *)
Theorem C83_viewer_partial : forall ms D use, Forall core_ok ms -> duel_run ms duel0 = Some D ->
  Forall linkless ms ->
  exists rs, recording ms ctx_value_init = Ok rs /\ length rs = length ms /\
    (exists bn, play_all use (concat rs) (uboard0 ucard) = Ok bn) /\
    forall walk i hs b, rwalk use (concat rs) walk (0%nat, [], uboard0 ucard) = Ok (i, hs, b) ->
      (i <= length (concat rs))%nat /\
      forall k, i = length (concat (firstn k rs)) ->
        exists Dk, duel_run (firstn k ms) duel0 = Some Dk /\ (d_doing Dk = None -> view_shows Dk b).
Proof.
  intros ms D use K H Ll.
  assert (X : true = false -> Forall shuffleless ms) by discriminate.
  destruct (recorded true ms _ _ _ mirrors0 K H Ll X) as (rs & R & Ln & G & P).
  exists rs. split; [exact R|]. split; [exact Ln|].
  destruct (P (length rs)) as (Dn & cn & _ & _ & Pn). rewrite firstn_all in Pn.
  apply (pplay_all_same use) in Pn.
  destruct (proj2 (C79_accepted_iff use _ _ Pn) (good_fit true use _ (pboard0 card) G (inv0 card))) as [bn Hn].
  split; [eauto|]. intros walk i hs b W.
  destruct (C79_scrubbing_viewer use _ _ Hn walk i hs b W) as (bp & Le & Pp & Sc & Ca).
  split; [exact Le|]. intros k ->.
  destruct (P k) as (Dk & ck & Rk & Mk & Pk). exists Dk. split; [exact Rk|]. intros Dn0.
  apply (pplay_all_same use) in Pk.
  assert (F : firstn (length (concat (firstn k rs))) (concat rs) = concat (firstn k rs)).
  { rewrite <- (firstn_skipn k rs) at 2. rewrite concat_app, firstn_app, firstn_all, Nat.sub_diag. cbn [firstn].
    apply app_nil_r. }
  rewrite F in Pp. change (cx_board ctx_value_init) with (pboard0 card) in Pk. rewrite Pk in Pp. injection Pp as <-.
  eapply viewed; eauto.
Qed.
Print Assumptions C83_viewer_partial.

(** Without shuffled set cards nothing goes wrong on the way. *)
Theorem C83_scrubbing_duel_partial : forall ms D use, Forall core_ok ms -> duel_run ms duel0 = Some D ->
  Forall linkless ms -> Forall shuffleless ms ->
  exists rs, recording ms ctx_value_init = Ok rs /\ length rs = length ms /\
    forall walk, exists i hs b, rwalk use (concat rs) walk (0%nat, [], uboard0 ucard) = Ok (i, hs, b) /\
      (i <= length (concat rs))%nat /\
      forall k, i = length (concat (firstn k rs)) ->
        exists Dk, duel_run (firstn k ms) duel0 = Some Dk /\ (d_doing Dk = None -> view_shows Dk b).
Proof.
  intros ms D use K H Ll Sl.
  destruct (C83_viewer_partial ms D use K H Ll) as (rs & R & Ln & [bn Hn] & V).
  destruct (recorded false ms _ _ _ mirrors0 K H Ll (fun _ => Sl)) as (rs' & R' & _ & G & _).
  rewrite R in R'. injection R' as <-.
  exists rs. split; [exact R|]. split; [exact Ln|]. intros walk.
  assert (B0 := bsim0 ucard card UReplayAgree.shows).
  destruct (C78_no_step_fails use _ _ Hn (good_undoable use _ _ _ G B0) walk) as (i & hs & b & W).
  exists i, hs, b. split; [exact W|]. exact (V walk i hs b W).
Qed.
Print Assumptions C83_scrubbing_duel_partial.

(** Playing it forward only works with shuffled set cards too. *)
Theorem C83_playback_partial : forall ms D use, Forall core_ok ms -> duel_run ms duel0 = Some D ->
  Forall linkless ms ->
  exists rs, recording ms ctx_value_init = Ok rs /\ length rs = length ms /\
    forall k, exists b Dk, play_all use (concat (firstn k rs)) (uboard0 ucard) = Ok b /\
      duel_run (firstn k ms) duel0 = Some Dk /\ (d_doing Dk = None -> view_shows Dk b).
Proof.
  intros ms D use K H Ll.
  assert (X : true = false -> Forall shuffleless ms) by discriminate.
  destruct (recorded true ms _ _ _ mirrors0 K H Ll X) as (rs & R & Ln & G & P).
  exists rs. split; [exact R|]. split; [exact Ln|]. intros k.
  destruct (P k) as (Dk & ck & Rk & Mk & Pk). apply (pplay_all_same use) in Pk.
  assert (Gk : Forall (good true) (concat (firstn k rs))).
  { rewrite <- (firstn_skipn k rs) in G. rewrite concat_app in G. now apply Forall_app in G. }
  destruct (proj2 (C79_accepted_iff use _ _ Pk) (good_fit true use _ (pboard0 card) Gk (inv0 card))) as [b Hb].
  exists b, Dk. split; [exact Hb|]. split; [exact Rk|]. intros Dn.
  destruct (C79_same_scene use _ _ Hb) as (bp & Pp & Sc & Ca).
  change (cx_board ctx_value_init) with (pboard0 card) in Pk. rewrite Pk in Pp. injection Pp as <-.
  eapply viewed; eauto.
Qed.
Print Assumptions C83_playback_partial.

(** The duel of C80: 24 items from 20 messages. *)
Example C83_ex : Forall core_ok ex_duel /\ Forall linkless ex_duel /\ Forall shuffleless ex_duel /\
  exists D rs hs b, duel_run ex_duel duel0 = Some D /\ recording ex_duel ctx_value_init = Ok rs /\
    map (@length rstep) rs = [1; 1; 1; 1; 1; 1; 1; 0; 0; 1; 1; 4; 1; 1; 1; 1; 1; 1; 1; 1]%nat /\
    rwalk true (concat rs) (repeat Forward 30 ++ repeat Backward 8) (0%nat, [], uboard0 ucard) = Ok (13%nat, hs, b) /\
    length (concat (firstn 12 rs)) = 13%nat /\
    contents (CMats ((false, ZMonster), 5%nat)) (sn_layout (scene_of b)) = [Some 5; Some 4; Some 3] /\
    sn_lp (scene_of b) = (8000, 8000).
Proof.
  split; [apply ex_duel_ok|].
  split; [repeat constructor|]. split; [repeat constructor|]. do 4 eexists.
  split; [vm_compute; reflexivity|]. split; [vm_compute; reflexivity|]. split; [vm_compute; reflexivity|].
  split; [vm_compute; reflexivity|]. split; [vm_compute; reflexivity|]. split; vm_compute; reflexivity.
Qed.

(** A replay cannot show a duel with a chain: the first link ends it. *)
Definition chained : list core_msg := [
  CmStart 5 8000 8000 2 0 2 0; CmMove 1 (at_ 0 0x1 1) (at_ 0 0x8 0) 0;
  CmChaining (mkClink (mkCcard 1 (at_ 0 0x8 0)) (at_ 0 0x8 0) (mkEffect 1 0)) 1 ].
Theorem C83_chain_refuted : exists ms D rs, Forall core_ok ms /\ duel_run ms duel0 = Some D /\ d_doing D = None /\
  recording ms ctx_value_init = Ok rs /\ length rs = 3%nat /\
  (forall use, exists b, play_all use (concat (firstn 2 rs)) (uboard0 ucard) = Ok b) /\
  forall use, play_all use (concat rs) (uboard0 ucard) = Abort.
Proof.
  exists chained. do 2 eexists. split; [unfold chained; runs; unfold clink_ok, effect_ok; cbn [ck_card ck_from ck_effect]; okay|]. split; [vm_compute; reflexivity|].
  split; [reflexivity|]. split; [vm_compute; reflexivity|]. split; [reflexivity|].
  split; intros []; try eexists; vm_compute; reflexivity.
Qed.
Print Assumptions C83_chain_refuted.

(** Set cards are shuffled; stepping back over it aborts. *)
Definition shuffled : list core_msg := [
  CmStart 5 8000 8000 2 0 2 0;
  CmMove 1 (at_ 0 0x1 1) (at_ 0 0x8 0) 0; CmMove 2 (at_ 0 0x1 0) (at_ 0 0x8 1) 0;
  CmShuffleSetCard 0x8 [(at_ 0 0x8 0, at_ 0 0x8 1); (at_ 0 0x8 1, at_ 0 0x8 0)] ].
Theorem C83_shuffle_refuted : exists ms D rs i hs b, Forall core_ok ms /\ duel_run ms duel0 = Some D /\
  recording ms ctx_value_init = Ok rs /\
  (forall use, rwalk use (concat rs) (repeat Forward i) (0%nat, [], uboard0 ucard) = Ok (i, hs, b)) /\
  forall use, rwalk use (concat rs) (repeat Forward i ++ [Backward]) (0%nat, [], uboard0 ucard) = Abort.
Proof.
  exists shuffled. do 2 eexists. exists 4%nat. do 2 eexists. split; [unfold shuffled; runs; reflexivity|].
  split; [vm_compute; reflexivity|]. split; [vm_compute; reflexivity|].
  split; intros []; vm_compute; reflexivity.
Qed.
Print Assumptions C83_shuffle_refuted.
