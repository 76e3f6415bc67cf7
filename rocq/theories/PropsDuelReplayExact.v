(** C83, exactly: which duels can be watched to the end, and which can be
    scrubbed at will. *)
From Verif Require Import Base BaseProofs Place Frame FrameSpec FrameInv Limbo LimboSpec Msg Event EventSpec Query QuerySpec
  UQuery UQuerySpec UReplaySpec UReplay PropsUQuery PropsAgree.
From Verif Require Import Encode CoreMsg EncodeSpec Duel DuelMsg DuelRun DuelReplaySpec DuelReplay DuelReplayExact
  PropsDuel PropsDuelReplay.

Local Open Scope N_scope.

(** A duel the specification of C80 follows can always be recorded.  The
    recording plays to the end exactly when the duel has no chain links, and
    every walk of a viewer gets through exactly when no set cards were shuffled
    either. *)
Theorem C83_watchable_iff_partial : forall ms D use, Forall core_ok ms -> duel_run ms duel0 = Some D ->
  exists rs, recording ms ctx_value_init = Ok rs /\ length rs = length ms /\
    ((exists b, play_all use (concat rs) (uboard0 ucard) = Ok b) <-> Forall linkless ms) /\
    ((forall walk, exists s, rwalk use (concat rs) walk (0%nat, [], uboard0 ucard) = Ok s) <->
     Forall linkless ms /\ Forall shuffleless ms).
Proof.
  intros ms D use K H. destruct (recording_ok ms _ _ _ mirrors0 K H) as (rs & R & L).
  exists rs. split; [exact R|]. split; [exact L|].
  assert (A : (exists b, play_all use (concat rs) (uboard0 ucard) = Ok b) -> Forall linkless ms).
  { intros [b P]. apply Forall_forall. intros m J. assert (Km := proj1 (Forall_forall _ _) K m J).
    destruct m; try exact Logic.I;
      exact (played_no_chain use (concat rs) _ _ _ P (recorded_event ms _ rs _ _ R J Km eq_refl)). }
  split; [split; [exact A|]|split].
  - intros Ll. destruct (C83_viewer_partial ms D use K H Ll) as (rs' & R' & _ & P & _). rewrite R in R'. injection R' as <-. exact P.
  - intros W. split.
    + apply A. destruct (W (repeat Forward (length (concat rs)))) as [s E].
      destruct (forward_played _ _ _ _ _ (le_n _) E) as (hs & b & _ & _ & P). rewrite firstn_all in P. eauto.
    + apply Forall_forall. intros m J. assert (Km := proj1 (Forall_forall _ _) K m J).
      destruct m; try exact Logic.I. exfalso.
      destruct (back_over_shuffle use (concat rs) (uboard0 ucard) _ _ _ (recorded_event ms _ rs _ _ R J Km eq_refl)) as [walk B].
      destruct (W walk) as [s E]. exact (B s E).
  - intros [Ll Sl] walk. destruct (C83_scrubbing_duel_partial ms D use K H Ll Sl) as (rs' & R' & _ & P).
    rewrite R in R'. injection R' as <-. destruct (P walk) as (i & hs & b & E & _). eauto.
Qed.
Print Assumptions C83_watchable_iff_partial.

(** The duel of C80 can be scrubbed, one with a shuffle only watched, one with
    a chain link neither. *)
Example C83_watchable_iff_ex :
  (exists D, duel_run ex_duel duel0 = Some D /\ Forall core_ok ex_duel /\ Forall linkless ex_duel /\ Forall shuffleless ex_duel) /\
  (exists D, duel_run shuffled duel0 = Some D /\ Forall linkless shuffled /\ ~ Forall shuffleless shuffled) /\
  (exists D, duel_run chained duel0 = Some D /\ ~ Forall linkless chained).
Proof.
  split; [|split]; (eexists; split; [vm_compute; reflexivity|]).
  - split; [apply ex_duel_ok|]. split; repeat constructor.
  - split; [repeat constructor|]. intros F. apply Forall_forall with (x := nth 3 shuffled (CmNewTurn 0)) in F; [exact F|].
    cbn. tauto.
  - intros F. apply Forall_forall with (x := nth 2 chained (CmNewTurn 0)) in F; [exact F|]. cbn. tauto.
Qed.
