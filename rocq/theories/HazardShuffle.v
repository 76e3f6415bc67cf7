(** Which shuffles of the core's are undefined. *)
From Verif Require Import Base BaseProofs Place Frame FrameSpec FrameProofs FrameInv FrameFacts Msg Event EventSpec
  Reader Encode CoreMsg EncodeSpec EncodeProofs EncodeState EncodeFrame EncodeE2E EncodeQueryProofs FrameLens.
From Verif Require Import HazardSpec HazardProofs HazardEvent HazardMsgSpec HazardMsgProofs HazardMsgTop ShuffleWild.

Local Open Scope N_scope.

Lemma shuffle_feed : forall c loc l rest, served c -> core_ok (CmShuffleSetCard loc l) ->
  (feed c (ser (CmShuffleSetCard loc l) ++ rest) = UB <->
   shuffle_fatal (map (fun x => core_place (fst x)) l) (map (fun x => core_place (snd x)) l) (ctx_layout c)).
Proof.
  intros c loc l rest Sv K. destruct (served_ok c Sv) as [S _]. apply sound_inv in S.
  rewrite (feed_event _ _ _ _ _ (event_encode _ _ K eq_refl c rest)).
  destruct K as (_ & _ & F).
  assert (Sh : shape (ctx_layout c)) by apply S.
  rewrite <- shuffle_ub.
  - unfold pparse. cbn [parse_event]. unfold on_frame. cbn [fo_shuffle plain_fo]. unfold lift. fold (ctx_layout c).
    destruct (card_shuffle _ _ (ctx_layout c)); cbn; split; congruence.
  - exact Sh.
  - apply seqs_tame; [exact Sh|]. apply Forall_map. eapply Forall_impl; [|exact F]. intros [a b] [Ka _]. now apply core_tame.
  - apply Forall_map. eapply Forall_impl; [|exact F]. intros [a b] [_ Kb]. apply tame_cases. now apply core_tame.
Qed.
