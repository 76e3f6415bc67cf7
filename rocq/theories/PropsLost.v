(** C91: scrubbing a replay neither loses nor makes cards. *)
From Verif Require Import Base BaseProofs Place Frame FrameSpec Limbo LimboSpec LimboProofs Msg Event EventSpec Query QuerySpec
  UQuery UQuerySpec UReplaySpec UReplay PropsUQuery PropsBoard.
From Verif Require Import Encode CoreMsg EncodeSpec DuelReplaySpec ClientSpec ClientProofs PropsClient.
From Verif Require Import LostSpec LostProofs LostWalk LostForever LostExact.

Local Open Scope N_scope.

(** Walk back and forth through a recording in which no pile shrinks, other than
    to exactly half: every card that was ever made lies on the board or waits in
    the history.  Missing are recordings in which a pile shrinks otherwise. *)
Theorem C91_scrubbing_partial : forall C (c0 : C) es, all_keep c0 es ->
  forall ms i b, walk c0 es ms (0%nat, uboard0 C) = Ok (i, b) ->
  forall id, card_alive (b_frame b) id -> within_reach (b_frame b) id.
Proof. intros C c0 es K ms i b W. eapply walk_reach; eauto. Qed.
Print Assumptions C91_scrubbing_partial.

(** And the cards are exactly those that parsing the recording once, up to the
    furthest position visited, makes: stepping back destroys none, stepping
    forward again makes none. *)
Theorem C91_same_cards_partial : forall C (c0 : C) es, all_keep c0 es ->
  forall ms i b, walk c0 es ms (0%nat, uboard0 C) = Ok (i, b) ->
  exists m bm, (i <= m <= length es)%nat /\
    (exists k b', walk c0 es (firstn k ms) (0%nat, uboard0 C) = Ok (m, b')) /\
    parse_all c0 (firstn m es) (uboard0 C) = Ok bm /\
    forall id, card_alive (b_frame b) id <-> card_alive (b_frame bm) id.
Proof. intros C c0 es K ms i b W. eapply walk_cards; eauto. Qed.
Print Assumptions C91_same_cards_partial.

(** The same with queries in between, with or without the cache. *)
Theorem C91_queries_partial : forall use ss, steps_keep ss ->
  forall ms i hs b, rwalk use ss ms (0%nat, [], uboard0 ucard) = Ok (i, hs, b) ->
  forall id, card_alive (b_frame b) id -> within_reach (b_frame b) id.
Proof. intros use ss K ms i hs b W. eapply rwalk_reach; eauto. Qed.
Print Assumptions C91_queries_partial.

(** A client that follows a duel whose messages can be taken back loses no card
    either, wherever its viewer goes. *)
Theorem C91_client_partial : forall s ms rs use, new_ctx s -> Forall core_ok ms -> recording ms s = Ok rs ->
  client_fate s ms Follows -> reversible_along s ms ->
  forall walk, exists i hs b, rwalk use (concat rs) walk (0%nat, [], uboard0 ucard) = Ok (i, hs, b) /\
    forall id, card_alive (b_frame b) id -> within_reach (b_frame b) id.
Proof.
  intros s ms rs use N K R F Rv walk.
  destruct (C89_scrub_partial s ms rs use N K R F Rv walk) as [i [hs [b W]]].
  exists i, hs, b. split; [exact W|].
  destruct (client_runs use ms s rs _ _ K R (new_sim s N) F) as [bn Hn].
  eapply rwalk_reach; [|exact W]. apply (undoable_keep use _ _ Hn).
  exact (reversible_runs use ms s rs _ K R (new_sim s N) F Rv).
Qed.
Print Assumptions C91_client_partial.

(** A lost card is lost for good: nothing that can be done with the frame brings
    it back or frees it. *)
Theorem C91_lost_forever : forall C (c0 : C) w acts w' id, lreachable c0 w -> lost w id ->
  lrun c0 acts w = Ok w' -> lost w' id.
Proof. intros C c0 w acts w' id R L H. eapply lost_forever; eauto. apply (lreachable_linv _ c0), R. Qed.
Print Assumptions C91_lost_forever.

(** ** What is wrong *)

Lemma lost_by : forall C (c0 : C) acts w id, lrun c0 acts limbo0 = Ok w -> In id (map fst (f_heap (lb_frame w))) ->
  reach_b C w id = false -> lost w id.
Proof.
  intros C c0 acts w id R A B. split; [exact A|]. intros X.
  apply reach_true in X; [congruence|]. apply (lreachable_linv _ c0). now exists acts.
Qed.

Definition deck0 : place := mkPlace 0 1 0 (-1).

(** A deck of five known by its size only, then one of two: the three cards in
    the middle are gone. *)
Definition shrinking : list event :=
  [EvBoard (BoardExchange (mkBExchange 0 [] [] [mkResize deck0 5]));
   EvBoard (BoardExchange (mkBExchange 0 [] [] [mkResize deck0 2]))].
Theorem C91_shrink_refuted : exists b, walk tt shrinking [Forward; Forward] (0%nat, uboard0 unit) = Ok (2%nat, b) /\
  contents (CPile (false, LDeck)) (lb_lay (b_frame b)) = [Some 0; Some 1] /\ lost (b_frame b) 2.
Proof.
  eexists. split; [vm_compute; reflexivity|]. split; [vm_compute; reflexivity|].
  apply (lost_by unit tt [LResize deck0 5; LResize deck0 2]); [vm_compute; reflexivity| |vm_compute; reflexivity].
  vm_compute. tauto.
Qed.
Print Assumptions C91_shrink_refuted.

(** Forgetting what was undone does not free the cards it made
    (frame_limbo.hpp:40). *)
Theorem C91_erase_refuted : exists w, lrun tt [LAdd deck0; LUndoAdd deck0; LErase] limbo0 = Ok w /\ lost w 0.
Proof.
  eexists. split; [vm_compute; reflexivity|].
  apply (lost_by unit tt [LAdd deck0; LUndoAdd deck0; LErase]); [vm_compute; reflexivity| |vm_compute; reflexivity].
  vm_compute. tauto.
Qed.
Print Assumptions C91_erase_refuted.

(** ** Exactly what is lost *)

(** When a pile shrinks at the live end (which is undefined if more than half of
    it stays, C20), the first [count] cards stay and the last [count] go to the
    history.  The ones between are lost, unless they are elsewhere too. *)
Theorem C91_shrink_exact_partial : forall C (c0 : C) w p r i count w', lreachable c0 w ->
  slot p = Some (CPile r, i) -> at_end w ->
  let size := length (contents (CPile r) (lb_lay w)) in
  (N.to_nat count < size)%nat -> l_pile_resize c0 p count w = Ok w' ->
  forall id, lost w' id <-> lost w id \/
    ((exists pos, occupant (lb_lay w) pos = Some (Some id)) /\
     (forall pos, occupant (lb_lay w) pos = Some (Some id) ->
        exists j, pos = (CPile r, j) /\ (N.to_nat count <= j < size - N.to_nat count)%nat) /\
     ~ exists o, In o (lb_ops w) /\ op_mentions o id).
Proof. intros C c0 w p r i count w' R Sl En size Lt H id. eapply shrink_loses; eauto. apply (lreachable_linv _ c0), R. Qed.
Print Assumptions C91_shrink_exact_partial.

(** Forgetting the undone operations loses exactly the cards that only they
    referred to. *)
Theorem C91_erase_exact_partial : forall C (c0 : C) w w', lreachable c0 w -> l_erase_history w = Ok w' ->
  forall id, lost w' id <-> lost w id \/
    (card_alive w id /\ (~ exists pos, occupant (lb_lay w) pos = Some (Some id)) /\
     (exists o, In o (skipn (lb_op w) (lb_ops w)) /\ op_mentions o id) /\
     ~ exists o, In o (firstn (lb_op w) (lb_ops w)) /\ op_mentions o id).
Proof. intros C c0 w w' R H id. eapply erase_loses; eauto. apply (lreachable_linv _ c0), R. Qed.
Print Assumptions C91_erase_exact_partial.

(** ** Examples *)
Example C91_ex_shrink : exists w w', lrun tt [LAdd deck0; LResize deck0 6] limbo0 = Ok w /\ at_end w /\
  contents (CPile (false, LDeck)) (lb_lay w) = map Some [0; 1; 2; 3; 4; 5] /\
  l_pile_resize tt deck0 2 w = Ok w' /\ map (reach_b unit w') [0; 1; 2; 3; 4; 5] = [true; true; false; false; true; true].
Proof. do 2 eexists. split; [vm_compute; reflexivity|]. repeat split; vm_compute; reflexivity. Qed.
Example C91_ex_erase : exists w w', lrun tt [LAdd deck0; LAdd deck0; LRemove deck0; LUndoRemove deck0; LUndoAdd deck0] limbo0 = Ok w /\
  l_erase_history w = Ok w' /\ map (reach_b unit w) [0; 1] = [true; true] /\ map (reach_b unit w') [0; 1] = [true; false].
Proof. do 2 eexists. split; [vm_compute; reflexivity|]. repeat split; vm_compute; reflexivity. Qed.

Fixpoint acts_keep_b {C} (c0 : C) (acts : list lact) (w : limbo C) : bool :=
  match acts with
  | [] => true
  | a :: l =>
      match a with
      | LResize p n =>
          match slot p with
          | Some (CPile r, _) =>
              let size := length (contents (CPile r) (lb_lay w)) in
              Nat.leb size (N.to_nat n) || Nat.eqb size (2 * N.to_nat n)
          | _ => true
          end
      | _ => true
      end && match lstep c0 a w with Ok w' => acts_keep_b c0 l w' | _ => true end
  end.
Lemma acts_keep_true : forall C (c0 : C) acts w, acts_keep_b c0 acts w = true -> acts_keep c0 acts w.
Proof.
  induction acts as [|a l IH]; intros w H; [exact Logic.I|]. cbn [acts_keep acts_keep_b] in *.
  apply andb_prop in H as [H1 H2]. split.
  - destruct a; try exact Logic.I. intros r i S. rewrite S in H1. apply orb_true_iff in H1.
    destruct H1 as [H1|H1]; [left; now apply Nat.leb_le|right; now apply Nat.eqb_eq].
  - intros w' E. rewrite E in H2. auto.
Qed.

(** A shrinking to half among them. *)
Definition halving : list event := ex_events ++
  [EvBoard (BoardExchange (mkBExchange 0 [] [mkPlace 0 4 2 (-1)] [mkResize (mkPlace 1 32 0 (-1)) 1]))].
Example C91_ex : all_keep tt halving /\
  exists b, walk tt halving (repeat Forward 13 ++ repeat Backward 13 ++ repeat Forward 5) (0%nat, uboard0 unit) = Ok (5%nat, b) /\
    lenN (f_heap (lb_frame (b_frame b))) = 22 /\ card_alive (b_frame b) 21 /\
    forallb (fun id => reach_b unit (b_frame b) id) (map N.of_nat (seq 0 22)) = true /\
    Nat.ltb 0 (FrameLens.cntL (lb_lay (b_frame b)) 21) = false.
Proof.
  split; [apply acts_keep_true; vm_compute; reflexivity|]. eexists. split; [vm_compute; reflexivity|].
  split; [vm_compute; reflexivity|]. split; [vm_compute; tauto|]. split; vm_compute; reflexivity.
Qed.

Example C91_ex_queries : steps_keep ex_recording /\
  exists hs b, rwalk true ex_recording (repeat Forward 17 ++ repeat Backward 12) (0%nat, [], uboard0 ucard) = Ok (5%nat, hs, b) /\
    card_alive (b_frame b) 18.
Proof.
  split; [apply acts_keep_true; vm_compute; reflexivity|]. do 2 eexists. split; [vm_compute; reflexivity|].
  vm_compute. tauto.
Qed.

Example C91_ex_client : exists rs, recording (tag_duel 6) ctx_value_init = Ok rs /\
  client_fate ctx_value_init (tag_duel 6) Follows /\ reversible_along ctx_value_init (tag_duel 6) /\
  exists hs b, rwalk true (concat rs) (repeat Forward 9 ++ repeat Backward 1) (0%nat, [], uboard0 ucard) = Ok (1%nat, hs, b) /\
    card_alive (b_frame b) 10.
Proof.
  eexists. split; [vm_compute; reflexivity|]. split; [apply C89_ex_fates|]. split.
  - split; [split; [exact Logic.I|vm_compute; repeat constructor; cbn; lia]|].
    intros c' E. vm_compute in E. injection E as <-. split; [|intros ? _; exact Logic.I].
    split; [exact Logic.I|]. vm_compute. repeat constructor; cbn; lia.
  - do 2 eexists. split; [vm_compute; reflexivity|]. vm_compute. tauto.
Qed.
