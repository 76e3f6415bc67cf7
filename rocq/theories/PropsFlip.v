(** C101: both players are treated alike. *)
From Verif Require Import Base BaseProofs Place Frame FrameSpec FrameLens FrameOps FramePiles FrameInv Limbo Msg Event EventProofs
  Query UQuery Encode EncodeState FlipSpec FlipProofs PropsBoard.

Local Open Scope N_scope.

Lemma pcall_fl x b : pcall_int x -> inv card (b_frame b) ->
  pcall_run (fl_pcall x) (fl_pboard b) = o_map (@fl_pboard card) (pcall_run x b).
Proof.
  intros Z J. destruct x as [e|u q]; cbn [fl_pcall pcall_run].
  - now apply pparse_fl.
  - cbn [fl_pboard b_frame]. rewrite query_fl, bind_om, om_bind. apply bind_ext; [reflexivity|intros [h f]]. reflexivity.
Qed.
Lemma pcall_inv x b b' : inv card (b_frame b) -> pcall_run x b = Ok b' -> inv card (b_frame b').
Proof.
  destruct x as [e|u q]; cbn [pcall_run]; intros J E.
  - now apply (pparse_inv _ _ _ _ _ J E).
  - apply obind_Ok in E as ((h, f) & E & X). injection X as <-. now apply (query_inv _ _ _ _ _ J E).
Qed.
Lemma pcalls_fl l : forall b, Forall pcall_int l -> inv card (b_frame b) ->
  ofold pcall_run (map fl_pcall l) (fl_pboard b) = o_map (@fl_pboard card) (ofold pcall_run l b).
Proof.
  induction l as [|x l IH]; intros b Z J; [reflexivity|]. inversion_clear Z as [|? ? Z1 Z2]. cbn [map ofold].
  rewrite (pcall_fl x b Z1 J), bind_om, om_bind. destruct (pcall_run x b) as [b1| | |] eqn:E; [|reflexivity..]. cbn [obind].
  apply IH; [exact Z2|]. now apply (pcall_inv _ _ _ J E).
Qed.

(** Whatever the server does with its board, the same with the players
    exchanged has the same outcome with the players exchanged. *)
Theorem C101_server : forall l, Forall pcall_int l ->
  ofold pcall_run (map fl_pcall l) (fl_pboard (pboard0 card)) =
  o_map (@fl_pboard card) (ofold pcall_run l (pboard0 card)).
Proof. intros l Z. apply pcalls_fl; [exact Z|apply inv0]. Qed.
Print Assumptions C101_server.

(** A new board says that it is the first player's turn; nothing else tells the
    players apart. *)
Definition turn_event (x : pcall) : bool := match x with PParse (EvNextTurn _) => true | _ => false end.

Lemma tc_run x (z : Z) b : pcall_run x (set_turn_controller z b) =
  o_map (fun b' => if turn_event x then b' else set_turn_controller z b') (pcall_run x b).
Proof.
  destruct x as [e|u q]; cbn [pcall_run turn_event].
  - unfold pparse. destruct e as [|[|x|s]|r []|[]|con|w m []|con t|m|ph|r []|r|l]; cbn [parse_event]; try reflexivity;
      unfold parse_exchange, on_frame; cbn [set_turn_controller b_frame b_chain b_lp];
      try (rewrite om_bind; apply bind_ext; [reflexivity|intros ?]; reflexivity).
    + unfold parse_state. destruct (bs_lps s) as [|l0 [|l1 lr]]; [reflexivity| |].
      { cbn [nth_error or_ub obind]. rewrite !assign0. reflexivity. }
      cbn [nth_error or_ub obind]. rewrite !assign0. cbn [obind]. rewrite !assign1. cbn [obind]. unfold on_frame.
      rewrite om_bind. destruct (0 <=? bs_turn_counter s)%Z; (apply bind_ext; [reflexivity|intros ?]; reflexivity).
    + rewrite om_bind. apply bind_ext; [reflexivity|intros i]. rewrite om_bind. reflexivity.
  - cbn [set_turn_controller b_frame]. rewrite om_bind. apply bind_ext; [reflexivity|intros [h f]]. reflexivity.
Qed.
Lemma tc_runs l z : forall b, ofold pcall_run l (set_turn_controller z b) =
  o_map (fun b' => if existsb turn_event l then b' else set_turn_controller z b') (ofold pcall_run l b).
Proof.
  induction l as [|x l IH]; intros b; [reflexivity|]. cbn [ofold existsb]. rewrite tc_run, bind_om, om_bind.
  apply bind_ext; [reflexivity|intros b1]. destruct (turn_event x); cbn [orb]; [|apply IH].
  destruct (ofold pcall_run l b1); reflexivity.
Qed.

Theorem C101_server_new : forall l, Forall pcall_int l ->
  ofold pcall_run (map fl_pcall l) (pboard0 card) =
  o_map (fun b => if existsb turn_event l then fl_pboard b else set_turn_controller (b_turn_controller b) (fl_pboard b))
    (ofold pcall_run l (pboard0 card)).
Proof.
  intros l Z. pose proof (C101_server l Z) as H.
  assert (T : existsb turn_event (map fl_pcall l) = existsb turn_event l).
  { clear. induction l as [|x l IH]; [reflexivity|]. cbn [map existsb]. rewrite IH. f_equal.
    destruct x as [e|]; [|reflexivity]. destruct e as [|[]|r []|[]|con|w m []|con t|[]|ph|r []|[]|ll]; reflexivity. }
  change (fl_pboard (pboard0 card)) with (set_turn_controller 1%Z (pboard0 card) : pboard card) in H.
  change (pboard0 card) with (set_turn_controller 0%Z (set_turn_controller 1%Z (pboard0 card) : pboard card) : pboard card) at 1.
  rewrite tc_runs, T, H. destruct (existsb turn_event l) eqn:E.
  - destruct (ofold pcall_run l (pboard0 card)); reflexivity.
  - pose proof (tc_runs l 0%Z (pboard0 card)) as S. rewrite E in S.
    change (set_turn_controller 0%Z (pboard0 card) : pboard card) with (pboard0 card) in S.
    destruct (ofold pcall_run l (pboard0 card)) as [b| | |]; try reflexivity. cbn [o_map] in *. f_equal.
    assert (S' : b = set_turn_controller 0%Z b) by congruence. rewrite S' at 2. reflexivity.
Qed.
Print Assumptions C101_server_new.

(** The same for a viewer, who can also go back and forget: from any board. *)
Theorem C101_viewer : forall l b, Forall ucall_int l ->
  ofold ucall_run (map fl_ucall l) (fl_uboard b) = o_map (@fl_uboard ucard) (ofold ucall_run l b).
Proof.
  intros l b Z. revert b. induction Z as [|x l Zx Z IH]; intros b; [reflexivity|]. cbn [map ofold].
  assert (E : ucall_run (fl_ucall x) (fl_uboard b) = o_map (@fl_uboard ucard) (ucall_run x b)).
  { destruct x as [e|e|u q|]; cbn [fl_ucall ucall_run].
    - now apply uparse_fl.
    - now apply undo_event_fl.
    - cbn [fl_uboard b_frame]. rewrite uquery_fl, bind_om, om_bind. apply bind_ext; [reflexivity|intros [h w]]. reflexivity.
    - apply u_on_frame_fl, l_erase_fl. }
  rewrite E, bind_om, om_bind. apply bind_ext; [reflexivity|intros b1]. apply IH.
Qed.
Print Assumptions C101_viewer.

(** On exchanged boards the same card is found, at the other player's place. *)
Theorem C101_seen : forall C p (f : frame C),
  has_card (fl_place p) (f_lay (fl_frame f)) = has_card p (f_lay f) /\
  card_at_place (fl_place p) (fl_frame f) = card_at_place p f.
Proof. intros C p f. split; [apply has_card_fl|apply card_at_fl]. Qed.
Print Assumptions C101_seen.

(** Exchanging twice gives the event back, so the players' roles are the same. *)
Theorem C101_back : forall e, fl_event (fl_event e) = e.
Proof.
  assert (P : forall p, fl_place (fl_place p) = p) by (intros []; cbv [fl_place]; cbn; now rewrite other_other).
  assert (M : forall A (g : A -> A), (forall a, g (g a) = a) -> forall l, map g (map g l) = l).
  { intros A g H l. rewrite map_map. rewrite <- (map_id l) at 2. now apply map_ext. }
  assert (R : forall o, fl_resize (fl_resize o) = o) by (intros []; cbv [fl_resize]; cbn; now rewrite P).
  assert (Q : forall o, fl_pair (fl_pair o) = o) by (intros []; cbv [fl_pair]; cbn; now rewrite !P).
  assert (S : forall o, fl_splice (fl_splice o) = o) by (intros []; cbv [fl_splice]; cbn; now rewrite !P).
  assert (H : forall o, fl_chain (fl_chain o) = o) by (intros []; cbv [fl_chain]; cbn; now rewrite !P).
  assert (T : forall A (l : list A), fl_two (fl_two l) = l) by (intros A [|? [|? ?]]; reflexivity).
  destruct e as [|[|[x1 x2 x3 x4]|[s1 s2 s3 s4 s5 s6]]|r []|[]|con|w m []|con t|[]|ph|r []|[]|l]; cbn [fl_event bx_con bx_remove bx_add bx_resize
    bs_shape bs_turn_counter bs_lps bs_chains bs_add bs_resize];
    rewrite ?other_other, ?P, ?H, ?T, ?(M _ _ P), ?(M _ _ R), ?(M _ _ Q), ?(M _ _ S), ?(M _ _ H); reflexivity.
Qed.
Print Assumptions C101_back.

(** A short duel, from both sides. *)
Definition two_sides : list pcall :=
  map PParse ex_events ++ [PQuery true (mkQuery (mkPlace 1 4 0 (-1)) (mkQData (Some 77) None None None None None None None
    None None None None None None None None None None None None None None None None))].
Example C101_ex : Forall pcall_int two_sides /\
  (exists b b', ofold pcall_run two_sides (pboard0 card) = Ok b /\
     ofold pcall_run (map fl_pcall two_sides) (pboard0 card) = Ok b' /\
     b_lp b = (0, 7700) /\ b_lp b' = (7700, 0) /\ b_turn_controller b = 1%Z /\ b_turn_controller b' = 0%Z /\
     length (get_pile (true, LDeck) (f_lay (b_frame b))) = 7%nat /\
     length (get_pile (false, LDeck) (f_lay (b_frame b'))) = 7%nat /\
     card_at_place (mkPlace 1 4 0 (-1)) (b_frame b) = card_at_place (mkPlace 0 4 0 (-1)) (b_frame b')) /\
  (exists u, ofold ucall_run (map UParse ex_events ++ [UUndo (last ex_events EvNotSet)]) (uboard0 ucard) = Ok u /\
     fl_uboard u <> u).
Proof.
  split; [repeat constructor; cbn; lia|]. split.
  - do 2 eexists. do 8 (split; [vm_compute; reflexivity|]). vm_compute. reflexivity.
  - eexists. split; [vm_compute; reflexivity|]. vm_compute. discriminate.
Qed.
