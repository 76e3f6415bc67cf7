(** C90: clients that join at a reload. *)
From Verif Require Import Base BaseProofs Place Frame FrameSpec Limbo LimboSpec Msg Event EventSpec Query QuerySpec
  UQuery UQuerySpec UReplaySpec UReplay BoardAgree UReplayAgree PropsUQuery PropsAgree.
From Verif Require Import Encode CoreMsg EncodeSpec EncodeState EncodeE2E DuelReplaySpec ClientSpec ClientProofs LateSpec Rename LateProofs.

Local Open Scope N_scope.

(** Whatever two boards have been through: given the same State event and the
    same events and queries afterwards, they end the same way and then show the
    same cards at the same places, the same life points and the same chain. *)
Theorem C90_same_show : forall use u1 u2 s ss a b, has_played u1 a -> has_played u2 b ->
  ends_alike (@board_alike card) (pplay_all use (REvent (EvBoard (BoardState s)) :: ss) a)
    (pplay_all use (REvent (EvBoard (BoardState s)) :: ss) b).
Proof. intros use u1 u2 s ss a b A B. apply caught_up; eapply played_inv; eauto. Qed.
Print Assumptions C90_same_show.

(** A client that is sent what the server makes of a reload and of everything
    after it shows the server's cards, life points and chain.  The turn's player,
    the phase and the blocked zones are right from the next such message on.
    Missing is the number of the turn: without a new duel it stays behind by
    what it was at the reload. *)
Theorem C90_reload_partial : forall use c m ms rs, ctx_sound c -> is_reload m -> Forall core_ok (m :: ms) ->
  recording (m :: ms) c = Ok rs ->
  exists b c', pplay_all use (concat rs) (pboard0 card) = Ok b /\ feed_all c (m :: ms) = Ok c' /\
    board_alike b (cx_board c') /\
    (Exists is_turn ms -> b_turn_controller b = b_turn_controller (cx_board c')) /\
    (Exists is_phase ms -> b_phase b = b_phase (cx_board c')) /\
    (Exists is_blocking ms -> b_blocked b = b_blocked (cx_board c')) /\
    (Exists is_start ms -> b_turn b = b_turn (cx_board c')) /\
    (~ Exists is_start ms ->
       ((Z.of_N (b_turn (cx_board c')) - Z.of_N (b_turn b)) mod 2 ^ 32 = Z.of_N (b_turn (cx_board c)) mod 2 ^ 32)%Z).
Proof.
  intros use c m ms rs Sc Rl K R. destruct (plain_late use Sc Rl K R) as (b & c' & P & F & L).
  exists b, c'. split; [exact P|]. split; [exact F|]. split; [eapply late_alike; eauto|].
  exact (@plain_rest use c m ms rs b c' Rl K R P F).
Qed.
Print Assumptions C90_reload_partial.

(** The same with an undoable board, if it can follow; and it can exactly if
    those that were there before can. *)
Theorem C90_client_partial : forall use c m ms rs u, ctx_sound c -> is_reload m -> Forall core_ok (m :: ms) ->
  recording (m :: ms) c = Ok rs -> play_all use (concat rs) (uboard0 ucard) = Ok u ->
  exists c', feed_all c (m :: ms) = Ok c' /\
    (forall k, map (uface u) (contents k (sn_layout (scene_of u))) =
               map (face (b_frame (cx_board c'))) (contents k (ctx_layout c'))) /\
    sn_lp (scene_of u) = b_lp (cx_board c') /\ sn_chain (scene_of u) = b_chain (cx_board c').
Proof.
  intros use c m ms rs u Sc Rl K R U. destruct (plain_late use Sc Rl K R) as (b & c' & P & F & L).
  destruct (play_all_sim use _ _ _ _ (bsim0 ucard card UReplayAgree.shows) U) as [p [Pp B]].
  rewrite P in Pp. injection Pp as <-. exists c'. split; [exact F|]. destruct (late_alike L) as [Fr Lp Ch].
  rewrite <- (bsim_scene _ _ B) in *. cbn [plain_scene sn_lp sn_chain].
  split; [|split; [exact Lp|exact Ch]].
  intros k. pose proof (undoable_shows B k) as E. rewrite <- (bsim_scene _ _ B) in E. rewrite E. apply Fr.
Qed.
Print Assumptions C90_client_partial.

Theorem C90_fate : forall use c m ms rs f, ctx_sound c -> is_reload m -> Forall core_ok (m :: ms) ->
  recording (m :: ms) c = Ok rs -> client_fate c (m :: ms) f ->
  ends_as f (play_all use (concat rs) (uboard0 ucard)).
Proof. intros use c m ms rs f. apply fate_reload. Qed.
Print Assumptions C90_fate.

(** ** What is wrong *)
Ltac okc := repeat match goal with
  | |- _ /\ _ => split
  | |- Forall _ _ => constructor
  | |- cloc_ok _ => constructor
  | |- _ => progress cbn
  end; try reflexivity; try discriminate; try tauto; try lia.

Definition late_start : list core_msg := [CmStart 0 8000 8000 5 1 5 0; CmNewTurn 0; CmNewPhase 4].
Definition late_ctx : ctx := match feed_all ctx_value_init late_start with Ok c => c | _ => ctx_value_init end.
Definition late_side : cside :=
  mkCside 7000 (Some (1, 1) :: repeat None 6) (repeat None 8) 3 1 1 0 1 0.
Definition late_reload : core_msg := CmReloadField 0 late_side late_side [].
Definition late_rest : list core_msg :=
  [CmNewPhase 0x200; CmNewTurn 1; CmFieldDisabled 3; CmUpdateCard (mkCloc 0 4 0 1) [ICode 89631139; IOverlay [5318639]]].

Lemma late_ctx_sound : ctx_sound late_ctx.
Proof. apply (feed_all_sound late_start ctx_value_init); [constructor|vm_compute; reflexivity]. Qed.

Lemma late_side_ok : cside_ok late_side.
Proof. split; repeat (split || constructor). Qed.
Lemma late_reload_ok : core_ok late_reload.
Proof. split; [reflexivity|]. split; [apply late_side_ok|]. split; [apply late_side_ok|]. repeat (split || constructor). Qed.

(** A client that joins in the first turn never knows which turn it is. *)
Theorem C90_turn_refuted : exists c m, ctx_sound c /\ is_reload m /\ core_ok m /\
  forall use ms rs b c', Forall core_ok ms -> ~ Exists is_start ms -> recording (m :: ms) c = Ok rs ->
    pplay_all use (concat rs) (pboard0 card) = Ok b -> feed_all c (m :: ms) = Ok c' ->
    b_turn b <> b_turn (cx_board c').
Proof.
  exists late_ctx, late_reload. split; [apply late_ctx_sound|]. split; [exact Logic.I|]. split; [apply late_reload_ok|].
  intros use ms rs b c' K Ns R P F E.
  destruct (@plain_rest use late_ctx late_reload ms rs b c' Logic.I) as (_ & _ & _ & _ & T); auto.
  { constructor; [apply late_reload_ok|exact K]. }
  specialize (T Ns). rewrite E, Z.sub_diag in T. vm_compute in T. discriminate T.
Qed.
Print Assumptions C90_turn_refuted.

(** The duel of that client: it sees the card with its material and the phase
    and player of the second turn, which it takes for the first. *)
Example C90_ex : Forall core_ok (late_reload :: late_rest) /\
  client_fate late_ctx (late_reload :: late_rest) Follows /\
  exists rs b c', recording (late_reload :: late_rest) late_ctx = Ok rs /\
    pplay_all true (concat rs) (pboard0 card) = Ok b /\ feed_all late_ctx (late_reload :: late_rest) = Ok c' /\
    (b_turn b, b_turn (cx_board c')) = (1, 2) /\ b_phase b = 0x200 /\ b_turn_controller b = 1%Z /\
    b_lp b = (7000, 7000) /\ length (b_blocked b) = length (b_blocked (cx_board c')) /\
    map (option_map c_code) (map (face (b_frame b)) (contents (CCard (false, ZMonster, 0%nat)) (f_lay (b_frame b)))) =
      [Some 89631139] /\
    map (option_map c_code) (map (face (b_frame b)) (contents (CMats (false, ZMonster, 0%nat)) (f_lay (b_frame b)))) =
      [Some 5318639] /\
    contents (CCard (false, ZMonster, 0%nat)) (f_lay (b_frame b)) <>
      contents (CCard (false, ZMonster, 0%nat)) (ctx_layout c').
Proof.
  split.
  { constructor; [apply late_reload_ok|]. unfold late_rest. okc.
    all: try reflexivity; try (repeat (split || constructor); fail).
    all: constructor; vm_compute; try reflexivity; try (intros; discriminate); try (intros; reflexivity); auto 9. }
  split.
  { repeat (eapply fate_next; [intros []|intros X; inversion X|vm_compute; reflexivity|]). constructor. }
  do 3 eexists. split; [vm_compute; reflexivity|]. split; [vm_compute; reflexivity|]. split; [vm_compute; reflexivity|].
  vm_compute. repeat split; discriminate.
Qed.
