(** Specification vocabulary: recording what the encoder makes of a duel, and
    watching the recording on an undoable board. *)
From Verif Require Import Base Place Frame FrameSpec Limbo LimboSpec Msg Event EventSpec Query QuerySpec
  UQuery UQuerySpec UReplaySpec Encode CoreMsg EncodeSpec Duel.

Set Implicit Arguments.
Local Open Scope N_scope.

(** What a recorder keeps of an encoded message: its event, then its queries.
    Requests are not part of a replay. *)
Definition msg_steps (o : option msg) : list rstep :=
  match o with
  | None => []
  | Some m => match m_t m with MsgEvent e => [REvent e] | _ => [] end ++ map RQuery (m_queries m)
  end.

(** Encoding a stream with a parser following, as in [feed_all]; the items of
    each core message are kept together. *)
Fixpoint recording (ms : list core_msg) (c : ctx) : outcome (list (list rstep)) :=
  match ms with
  | [] => Ok []
  | m :: ms' =>
      let! (r, c1) := encode_one c (ser m) in
      let! c2 := follow r c1 in
      let! l := recording ms' c2 in
      Ok (msg_steps (r_msg r) :: l)
  end.

(** Chain links cannot be recorded on undoable boards; shuffled set cards can be
    shown but not taken back. *)
Definition linkless (m : core_msg) : Prop :=
  match m with CmChaining _ _ | CmChainSolved _ => False | _ => True end.
Definition shuffleless (m : core_msg) : Prop :=
  match m with CmShuffleSetCard _ _ => False | _ => True end.

(** A viewer's board shows a duel. *)
Record view_shows (D : duel) (b : uboard ucard) : Prop := {
  vs_pile : forall r, contents (CPile r) (sn_layout (scene_of b)) = map Some (k_pile (d_cards D) r);
  vs_zone : forall z, contents (CCard z) (sn_layout (scene_of b)) =
    match k_zone (d_cards D) z with Some x => [Some x] | None => [] end;
  vs_mats : at_rest (d_cards D) = true ->
    forall z, contents (CMats z) (sn_layout (scene_of b)) = map Some (mats_of z (d_cards D));
  vs_card : forall s x, card_on s (d_cards D) = Some x ->
    exists v, content b x = Some v /\ forall f, card_field f (shown v) = k_field (d_cards D) x f;
  vs_lp : sn_lp (scene_of b) = (d_lp D false, d_lp D true);
  vs_turn : sn_turn (scene_of b) = d_turn D;
  vs_player : sn_turn_controller (scene_of b) = d_player D;
  vs_phase : sn_phase (scene_of b) = d_phase D;
  vs_chain : sn_chain (scene_of b) = d_chain D;
  vs_blocked : sn_blocked (scene_of b) = d_blocked D
}.
