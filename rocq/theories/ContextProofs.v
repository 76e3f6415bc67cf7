(** What the encoder uses of its context. *)
From Verif Require Import Base BaseProofs Place PlaceProofs Frame Msg Event Query Reader Encode EncodeSpec ContextSpec.

Set Implicit Arguments.
Local Open Scope N_scope.

Definition carried (f : ctx -> ctx) (m m' : reader (verdict * ctx)) : Prop :=
  forall bs, m' bs = (let! (vc, r) := m bs in let '(v, c) := vc in Ok ((v, f c), r)).

Lemma carried_bind : forall f A (m : reader A) k k', (forall a, carried f (k a) (k' a)) -> carried f (rbind m k) (rbind m k').
Proof.
  intros f A m k k' H bs. unfold rbind. destruct (m bs) as [[a r]| | |]; cbn [obind]; auto. apply H.
Qed.
Lemma carried_eq : forall f A (m m' : reader A) k k', m' = m -> (forall a, carried f (k a) (k' a)) -> carried f (rbind m k) (rbind m' k').
Proof. intros f A m m' k k' -> H. apply carried_bind. exact H. Qed.
Lemma carried_ret : forall f v c c', c' = f c -> carried f (rret (v, c)) (rret (v, c')).
Proof. intros f v c c' -> bs. reflexivity. Qed.
Lemma carried_lift : forall f o o', o' = (let! (v, c) := o in Ok (v, f c)) -> carried f (rlift o) (rlift o').
Proof. intros f o o' -> bs. unfold rlift. destruct o as [[v c]| | |]; reflexivity. Qed.

Local Ltac carry := repeat first
  [ apply carried_ret; reflexivity
  | apply carried_bind; intros ? ].

Lemma carry_event : forall f k m c, event_case k = Some m -> carried f (dispatch k c) (dispatch k (f c)).
Proof. intros f k m c E. unfold dispatch. rewrite E. carry. Qed.
Lemma carry_request : forall f k m c, event_case k = None -> request_case k = Some m -> carried f (dispatch k c) (dispatch k (f c)).
Proof. intros f k m c E R. unfold dispatch. rewrite E, R. carry. Qed.

Lemma pile_size_board : forall c b con loc, same_outline (ctx_layout c) (f_lay (b_frame b)) ->
  pile_size (with_board b c) con loc = pile_size c con loc.
Proof.
  intros c b con loc [H _]. unfold pile_size. destruct (pile_ref con loc) as [r| | |]; cbn [obind]; auto.
  unfold ctx_layout at 1. cbn [with_board cx_board]. unfold lenN. rewrite H. reflexivity.
Qed.
Lemma has_mat_board : forall c b p, same_outline (ctx_layout c) (f_lay (b_frame b)) ->
  has_xyz_mat (with_board b c) p = has_xyz_mat c p.
Proof.
  intros c b p [_ H]. unfold has_xyz_mat. destruct (zone_of p) as [r| | |]; cbn [obind]; auto.
  unfold ctx_layout at 1. cbn [with_board cx_board]. unfold read_zone. specialize (H r).
  destruct (get_zone r (ctx_layout c)), (get_zone r (f_lay (b_frame b))); cbn in *; congruence.
Qed.

Lemma carry_board : forall k c b, same_outline (ctx_layout c) (f_lay (b_frame b)) ->
  carried (with_board b) (dispatch k c) (dispatch k (with_board b c)).
Proof.
  intros k c b H. destruct (event_case k) as [m|] eqn:E; [eapply carry_event; eauto|].
  destruct (request_case k) as [m|] eqn:R; [eapply carry_request; eauto|].
  unfold dispatch. rewrite E, R. destruct k; try discriminate E; try discriminate R; try (carry; fail);
    unfold deck_top_case, move_case, swap_grave_deck_case, draw_case, reverse_deck_case;
    repeat first
      [ apply carried_ret; reflexivity
      | match goal with |- carried _ (rbind ?m _) (rbind ?m' _) => constr_eq m m' end; apply carried_bind; intros ?
      | match goal with |- carried _ (rbind (rlift (pile_size c ?x ?y)) _) _ => apply carried_eq; [rewrite (@pile_size_board c b x y H); reflexivity|intros ?] end ].
  apply carried_lift. unfold move_verdict. rewrite (fun q => @has_mat_board c b q H).
  change (get_xyz_left (with_board b c)) with (get_xyz_left c).
  cbv zeta. repeat first [reflexivity | match goal with |- (if ?q then _ else _) = _ => destruct q end];
    repeat first
      [ reflexivity
      | match goal with |- context [if negb (is_pile ?p) then _ else _] => destruct (is_pile p); cbn [negb andb] end
      | match goal with |- context [if negb (is_pile ?p) && is_pile ?q then _ else _] => destruct (negb (is_pile p) && is_pile q) end
      | match goal with |- context [has_xyz_mat c ?p] => destruct (has_xyz_mat c p) as [[]| | |]; cbn [obind] end
      | match goal with |- context [get_xyz_left c ?p] => destruct (get_xyz_left c p); cbn [obind] end ].
Qed.

(** The notes matter to MSG_MOVE alone. *)
Lemma carry_notes : forall k c l d, k <> KMove -> carried (with_notes l d) (dispatch k c) (dispatch k (with_notes l d c)).
Proof.
  intros k c l d N. destruct (event_case k) as [m|] eqn:E; [eapply carry_event; eauto|].
  destruct (request_case k) as [m|] eqn:R; [eapply carry_request; eauto|].
  unfold dispatch. rewrite E, R. destruct k; try discriminate E; try discriminate R; try congruence; carry.
Qed.

(** The reason a match ends for matters to MSG_WIN, and MSG_MATCH_KILL sets it. *)
Lemma carry_reason : forall k c r, k <> KWin -> k <> KMatchKill -> carried (with_reason r) (dispatch k c) (dispatch k (with_reason r c)).
Proof.
  intros k c r N1 N2. destruct (event_case k) as [m|] eqn:E; [eapply carry_event; eauto|].
  destruct (request_case k) as [m|] eqn:R; [eapply carry_request; eauto|].
  unfold dispatch. rewrite E, R. destruct k; try discriminate E; try discriminate R; try congruence; try (carry; fail).
  unfold move_case. carry. apply carried_lift. unfold move_verdict. change (has_xyz_mat (with_reason r c)) with (has_xyz_mat c).
  change (get_xyz_left (with_reason r c)) with (get_xyz_left c).
  cbv zeta. repeat first [reflexivity | match goal with |- (if ?q then _ else _) = _ => destruct q end];
    repeat first
      [ reflexivity
      | match goal with |- context [if negb (is_pile ?p) then _ else _] => destruct (is_pile p); cbn [negb andb] end
      | match goal with |- context [if negb (is_pile ?p) && is_pile ?q then _ else _] => destruct (negb (is_pile p) && is_pile q) end
      | match goal with |- context [has_xyz_mat c ?p] => destruct (has_xyz_mat c p) as [[]| | |]; cbn [obind] end
      | match goal with |- context [get_xyz_left c ?p] => destruct (get_xyz_left c p); cbn [obind] end ].
Qed.

(** Six types look at the context and one more changes it. *)
Lemma carry_bystander : forall k c c', k <> KWin -> k <> KSwapGraveDeck -> k <> KReverseDeck -> k <> KDeckTop -> k <> KMove ->
  k <> KDraw -> k <> KMatchKill -> carried (fun _ => c') (dispatch k c) (dispatch k c').
Proof.
  intros k c c' N1 N2 N3 N4 N5 N6 N7. destruct (event_case k) as [m|] eqn:E; [exact (@carry_event (fun _ => c') k m c E)|].
  destruct (request_case k) as [m|] eqn:R; [exact (@carry_request (fun _ => c') k m c E R)|].
  unfold dispatch. rewrite E, R. destruct k; try discriminate E; try discriminate R; try congruence; carry.
Qed.

Lemma read_first : forall b rest, read 1 (b :: rest) = Ok (b, rest).
Proof.
  intros b rest. unfold read, rbind, rbytes. destruct (N.leb_spec 1 (lenN (b :: rest))) as [_|X].
  2: { unfold lenN in X. cbn [length] in X. lia. }
  change (N.to_nat 1) with 1%nat. unfold rret. cbn [firstn skipn obind le]. do 2 f_equal. lia.
Qed.
Lemma encode_carried : forall f c c' bs,
  (forall k, kind_of (hd 0 bs) = Some k -> bs <> [] -> carried f (dispatch k c) (dispatch k c')) ->
  (bs <> [] -> kind_of (hd 0 bs) = None -> c' = f c) ->
  encode_one c' bs = leaving f (encode_one c bs).
Proof.
  intros f c c' bs H Z. unfold encode_one, leaving. destruct bs as [|b rest]; [reflexivity|]. cbn [hd] in *.
  rewrite read_first. cbn [obind]. destruct (kind_of b) as [k|] eqn:K.
  - rewrite (H k eq_refl ltac:(discriminate) rest). destruct (dispatch k c rest) as [[[v c1] r]| | |]; reflexivity.
  - cbn [obind]. rewrite (Z ltac:(discriminate) eq_refl). reflexivity.
Qed.

(** The number of a kind. *)
Lemma kind_number : forall b k, kind_of b = Some k ->
  (k = KWin -> b = 5) /\ (k = KSwapGraveDeck -> b = 35) /\ (k = KReverseDeck -> b = 37) /\ (k = KDeckTop -> b = 38) /\
  (k = KMove -> b = 50) /\ (k = KDraw -> b = 90) /\ (k = KMatchKill -> b = 170).
Proof.
  intros b k H. unfold kind_of, kind_table in H. cbn [lookup_kind] in H.
  repeat match type of H with (if b =? ?v then _ else _) = _ =>
    destruct (N.eqb_spec b v); [injection H as <-; repeat split; intros X; first [exact e | discriminate X]|] end. discriminate H.
Qed.

(** MSG_MOVE takes one note at most. *)
Lemma noted_left : forall p q c, (noted (xyz_left p q c) <= S (noted c))%nat.
Proof.
  intros p q c. unfold noted, xyz_left. cbn [cx_left cx_deferred map fst nodup].
  destruct (in_dec place_eq_dec p (map fst (cx_left c))); cbn [length]; lia.
Qed.
Lemma noted_move : forall prev curr reason c v c', move_verdict prev curr reason c = Ok (v, c') -> (noted c' <= S (noted c))%nat.
Proof.
  intros prev curr reason c v c' H. unfold move_verdict in H. cbv zeta in H.
  repeat match type of H with
  | (if ?q then _ else _) = _ => destruct q
  | obind _ _ = Ok _ => apply obind_Ok in H; let a := fresh "a" in destruct H as (a & _ & H)
  end; cbn [take_deferred_xyz_mat] in H; injection H as <- <-; try lia;
    try (destruct a; [apply noted_left|lia]); unfold noted; cbn [xyz_mat_defer cx_left cx_deferred]; rewrite ?app_length; cbn [length]; lia.
Qed.
Lemma noted_dispatch : forall c bs v c' rest, dispatch KMove c bs = Ok ((v, c'), rest) -> (noted c' <= S (noted c))%nat.
Proof.
  intros c bs v c' rest H. cbn [dispatch event_case request_case] in H. unfold move_case in H.
  repeat match type of H with
  | rbind _ _ _ = Ok _ => unfold rbind at 1 in H; apply obind_Ok in H; let a := fresh "a" in destruct H as ([a ?] & _ & H)
  end. unfold rlift in H. apply obind_Ok in H. destruct H as ([v1 c1] & M & X). assert (c1 = c') by congruence. subst. eapply noted_move; eauto.
Qed.
Lemma noted_encode : forall c rest r c', encode_one c (type_move :: rest) = Ok (r, c') -> (noted c' <= S (noted c))%nat.
Proof.
  intros c rest r c' H. unfold encode_one in H. rewrite read_first in H. cbn [obind] in H.
  change (kind_of type_move) with (Some KMove) in H. cbv iota in H. apply obind_Ok in H. destruct H as ([[v c1] l'] & D & X).
  assert (c1 = c') by congruence. subst. eapply noted_dispatch; eauto.
Qed.
(** MSG_WIN leaves the reason where it is. *)
Lemma win_leaves : forall c rest r c', encode_one c (type_win :: rest) = Ok (r, c') -> cx_mwr c' = cx_mwr c.
Proof.
  intros c rest r c' H. unfold encode_one in H. rewrite read_first in H. cbn [obind] in H.
  change (kind_of type_win) with (Some KWin) in H. cbv iota in H. apply obind_Ok in H. destruct H as ([[v c1] l'] & D & X).
  assert (c1 = c') by congruence. subst. cbn [dispatch event_case request_case] in D. unfold win_case in D.
  repeat match type of D with
  | rbind _ _ _ = Ok _ => unfold rbind at 1 in D; apply obind_Ok in D; let a := fresh "a" in destruct D as ([a ?] & _ & D)
  end. unfold rret in D. assert (c = c') by congruence. congruence.
Qed.
