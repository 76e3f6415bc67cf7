(** What clients know about the room. *)
From Verif Require Import Base BaseProofs Room RoomSpec RoomProofs RoomInv.

Local Open Scope N_scope.

Definition agrees (v : env) (r : room) (m : mirror) : Prop :=
  (forall d, In d (fst m) <-> describes v r d) /\ NoDup (fst m) /\ snd m = u32 (lenN (rm_spectators r)).

Lemma same_seat_spec : forall d d', same_seat d d' = true <-> du_team d = du_team d' /\ du_pos d = du_pos d'.
Proof. intros. unfold same_seat. rewrite andb_true_iff, !N.eqb_eq. reflexivity. Qed.

Lemma describes_fun : forall v r d d', describes v r d -> describes v r d' ->
  du_team d = du_team d' -> du_pos d = du_pos d' -> d = d'.
Proof.
  intros v r [t p u h y] [t' p' u' h' y'] (s & c & A & B & C & D & E) (s' & c' & A' & B' & C' & D' & E') T P.
  cbn in *. subst t' p'. rewrite A in A'. injection A' as <-. rewrite B in B'. injection B' as <-. subst. reflexivity.
Qed.

Lemma NoDup_filter' : forall A (f : A -> bool) l, NoDup l -> NoDup (filter f l).
Proof.
  intros A f l H. induction H as [|x l N H IH]; [constructor|]. simpl. destruct (f x); [|exact IH].
  constructor; [|exact IH]. intros I. apply filter_In in I. tauto.
Qed.

Lemma note_agrees : forall v r r' d m, agrees v r m ->
  rm_spectators r' = rm_spectators r ->
  describes v r' d ->
  (forall d', same_seat d d' = false -> (describes v r' d' <-> describes v r d')) ->
  agrees v r' (note d m).
Proof.
  intros v r r' d [l n] (A & B & C) E D K. unfold agrees, note. cbn [fst snd] in *. split; [|split].
  - intros d'. simpl. rewrite filter_In, negb_true_iff. split.
    + intros [<-|[I S]]; [exact D|]. apply K; [exact S|]. apply A. exact I.
    + intros H. destruct (same_seat d d') eqn:S.
      * left. apply same_seat_spec in S. destruct S. eapply describes_fun; eauto.
      * right. split; [|reflexivity]. apply A. apply K; auto.
  - constructor; [|apply NoDup_filter'; exact B]. intros I. apply filter_In in I. destruct I as [_ I].
    assert (X : same_seat d d = true) by (apply same_seat_spec; auto). rewrite X in I. discriminate.
  - rewrite E. exact C.
Qed.

(** ** The description of the room *)

Lemma in_team_duelists : forall v h t l pos d, In d (team_duelists v h t pos l) <->
  du_team d = t /\ pos <= du_pos d /\ exists s c, nth_error l (N.to_nat (du_pos d - pos)) = Some s /\ sl_client s = Some c /\
    du_user d = ev_user v c /\ du_host d = (c =? h) /\ du_ready d = sl_ready s.
Proof.
  intros v h t. induction l as [|s l IH]; intros pos d; simpl.
  - split; [intros []|]. intros (_ & _ & s & c & H & _). destruct (N.to_nat _); discriminate.
  - assert (K : In d (team_duelists v h t (pos + 1) l) <->
      du_team d = t /\ pos < du_pos d /\ exists s' c, nth_error (s :: l) (N.to_nat (du_pos d - pos)) = Some s' /\ sl_client s' = Some c /\
      du_user d = ev_user v c /\ du_host d = (c =? h) /\ du_ready d = sl_ready s').
    { rewrite IH. split; intros (A & B & s' & c & C & D); (split; [exact A|]); (split; [lia|]); exists s', c; (split; [|exact D]).
      - replace (N.to_nat (du_pos d - pos)) with (S (N.to_nat (du_pos d - (pos + 1)))) by lia. exact C.
      - replace (N.to_nat (du_pos d - pos)) with (S (N.to_nat (du_pos d - (pos + 1)))) in C by lia. exact C. }
    destruct (sl_client s) as [c|] eqn:C.
    + simpl. rewrite K. split.
      * intros [<-|(A & B & D)]; [|split; [exact A|]; split; [lia|exact D]].
        cbn [du_team du_pos du_user du_host du_ready]. split; [reflexivity|]. split; [lia|]. exists s, c.
        rewrite N.sub_diag. auto.
      * intros (A & B & s' & c' & D & E & F & G & H). destruct (N.eq_dec (du_pos d) pos) as [Q|Q].
        { left. rewrite Q, N.sub_diag in D. injection D as <-. rewrite C in E. injection E as <-.
          destruct d; cbn in *. subst. reflexivity. }
        { right. split; [exact A|]. split; [lia|]. exists s', c'. auto. }
    + rewrite K. split; intros (A & B & s' & c' & D & E); (split; [exact A|]).
      * split; [lia|]. eauto.
      * split; [|eauto]. destruct (N.eq_dec (du_pos d) pos) as [Q|Q]; [|lia].
        rewrite Q, N.sub_diag in D. injection D as <-. destruct E as [E _]. congruence.
Qed.

Lemma NoDup_team_duelists : forall v h t l pos, NoDup (team_duelists v h t pos l).
Proof.
  intros v h t. induction l as [|s l IH]; intros pos; simpl; [constructor|].
  destruct (sl_client s); [|apply IH]. constructor; [|apply IH]. rewrite in_team_duelists. cbn. intros (_ & H & _). lia.
Qed.

Lemma NoDup_append : forall A (l l' : list A), NoDup l -> NoDup l' -> (forall x, In x l -> ~ In x l') -> NoDup (l ++ l').
Proof.
  induction l as [|a l IH]; intros l' H H' D; [exact H'|]. inversion H; subst. simpl. constructor.
  - rewrite in_app_iff. intros [I|I]; [auto|]. apply (D a); [left; reflexivity|exact I].
  - apply IH; auto. intros x I. apply D. right. exact I.
Qed.

Lemma description_agrees : forall v r, agrees v r (all_duelists v r, u32 (lenN (rm_spectators r))).
Proof.
  intros v r. unfold agrees, all_duelists. cbn [fst snd]. split; [|split; [|reflexivity]].
  - intros d. rewrite in_app_iff, !in_team_duelists, N.sub_0_r. unfold describes, place. split.
    + intros [(T & _ & s & c & A)|(T & _ & s & c & A)]; exists s, c; rewrite T; exact A.
    + intros (s & c & A & B). destruct (seats_cases r (du_team d)) as [[T E]|[[T E]|[_ E]]]; rewrite E in A.
      * left. split; [exact T|]. split; [lia|]. eauto.
      * right. split; [exact T|]. split; [lia|]. eauto.
      * destruct (N.to_nat (du_pos d)); discriminate.
  - apply NoDup_append; try apply NoDup_team_duelists.
    intros d A B. apply in_team_duelists in A, B. destruct A as [A _], B as [B _]. congruence.
Qed.

(** ** Hearing *)

Lemma heard_app : forall c a b, heard c (a ++ b) = heard c a ++ heard c b.
Proof. intros. unfold heard. rewrite filter_app, map_app. reflexivity. Qed.

Lemma mirror_app : forall c a b, mirror_of c (a ++ b) = fold_left hear (heard c b) (mirror_of c a).
Proof. intros. unfold mirror_of. rewrite heard_app, fold_left_app. reflexivity. Qed.

Lemma heard_broadcast : forall c r e, exists n,
  heard c (broadcast r e) = repeat e n /\ (present r c -> n <> 0%nat) /\ (NoDup (occupants r) -> present r c -> n = 1%nat) /\
  (~ present r c -> n = 0%nat).
Proof.
  intros c r e. exists (count_occ N.eq_dec (occupants r) c).
  rewrite <- in_occupants. unfold broadcast, heard. split; [|split; [|split]].
  - induction (occupants r) as [|x l IH]; [reflexivity|]. simpl. destruct (N.eq_dec x c) as [->|D].
    + rewrite N.eqb_refl. simpl. rewrite IH. reflexivity.
    + apply N.eqb_neq in D. rewrite D. exact IH.
  - intros I. apply (count_occ_In N.eq_dec) in I. lia.
  - intros N I. apply (proj1 (NoDup_count_occ' N.eq_dec (occupants r)) N). exact I.
  - intros I. apply (count_occ_not_In N.eq_dec). exact I.
Qed.

Lemma hear_twice : forall e m, (forall o l n, e <> EvConf (CeEntering o l n)) -> hear (hear m e) e = hear m e.
Proof.
  intros e m K. assert (Nn : forall d m, note d (note d m) = note d m).
  { intros d [l n]. unfold note. cbn [fst snd]. f_equal. f_equal. simpl.
    assert (X : same_seat d d = true) by (apply same_seat_spec; auto). rewrite X. cbn [negb].
    induction l as [|x l IH]; [reflexivity|]. simpl. destruct (negb (same_seat d x)) eqn:Y; [|exact IH].
    simpl. rewrite Y, IH. reflexivity. }
  destruct e as [[o l n|d|d|er]|e|n]; cbn [hear]; auto.
  destruct (K o l n eq_refl).
Qed.

Lemma hear_many : forall e m n, (forall o l n, e <> EvConf (CeEntering o l n)) -> n <> 0%nat ->
  fold_left hear (repeat e n) m = hear m e.
Proof.
  intros e m n K N. destruct n as [|n]; [congruence|]. clear N. simpl. revert m.
  induction n as [|n IH]; intros m; [reflexivity|]. simpl. rewrite hear_twice by exact K. apply IH.
Qed.

Lemma hear_broadcast : forall c r e m, (forall o l n, e <> EvConf (CeEntering o l n)) -> present r c ->
  fold_left hear (heard c (broadcast r e)) m = hear m e.
Proof.
  intros c r e m K P. destruct (heard_broadcast c r e) as (n & -> & N & _). apply hear_many; auto.
Qed.

Lemma hear_first : forall c o m, (forall x e, In (x, e) o -> exists f, e = EvFirst f) ->
  fold_left hear (heard c o) m = m.
Proof.
  intros c. induction o as [|[x e] o IH]; intros m K; [reflexivity|]. unfold heard. simpl.
  destruct (K x e (or_introl eq_refl)) as [f ->].
  assert (K' : forall x e, In (x, e) o -> exists f, e = EvFirst f) by (intros; eapply K; right; eauto).
  destruct (x =? c); simpl; apply (IH m K').
Qed.

(** ** All mirrors *)

Lemma present_same : forall r r', occupants r' = occupants r -> forall c, present r' c -> present r c.
Proof. intros r r' E c H. apply in_occupants. rewrite <- E. apply in_occupants. exact H. Qed.

Lemma agrees_same : forall v r r' m, agrees v r m ->
  rm_spectators r' = rm_spectators r -> (forall d, describes v r' d <-> describes v r d) -> agrees v r' m.
Proof.
  intros v r r' m (A & B & C) E K. split; [|split; [exact B|rewrite E; exact C]]. intros d. rewrite A, K. reflexivity.
Qed.

Lemma mirror_step : forall v r out a r' o, sane v r -> step v r a r' o ->
  (forall c, present r c -> agrees v r (mirror_of c out)) ->
  forall c, present r' c -> agrees v r' (mirror_of c (out ++ o)).
Proof.
  intros v r out a r' o S St M c P. rewrite mirror_app.
  destruct St as [a|c' t p C NT F|c' C F0 F1 H|c' d t p C T Q K|c' d t p C T Q K|c' b t p s C T A B R V|b r' o C AR E|t D' Mt L].
  - apply M. exact P.
  - assert (T : t = 0 \/ t = 1) by (destruct NT; lia). assert (F' := F). destruct F' as (_ & (s & A & B) & _).
    set (r' := set_slot t p (set_client c') r) in *.
    set (d := mkDuelist t p (ev_user v c') (c' =? rm_host r) false).
    assert (Pl : forall t' p', place r' t' p' = if (t =? t') && (p =? p') then Some (set_client c' s) else place r t' p').
    { intros. unfold r'. rewrite set_slot_place by exact T. rewrite A. reflexivity. }
    assert (G : forall m, agrees v r m -> agrees v r' (hear m (EvConf (CeDuelistEnters d)))).
    { intros m Am. apply (note_agrees v r r' d m Am).
      - unfold r'. destruct (set_slot_rest r t p (set_client c')) as (_ & _ & _ & X & _). exact X.
      - exists (set_client c' s), c'. unfold d. cbn [du_team du_pos du_user du_host du_ready]. rewrite Pl, !N.eqb_refl.
        unfold r'. destruct (set_slot_rest r t p (set_client c')) as (_ & X & _). rewrite X.
        split; [reflexivity|]. split; [reflexivity|]. split; [reflexivity|]. split; [reflexivity|].
        rewrite (sn_empty v r S t p s A B). reflexivity.
      - intros d' N. unfold describes. rewrite Pl. unfold d, same_seat in N. cbn [du_team du_pos] in N. rewrite N.
        unfold r'. destruct (set_slot_rest r t p (set_client c')) as (_ & X & _). rewrite X. reflexivity. }
    assert (NE : forall o l n, EvConf (CeDuelistEnters d) <> EvConf (CeEntering o l n)) by (intros; discriminate).
    unfold heard. cbn [filter fst]. destruct (N.eqb_spec c' c) as [->|D].
    + cbn [map snd fold_left]. fold (heard c (broadcast r' (EvConf (CeDuelistEnters d)))).
      rewrite hear_broadcast by assumption. apply G. cbn [description hear]. apply description_agrees.
    + fold (heard c (broadcast r' (EvConf (CeDuelistEnters d)))). rewrite hear_broadcast by assumption. apply G. apply M.
      apply in_occupants. apply in_occupants in P.
      destruct (occupants_seat v r t p c' S T F) as (x & y & E1 & E2).
      fold r' in E2. rewrite E1. rewrite E2 in P. apply in_app_iff. apply in_app_iff in P. destruct P as [P|[P|P]]; auto. congruence.
  - set (r' := set_spectators (set_insert c' (rm_spectators r)) r) in *.
    assert (G : forall m, agrees v r m -> agrees v r' (hear m (EvSpectators (u32 (lenN (set_insert c' (rm_spectators r))))))).
    { intros m (A & B & _). split; [|split; [exact B|reflexivity]]. intros d. cbn [hear fst]. rewrite A. reflexivity. }
    assert (NE : forall o l n, EvSpectators (u32 (lenN (set_insert c' (rm_spectators r)))) <> EvConf (CeEntering o l n)) by (intros; discriminate).
    unfold heard. cbn [filter fst]. destruct (N.eqb_spec c' c) as [->|D].
    + cbn [map snd fold_left].
      fold (heard c (broadcast r' (EvSpectators (u32 (lenN (set_insert c (rm_spectators r))))))).
      rewrite hear_broadcast by assumption. apply G. cbn [description hear]. apply description_agrees.
    + fold (heard c (broadcast r' (EvSpectators (u32 (lenN (set_insert c' (rm_spectators r))))))).
      rewrite hear_broadcast by assumption. apply G. apply M.
      destruct P as [P|P]; [left; exact P|]. right. unfold watches, r' in P. cbn in P. unfold set_insert in P.
      destruct (existsb (N.eqb c') (rm_spectators r)); [exact P|]. apply in_app_iff in P. destruct P as [P|[P|[]]]; [exact P|congruence].
  - apply (present_same r) in P; [|apply sitters_set_slot; reflexivity].
    assert (H : agrees v (set_slot t p (set_deck true d) r) (mirror_of c out)).
    { apply (agrees_same v r); [apply M; exact P| |].
      - destruct (set_slot_rest r t p (set_deck true d)) as (_ & _ & _ & X & _). exact X.
      - intros d'. unfold describes. rewrite set_slot_place by exact T. destruct (set_slot_rest r t p (set_deck true d)) as (_ & X & _). rewrite X.
        destruct (N.eqb_spec t (du_team d')) as [->|]; [|reflexivity]. destruct (N.eqb_spec p (du_pos d')) as [->|]; [|reflexivity].
        cbn [andb]. destruct Q as (s & A & B). rewrite A. cbn [option_map]. split.
        + intros (s' & c0 & E & F). injection E as <-. exists s, c0. auto.
        + intros (s' & c0 & E & F). injection E as <-. exists (set_deck true d s), c0. auto. }
    unfold heard. cbn [filter fst]. destruct (c' =? c); exact H.
  - apply (present_same r) in P; [|apply sitters_set_slot; reflexivity].
    assert (H : agrees v (set_slot t p (set_deck false deck0) r) (mirror_of c out)).
    { apply (agrees_same v r); [apply M; exact P| |].
      - destruct (set_slot_rest r t p (set_deck false deck0)) as (_ & _ & _ & X & _). exact X.
      - intros d'. unfold describes. rewrite set_slot_place by exact T. destruct (set_slot_rest r t p (set_deck false deck0)) as (_ & X & _). rewrite X.
        destruct (N.eqb_spec t (du_team d')) as [->|]; [|reflexivity]. destruct (N.eqb_spec p (du_pos d')) as [->|]; [|reflexivity].
        cbn [andb]. destruct Q as (s & A & B). rewrite A. cbn [option_map]. split.
        + intros (s' & c0 & E & F). injection E as <-. exists s, c0. auto.
        + intros (s' & c0 & E & F). injection E as <-. exists (set_deck false deck0 s), c0. auto. }
    unfold heard. cbn [filter fst]. destruct (c' =? c); exact H.
  - rewrite hear_broadcast by (exact P || (intros; discriminate)).
    apply (present_same r) in P; [|apply sitters_set_slot; reflexivity].
    set (r' := set_slot t p (set_ready b) r) in *.
    set (d := mkDuelist t p (ev_user v c') (c' =? rm_host r) b).
    assert (Pl : forall t' p', place r' t' p' = if (t =? t') && (p =? p') then Some (set_ready b s) else place r t' p').
    { intros. unfold r'. rewrite set_slot_place by exact T. rewrite A. reflexivity. }
    apply (note_agrees v r r' d (mirror_of c out) (M c P)).
    + unfold r'. destruct (set_slot_rest r t p (set_ready b)) as (_ & _ & _ & X & _). exact X.
    + exists (set_ready b s), c'. unfold d. cbn [du_team du_pos du_user du_host du_ready]. rewrite Pl, !N.eqb_refl.
      unfold r'. destruct (set_slot_rest r t p (set_ready b)) as (_ & X & _). rewrite X. auto.
    + intros d' N. unfold describes. rewrite Pl. unfold d, same_seat in N. cbn [du_team du_pos] in N. rewrite N.
      unfold r'. destruct (set_slot_rest r t p (set_ready b)) as (_ & X & _). rewrite X. reflexivity.
  - destruct (start_run v r r' o C (sane_drawn v r S C) AR E) as [(d & n & ->) F].
    rewrite hear_first by exact F. apply (agrees_same v r); [apply M; exact P|reflexivity|]. intros; reflexivity.
  - rewrite hear_broadcast by (exact P || (intros; discriminate)). apply M. exact P.
Qed.

Lemma session_mirror : forall v host o l r out, session v host o l = Ok (r, out) ->
  forall c, present r c -> agrees v r (mirror_of c out).
Proof.
  intros v host o l r out H.
  destruct (session_inv v host o (fun r out _ => forall c, present r c -> agrees v r (mirror_of c out))) with (3 := H)
    as [_ K]; [| |exact K].
  - intros c P. apply in_occupants in P. cbn in P. destruct P as [<-|[]].
    unfold mirror_of, heard, first_sent. cbn [filter fst]. rewrite N.eqb_refl. cbn [map snd fold_left hear].
    change (agrees v (first_room host o) ([mkDuelist 0 0 (ev_user v host) true false], 0)).
    pose proof (description_agrees v (first_room host o)) as A.
    cbn in A. rewrite N.eqb_refl in A. exact A.
  - intros r0 out0 done a r' s S IH St c P. eapply mirror_step; eauto.
Qed.
