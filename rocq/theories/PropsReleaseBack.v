(** C116: taking events back in builds without assertions. *)
From Verif Require Import Base Place Msg Frame FrameSpec Limbo Event EventSpec Release ReleaseFrameSpec ReleaseBackSpec ReleaseBackLimbo.

Local Open Scope N_scope.

(** An event that adds, removes, moves or exchanges cards or piles, taken back at
    once, gives the board as it was if and only if it put no card on a zone that
    held one ... *)
Theorem C116_undo_iff : forall C (c0 : C) es e ops b b', ofold (rel_uparse c0) es (uboard0 C) = Ok b ->
  moves_of e = Some ops -> rel_uparse c0 e b = Ok b' ->
  ((exists b'', rel_uundo c0 e b' = Ok b'' /\ scene_of b'' = scene_of b) <->
   covers_none c0 ops (lb_frame (b_frame b))).
Proof. intros C c0 es e ops b b' Es M H. eapply undo_exact; eassumption. Qed.
Print Assumptions C116_undo_iff.

(** ... so that removing, exchanging and splicing are always taken back. *)
Theorem C116_undo_always : forall C (c0 : C) es e b b', ofold (rel_uparse c0) es (uboard0 C) = Ok b ->
  (exists r l, e = EvCard r (CardRemove l) \/ (exists l', e = EvCard r (CardExchange l')) \/
    (exists l', e = EvPile r (PileSplice l')) \/ (exists l', e = EvPile r (PileExchange l'))) ->
  rel_uparse c0 e b = Ok b' -> exists b'', rel_uundo c0 e b' = Ok b'' /\ scene_of b'' = scene_of b.
Proof.
  intros C c0 es e b b' Es K H.
  assert (X : exists ops, moves_of e = Some ops /\ Forall (fun o => match o with OpAdd _ | OpMove _ _ => False | _ => True end) ops).
  { destruct K as (r & l & [->|[[l' ->]|[[l' ->]|[l' ->]]]]); cbn [moves_of]; eexists; (split; [reflexivity|]);
      apply Forall_forall; intros o I; apply in_map_iff in I; destruct I as (y & <- & _); exact Logic.I. }
  destruct X as (ops & M & N). apply (proj2 (@undo_exact C c0 es e ops b b' Es M H)). apply none_bury. exact N.
Qed.
Print Assumptions C116_undo_always.

(** Events about life points, turns, phases, blocked zones and chains are taken
    back from any state of the board, with values to redo or without. *)
Theorem C116_values : forall C (c0 : C) e b b', no_cards e -> rel_uparse c0 e b = Ok b' ->
  exists b'', rel_uundo c0 e b' = Ok b'' /\ scene_of b'' = scene_of b.
Proof. intros C c0 e b b' V H. eapply values_back; eassumption. Qed.
Print Assumptions C116_values.

(** A shuffle taken back leaves the board as the shuffle left it: where the
    shuffle changed it, it is not as it was. *)
Theorem C116_shuffle : forall C (c0 : C) r prev cur b b', rel_uparse c0 (EvCard r (CardShuffle prev cur)) b = Ok b' ->
  ((exists b'', rel_uundo c0 (EvCard r (CardShuffle prev cur)) b' = Ok b'' /\ scene_of b'' = scene_of b) <->
   scene_of b' = scene_of b).
Proof.
  intros C c0 r prev cur b b' _.
  assert (E : rel_uundo c0 (EvCard r (CardShuffle prev cur)) b' = Ok b') by (destruct b'; reflexivity).
  rewrite E. split; [intros (b'' & X & S); congruence|eauto].
Qed.
Print Assumptions C116_shuffle.

Definition in_deck (i : N) : place := mkPlace 0 1 i (-1).
Definition in_zone (i : N) : place := mkPlace 0 4 i (-1).

(** Three cards in a deck and one in a zone.  A move to an empty zone and a new
    card next to it are taken back; a move to the zone with the card is not, nor is
    a new card there, though both can be taken back. *)
Example C116_undo_ex : exists b,
  ofold (rel_uparse tt) [EvCard 0 (CardAdd [in_deck 0; in_deck 0; in_deck 0; in_zone 1])] (uboard0 unit) = Ok b /\
  (forall e, In e [ EvCard 0 (CardMove [mkPair (in_deck 1) (in_zone 2); mkPair (in_zone 2) (in_zone 3)]);
                    EvCard 0 (CardAdd [in_zone 2; mkPlace 0 4 1 0]) ] ->
    exists ops b' b'', moves_of e = Some ops /\ rel_uparse tt e b = Ok b' /\ scene_of b' <> scene_of b /\
      rel_uundo tt e b' = Ok b'' /\ scene_of b'' = scene_of b) /\
  (forall e, In e [ EvCard 0 (CardMove [mkPair (in_deck 1) (in_zone 2); mkPair (in_deck 1) (in_zone 1)]);
                    EvCard 0 (CardAdd [in_zone 2; in_zone 2]) ] ->
    exists ops b', moves_of e = Some ops /\ rel_uparse tt e b = Ok b' /\
      ~ covers_none tt ops (lb_frame (b_frame b))) /\
  (let e := EvCard 0 (CardMove [mkPair (in_deck 1) (in_zone 2); mkPair (in_deck 1) (in_zone 1)]) in
   exists b' b'', rel_uparse tt e b = Ok b' /\ rel_uundo tt e b' = Ok b'' /\ scene_of b'' <> scene_of b).
Proof.
  eexists. split; [vm_compute; reflexivity|]. split; [|split].
  - intros e [<-|[<-|[]]]; do 3 eexists; (split; [reflexivity|]); (split; [vm_compute; reflexivity|]); (split; [vm_compute; discriminate|]);
      (split; [vm_compute; reflexivity|]); vm_compute; reflexivity.
  - intros e [<-|[<-|[]]]; do 2 eexists; (split; [reflexivity|]); (split; [vm_compute; reflexivity|]); cbn [map covers_none]; intros [_ X];
      specialize (X _ eq_refl); destruct X as [X _].
    + apply (X 3). split; [vm_compute; discriminate|vm_compute; reflexivity].
    + apply (X 4). vm_compute. reflexivity.
  - cbv zeta. do 2 eexists. split; [vm_compute; reflexivity|]. split; [vm_compute; reflexivity|]. vm_compute. discriminate.
Qed.

(** Removing two cards, exchanging a card with an empty zone and splicing: taken
    back. *)
Example C116_undo_always_ex : exists b,
  ofold (rel_uparse tt) [EvCard 0 (CardAdd [in_deck 0; in_deck 0; in_deck 0; in_zone 1])] (uboard0 unit) = Ok b /\
  forall e, In e [ EvCard 0 (CardRemove [in_deck 1; in_zone 1]);
                   EvCard 0 (CardExchange [mkPair (in_zone 1) (in_zone 2)]);
                   EvPile 0 (PileSplice [mkSplice (in_deck 1) 2 (mkPlace 0 2 0 (-1)) true]);
                   EvPile 0 (PileExchange [mkPair (in_deck 0) (mkPlace 1 2 0 (-1))]) ] ->
    exists b' b'', rel_uparse tt e b = Ok b' /\ scene_of b' <> scene_of b /\
      rel_uundo tt e b' = Ok b'' /\ scene_of b'' = scene_of b.
Proof.
  eexists. split; [vm_compute; reflexivity|].
  intros e [<-|[<-|[<-|[<-|[]]]]]; do 2 eexists; (split; [vm_compute; reflexivity|]); (split; [vm_compute; discriminate|]);
    (split; [vm_compute; reflexivity|]); vm_compute; reflexivity.
Qed.

(** Two cards in zones shuffled, and not taken back. *)
Example C116_shuffle_ex : exists b b' b'',
  ofold (rel_uparse tt) [EvCard 0 (CardAdd [in_zone 1; in_zone 3])] (uboard0 unit) = Ok b /\
  let e := EvCard 0 (CardShuffle [in_zone 1; in_zone 3] [in_zone 3; in_zone 1]) in
  rel_uparse tt e b = Ok b' /\ rel_uundo tt e b' = Ok b'' /\ scene_of b'' <> scene_of b.
Proof.
  do 3 eexists. split; [vm_compute; reflexivity|]. cbv zeta. split; [vm_compute; reflexivity|]. split; [vm_compute; reflexivity|]. vm_compute. discriminate.
Qed.

(** Damage, a turn, a phase: taken back. *)
Example C116_values_ex : exists b,
  ofold (rel_uparse tt) [EvNextTurn 1; EvLp 1 (LpBecome 8000)] (uboard0 unit) = Ok b /\
  forall e, In e [EvLp 1 (LpDamage 700); EvNextTurn 0; EvNextPhase 4; EvZoneBlock [in_zone 2]] -> no_cards e /\
    exists b' b'', rel_uparse tt e b = Ok b' /\ scene_of b' <> scene_of b /\ rel_uundo tt e b' = Ok b'' /\ scene_of b'' = scene_of b.
Proof.
  eexists. split; [vm_compute; reflexivity|]. intros e [<-|[<-|[<-|[<-|[]]]]]; (split; [exact Logic.I|]); do 2 eexists;
    (split; [vm_compute; reflexivity|]); (split; [vm_compute; discriminate|]); (split; [vm_compute; reflexivity|]); vm_compute; reflexivity.
Qed.
