(** The repository's own unit tests (/repo/test), replayed on the model.

    These are tests, not proofs: they check that the model behaves as the code
    is expected to by its authors.  Those of room.cpp
    are in RepoTestsRoom.v.  Each Example is one TEST of the cited file
    and keeps its steps and expectations; tests left as TODO there are skipped,
    and so are those of card.cpp and board.cpp, which only read back members.
    EXPECT_DEATH is read as "an assertion fails" ([Abort]); one such expectation
    is not met, see BadAccessViaCard. *)
From Verif Require Import Base Bit Place Frame Limbo Msg Event Query.

Set Implicit Arguments.
Local Open Scope N_scope.

(** ASSERT_EQ and EXPECT_EQ: a failed expectation makes the test [Ok false]. *)
Definition expect (b : bool) (k : outcome bool) : outcome bool := if b then k else Ok false.
Definition expecting (b : outcome bool) (k : outcome bool) : outcome bool :=
  let! x := b in expect x k.
Notation "'expect!' b ';' k" := (expect b k) (at level 200, b at level 100, k at level 200).
Notation "'expects!' b ';' k" := (expecting b k) (at level 200, b at level 100, k at level 200).
Definition onot (b : outcome bool) : outcome bool := let! x := b in Ok (negb x).
Definition dies {A} (m : outcome A) : bool := match m with Abort => true | _ => false end.

(** ** test/bit.cpp *)

Definition eqN (m : outcome N) (n : N) : bool := match m with Ok x => x =? n | _ => false end.

(** 15-21 *)
Example PopcntWorks :
  eqN (popcnt 0) 0 && eqN (popcnt (2 ^ 32 - 1)) 32 && eqN (popcnt (2 ^ 64 - 1)) 64 &&
  eqN (popcnt 0xA5) 4 = true.
Proof. vm_compute. reflexivity. Qed.
(** 23-30; the arguments are of type unsigned int, 32 digits. *)
Example ChooseLWorks :
  eqN (choosel 32 0 0xFF) 0 && eqN (choosel 32 1 0xFF) 0x80 && eqN (choosel 32 4 0x3F) 0x3C &&
  eqN (choosel 32 2 0x05) 0x05 && eqN (choosel 32 9 0xFF) 0xFF = true.
Proof. vm_compute. reflexivity. Qed.
(** 32-39 *)
Example ChooseRWorks :
  eqN (chooser 32 0 0xFF) 0 && eqN (chooser 32 1 0xFF) 0x01 && eqN (chooser 32 4 0x3F) 0x0F &&
  eqN (chooser 32 2 0xA0) 0xA0 && eqN (chooser 32 9 0xFF) 0xFF = true.
Proof. vm_compute. reflexivity. Qed.

(** ** test/place.cpp *)

(** 14-22 *)
Example ZeroInitializedWorks :
  (p_con place0 =? 0)%Z && is_empty place0 && (p_loc place0 =? LOCATION_UNSPECIFIED) &&
  (p_seq place0 =? 0) && (p_oseq place0 =? 0)%Z = true.
Proof. vm_compute. reflexivity. Qed.
(** 24-57 *)
Definition equivalent (p q : place) : bool := negb (place_less p q) && negb (place_less q p).
Definition greater (p q : place) : bool := negb (place_less p q) && place_less q p.
Example PlaceLessWorks :
  equivalent place0 place0 &&
  greater (mkPlace 1 0 0 0) place0 &&
  equivalent (mkPlace 1 0 0 0) (mkPlace 1 0 0 0) &&
  greater (mkPlace 1 1 0 0) (mkPlace 1 0 0 0) &&
  equivalent (mkPlace 1 1 0 0) (mkPlace 1 1 0 0) &&
  greater (mkPlace 1 1 1 0) (mkPlace 1 1 0 0) &&
  equivalent (mkPlace 1 1 1 0) (mkPlace 1 1 1 0) &&
  greater (mkPlace 1 1 1 1) (mkPlace 1 1 1 0) &&
  equivalent (mkPlace 1 1 1 1) (mkPlace 1 1 1 1) &&
  greater (mkPlace 1 1 1 1) (mkPlace 1 1 1 (-1)) = true.
Proof. vm_compute. reflexivity. Qed.

(** ** test/undoable.cpp *)

(** 20-31 *)
Example AppendingWorks :
  (let v := u_new 0 in
   expect! u_get v =? 0;
   let v := u_set 123 v in
   expect! u_get v =? 123;
   let v := u_set 456 v in
   expect! u_get v =? 456;
   let! v := u_undo v in
   expect! u_get v =? 123;
   let! v := u_undo v in
   expect! u_get v =? 0; Ok true) = Ok true.
Proof. vm_compute. reflexivity. Qed.
(** 33-39 *)
Example NoOpWhenNotAtLast :
  (let v := u_set 123 (u_new 0) in
   let! v := u_undo v in
   let v := u_set 456 v in
   expect! u_get v =? 123; Ok true) = Ok true.
Proof. vm_compute. reflexivity. Qed.
(** 41-49 *)
Example DirectlyEquallyComparable :
  (let v := u_set 123 (u_new 0) in
   expect! u_get v =? 123;
   let v := u_set 456 v in
   expect! u_get v =? 456;
   let! v := u_undo v in
   expect! u_get v =? 123; Ok true) = Ok true.
Proof. vm_compute. reflexivity. Qed.
(** 51-60 *)
Example UndoCalledTooMuchDies :
  dies (let! v := u_undo (u_set 123 (u_new 0)) in u_undo v) = true.
Proof. vm_compute. reflexivity. Qed.

(** ** test/frame.cpp *)

(** What the typed tests use of a frame; 32-42: they are run on BasicFrame and on
    LimboFrame (the type of the cards, int or Empty, plays no role). *)
Record api (F : Type) := mkApi {
  new : F;
  lay : F -> layout;
  card_ : place -> F -> outcome cid;
  add : place -> F -> outcome (cid * F);
  move : place -> place -> F -> outcome (cid * F);
  ops : frame_ops F
}.
Definition plain_api : api (frame unit) :=
  mkApi frame0 (@f_lay unit) (@card_at_place unit) (card_add tt) (@f_card_move unit) (plain_fo tt).
Definition limbo_api : api (limbo unit) :=
  mkApi limbo0 (@lb_lay unit) (fun p w => card_at_place p (lb_frame w)) (l_card_add tt)
    (@l_card_move unit) (limbo_fo tt).

(** 48-52 *)
Definition LOC_ALL : list N :=
  [LOCATION_MAIN_DECK; LOCATION_HAND; LOCATION_MONSTER_ZONE; LOCATION_SPELL_ZONE;
   LOCATION_GRAVEYARD; LOCATION_BANISHED; LOCATION_EXTRA_DECK; LOCATION_FIELD_ZONE;
   LOCATION_PENDULUM_ZONE; LOCATION_SKILL_ZONE].

Definition at_ (loc : N) (oseq : Z) : place := mkPlace 0 loc 0 oseq.
Definition set_oseq (o : Z) (p : place) : place := mkPlace (p_con p) (p_loc p) (p_seq p) o.
Definition ptrs_eqb (a b : list ptr) : bool :=
  (length a =? length b)%nat &&
  forallb (fun x => match x with (Some i, Some j) => i =? j | (None, None) => true | _ => false end)
    (combine a b).
Fixpoint every {A} (l : list A) (f : A -> outcome bool) : outcome bool :=
  match l with [] => Ok true | a :: l' => let! b := f a in if b then every l' f else Ok false end.
Definition upto (n : N) : list N := map N.of_nat (seq 0 (N.to_nat n)).

Section Typed.
Variable F : Type.
Variable A : api F.

Definition has (p : place) (f : F) : outcome bool := has_card p (lay A f).
Definition isnt (p : place) (f : F) : outcome bool := onot (has p f).
(** [&frame.card(p) == c] *)
Definition is_card (p : place) (c : cid) (f : F) : outcome bool :=
  let! x := card_ A p f in Ok (x =? c).
Definition pile (p : place) (f : F) : outcome (list ptr) :=
  let! r := pile_of p in Ok (get_pile r (lay A f)).
Definition zone_at (p : place) (f : F) : outcome zone :=
  let! r := zone_of p in read_zone r (lay A f).

(** 54-81 *)
Definition expect_empty (f : F) : outcome bool :=
  every [0%Z; 1%Z] (fun con => every LOC_ALL (fun loc =>
    if loc_is_pile loc then isnt (mkPlace con loc 0 0) f
    else let! lim := zone_seq_lim loc in
      every (tl (upto lim)) (fun seq => every [OSEQ_INVALID; 0%Z] (fun o =>
        isnt (mkPlace con loc seq o) f)))).

(** 83-86 *)
Definition IsInitializedEmpty : outcome bool := expect_empty (new A).

(** 88-103 *)
Definition AddingAndClearingCardsWork : outcome bool :=
  let fix loop l f :=
    match l with
    | [] => let! f := fo_clear (ops A) f in expect_empty f
    | loc :: l' =>
        let p := at_ loc OSEQ_INVALID in
        expects! isnt p f;
        let! (c, f) := add A p f in
        expects! has p f;
        expects! is_card p c f;
        loop l' f
    end in
  loop LOC_ALL (new A).

(** 105-117 *)
Definition AccessThroughPileObjectWorks : outcome bool :=
  let p := at_ LOCATION_HAND OSEQ_INVALID in
  let! (c, f) := add A p (new A) in
  expects! is_card p c f;
  let! pl := pile p f in
  Ok (ptrs_eqb pl [Some c]).

(** 119-138 *)
Definition AccessThroughZoneObjectWorks : outcome bool :=
  let p := at_ LOCATION_MONSTER_ZONE OSEQ_INVALID in
  let! z := zone_at p (new A) in
  expect! is_null (z_card z);
  let! (c1, f) := add A p (new A) in
  expects! is_card p c1 f;
  let! z := zone_at p f in
  expect! ptrs_eqb [z_card z] [Some c1];
  expect! ptrs_eqb (z_mats z) [];
  let p := set_oseq 0 p in
  let! (c2, f) := add A p f in
  let! z := zone_at p f in
  expects! is_card p c2 f;
  Ok (ptrs_eqb (z_mats z) [Some c2]).

(** 140-160 *)
Definition RemovingCardsWork : outcome bool :=
  let fix loop l f :=
    match l with
    | [] => expect_empty f
    | p :: l' =>
        let! (_, f) := add A p f in
        expects! has p f;
        let! f := fo_remove (ops A) p f in
        expects! isnt p f;
        loop l' f
    end in
  loop (map (fun loc => at_ loc OSEQ_INVALID) LOC_ALL ++ map (fun loc => at_ loc 0) LOC_ALL) (new A).

(** 162-184: twice around the locations, the second time as a material where
    there can be one; the first ten places start at the second location. *)
Definition TrivialCardMovesWork : outcome bool :=
  let round2 := map (fun loc => at_ loc (if loc_is_pile loc then OSEQ_INVALID else 0%Z)) in
  let places := map (fun loc => at_ loc OSEQ_INVALID) (tl LOC_ALL ++ [LOCATION_MAIN_DECK]) ++
                round2 (tl LOC_ALL ++ [LOCATION_MAIN_DECK]) in
  let fix loop l prev c f :=
    match l with
    | [] => Ok true
    | p :: l' =>
        expects! has prev f;
        let! (mc, f) := move A prev p f in
        expects! has p f;
        expect! c =? mc;
        expects! is_card p c f;
        expects! isnt prev f;
        loop l' p c f
    end in
  let p := at_ LOCATION_MAIN_DECK OSEQ_INVALID in
  let! (c, f) := add A p (new A) in
  loop places p c f.

(** 186-242 *)
Definition OverlayCardMovesWork : outcome bool :=
  let p1 := at_ LOCATION_SPELL_ZONE 0 in
  let p2 := mkPlace 0 LOCATION_SPELL_ZONE 1 0 in
  let p3 := at_ LOCATION_GRAVEYARD OSEQ_INVALID in
  let p4 := at_ LOCATION_PENDULUM_ZONE OSEQ_INVALID in
  let fix loop l c f :=
    match l with
    | [] => Ok true
    | (a, b) :: l' =>
        let! (mc, f) := move A a b f in
        expects! isnt a f;
        expects! has b f;
        expect! c =? mc;
        expects! is_card b c f;
        loop l' c f
    end in
  let! (c, f) := add A p1 (new A) in
  loop [(p1, p2); (p2, p1); (p1, p3); (p3, p1); (p1, p4); (p4, p1)] c f.

(** 244-268 *)
Definition basic_swap_test (loc1 : N) (mat1 : bool) (loc2 : N) (mat2 : bool) : outcome bool :=
  let o (m : bool) := if m then 0%Z else OSEQ_INVALID in
  let p1 := mkPlace 0 loc1 0 (o mat1) in
  let p2 := mkPlace 1 loc2 0 (o mat2) in
  let! (c1, f) := add A p1 (new A) in
  let! (c2, f) := add A p2 f in
  expect! negb (c1 =? c2);
  let! f := fo_swap (ops A) p1 p2 f in
  expects! has p1 f; expects! has p2 f;
  expects! is_card p2 c1 f; expects! is_card p1 c2 f;
  let! f := fo_swap (ops A) p2 p1 f in
  expects! has p1 f; expects! has p2 f;
  expects! is_card p1 c1 f; is_card p2 c2 f.

(** 270-304 *)
Definition swaps : outcome bool :=
  expects! basic_swap_test LOCATION_MAIN_DECK false LOCATION_HAND false;
  expects! basic_swap_test LOCATION_EXTRA_DECK false LOCATION_MONSTER_ZONE false;
  expects! basic_swap_test LOCATION_MONSTER_ZONE false LOCATION_SPELL_ZONE false;
  expects! basic_swap_test LOCATION_MONSTER_ZONE true LOCATION_SPELL_ZONE false;
  expects! basic_swap_test LOCATION_PENDULUM_ZONE true LOCATION_GRAVEYARD false;
  basic_swap_test LOCATION_SKILL_ZONE true LOCATION_FIELD_ZONE true.

(** 306-340 *)
Definition ZoneWithOverlaySwapWorks : outcome bool :=
  let p1 := mkPlace 0 LOCATION_MONSTER_ZONE 0 OSEQ_INVALID in
  let po1 := set_oseq 0 p1 in
  let p2 := mkPlace 1 LOCATION_MONSTER_ZONE 0 OSEQ_INVALID in
  let po2 := set_oseq 0 p2 in
  let! (c1, f) := add A p1 (new A) in
  let! (co1, f) := add A po1 f in
  let! (c2, f) := add A p2 f in
  let! (co2, f) := add A po2 f in
  let! f := fo_swap (ops A) p1 p2 f in
  expects! has p1 f; expects! has po1 f; expects! has p2 f; expects! has po2 f;
  expects! is_card p2 c1 f; expects! is_card po2 co1 f;
  expects! is_card p1 c2 f; expects! is_card po1 co2 f;
  let! f := fo_swap (ops A) p2 p1 f in
  expects! has p1 f; expects! has po1 f; expects! has p2 f; expects! has po2 f;
  expects! is_card p1 c1 f; expects! is_card po1 co1 f;
  expects! is_card p2 c2 f; is_card po2 co2 f.

(** 342-360 *)
Definition PileResizingWorks : outcome bool :=
  let p := at_ LOCATION_BANISHED 0 in
  let! l := pile p (new A) in
  expect! ptrs_eqb l [];
  let! f := fo_resize (ops A) p 8 (new A) in
  let! l := pile p f in
  expect! lenN l =? 8;
  expects! every (upto 8) (fun i => has (mkPlace 0 LOCATION_BANISHED i 0) f);
  let! f := fo_resize (ops A) (mkPlace 0 LOCATION_BANISHED 7 0) 0 f in
  let! l := pile p f in
  expect! ptrs_eqb l [];
  expect_empty f.

(** 362-400 *)
Definition PileSplicingWorks : outcome bool :=
  let place1 := at_ LOCATION_MAIN_DECK OSEQ_INVALID in
  let place2 := at_ LOCATION_GRAVEYARD OSEQ_INVALID in
  let place3 := mkPlace 0 LOCATION_GRAVEYARD 4 OSEQ_INVALID in
  let! f := fo_resize (ops A) place1 8 (new A) in
  let! copy := pile place1 f in
  let! f := fo_splice (ops A) place1 4 place1 false f in
  let! l := pile place1 f in
  expect! ptrs_eqb l copy;
  let! f := fo_splice (ops A) place1 4 place1 true f in
  let! l := pile place1 f in
  expect! (length l =? 8)%nat;
  expect! ptrs_eqb (firstn 4 l) (firstn 4 (skipn 4 (rev copy)));
  let! f := fo_splice (ops A) place1 8 place2 true f in
  let! l1 := pile place1 f in
  let! l2 := pile place2 f in
  expect! ptrs_eqb l1 [];
  expect! (length l2 =? 8)%nat;
  expect! ptrs_eqb (firstn 4 l2) (firstn 4 (rev copy));
  expect! ptrs_eqb (skipn 4 l2) (firstn 4 copy);
  let! f := fo_splice (ops A) place2 4 place3 true f in
  let! l2 := pile place2 f in
  Ok (ptrs_eqb l2 copy).

(** 402-423 *)
Definition PileSwapWorks : outcome bool :=
  let place1 := at_ LOCATION_EXTRA_DECK OSEQ_INVALID in
  let place2 := at_ LOCATION_BANISHED OSEQ_INVALID in
  let! f := fo_resize (ops A) place1 4 (new A) in
  let! f := fo_resize (ops A) place2 8 f in
  let! copy1 := pile place1 f in
  let! copy2 := pile place2 f in
  let! f := fo_pile_swap (ops A) place1 place2 f in
  let! l1 := pile place1 f in
  let! l2 := pile place2 f in
  expect! ptrs_eqb l1 copy2; expect! ptrs_eqb l2 copy1;
  let! f := fo_pile_swap (ops A) place2 place1 f in
  let! l1 := pile place1 f in
  let! l2 := pile place2 f in
  expect! ptrs_eqb l1 copy1; Ok (ptrs_eqb l2 copy2).

(** 425-460, the accesses in order.  The test expects every one to die.  The model
    agrees but for the seventh, a location with two bits set (453-455): nothing
    asserts against it, it reaches YGOPEN_UNREACHABLE, which is
    __builtin_unreachable (detail/config.hpp:9-13), so that dying is only one of
    the things that may happen. *)
Definition BadAccessViaCard : outcome (list (outcome cid)) :=
  let! (_, f) := add A (at_ LOCATION_MONSTER_ZONE 0) (new A) in
  let! (_, f) := add A (at_ LOCATION_MAIN_DECK 0) f in
  let! lim := zone_seq_lim LOCATION_MONSTER_ZONE in
  Ok (map (fun p => card_ A p f)
       [mkPlace 2 LOCATION_MAIN_DECK 0 0;
        mkPlace 2 LOCATION_MONSTER_ZONE 0 0;
        mkPlace 0 LOCATION_MONSTER_ZONE 0 1;
        mkPlace 0 LOCATION_MONSTER_ZONE 0 OSEQ_INVALID;
        mkPlace 0 LOCATION_MONSTER_ZONE (lim + 1) OSEQ_INVALID;
        mkPlace 0 LOCATION_UNSPECIFIED 0 OSEQ_INVALID;
        mkPlace 0 3 0 OSEQ_INVALID;
        mkPlace 0 LOCATION_MAIN_DECK 1 OSEQ_INVALID]).

Definition typed_tests : list (outcome bool) :=
  [IsInitializedEmpty; AddingAndClearingCardsWork; AccessThroughPileObjectWorks;
   AccessThroughZoneObjectWorks; RemovingCardsWork; TrivialCardMovesWork; OverlayCardMovesWork;
   swaps; ZoneWithOverlaySwapWorks; PileResizingWorks; PileSplicingWorks; PileSwapWorks].

End Typed.

Example FrameTest_plain : typed_tests plain_api = repeat (Ok true) 12.
Proof. vm_compute. reflexivity. Qed.
Example FrameTest_limbo : typed_tests limbo_api = repeat (Ok true) 12.
Proof. vm_compute. reflexivity. Qed.
Example FrameDeathTest_plain : BadAccessViaCard plain_api =
  Ok [Abort; Abort; Abort; Abort; Abort; Abort; UB; Abort].
Proof. vm_compute. reflexivity. Qed.
Example FrameDeathTest_limbo : BadAccessViaCard limbo_api =
  Ok [Abort; Abort; Abort; Abort; Abort; Abort; UB; Abort].
Proof. vm_compute. reflexivity. Qed.

(** 514-526 *)
Example UndoCardAddWorks :
  (let p := at_ LOCATION_HAND OSEQ_INVALID in
   let! (c, f) := l_card_add tt p limbo0 in
   expects! is_card limbo_api p c f;
   let! (c2, f) := l_undo_card_add p f in
   expect! c =? c2;
   let! (c3, f) := l_card_add tt p f in
   expect! c2 =? c3; Ok true) = Ok true.
Proof. vm_compute. reflexivity. Qed.
(** 528-541 *)
Example UndoCardRemoveWorks :
  (let p := at_ LOCATION_HAND OSEQ_INVALID in
   let! (c, f) := l_card_add tt p limbo0 in
   expects! is_card limbo_api p c f;
   let! f := l_card_remove p f in
   expects! isnt limbo_api p f;
   let! (c2, f) := l_undo_card_remove p f in
   expect! c =? c2; Ok true) = Ok true.
Proof. vm_compute. reflexivity. Qed.

(** ** test/parse_event.cpp *)

(** 44-54: both tests parse and undo an event with nothing set. *)
Example ParseEventTest :
  (let! b := uparse 0 EvNotSet (uboard0 N) in uundo 0 EvNotSet b) = Ok (uboard0 N).
Proof. vm_compute. reflexivity. Qed.

(** ** test/parse_query.cpp *)

(** The five steps every test there has: set, set again without caching, empty
    query, same value with caching, another value with caching.  The frame of
    these tests is a single card, so [parse_data] is what they exercise. *)
Definition field_test {T} (eqb : T -> T -> bool) (get : card -> T) (set : T -> qdata)
  (zero v1 v2 : T) (bit : N) : bool :=
  let c := card0 in
  eqb (get c) zero &&
  (let '(c, h) := parse_data false (set v1) c in
   eqb (get c) v1 && (h =? 0) &&
   (let '(c, h) := parse_data false (set v1) c in
    (h =? 0) &&
    (let '(c, h) := parse_data false qdata0 c in
     eqb (get c) v1 && (h =? 0) &&
     (let '(c, h) := parse_data true (set v1) c in
      eqb (get c) v1 && (h =? bit) &&
      (let '(c, h) := parse_data true (set v2) c in
       eqb (get c) v2 && (h =? 0)))))).

(** 87-113 *)
Example OwnerSettingWorks :
  field_test Z.eqb c_owner (fun x => mkQData None None None None None None None None None None None None None None None (Some x) None None None None None None None None)
    0%Z 1%Z 0%Z 0x40000 = true.
Proof. vm_compute. reflexivity. Qed.
(** 115-141 *)
Example IsPublicSettingWorks :
  field_test Bool.eqb c_is_public (fun x => mkQData None None None None None None None None None None None None None None None None None (Some x) None None None None None None)
    false true false 0x100000 = true.
Proof. vm_compute. reflexivity. Qed.
(** 143-169 *)
Example IsHiddenSettingWorks :
  field_test Bool.eqb c_is_hidden (fun x => mkQData None None None None None None None None None None None None None None None None None None None None None None (Some x) None)
    false true false 0x1000000 = true.
Proof. vm_compute. reflexivity. Qed.
(** 171-197 *)
Example PositionSettingWorks :
  field_test N.eqb c_position (fun x => mkQData None (Some x) None None None None None None None None None None None None None None None None None None None None None None)
    0 12345 67890 0x2 = true.
Proof. vm_compute. reflexivity. Qed.
(** 199-225 *)
Example CoverSettingWorks :
  field_test N.eqb c_cover (fun x => mkQData None None None None None None None None None None None None None None None None None None None None None None None (Some x))
    0 12345 67890 0x2000000 = true.
Proof. vm_compute. reflexivity. Qed.
(** 227-253 *)
Example StatusSettingWorks :
  field_test N.eqb c_status (fun x => mkQData None None None None None None None None None None None None None None None None (Some x) None None None None None None None)
    0 12345 67890 0x80000 = true.
Proof. vm_compute. reflexivity. Qed.
(** 255-281 *)
Example CodeSettingWorks :
  field_test N.eqb c_code (fun x => mkQData (Some x) None None None None None None None None None None None None None None None None None None None None None None None)
    0 12345 67890 0x1 = true.
Proof. vm_compute. reflexivity. Qed.
(** 283-309 *)
Example AliasSettingWorks :
  field_test N.eqb c_alias (fun x => mkQData None None (Some x) None None None None None None None None None None None None None None None None None None None None None)
    0 12345 67890 0x4 = true.
Proof. vm_compute. reflexivity. Qed.
(** 311-337 *)
Example TypeSettingWorks :
  field_test N.eqb c_type (fun x => mkQData None None None (Some x) None None None None None None None None None None None None None None None None None None None None)
    0 12345 67890 0x8 = true.
Proof. vm_compute. reflexivity. Qed.
(** 339-365 *)
Example LevelSettingWorks :
  field_test Z.eqb c_level (fun x => mkQData None None None None (Some x) None None None None None None None None None None None None None None None None None None None)
    0%Z 12345%Z 67890%Z 0x10 = true.
Proof. vm_compute. reflexivity. Qed.
(** 367-393 *)
Example XyzRankSettingWorks :
  field_test N.eqb c_xyz_rank (fun x => mkQData None None None None None (Some x) None None None None None None None None None None None None None None None None None None)
    0 12345 67890 0x20 = true.
Proof. vm_compute. reflexivity. Qed.
(** 395-421 *)
Example AttributeSettingWorks :
  field_test N.eqb c_attribute (fun x => mkQData None None None None None None (Some x) None None None None None None None None None None None None None None None None None)
    0 12345 67890 0x40 = true.
Proof. vm_compute. reflexivity. Qed.
(** 423-449 *)
Example RaceSettingWorks :
  field_test N.eqb c_race (fun x => mkQData None None None None None None None (Some x) None None None None None None None None None None None None None None None None)
    0 12345 67890 0x80 = true.
Proof. vm_compute. reflexivity. Qed.
(** 451-477 *)
Example BaseAtkSettingWorks :
  field_test Z.eqb c_base_atk (fun x => mkQData None None None None None None None None None None (Some x) None None None None None None None None None None None None None)
    0%Z 12345%Z 67890%Z 0x400 = true.
Proof. vm_compute. reflexivity. Qed.
(** 479-505 *)
Example AtkSettingWorks :
  field_test Z.eqb c_atk (fun x => mkQData None None None None None None None None (Some x) None None None None None None None None None None None None None None None)
    0%Z 12345%Z 67890%Z 0x100 = true.
Proof. vm_compute. reflexivity. Qed.
(** 507-533 *)
Example BaseDefSettingWorks :
  field_test Z.eqb c_base_def (fun x => mkQData None None None None None None None None None None None (Some x) None None None None None None None None None None None None)
    0%Z 12345%Z 67890%Z 0x800 = true.
Proof. vm_compute. reflexivity. Qed.
(** 535-561 *)
Example DefSettingWorks :
  field_test Z.eqb c_def (fun x => mkQData None None None None None None None None None (Some x) None None None None None None None None None None None None None None)
    0%Z 12345%Z 67890%Z 0x200 = true.
Proof. vm_compute. reflexivity. Qed.
(** 563-589 *)
Example PendLScaleSettingWorks :
  field_test N.eqb c_pend_l_scale (fun x => mkQData None None None None None None None None None None None None None None None None None None (Some x) None None None None None)
    0 12345 67890 0x200000 = true.
Proof. vm_compute. reflexivity. Qed.
(** 591-617 *)
Example PendRScaleSettingWorks :
  field_test N.eqb c_pend_r_scale (fun x => mkQData None None None None None None None None None None None None None None None None None None None (Some x) None None None None)
    0 12345 67890 0x400000 = true.
Proof. vm_compute. reflexivity. Qed.
(** 619-645 *)
Example LinkRateSettingWorks :
  field_test N.eqb c_link_rate (fun x => mkQData None None None None None None None None None None None None None None None None None None None None (Some x) None None None)
    0 12345 67890 0x100000000 = true.
Proof. vm_compute. reflexivity. Qed.
(** 647-673 *)
Example LinkArrowSettingWorks :
  field_test N.eqb c_link_arrow (fun x => mkQData None None None None None None None None None None None None None None None None None None None None None (Some x) None None)
    0 12345 67890 0x200000000 = true.
Proof. vm_compute. reflexivity. Qed.
