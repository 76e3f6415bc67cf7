(** Specification vocabulary for the encoder: streams and what a message needs
    from the context. *)
From Verif Require Import Base Place Frame FrameSpec Msg Event EventSpec Query QuerySpec Encode CoreMsg.

Set Implicit Arguments.
Local Open Scope N_scope.

(** The message bytes encode_one claims to handle. *)
Definition handled : list N :=
  [1; 2; 4; 5; 6; 7; 10; 11; 12; 13; 14; 15; 16; 18; 19; 20; 21; 24; 25; 26; 30; 31; 32; 33; 35;
   36; 37; 38; 39; 40; 41; 42; 50; 53; 54; 55; 56; 60; 61; 62; 63; 64; 65; 70; 71; 72; 73; 74; 75;
   76; 80; 81; 83; 90; 91; 92; 93; 94; 96; 97; 100; 101; 102; 110; 111; 112; 113; 114; 120; 130;
   131; 132; 133; 140; 141; 143; 160; 161; 162; 163; 165; 170].

(** The loop around encode_one belongs to the caller: it advances by
    bytes_read and may do anything to the context in between. *)
Fixpoint drain (between : eresult -> ctx -> outcome ctx) (fuel : nat) (c : ctx) (bs : list N)
  : outcome (list eresult) :=
  match bs with
  | [] => Ok []
  | _ =>
      match fuel with
      | O => Diverge
      | S fuel' =>
          let! (r, c') := encode_one c bs in
          let! c'' := between r c' in
          let! l := drain between fuel' c'' (skipn (N.to_nat (r_bytes_read r)) bs) in
          Ok (r :: l)
      end
  end.

(** The usual thing to do in between: the context follows the duel by parsing
    each message it is given. *)
Definition follow (r : eresult) (c : ctx) : outcome ctx :=
  match r_msg r with Some m => ctx_parse m c | None => Ok c end.
(** One core message through encode_one and the parser. *)
Definition feed (c : ctx) (bs : list N) : outcome ctx :=
  let! (r, c') := encode_one c bs in follow r c'.
Definition feed_all (c : ctx) (ms : list core_msg) : outcome ctx :=
  ofold (fun m c => feed c (ser m)) ms c.

(** The contexts a program can have: a new one, after any sequence of encoding
    and parsing. *)
Inductive ctx_sound : ctx -> Prop :=
| sound_value : ctx_sound ctx_value_init
| sound_default : ctx_sound ctx_default_init
| sound_encode : forall c bs r c', ctx_sound c -> encode_one c bs = Ok (r, c') -> ctx_sound c'
| sound_parse : forall c m c', ctx_sound c -> ctx_parse m c = Ok c' -> ctx_sound c'.

(** The graveyard of the player in question has a flag for every card. *)
Definition flags_cover (c : ctx) (con : Z) (announced : N) : Prop :=
  forall who, side_of_con con = Some who ->
  lenN (contents (CPile (who, LGrave)) (ctx_layout c)) <= 8 * announced.

(** Places a move may start from: outside the field, in a pile, or in a zone
    that exists. *)
Definition movable (p : place) : Prop :=
  p_loc p = 0 \/ assocN (p_loc p) pile_table <> None \/ zone_named p <> None.
Definition pile_material (p : place) : Prop :=
  assocN (p_loc p) pile_table <> None /\ (0 <= p_oseq p)%Z.
(** Without its material index. *)
Definition holder (p : place) : place := mkPlace (p_con p) (p_loc p) (p_seq p) (-1).

(** What a message needs from the context: players must exist; a material of a
    card in a pile must belong to a card known to have left the field. *)
Definition ready (c : ctx) (m : core_msg) : Prop :=
  match m with
  | CmWin _ _ => cx_mwr c <> None
  | CmDeckTop con _ _ _ | CmDraw con _ => con < 2
  | CmSwapGraveDeck con _ bits => con < 2 /\ flags_cover c (Z.of_N con) (lenN bits)
  | CmMove _ p _ _ =>
      movable (core_place p) /\
      (pile_material (core_place p) -> exists z, In (holder (core_place p), z) (cx_left c))
  | _ => True
  end.

(** ** What messages do to the duel *)

Definition pile_now (c : ctx) (who : bool) (l : ploc) : list ptr :=
  contents (CPile (who, l)) (ctx_layout c).

(** Nothing but the whereabouts of cards changed. *)
Definition only_moved (c c' : ctx) : Prop :=
  agree_but [MFrame] (cx_board c) (cx_board c') /\
  f_heap (b_frame (cx_board c')) = f_heap (b_frame (cx_board c)) /\
  cx_mwr c' = cx_mwr c /\ cx_left c' = cx_left c /\ cx_deferred c' = cx_deferred c.
(** All containers but these hold what they held. *)
Definition others_kept (ks : list cont) (c c' : ctx) : Prop :=
  forall k, ~ In k ks -> contents k (ctx_layout c') = contents k (ctx_layout c).

(** A bitmap, lowest bit of the first byte first, and the elements it picks. *)
Definition flag_at (bits : list N) (i : nat) : bool :=
  N.testbit (nth (i / 8) bits 0) (N.of_nat (i mod 8)).
Fixpoint pick {A} (want : nat -> bool) (i : nat) (l : list A) : list A :=
  match l with
  | [] => []
  | x :: l' => (if want i then [x] else []) ++ pick want (S i) l'
  end.

(** How many cards lie where after a start message, resp. on one side after a
    field reload. *)
Definition start_count (md0 ed0 md1 ed1 : N) (k : cont) : N :=
  match k with
  | CPile (false, LDeck) => md0
  | CPile (false, LExtra) => ed0
  | CPile (true, LDeck) => md1
  | CPile (true, LExtra) => ed1
  | _ => 0
  end.
(** Where the core keeps a zone. *)
Definition zone_data (z : zloc) (i : nat) (s : cside) : czone :=
  let from (l : list czone) (j : nat) := nth j l None in
  match z with
  | ZMonster => from (sd_monster s) i
  | ZSpell => if (i <? 5)%nat then from (sd_spell s) i else None
  | ZField => if (i <? 1)%nat then from (sd_spell s) (5 + i)%nat else None
  | ZPend => from (sd_spell s) (6 + i)%nat
  | ZSkill => None
  end.
Definition side_count (s : cside) (k : cont) : N :=
  match k with
  | CPile (_, LDeck) => sd_main s
  | CPile (_, LHand) => sd_hand s
  | CPile (_, LGrave) => sd_grave s
  | CPile (_, LBan) => sd_ban s
  | CPile (_, LExtra) => sd_extra s
  | CCard (_, z, i) => match zone_data z i s with Some _ => 1 | None => 0 end
  | CMats (_, z, i) => match zone_data z i s with Some (_, m) => m | None => 0 end
  end.
Definition cont_side (k : cont) : bool :=
  match k with CPile (w, _) | CCard (w, _, _) | CMats (w, _, _) => w end.
Definition reload_count (s0 s1 : cside) (k : cont) : N :=
  side_count (if cont_side k then s1 else s0) k.

(** ** Histories of messages *)

(** [c] is a context, created as [start], that was shown the messages [ms];
    what it parsed in between does not matter. *)
Inductive heard (start : ctx) : ctx -> list core_msg -> Prop :=
| heard_new : heard start start []
| heard_msg : forall c ms m rest r c', heard start c ms -> core_ok m ->
    encode_one c (ser m ++ rest) = Ok (r, c') -> heard start c' (ms ++ [m])
| heard_parse : forall c ms m c', heard start c ms -> ctx_parse m c = Ok c' -> heard start c' ms.

Definition last_kill (ms : list core_msg) : option N :=
  fold_left (fun o m => match m with CmMatchKill r => Some r | _ => o end) ms None.

(** Where a place lies. *)
Definition outside (p : place) : Prop := p_loc p = 0.
Definition in_pile (p : place) : Prop := assocN (p_loc p) pile_table <> None.
Definition as_material (p : place) : Prop := (0 <= p_oseq p)%Z.
(** Materials attached to a card in a pile; cards put on the field. *)
Definition attaches (p q : place) : Prop := ~ outside p /\ in_pile q /\ as_material q.
Definition fields (p q : place) : Prop := ~ outside p /\ ~ outside q /\ ~ in_pile q /\ ~ as_material q.

(** Attached materials that have not reached the field. *)
Inductive waiting : list core_msg -> list place -> Prop :=
| wait_nil : waiting [] []
| wait_attach : forall ms l code p q reason, waiting ms l ->
    attaches (core_place p) (core_place q) ->
    waiting (ms ++ [CmMove code p q reason]) (l ++ [core_place p])
| wait_field : forall ms l code p q reason, waiting ms l ->
    fields (core_place p) (core_place q) -> waiting (ms ++ [CmMove code p q reason]) []
| wait_other : forall ms l m, waiting ms l ->
    (forall code p q reason, m = CmMove code p q reason ->
       ~ attaches (core_place p) (core_place q) /\ ~ fields (core_place p) (core_place q)) ->
    waiting (ms ++ [m]) l.

(** The [i]th material of the card at [q]. *)
Definition material_of (q : place) (i : nat) : place :=
  mkPlace (p_con q) (p_loc q) (p_seq q) (Z.of_nat i).
Lemma place_eq_dec : forall a b : place, {a = b} + {a <> b}.
Proof. decide equality; auto using Z.eq_dec, N.eq_dec. Defined.
(** Moves of the materials [l] to [q]; those already there stay. *)
Fixpoint attach_moves (q : place) (i : nat) (l : list place) : list pair_op :=
  match l with
  | [] => []
  | d :: l' =>
      (if place_eq_dec d (material_of q i) then [] else [mkPair d (material_of q i)])
      ++ attach_moves q (S i) l'
  end.
