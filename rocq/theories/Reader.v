(** The reading primitives of src/codec/edo9300_ocgcore_encode.cpp:57-317.

    A buffer is the list of bytes from the read pointer to the end of the
    allocation.  Reading, skipping or peeking outside of it is undefined
    behaviour.  [log] (57-74) has no effect in the default build. *)
From Verif Require Import Base Place Msg.

Set Implicit Arguments.
Local Open Scope N_scope.

Definition reader (A : Type) : Type := list N -> outcome (A * list N).

Definition rret {A} (a : A) : reader A := fun bs => Ok (a, bs).
Definition rbind {A B} (m : reader A) (k : A -> reader B) : reader B :=
  fun bs => let! (a, bs') := m bs in k a bs'.
(** A computation that does not read. *)
Definition rlift {A} (o : outcome A) : reader A := fun bs => let! a := o in Ok (a, bs).

Declare Scope reader_scope.
Delimit Scope reader_scope with reader.
Notation "x <- m ;; k" := (rbind m (fun x => k))
  (at level 100, m at level 99, k at level 200, right associativity) : reader_scope.
Notation "m ;;; k" := (rbind m (fun _ => k))
  (at level 100, k at level 200, right associativity) : reader_scope.
Open Scope reader_scope.

(** std::memcpy of [n] bytes and the advance of the pointer. *)
Definition rbytes (n : N) : reader (list N) := fun bs =>
  if n <=? lenN bs then Ok (firstn (N.to_nat n) bs, skipn (N.to_nat n) bs) else UB.

(** Little endian value of a byte string. *)
Fixpoint le (l : list N) : N :=
  match l with [] => 0 | b :: l' => b + 256 * le l' end.

(** 78-92, skip (both overloads): [n] is the number of bytes. *)
Definition rskip (n : N) : reader unit := rbytes n ;;; rret tt.
(** 94-103, read<T>: [n] is sizeof(T), the value is the unsigned one. *)
Definition read (n : N) : reader N := b <- rbytes n ;; rret (le b).

(** A [for] loop from 0 to a count, collecting what each iteration adds. *)
Fixpoint rtimes {A} (n : nat) (m : reader A) : reader (list A) :=
  match n with
  | O => rret []
  | S n' => a <- m ;; l <- rtimes n' m ;; rret (a :: l)
  end.
Definition rcount {A} (n : N) (m : reader A) : reader (list A) := rtimes (N.to_nat n) m.
(** The frequent "read a count of [w] bytes, then that many elements". *)
Definition rlist {A} (w : N) (m : reader A) : reader (list A) := n <- read w ;; rcount n m.

(** 111-116 *)
Definition read_bool : reader bool := b <- read 1 ;; rret (negb (b =? 0)).
(** 118-121; Controller is an int (duel/constants/controller.hpp:12). *)
Definition read_con : reader Z := c <- read 1 ;; rret (Z.of_N c).
(** read<int32_t> *)
Definition read_i32 : reader Z := v <- read 4 ;; rret (to_signed 32 v).

(** 161-167 *)
Definition read_counter : reader counter :=
  c <- read 4 ;; rret (mkCounter (N.land c 0xFFFF) (N.shiftr c 16)).

(** 169-175; Effect.code is a uint32 (duel_data.proto:86), so the 44 remaining
    bits are truncated. *)
Definition read_effect : reader effect :=
  ed <- read 8 ;; rret (mkEffect (u32 (N.shiftr ed 20)) (N.land ed 0xFFFFF)).

(** 177-198; the types are unsigned and [seq > 4], so nothing wraps. *)
Definition fix_spell_loc_seq (loc seq : N) : N * N :=
  if negb (N.land loc LOCATION_SPELL_ZONE =? 0) && (4 <? seq) then
    if seq =? 5 then (LOCATION_FIELD_ZONE, seq - 5)
    else (LOCATION_PENDULUM_ZONE, seq - 1 - 5)
  else (loc, seq).

(** 205 *)
Definition LOCATION_OVERLAY : N := 0x80.

(** 200-228, read_loc_info<Loc, Seq, Pos>: [wl] and [ws] are sizeof(Loc) and
    sizeof(Seq), [wp] is sizeof(Pos), or [None] when Pos is void.  [Seq] is
    never void. *)
Definition read_loc_info_ (wl ws : N) (wp : option N) : reader place :=
  con <- read_con ;;
  loc <- read wl ;;
  let loc' := N.ldiff loc LOCATION_OVERLAY in
  seq <- read ws ;;
  let '(floc, fseq) := fix_spell_loc_seq loc' seq in
  match wp with
  | Some w =>
      pos <- read w ;;
      rret (mkPlace con floc fseq
                    (if negb (N.land loc LOCATION_OVERLAY =? 0) then to_signed 32 pos
                     else OSEQ_INVALID))
  | None => rret (mkPlace con floc fseq OSEQ_INVALID)
  end.
(** The three instances in use: <CSLoc, CSeq, CPos>, <CSLoc, CSeq, void> and
    <CSLoc, CSSeq, void>. *)
Definition read_loc_info : reader place := read_loc_info_ 1 4 (Some 4).
Definition read_place4 : reader place := read_loc_info_ 1 4 None.
Definition read_place1 : reader place := read_loc_info_ 1 1 None.

(** 44-45, CORE_LOC_INFO_SIZE. *)
Definition CORE_LOC_INFO_SIZE : N := 10.

(** 230-245, read_card_list<CCount, Loc, CSeq, void> (the five-argument
    version, 247-264, has no caller). *)
Definition read_card_list (wl : N) : reader (list place) :=
  rlist 4 (rskip 4 ;;; read_loc_info_ wl 4 None).

(** 274-317, unpack_zones.  [1U - invert] is converted back to a uint8_t. *)
Definition half_places (con : N) (half : N) : list place :=
  let add (loc : N) (bit : N) (seq : N) : list place :=
    if N.testbit half bit then [] else [mkPlace (Z.of_N con) loc seq OSEQ_INVALID] in
  flat_map (fun s => add LOCATION_MONSTER_ZONE s s) [0; 1; 2; 3; 4; 5; 6]
  ++ flat_map (fun s => add LOCATION_SPELL_ZONE (8 + s) s) [0; 1; 2; 3; 4]
  ++ add LOCATION_FIELD_ZONE 13 0
  ++ flat_map (fun s => add LOCATION_PENDULUM_ZONE (14 + s) s) [0; 1].
Definition unpack_zones (zones invert : N) : list place :=
  half_places invert (u16 zones)
  ++ half_places (of_signed 8 (1 - Z.of_N invert)) (u16 (N.shiftr zones 16)).
