(** Model of decode_one_answer: src/codec/edo9300_ocgcore_decode.cpp. *)
From Verif Require Import Base Place Msg.

Set Implicit Arguments.
Local Open Scope N_scope.

(** ** Answers: include/ygopen/proto/duel_answer.proto *)

(** 24-35.  The values of the two bools do not matter. *)
Inductive ans_card := AcNotSet | AcCancel | AcFinish | AcIndexes (l : list N).

(** 51-85.  Proto3 enumerations are open: an action is any int. *)
Inductive ans_idle :=
| AiNotSet
| AiShuffle
| AiPhase (phase : N)
| AiAction (action : Z) (index : N).
(** 53-64 *)
Definition ACTION_ACTIVATE : Z := 0.
Definition ACTION_SUMMON : Z := 1.
Definition ACTION_SPSUMMON : Z := 2.
Definition ACTION_REPOSITION : Z := 3.
Definition ACTION_MSET : Z := 4.
Definition ACTION_SSET : Z := 5.
Definition ACTION_ATTACK : Z := 6.
Definition ACTION_SHUFFLE : Z := 7.
Definition ACTION_PHASE : Z := 8.

(** 87-97 *)
Inductive ans_chain := AtNotSet | AtNoOp | AtIndex (index : N).
(** 104-113 *)
Inductive ans_sort := AsNotSet | AsSkip | AsIndexes (l : list N).

(** 115-146; counters (37-49) are pairs of index and amount. *)
Inductive answer :=
| AnNotSet
| AnAttribute (attribute : N)
| AnCard (a : ans_card)
| AnCardCode (code : N)
| AnCounter (l : list (N * N))
| AnEffect (index : N)
| AnIdle (a : ans_idle)
| AnNumber (index : N)
| AnPosition (position : N)
| AnRace (race : N)
| AnRps (hand : Z)
| AnToChain (a : ans_chain)
| AnYesNo (yes : bool)
| AnZone (places : list place)
| AnSort (a : ans_sort).

(** ** The output buffer *)

(** std::vector::resize; new elements are zero. *)
Definition resize (n : nat) (out : list N) : list N :=
  firstn n out ++ repeat 0 (n - length out).

(** The object representation of an integer of [w] bytes. *)
Fixpoint rep (w : nat) (v : N) : list N :=
  match w with O => [] | S w' => u8 v :: rep w' (v / 256) end.

(** 19-24, write<T>: [w] is sizeof(T), [ptr] an offset into the vector.  Writing
    past its end is undefined. *)
Definition write (w : nat) (v : Z) (st : list N * nat) : outcome (list N * nat) :=
  let '(out, ptr) := st in
  if (ptr + w <=? length out)%nat
  then Ok (firstn ptr out ++ rep w (of_signed (8 * N.of_nat w) v) ++ skipn (ptr + w) out, (ptr + w)%nat)
  else UB.

(** 32-37, response_i; the cast to int32_t wraps. *)
Definition response_i (v : Z) (out : list N) : outcome (list N) :=
  let! (out', _) := write 4 v (resize 4 out, 0%nat) in Ok out'.

(** ** The cases *)

(** duel/constants/phase.hpp *)
Definition DPHASE_BATTLE : N := 0x80.
Definition DPHASE_MAIN_2 : N := 0x100.
Definition DPHASE_END : N := 0x200.

(** 46-88, kSelectCard.  The sizes are those of a protobuf list, below 2^31. *)
Definition decode_card (rq : request) (a : ans_card) (out : list N) : outcome (list N) :=
  match a with
  | AcCancel | AcFinish => response_i (-1) out
  | AcIndexes l =>
      assert_ (negb (lenN l =? 0)) ;;!
      let! unselect :=
        (match rq with
         | RqCard (ScRecursive _ _ _ _ _ _) => Ok true
         | RqCard _ => Ok false
         | _ => Abort
         end) in
      if (unselect : bool) then
        let! st := write 4 1 (resize 8 out, 0%nat) in
        let! first := or_ub (nth_error l 0) in
        let! (out', _) := write 4 (Z.of_N first) st in
        Ok out'
      else
        let! st := write 4 1 (resize (8 + 2 * length l) out, 0%nat) in
        let! st := write 4 (Z.of_nat (length l)) st in
        let! (out', _) := ofold (fun i => write 2 (Z.of_N i)) l st in
        Ok out'
  | AcNotSet => Ok out
  end.

(** 105-166, kSelectIdle. *)
Definition has_flag (v m : N) : bool := negb (N.land v m =? 0).
Definition action_type (battle : bool) (act : Z) : N :=
  if (act =? ACTION_ACTIVATE)%Z then (if battle then 0 else 5)
  else if (act =? ACTION_SUMMON)%Z then 0
  else if (act =? ACTION_SPSUMMON)%Z then 1
  else if (act =? ACTION_REPOSITION)%Z then 2
  else if (act =? ACTION_MSET)%Z then 3
  else if (act =? ACTION_SSET)%Z then 4
  else 1.
Definition decode_idle (rq : request) (a : ans_idle) (out : list N) : outcome (list N) :=
  match rq with
  | RqIdle ri =>
      let battle := si_is_battle_cmd ri in
      match a with
      | AiShuffle => response_i 8 out
      | AiPhase p =>
          if battle then
            let! out1 := (if has_flag p DPHASE_MAIN_2 then response_i 2 out else Ok out) in
            if has_flag p DPHASE_END then response_i 3 out1 else Ok out1
          else if has_flag p DPHASE_BATTLE then response_i 6 out
          else if has_flag p DPHASE_END then response_i 7 out
          else Ok out
      | AiAction act s =>
          assert_ (negb (act =? ACTION_SHUFFLE)%Z) ;;!
          assert_ (negb (act =? ACTION_PHASE)%Z) ;;!
          let t := action_type battle act in
          response_i (Z.of_N (N.lor (u32 (N.shiftl (N.land s 0xFFFF) 16)) (N.land t 0xFFFF))) out
      | AiNotSet => Ok out
      end
  | _ => Abort
  end.

(** 209-221, kSelectZone. *)
Definition write_place (p : place) (st : list N * nat) : outcome (list N * nat) :=
  let! st := write 1 (p_con p) st in
  let! st := write 1 (Z.of_N (p_loc p)) st in
  write 1 (Z.of_N (p_seq p)) st.
Definition decode_zone (l : list place) (out : list N) : outcome (list N) :=
  let! (out', _) := ofold write_place l (resize (3 * length l) out, 0%nat) in Ok out'.

(** 222-237, kSort; an unset answer has an empty list of indexes. *)
Definition decode_sort (a : ans_sort) (out : list N) : outcome (list N) :=
  match a with
  | AsSkip => response_i (-1) out
  | AsNotSet | AsIndexes _ =>
      let l := match a with AsIndexes l => l | _ => [] end in
      let! st := write 1 (Z.of_nat (length l)) (resize (1 + length l) out, 0%nat) in
      let! (out', _) := ofold (fun i => write 1 (Z.of_N i)) l st in
      Ok out'
  end.

(** 28-241 *)
Definition decode_one_answer (rq : request) (a : answer) (out : list N) : outcome (list N) :=
  match a with
  | AnAttribute n | AnCardCode n | AnEffect n | AnNumber n | AnPosition n | AnRace n =>
      response_i (Z.of_N n) out
  | AnCard c => decode_card rq c out
  | AnCounter _ => Ok out
  | AnIdle i => decode_idle rq i out
  | AnRps h => response_i h out
  | AnToChain AtNoOp => response_i (-1) out
  | AnToChain (AtIndex i) => response_i (Z.of_N i) out
  | AnToChain AtNotSet => Ok out
  | AnYesNo b => response_i (if b then 1 else 0) out
  | AnZone l => decode_zone l out
  | AnSort s => decode_sort s out
  | AnNotSet => Ok out
  end.
