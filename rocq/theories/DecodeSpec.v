(** Specification: how the core reads an answer.  Nothing here refers to the
    model of the decoder's buffer handling. *)
From Verif Require Import Base Place Msg CoreMsg Decode.

Set Implicit Arguments.
Local Open Scope N_scope.

(** Values of byte strings, unsigned and in two's complement. *)
Definition uval (l : list N) : N := fold_right (fun b v => b + 256 * v) 0 l.
Definition sval (l : list N) : Z :=
  let v := Z.of_N (uval l) in
  let m := (2 ^ (8 * Z.of_nat (length l)))%Z in
  if (2 * v <? m)%Z then v else (v - m)%Z.
(** Bytes [at]..[at+w-1], if they are there. *)
Definition part (off w : nat) (l : list N) : option (list N) :=
  if (off + w <=? length l)%nat then Some (firstn w (skipn off l)) else None.

(** One number. *)
Definition core_u32 (l : list N) : option N :=
  if (length l =? 4)%nat then Some (uval l) else None.
Definition core_i32 (l : list N) : option Z :=
  if (length l =? 4)%nat then Some (sval l) else None.

(** A selection: declined, or some indexes. *)
Inductive choice := Declined | Chosen (l : list N).

(** [w]-byte values until the end. *)
Fixpoint chunks (fuel : nat) (w : nat) (l : list N) : list N :=
  match fuel, l with
  | S fuel', _ :: _ => uval (firstn w l) :: chunks fuel' w (skipn w l)
  | _, _ => []
  end.

(** Lists of cards: a format number, 1 for two-byte indexes; the count; the
    indexes. *)
Definition core_cards (l : list N) : option choice :=
  match part 0 4 l with
  | None => None
  | Some t =>
      if (sval t =? -1)%Z then Some Declined
      else if uval t =? 1 then
        match part 4 4 l with
        | None => None
        | Some n =>
            if (length l =? 8 + 2 * N.to_nat (uval n))%nat
            then Some (Chosen (chunks (N.to_nat (uval n)) 2 (skipn 8 l))) else None
        end
      else None
  end.
(** Selecting or unselecting one card: 1, then the index. *)
Definition core_one_card (l : list N) : option choice :=
  match part 0 4 l with
  | None => None
  | Some t =>
      if (sval t =? -1)%Z then Some Declined
      else if uval t =? 1 then
        match part 4 4 l with None => None | Some n => Some (Chosen [uval n]) end
      else None
  end.
(** Orders: one byte for the count, one per index; -1 declines. *)
Definition core_order (l : list N) : option choice :=
  match l with
  | [] => None
  | n :: l' =>
      if (sval [n] =? -1)%Z then Some Declined
      else if (length l' =? N.to_nat n)%nat then Some (Chosen l') else None
  end.

(** ** Commands *)
Inductive command :=
| DoActivate | DoSummon | DoSpsummon | DoReposition | DoMset | DoSset | DoAttack
| DoBattlePhase | DoMainPhase2 | DoEndPhase | DoShuffle.

(** The number of each command: in the main phase, in the battle phase. *)
Definition command_code (battle : bool) (c : command) : option N :=
  if battle then
    match c with
    | DoActivate => Some 0 | DoAttack => Some 1 | DoMainPhase2 => Some 2 | DoEndPhase => Some 3
    | _ => None
    end
  else
    match c with
    | DoSummon => Some 0 | DoSpsummon => Some 1 | DoReposition => Some 2 | DoMset => Some 3
    | DoSset => Some 4 | DoActivate => Some 5 | DoBattlePhase => Some 6 | DoEndPhase => Some 7
    | DoShuffle => Some 8
    | _ => None
    end.
(** The command, and the index of its card, an answer stands for. *)
Inductive stands_for : ans_idle -> command -> N -> Prop :=
| sf_activate : forall i, stands_for (AiAction 0 i) DoActivate i
| sf_summon : forall i, stands_for (AiAction 1 i) DoSummon i
| sf_spsummon : forall i, stands_for (AiAction 2 i) DoSpsummon i
| sf_reposition : forall i, stands_for (AiAction 3 i) DoReposition i
| sf_mset : forall i, stands_for (AiAction 4 i) DoMset i
| sf_sset : forall i, stands_for (AiAction 5 i) DoSset i
| sf_attack : forall i, stands_for (AiAction 6 i) DoAttack i
| sf_battle : stands_for (AiPhase 0x80) DoBattlePhase 0
| sf_main2 : stands_for (AiPhase 0x100) DoMainPhase2 0
| sf_end : stands_for (AiPhase 0x200) DoEndPhase 0
| sf_shuffle : stands_for AiShuffle DoShuffle 0.
(** The core's view of a command answer: number and index. *)
Definition core_command (l : list N) : option (N * N) :=
  match core_u32 l with Some v => Some (v mod 2 ^ 16, v / 2 ^ 16) | None => None end.

(** ** Zones *)

(** The zone that bit [b] of a mask shown to [who] stands for, as the core
    names it: player, location (4 monster, 8 spell), sequence. *)
Definition core_zone (who b : N) : list N :=
  [ if b <? 16 then who else 1 - who; if b mod 16 <? 8 then 4 else 8; b mod 8 ].
(** Neither field zone nor pendulum zone. *)
Definition plain_zone (b : N) : Prop := b mod 16 < 13.

(** Answers that do not fit the request: no or foreign indexes; an idle answer to
    another request; shuffling and phases as actions on a card. *)
Definition misfit (rq : request) (a : answer) : Prop :=
  match a with
  | AnCard (AcIndexes l) => l = [] \/ (forall sc, rq <> RqCard sc)
  | AnIdle i => (forall ri, rq <> RqIdle ri) \/
                (exists x, i = AiAction 7 x \/ i = AiAction 8 x)
  | _ => False
  end.

(** Answers that carry nothing the decoder knows: unset ones, counters, phases
    that the request kind does not know. *)
Definition empty_answer (rq : request) (a : answer) : Prop :=
  match a with
  | AnNotSet | AnCounter _ | AnCard AcNotSet | AnToChain AtNotSet => True
  | AnIdle AiNotSet => exists ri, rq = RqIdle ri
  | AnIdle (AiPhase p) => exists ri, rq = RqIdle ri /\
      N.testbit p 9 = false /\ N.testbit p (if si_is_battle_cmd ri then 8 else 7) = false
  | _ => False
  end.

(** The answers that are a single number, and that number. *)
Definition number_answer (a : answer) : option N :=
  match a with
  | AnAttribute n | AnCardCode n | AnEffect n | AnNumber n | AnPosition n
  | AnToChain (AtIndex n) => Some n
  | AnYesNo b => Some (if b then 1 else 0)
  | _ => None
  end.
