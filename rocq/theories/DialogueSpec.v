(** Specification of a dialogue: the core asks a question, the client sees the
    encoded request and answers, the core reads the decoded answer.

    What the core may be told, and how it reads it, is written here in its own
    terms, from the message it sent; what a client may answer is written from
    the request alone. *)
From Verif Require Import Base BitSpec Place Msg CoreMsg Decode DecodeSpec.

Set Implicit Arguments.
Local Open Scope N_scope.

(** ** The core's side *)
Inductive cmove :=
| MvMask (mask : N)                   (* attributes, races *)
| MvIndex (i : N)                     (* a number, an option, a chain link *)
| MvPosition (pos : N)
| MvHand (h : Z)
| MvYes (b : bool)
| MvPass                              (* declining *)
| MvCards (l : list N)
| MvCommand (c : command) (i : N)
| MvZones (bits : list N)             (* as bits of the mask of the question *)
| MvOrder (l : list N).

(** [n] of the bits of [avail]. *)
Definition some_bits (n avail x : N) : Prop := hamming 64 x = n /\ x < 2 ^ 64 /\ N.ldiff x avail = 0.
(** Different cards out of [size]. *)
Definition some_cards (size : N) (l : list N) : Prop := NoDup l /\ Forall (fun i => i < size) l.
Definition between (min max : N) (l : list N) : Prop := min <= lenN l <= max.
(** Tributes may count as more than one. *)
Definition worth (ws : list N) (l : list N) : N := fold_right (fun i s => nth (N.to_nat i) ws 0 + s) 0 l.
Definition an_order (size : N) (l : list N) : Prop := some_cards size l /\ lenN l = size.

Definition allowed (m : core_msg) (v : cmove) : Prop :=
  match m, v with
  | CmAnnounceAttrib _ n avail, MvMask x | CmAnnounceRace _ n avail, MvMask x => some_bits n avail x
  | CmAnnounceNumber _ l, MvIndex i => i < lenN l
  | CmSelectOption _ l, MvIndex i => i < lenN l
  | CmSelectCard _ _ min max l, MvCards is => some_cards (lenN l) is /\ between min max is
  | CmSelectCard _ cancel _ _ _, MvPass => cancel = true
  | CmSelectUnselectCard _ _ _ _ _ l l', MvCards [i] => i < lenN l + lenN l'
  | CmSelectUnselectCard _ finish accept _ _ _ _, MvPass => finish = true \/ accept = true
  | CmSelectTribute _ _ min max l, MvCards is =>
      some_cards (lenN l) is /\ lenN is <= max /\ min <= worth (map snd l) is
  | CmSelectTribute _ cancel _ _ _, MvPass => cancel = true
  | CmSelectBattlecmd _ l l' mp2 ep, MvCommand c i =>
      match c with
      | DoActivate => i < lenN l
      | DoAttack => i < lenN l'
      | DoMainPhase2 => mp2 = true /\ i = 0
      | DoEndPhase => ep = true /\ i = 0
      | _ => False
      end
  | CmSelectIdlecmd _ l1 l2 l3 l4 l5 l6 bp ep sh, MvCommand c i =>
      match c with
      | DoSummon => i < lenN l1
      | DoSpsummon => i < lenN l2
      | DoReposition => i < lenN l3
      | DoMset => i < lenN l4
      | DoSset => i < lenN l5
      | DoActivate => i < lenN l6
      | DoBattlePhase => bp = true /\ i = 0
      | DoEndPhase => ep = true /\ i = 0
      | DoShuffle => sh = true /\ i = 0
      | _ => False
      end
  | CmSelectPosition _ _ avail, MvPosition p => exists k, p = 2 ^ k /\ N.testbit avail k = true
  | CmRockPaperScissors _, MvHand h => (1 <= h <= 3)%Z
  | CmSelectChain _ _ _ _ _ l, MvIndex i => i < lenN l
  | CmSelectChain _ _ forced _ _ _, MvPass => forced = false
  | CmSelectEffectyn _ _ _, MvYes _ | CmSelectYesno _ _, MvYes _ => True
  | CmSelectPlace _ n mask, MvZones bs | CmSelectDisfield _ n mask, MvZones bs =>
      NoDup bs /\ lenN bs = n /\
      Forall (fun b => In b (map fst (mask_table 0)) /\ N.testbit mask b = false) bs
  | CmSortChain _ l, MvOrder o | CmSortCard _ l, MvOrder o => an_order (lenN l) o
  | CmSortChain _ _, MvPass | CmSortCard _ _, MvPass => True
  | _, _ => False
  end.

(** Reading an answer. *)
Definition commands : list command :=
  [ DoActivate; DoSummon; DoSpsummon; DoReposition; DoMset; DoSset; DoAttack;
    DoBattlePhase; DoMainPhase2; DoEndPhase; DoShuffle ].
Definition command_of (battle : bool) (t : N) : option command :=
  find (fun c => match command_code battle c with Some t' => t' =? t | None => false end) commands.
Definition heard_command (battle : bool) (bs : list N) : option cmove :=
  match core_command bs with
  | Some (t, i) => option_map (fun c => MvCommand c i) (command_of battle t)
  | None => None
  end.
Definition heard_choice (f : list N -> cmove) (o : option choice) : option cmove :=
  match o with Some Declined => Some MvPass | Some (Chosen l) => Some (f l) | None => None end.
(** A zone: player, location, sequence. *)
Definition zone_bit (who con loc seq : N) : option N :=
  if (con <? 2) && ((loc =? 4) || (loc =? 8)) && (seq <? 8)
  then Some ((if con =? who then 0 else 16) + (if loc =? 4 then 0 else 8) + seq) else None.
Fixpoint heard_zones (who : N) (bs : list N) : option (list N) :=
  match bs with
  | [] => Some []
  | c :: l :: s :: bs' =>
      match zone_bit who c l s, heard_zones who bs' with
      | Some b, Some r => Some (b :: r)
      | _, _ => None
      end
  | _ => None
  end.

Definition heard (m : core_msg) (bs : list N) : option cmove :=
  match m with
  | CmAnnounceAttrib _ _ _ => option_map MvMask (core_u32 bs)
  | CmAnnounceRace _ _ _ =>
      (* eight bytes; missing ones are zero *)
      if (length bs <=? 8)%nat then Some (MvMask (uval bs)) else None
  | CmAnnounceNumber _ _ | CmSelectOption _ _ => option_map MvIndex (core_u32 bs)
  | CmSelectCard _ _ _ _ _ | CmSelectTribute _ _ _ _ _ => heard_choice MvCards (core_cards bs)
  | CmSelectUnselectCard _ _ _ _ _ _ _ => heard_choice MvCards (core_one_card bs)
  | CmSelectBattlecmd _ _ _ _ _ => heard_command true bs
  | CmSelectIdlecmd _ _ _ _ _ _ _ _ _ _ => heard_command false bs
  | CmSelectPosition _ _ _ => option_map MvPosition (core_u32 bs)
  | CmRockPaperScissors _ => option_map MvHand (core_i32 bs)
  | CmSelectChain _ _ _ _ _ _ =>
      match core_i32 bs, core_u32 bs with
      | Some z, Some n => Some (if (z =? -1)%Z then MvPass else MvIndex n)
      | _, _ => None
      end
  | CmSelectEffectyn _ _ _ | CmSelectYesno _ _ =>
      match core_u32 bs with
      | Some 0 => Some (MvYes false)
      | Some 1 => Some (MvYes true)
      | _ => None
      end
  | CmSelectPlace to _ _ | CmSelectDisfield to _ _ => option_map MvZones (heard_zones to bs)
  | CmSortChain _ _ | CmSortCard _ _ => heard_choice MvOrder (core_order bs)
  | _ => None
  end.

(** ** The client's side *)

(** Which answers respect a request. *)
Definition picks (rq : request) (a : answer) : Prop :=
  match rq, a with
  | RqAttribute n avail, AnAttribute x | RqRace n avail, AnRace x => some_bits n avail x
  | RqNumber _ l, AnNumber i => i < lenN l
  | RqEffect _ l, AnEffect i => i < lenN l
  | RqCard (ScLimbo _ min max l), AnCard (AcIndexes is) => some_cards (lenN l) is /\ between min max is
  | RqCard (ScUniqueRange _ min max l), AnCard (AcIndexes is) => some_cards (lenN l) is /\ between min max is
  | RqCard (ScLimbo cancel _ _ _), AnCard AcCancel
  | RqCard (ScUniqueRange cancel _ _ _), AnCard AcCancel
  | RqCard (ScUniqueTributes cancel _ _ _), AnCard AcCancel => cancel = true
  | RqCard (ScRecursive _ _ _ _ l l'), AnCard (AcIndexes [i]) => i < lenN l + lenN l'
  | RqCard (ScRecursive finish _ _ _ _ _), AnCard AcFinish => finish = true
  | RqCard (ScRecursive _ accept _ _ _ _), AnCard AcCancel => accept = true
  | RqCard (ScUniqueTributes _ min max l), AnCard (AcIndexes is) =>
      some_cards (lenN l) is /\ lenN is <= max /\ min <= worth (map tb_count_as l) is
  | RqIdle ri, AnIdle i =>
      match i with
      | AiAction 0 x => x < lenN (si_activable ri)
      | AiAction 1 x => x < lenN (si_summonable ri)
      | AiAction 2 x => x < lenN (si_spsummonable ri)
      | AiAction 3 x => x < lenN (si_repositionable ri)
      | AiAction 4 x => x < lenN (si_msetable ri)
      | AiAction 5 x => x < lenN (si_ssetable ri)
      | AiAction 6 x => x < lenN (si_can_attack ri)
      | AiPhase p => In p [0x80; 0x100; 0x200] /\ N.land p (si_phase ri) = p
      | AiShuffle => si_can_shuffle ri = true
      | _ => False
      end
  | RqPosition _ _ avail, AnPosition p => exists k, p = 2 ^ k /\ N.testbit avail k = true
  | RqRps _, AnRps h => (1 <= h <= 3)%Z
  | RqToChain _ _ l, AnToChain (AtIndex i) => i < lenN l
  | RqToChain forced _ _, AnToChain AtNoOp => forced = false
  | RqYesNo _ _ _, AnYesNo _ => True
  | RqZone _ n l, AnZone ps => NoDup ps /\ lenN ps = n /\ Forall (fun p => In p l) ps
  | RqSort l, AnSort (AsIndexes o) => an_order (lenN l) o
  | RqSort _, AnSort AsSkip => True
  | _, _ => False
  end.

(** Answers the formats have room for, and zones other than field and pendulum
    zones: see C54 to C58. *)
Definition fits (a : answer) : Prop :=
  match a with
  | AnRace x => x < 2 ^ 32
  | AnCard (AcIndexes l) => l <> [] /\ lenN l < 2 ^ 31 /\ Forall (fun i => i < 2 ^ 16) l
  | AnIdle (AiAction _ i) => i < 2 ^ 16
  | AnZone ps => Forall (fun p => p_loc p = 0x4 \/ p_loc p = 0x8) ps
  | AnSort (AsIndexes l) => lenN l < 255
  | _ => True
  end.

(** ** What an answer to a question means *)
Definition means (m : core_msg) (a : answer) (v : cmove) : Prop :=
  match a, v with
  | AnAttribute x, MvMask y | AnRace x, MvMask y => x = y
  | AnNumber i, MvIndex j | AnEffect i, MvIndex j | AnToChain (AtIndex i), MvIndex j => i = j
  | AnToChain AtNoOp, MvPass | AnCard AcCancel, MvPass | AnCard AcFinish, MvPass
  | AnSort AsSkip, MvPass => True
  | AnCard (AcIndexes l), MvCards l' => l = l'
  | AnIdle i, MvCommand c x => stands_for i c x
  | AnPosition p, MvPosition q => p = q
  | AnRps h, MvHand h' => h = h'
  | AnYesNo b, MvYes b' => b = b'
  | AnZone ps, MvZones bs =>
      match m with
      | CmSelectPlace to _ _ | CmSelectDisfield to _ _ =>
          Forall2 (fun p b => In (b, p) (mask_table to)) ps bs
      | _ => False
      end
  | AnSort (AsIndexes l), MvOrder l' => l = l'
  | _, _ => False
  end.
