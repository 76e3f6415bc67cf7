(** Model of the room: include/ygopen/server/room.hpp.

    Clients are numbers (the addresses of the ClientType objects).  Sending is
    modelled by the list of pairs of recipient and event, in order. *)
From Verif Require Import Base.

Set Implicit Arguments.
Local Open Scope N_scope.

Definition text := list N.

(** ** Messages *)

(** include/ygopen/proto/user.proto:14-22 *)
Record user := mkUser { us_id : text; us_name : text }.

(** include/ygopen/proto/deck.proto:22-37; the Data submessage is inlined, an
    absent one being read as an empty one. *)
Record deck := mkDeck {
  dk_main : list N; dk_extra : list N; dk_side : list N; dk_useful : list N;
  dk_title : text; dk_banlist : text; dk_notes : text }.
Definition deck0 : deck := mkDeck [] [] [] [] [] [] [].

(** deck.proto:52-118, the five kinds of complaint; enumerations are open. *)
Record deck_error := mkDeckError {
  er_banlisted : option (list (Z * N));
  er_copies : option (list N);
  er_invalid : option (list N);
  er_mixed : option (list N * list N);
  er_limit : option (Z * Z * N * N) }.

(** include/ygopen/proto/banlist.proto:14-25 *)
Record banlist := mkBanlist {
  bl_id : text; bl_forbidden : list N; bl_limited : list N; bl_semilimited : list N;
  bl_whitelist : list N; bl_title : text; bl_notes : text }.

(** include/ygopen/proto/room.proto:52-71; DeckLimits (deck.proto:39-50) as three
    optional pairs of minimum and maximum, the oneof as a sum. *)
Inductive banlist_choice := BanNotSet | BanId (id : text) | BanCustom (b : banlist).
Record options := mkOptions {
  op_max : list N;
  op_limits : option (option (N * Z) * option (N * Z) * option (N * Z));
  op_banlist : banlist_choice;
  op_ftdm : Z }.
(** The getter of a oneof member gives the default when another one is set. *)
Definition banlist_id (o : options) : text :=
  match op_banlist o with BanId i => i | _ => [] end.

(** room.proto:31-41 *)
Definition FTDM_HOST_CHOOSES : Z := 0.
Definition FTDM_RPS : Z := 1.
Definition FTDM_DICE : Z := 2.
Definition FTDM_COIN : Z := 3.
(** The sentinels protoc adds to an open enumeration. *)
Definition FTDM_INT_MIN : Z := - 2 ^ 31.
Definition FTDM_INT_MAX : Z := 2 ^ 31 - 1.

(** room.proto:43-50 *)
Record duelist := mkDuelist {
  du_team : N; du_pos : N; du_user : user; du_host : bool; du_ready : bool }.

(** room.proto:73-176.  The unset cases of the oneofs and the Dueling events are
    left out: the room never builds them. *)
Inductive conf_event :=
| CeEntering (o : option options) (l : list duelist) (spectators : N)
| CeDuelistEnters (d : duelist)
| CeUpdateDuelist (d : duelist)
| CeDeckStatus (error : option deck_error).
Inductive how := HowNotSet | HowDice (l : list (N * N)) | HowCoin (side : N).
Inductive first_event :=
| FeEntering
| FeDecide (b : bool)
| FeResult (team : N) (h : how).
Inductive event :=
| EvConf (e : conf_event)
| EvFirst (e : first_event)
| EvSpectators (count : N).

(** room.proto:178-204 *)
Inductive conf_signal := CsNotSet | CsUpdateDeck (d : deck) | CsReady (b : bool) | CsStart (b : bool).
Inductive first_signal := FsNotSet | FsTeam (team : N).
Inductive signal := SgNotSet | SgConf (s : conf_signal) | SgFirst (s : first_signal).

(** ** What the room is given *)

(** 20-63: what the clients answer to fill_user (taken to be constant), the deck
    validator's verdict and its error message, the values the random number
    generator returns, in order.  [ev_fuel] bounds the dice loop. *)
Record env := mkEnv {
  ev_user : N -> user;
  ev_check : text -> deck -> bool * deck_error;
  ev_rng : nat -> N;
  ev_fuel : nat }.

(** ** State *)

(** 137-147 *)
Record slot := mkSlot { sl_valid : bool; sl_ready : bool; sl_client : option N; sl_deck : deck }.
Definition slot0 : slot := mkSlot false false None deck0.
Definition set_client (c : N) (s : slot) := mkSlot (sl_valid s) (sl_ready s) (Some c) (sl_deck s).
Definition set_deck (v : bool) (d : deck) (s : slot) := mkSlot v (sl_ready s) (sl_client s) d.
Definition set_ready (b : bool) (s : slot) := mkSlot (sl_valid s) b (sl_client s) (sl_deck s).

(** 172-187 *)
Inductive rstate := Monostate | Configuring | Deciding (decider : option N).

(** 156-188; teams_ is an array of two arrays of three slots, spectators_ a set
    (its order, that of the addresses, decides only in which order different
    clients are sent the same event).  [rm_drawn] counts the random numbers used. *)
Record room := mkRoom {
  rm_drawn : nat;
  rm_options : options;
  rm_host : N;
  rm_team0 : list slot;
  rm_team1 : list slot;
  rm_spectators : list N;
  rm_state : rstate }.
Definition set_options o r := mkRoom (rm_drawn r) o (rm_host r) (rm_team0 r) (rm_team1 r) (rm_spectators r) (rm_state r).
Definition set_state s r := mkRoom (rm_drawn r) (rm_options r) (rm_host r) (rm_team0 r) (rm_team1 r) (rm_spectators r) s.
Definition set_drawn n r := mkRoom n (rm_options r) (rm_host r) (rm_team0 r) (rm_team1 r) (rm_spectators r) (rm_state r).
Definition set_spectators l r := mkRoom (rm_drawn r) (rm_options r) (rm_host r) (rm_team0 r) (rm_team1 r) l (rm_state r).
Definition set_slot (t p : N) (f : slot -> slot) (r : room) : room :=
  let change l := match nth_error l (N.to_nat p) with Some s => upd (N.to_nat p) (f s) l | None => l end in
  if t =? 0
  then mkRoom (rm_drawn r) (rm_options r) (rm_host r) (change (rm_team0 r)) (rm_team1 r) (rm_spectators r) (rm_state r)
  else mkRoom (rm_drawn r) (rm_options r) (rm_host r) (rm_team0 r) (change (rm_team1 r)) (rm_spectators r) (rm_state r).

(** What is sent, and the room afterwards. *)
Definition sent := list (N * event).
Definition result := outcome (room * sent).

(** ** Sending: 195-217 *)
Fixpoint send_team (l : list slot) (e : event) : sent :=
  match l with
  | [] => []
  | s :: l' => match sl_client s with Some c => (c, e) :: send_team l' e | None => send_team l' e end
  end.
Definition send_spectators (r : room) (e : event) : sent := map (fun c => (c, e)) (rm_spectators r).
Definition send_all (r : room) (e : event) : sent :=
  send_team (rm_team0 r) e ++ send_team (rm_team1 r) e ++ send_spectators r e.

(** ** Options: 219-226 *)
Definition clamp (v : N) : N := if v <? 1 then 1 else if 3 <? v then 3 else v.
Definition resize_max (l : list N) : list N := firstn 2 l ++ repeat 1 (2 - length l).
Definition clamp_options (o : options) : options :=
  mkOptions (map clamp (resize_max (op_max o))) (op_limits o) (op_banlist o) (op_ftdm o).

(** max_duelists[team]; an index past the end is undefined. *)
Definition max_of (r : room) (t : N) : outcome N := or_ub (nth_error (op_max (rm_options r)) (N.to_nat t)).

(** ** Deciding the first turn *)

(** 263-270, get_team_leader; 269 is unreachable. *)
Fixpoint team_leader (l : list slot) : outcome N :=
  match l with
  | [] => UB
  | s :: l' => match sl_client s with Some c => Ok c | None => team_leader l' end
  end.
Definition get_team_leader (r : room) (t : N) : outcome N :=
  assert_ (t <? 2) ;;! team_leader (if t =? 0 then rm_team0 r else rm_team1 r).

(** 271-278, send_choose_signal. *)
Definition send_choose (c : N) (r : room) : room * sent :=
  (set_state (Deciding (Some c)) r, [(c, EvFirst (FeDecide true))]).

(** 294-297, roll_next_die. *)
Definition die (v : N) : N := v mod 6 + 1.
(** 301-312: the loop, from the [k]th random number on; gives the rolls, the
    winner and how many random numbers were used by then. *)
Fixpoint roll_dice (rng : nat -> N) (fuel : nat) (k : nat) : outcome (list (N * N) * N * nat) :=
  match fuel with
  | O => Diverge
  | S fuel' =>
      let d0 := die (rng k) in
      let d1 := die (rng (S k)) in
      if negb (d0 =? d1) then Ok ([(d0, d1)], (if d0 <? d1 then 1 else 0), S (S k))
      else
        let! (l, w, n) := roll_dice rng fuel' (S (S k)) in
        Ok ((d0, d1) :: l, w, n)
  end.

(** 259-334; the state object itself has been created by enter_state_. *)
Definition on_enter_deciding (v : env) (r : room) : result :=
  let out := send_all r (EvFirst FeEntering) in
  let m := op_ftdm (rm_options r) in
  if (m =? FTDM_HOST_CHOOSES)%Z then
    let '(r, o) := send_choose (rm_host r) r in Ok (r, out ++ o)
  else if (m =? FTDM_RPS)%Z then Ok (r, out)
  else if (m =? FTDM_DICE)%Z then
    let! (l, w, n) := roll_dice (ev_rng v) (ev_fuel v) (rm_drawn r) in
    let r := set_drawn n r in
    let out := out ++ send_all r (EvFirst (FeResult w (HowDice l))) in
    let! c := get_team_leader r w in
    let '(r, o) := send_choose c r in Ok (r, out ++ o)
  else if (m =? FTDM_COIN)%Z then
    let w := ev_rng v (rm_drawn r) mod 2 in
    let r := set_drawn (S (rm_drawn r)) r in
    let out := out ++ send_all r (EvFirst (FeResult w (HowCoin w))) in
    let! c := get_team_leader r w in
    let '(r, o) := send_choose c r in Ok (r, out ++ o)
  else if (m =? FTDM_INT_MIN)%Z || (m =? FTDM_INT_MAX)%Z then UB
  else Ok (r, out).

(** 228-236: std::variant::index of the state. *)
Definition state_index (s : rstate) : N :=
  match s with Monostate => 0 | Configuring => 1 | Deciding _ => 2 end.
(** enter_state_<DecidingFirstTurn> *)
Definition enter_deciding (v : env) (r : room) : result :=
  let r' := set_state (Deciding None) r in
  assert_ (negb (state_index (rm_state r) =? state_index (rm_state r'))) ;;!
  on_enter_deciding v r'.
(** enter_state_<Configuring>, with 245-257. *)
Definition enter_configuring (r : room) : result :=
  let r' := set_state Configuring r in
  assert_ (negb (state_index (rm_state r) =? state_index (rm_state r'))) ;;!
  Ok (r', send_all r' (EvConf (CeEntering None [] 0))).

(** ** Entering *)

(** 346-390, find_empty_duelist_slot.  355-363: one team; the counters are
    duelist_count[team] and first_empty_pos[team], -1 being [None]. *)
Fixpoint scan_team (l : list slot) (pos max count : N) (first : option N) : N * option N :=
  match l with
  | [] => (count, first)
  | s :: l' =>
      let '(count, first) :=
        match sl_client s with
        | Some _ => (count + 1, first)
        | None => (count, match first with None => Some pos | Some _ => first end)
        end in
      let pos := pos + 1 in
      if pos =? max then (count, first) else scan_team l' pos max count first
  end.
Definition find_empty (r : room) : outcome (option (N * N)) :=
  let! m0 := max_of r 0 in
  let! m1 := max_of r 1 in
  let '(n0, e0) := scan_team (rm_team0 r) 0 m0 0 None in
  let '(n1, e1) := scan_team (rm_team1 r) 0 m1 0 None in
  match e0, e1 with
  | None, None => Ok None
  | Some p, None => Ok (Some (0, p))
  | None, Some p => Ok (Some (1, p))
  | Some p0, Some p1 => if n0 <=? n1 then Ok (Some (0, p0)) else Ok (Some (1, p1))
  end.

(** 394-408: one team of the description sent to the entering client. *)
Fixpoint team_duelists (v : env) (host t pos : N) (l : list slot) : list duelist :=
  match l with
  | [] => []
  | s :: l' =>
      match sl_client s with
      | Some c => mkDuelist t pos (ev_user v c) (c =? host) (sl_ready s) :: team_duelists v host t (pos + 1) l'
      | None => team_duelists v host t (pos + 1) l'
      end
  end.
Definition all_duelists (v : env) (r : room) : list duelist :=
  team_duelists v (rm_host r) 0 0 (rm_team0 r) ++ team_duelists v (rm_host r) 1 0 (rm_team1 r).

(** std::set::insert *)
Definition set_insert (c : N) (l : list N) : list N :=
  if existsb (N.eqb c) l then l else l ++ [c].

(** 343-433 *)
Definition enter_conf (v : env) (c : N) (r : room) : result :=
  let es := EvConf (CeEntering (Some (rm_options r)) (all_duelists v r) (u32 (lenN (rm_spectators r)))) in
  let! s := find_empty r in
  match s with
  | Some (t, p) =>
      let r' := set_slot t p (set_client c) r in
      let e := EvConf (CeDuelistEnters (mkDuelist t p (ev_user v c) (rm_host r =? c) false)) in
      Ok (r', (c, es) :: send_all r' e)
  | None =>
      assert_ (negb (rm_host r =? c)) ;;!
      let r' := set_spectators (set_insert c (rm_spectators r)) r in
      Ok (r', (c, es) :: send_all r' (EvSpectators (u32 (lenN (rm_spectators r')))))
  end.

(** 111-115, with 337-341 and 435-439. *)
Definition enter (v : env) (c : N) (r : room) : result :=
  match rm_state r with
  | Monostate => UB
  | Configuring => enter_conf v c r
  | Deciding _ => Ok (r, [])
  end.

(** 77-100; the assertions 87-95 hold of a newly created array. *)
Definition construct (v : env) (host : N) (o : options) : result :=
  let r := mkRoom 0 (clamp_options o) host (repeat slot0 3) (repeat slot0 3) [] Monostate in
  let! (r, out) := enter_configuring r in
  let! (r, out') := enter v host r in
  assert_ (negb (state_index (rm_state r) =? 0)) ;;!
  Ok (r, out ++ out').

(** ** Signals *)

(** 447-467, find_peer_duelist_slot.  452-462: one team. *)
Fixpoint scan_peer (c : N) (l : list slot) (pos max : N) : option N :=
  match l with
  | [] => None
  | s :: l' =>
      if match sl_client s with Some c' => c' =? c | None => false end then Some pos
      else
        let pos := pos + 1 in
        if pos =? max then None else scan_peer c l' pos max
  end.
Definition find_peer (c : N) (r : room) : outcome (option (N * N)) :=
  let! m0 := max_of r 0 in
  match scan_peer c (rm_team0 r) 0 m0 with
  | Some p => Ok (Some (0, p))
  | None =>
      let! m1 := max_of r 1 in
      match scan_peer c (rm_team1 r) 0 m1 with
      | Some p => Ok (Some (1, p))
      | None => Ok None
      end
  end.
(** *search.slot *)
Definition slot_at (r : room) (t p : N) : option slot :=
  nth_error (if t =? 0 then rm_team0 r else rm_team1 r) (N.to_nat p).

(** 470-493, kUpdateDeck. *)
Definition update_deck (v : env) (c : N) (d : deck) (r : room) : result :=
  let! s := find_peer c r in
  match s with
  | None => Ok (r, [])
  | Some (t, p) =>
      let '(ok, err) := ev_check v (banlist_id (rm_options r)) d in
      if ok
      then Ok (set_slot t p (set_deck true d) r, [(c, EvConf (CeDeckStatus None))])
      else Ok (set_slot t p (set_deck false deck0) r, [(c, EvConf (CeDeckStatus (Some err)))])
  end.

(** 494-517, kReadyStatus. *)
Definition ready_status (v : env) (c : N) (b : bool) (r : room) : result :=
  let! s := find_peer c r in
  match s with
  | None => Ok (r, [])
  | Some (t, p) =>
      let! s := or_ub (slot_at r t p) in
      if Bool.eqb b (sl_ready s) then Ok (r, [])
      else if b && negb (sl_valid s) then Ok (r, [])
      else
        let r' := set_slot t p (set_ready b) r in
        let e := EvConf (CeUpdateDuelist (mkDuelist t p (ev_user v c) (rm_host r =? c) b)) in
        Ok (r', send_all r' e)
  end.

(** 522-540, can_start.  524-538: one team. *)
Fixpoint team_can_start (l : list slot) (one : bool) : bool :=
  match l with
  | [] => one
  | s :: l' =>
      match sl_client s with
      | Some _ => if negb (sl_valid s) || negb (sl_ready s) then false else team_can_start l' true
      | None => team_can_start l' one
      end
  end.
Definition can_start (r : room) : bool :=
  if team_can_start (rm_team0 r) false then team_can_start (rm_team1 r) false else false.

(** 518-548, kStartDueling; the value of the bool is not looked at. *)
Definition start_dueling (v : env) (c : N) (r : room) : result :=
  if negb (c =? rm_host r) then Ok (r, [])
  else if negb (can_start r) then Ok (r, [])
  else enter_deciding v r.

(** 442-552 *)
Definition signal_conf (v : env) (c : N) (s : conf_signal) (r : room) : result :=
  match s with
  | CsUpdateDeck d => update_deck v c d r
  | CsReady b => ready_status v c b r
  | CsStart _ => start_dueling v c r
  | CsNotSet => Ok (r, [])
  end.

(** 554-581 *)
Definition signal_first (c : N) (s : first_signal) (r : room) : result :=
  match s with
  | FsTeam t =>
      if negb (op_ftdm (rm_options r) =? FTDM_HOST_CHOOSES)%Z || negb (c =? rm_host r) then Ok (r, [])
      else if 1 <? t then Ok (r, [])
      else Ok (r, send_all r (EvFirst (FeResult t HowNotSet)))
  | FsNotSet => Ok (r, [])
  end.

(** 119-134 *)
Definition visit (v : env) (c : N) (s : signal) (r : room) : result :=
  match rm_state r, s with
  | Configuring, SgConf s => signal_conf v c s r
  | Deciding _, SgFirst s => signal_first c s r
  | _, _ => Ok (r, [])
  end.
