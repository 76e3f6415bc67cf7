(** What the statements about the room mean. *)
From Verif Require Import Base Room.

Set Implicit Arguments.
Local Open Scope N_scope.

(** ** Histories *)

Inductive action := Enter (c : N) | Signal (c : N) (s : signal).

Definition act (v : env) (a : action) (r : room) : result :=
  match a with Enter c => enter v c r | Signal c s => visit v c s r end.

(** Everything sent since the construction of the room is kept, in order. *)
Fixpoint play (v : env) (l : list action) (r : room) (out : sent) : result :=
  match l with
  | [] => Ok (r, out)
  | a :: l' => let! (r', o) := act v a r in play v l' r' (out ++ o)
  end.
Definition session (v : env) (host : N) (o : options) (l : list action) : result :=
  let! (r, out) := construct v host o in play v l r out.

Definition entrants (l : list action) : list N :=
  flat_map (fun a => match a with Enter c => [c] | Signal _ _ => [] end) l.

(** ** Observing a room *)

Definition seats (r : room) (t : N) : list slot :=
  match t with 0 => rm_team0 r | 1 => rm_team1 r | _ => [] end.
Definition place (r : room) (t p : N) : option slot := nth_error (seats r t) (N.to_nat p).
Definition sits (r : room) (t p c : N) : Prop := exists s, place r t p = Some s /\ sl_client s = Some c.
Definition watches (r : room) (c : N) : Prop := In c (rm_spectators r).
Definition present (r : room) (c : N) : Prop := (exists t p, sits r t p c) \/ watches r c.
Definition limit (r : room) (t : N) : N := nth (N.to_nat t) (op_max (rm_options r)) 0.

Definition sitters (l : list slot) : list N :=
  flat_map (fun s => match sl_client s with Some c => [c] | None => [] end) l.
Definition duelists (r : room) (t : N) : N := lenN (sitters (seats r t)).
Definition occupants (r : room) : list N :=
  sitters (rm_team0 r) ++ sitters (rm_team1 r) ++ rm_spectators r.

Definition configuring (r : room) : Prop := rm_state r = Configuring.
Definition deciding (r : room) : Prop := exists d, rm_state r = Deciding d.

(** No place but the given one differs. *)
Definition same_but (r r' : room) (t p : N) : Prop :=
  rm_options r' = rm_options r /\ rm_host r' = rm_host r /\ rm_state r' = rm_state r /\
  rm_spectators r' = rm_spectators r /\
  forall t' p', (t', p') <> (t, p) -> place r' t' p' = place r t' p'.

(** ** What clients are told *)

Definition heard (c : N) (out : sent) : list event :=
  map snd (filter (fun x => fst x =? c) out).

(** The bookkeeping of a client: the duelists and the number of spectators. *)
Definition mirror := (list duelist * N)%type.
Definition blank : mirror := ([], 0).
Definition same_seat (d d' : duelist) : bool := (du_team d =? du_team d') && (du_pos d =? du_pos d').
Definition note (d : duelist) (m : mirror) : mirror :=
  (d :: filter (fun d' => negb (same_seat d d')) (fst m), snd m).
Definition hear (m : mirror) (e : event) : mirror :=
  match e with
  | EvConf (CeEntering (Some _) l n) => (l, n)
  | EvConf (CeDuelistEnters d) | EvConf (CeUpdateDuelist d) => note d m
  | EvSpectators n => (fst m, n)
  | _ => m
  end.
Definition mirror_of (c : N) (out : sent) : mirror := fold_left hear (heard c out) blank.

(** [d] describes one of the room's duelists. *)
Definition describes (v : env) (r : room) (d : duelist) : Prop :=
  exists s c, place r (du_team d) (du_pos d) = Some s /\ sl_client s = Some c /\
    du_user d = ev_user v c /\ du_host d = (c =? rm_host r) /\ du_ready d = sl_ready s.

(** The event goes to everybody in the room. *)
Definition broadcast (r : room) (e : event) : sent := map (fun c => (c, e)) (occupants r).

(** ** Choosing a seat *)

(** [p] is the first free position of team [t]. *)
Definition free (r : room) (t p : N) : Prop :=
  p < limit r t /\ (exists s, place r t p = Some s /\ sl_client s = None) /\
  forall q, q < p -> exists c, sits r t q c.
Definition full (r : room) (t : N) : Prop := forall p, p < limit r t -> exists c, sits r t p c.
(** Team [t] is where the next duelist belongs. *)
Definition next_team (r : room) (t : N) : Prop :=
  let o := 1 - t in
  t < 2 /\ ~ full r t /\
  (full r o \/ duelists r t < duelists r o \/ (duelists r t = duelists r o /\ t = 0)).

(** ** Starting *)

Definition all_ready (r : room) : Prop :=
  (forall t, t < 2 -> exists p c, sits r t p c) /\
  (forall t p s c, place r t p = Some s -> sl_client s = Some c -> sl_valid s = true /\ sl_ready s = true).

(** ** Dice *)

(** The outcome of the [i]th pair of throws after [k] random numbers. *)
Definition throw (rng : nat -> N) (i : nat) : N * N :=
  (rng (2 * i)%nat mod 6 + 1, rng (2 * i + 1)%nat mod 6 + 1).
Definition tie (x : N * N) : Prop := fst x = snd x.

(** The leader of a team: the client at the lowest occupied position. *)
Definition leads (r : room) (t c : N) : Prop :=
  exists p, sits r t p c /\ forall q c', q < p -> ~ sits r t q c'.

(** ** Getting started *)

(** The banlist a deck is checked against: the one the options name, or none. *)
Definition house_list (o : options) : text :=
  match op_banlist o with BanId i => i | BanCustom _ | BanNotSet => [] end.

(** A client hands in only decks that the validator accepts, and never withdraws. *)
Definition helpful (v : env) (o : options) (a : action) : Prop :=
  match a with
  | Signal _ (SgConf (CsUpdateDeck d)) => fst (ev_check v (house_list o) d) = true
  | Signal _ (SgConf (CsReady b)) => b = true
  | _ => True
  end.
(** At some point [c] hands in a deck, and later it says that it is ready. *)
Definition prepared (c : N) (l : list action) : Prop :=
  exists l1 d l2 l3, l = l1 ++ Signal c (SgConf (CsUpdateDeck d)) :: l2 ++ Signal c (SgConf (CsReady true)) :: l3.
(** The first seat is looked at before the second one. *)
Definition before (t p t' p' : N) : Prop := t < t' \/ (t = t' /\ p < p').
