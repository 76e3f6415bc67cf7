(** Specification vocabulary: who gets which seat of a room. *)
From Verif Require Import Base Room RoomSpec.

Set Implicit Arguments.
Local Open Scope N_scope.

(** The clients that entered while the room was being configured, in order. *)
Fixpoint arrivals (v : env) (l : list action) (r : room) : list N :=
  match l with
  | [] => []
  | a :: l' =>
      match a, rm_state r with Enter c, Configuring => [c] | _, _ => [] end ++
      match act v a r with Ok (r', _) => arrivals v l' r' | _ => [] end
  end.

(** Team and position of the [i]th to come (from 0) if the teams have [m0] and
    [m1] places: the teams take turns as long as both have room, then the larger
    one fills up. *)
Definition seat_no (m0 m1 i : N) : N * N :=
  let k := N.min m0 m1 in
  if i <? 2 * k then (i mod 2, i / 2) else (if m0 <? m1 then 1 else 0, i - k).

(** ** What a duelist has said *)

Definition seated (r : room) (c : N) : bool :=
  existsb (N.eqb c) (sitters (rm_team0 r) ++ sitters (rm_team1 r)).

(** What [c] said at its seat while the room was being configured. *)
Fixpoint words (v : env) (c : N) (l : list action) (r : room) : list conf_signal :=
  match l with
  | [] => []
  | a :: l' =>
      match a, rm_state r with
      | Signal c' (SgConf s), Configuring => if (c' =? c) && seated r c then [s] else []
      | _, _ => []
      end ++
      match act v a r with Ok (r', _) => words v c l' r' | _ => [] end
  end.

(** What is known about a duelist: whether there is a valid deck, whether it is
    ready, and the deck. *)
Definition standing := (bool * bool * deck)%type.
Definition newcomer : standing := (false, false, deck0).
(** The verdict on a deck replaces the one before; readiness is declared only
    with a valid deck, and withdrawn at will. *)
Definition say (check : deck -> bool) (x : standing) (s : conf_signal) : standing :=
  let '(valid, ready, d) := x in
  match s with
  | CsUpdateDeck d' => if check d' then (true, ready, d') else (false, ready, deck0)
  | CsReady true => (valid, valid || ready, d)
  | CsReady false => (valid, false, d)
  | CsStart _ | CsNotSet => x
  end.
