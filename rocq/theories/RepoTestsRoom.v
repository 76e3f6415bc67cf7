(** The unit tests of /repo/test/room.cpp, replayed on the model.  Like
    RepoTests.v these are tests, not proofs. *)
From Verif Require Import Base Room RoomSpec.

Set Implicit Arguments.
Local Open Scope N_scope.

(** 122-168: the validator answers a constant, the generator goes through a list
    and then gives 0.  The name of client [c] is [[c]]. *)
Definition no_error : deck_error := mkDeckError None None None None None.
Definition test_env (valid : bool) (rolls : list N) : env :=
  mkEnv (fun c => mkUser [] [c]) (fun _ _ => (valid, no_error)) (fun k => nth k rolls 0) 100.
Definition opts (max : list N) (ftdm : Z) : options := mkOptions max None BanNotSet ftdm.
Definition default_options : options := opts [] FTDM_HOST_CHOOSES.

(** 27-91: an expectation per event received, in order, and as many of them. *)
Definition expectation := event -> bool.
Definition meets (l : list event) (x : list expectation) : bool :=
  (length l =? length x)%nat && forallb (fun p => snd p (fst p)) (combine l x).
Definition passes (m : result) (x : list (N * list expectation)) : bool :=
  match m with
  | Ok (_, out) => forallb (fun p => meets (heard (fst p) out) (snd p)) x
  | _ => false
  end.

Definition entering : expectation := fun e => match e with EvConf (CeEntering _ _ _) => true | _ => false end.
Definition entering_with (f : options -> list duelist -> bool) : expectation :=
  fun e => match e with EvConf (CeEntering (Some o) l _) => f o l | _ => false end.
Definition enters : expectation := fun e => match e with EvConf (CeDuelistEnters _) => true | _ => false end.
Definition enters_with (f : duelist -> bool) : expectation :=
  fun e => match e with EvConf (CeDuelistEnters d) => f d | _ => false end.
Definition update : expectation := fun e => match e with EvConf (CeUpdateDuelist _) => true | _ => false end.
Definition update_with (f : duelist -> bool) : expectation :=
  fun e => match e with EvConf (CeUpdateDuelist d) => f d | _ => false end.
Definition deck_status : expectation := fun e => match e with EvConf (CeDeckStatus _) => true | _ => false end.
Definition deck_bad : expectation := fun e => match e with EvConf (CeDeckStatus (Some _)) => true | _ => false end.
Definition deck_good : expectation := fun e => match e with EvConf (CeDeckStatus None) => true | _ => false end.
Definition spectators (n : N) : expectation := fun e => match e with EvSpectators m => m =? n | _ => false end.
Definition first_entering : expectation := fun e => match e with EvFirst FeEntering => true | _ => false end.
Definition decide : expectation := fun e => match e with EvFirst (FeDecide _) => true | _ => false end.
Definition result_with (f : N -> how -> bool) : expectation :=
  fun e => match e with EvFirst (FeResult t h) => f t h | _ => false end.

Definition seated (t p : N) (d : duelist) : bool := (du_team d =? t) && (du_pos d =? p).
Definition named (c : N) (d : duelist) : bool :=
  match us_name (du_user d) with [x] => x =? c | _ => false end.

Definition s1 : signal := SgConf (CsUpdateDeck deck0).
Definition s2 (b : bool) : signal := SgConf (CsReady b).
Definition s3 : signal := SgConf (CsStart true).

(** 188-209 *)
Example ConstructionWithHostWorks :
  passes (session (test_env true []) 1 default_options [])
    [(1, [entering_with (fun _ _ => true); enters_with (fun d => seated 0 0 d && du_host d)])] = true.
Proof. vm_compute. reflexivity. Qed.

(** 211-233 *)
Example ConstructionOptionsClampingWorks :
  passes (session (test_env true []) 1 (opts [99] FTDM_HOST_CHOOSES) [])
    [(1, [entering_with (fun o _ =>
            match op_max o with [a; b] => (a =? 3) && (b =? 1) | _ => false end &&
            (op_ftdm o =? FTDM_HOST_CHOOSES)%Z);
          enters])] = true.
Proof. vm_compute. reflexivity. Qed.

(** 235-272 *)
Example ConfiguringStateJoining1V1Works :
  let second := enters_with (fun d => seated 1 0 d && named 2 d && negb (du_host d)) in
  passes (session (test_env true []) 1 (opts [1; 1] FTDM_HOST_CHOOSES) [Enter 2])
    [(1, [entering; enters; second]);
     (2, [entering_with (fun _ l =>
            match l with [d] => seated 0 0 d && named 1 d && du_host d | _ => false end);
          second])] = true.
Proof. vm_compute. reflexivity. Qed.

(** 274-358; what a client sees on entering. *)
Definition slots (dc : nat) : list (N * N) :=
  nth dc [[]; [(0, 0)]; [(0, 0); (1, 0)]; [(0, 0); (0, 1); (1, 0)];
          [(0, 0); (0, 1); (1, 0); (1, 1)]; [(0, 0); (0, 1); (0, 2); (1, 0); (1, 1)]] [].
Definition sees (dc : nat) : expectation :=
  entering_with (fun _ l => (length l =? dc)%nat &&
    forallb (fun x => seated (fst (snd x)) (snd (snd x)) (fst x)) (combine l (slots dc))).
(** The clients 2 to 6 enter in turn; where client [c] is put. *)
Definition put (c t p : N) : expectation :=
  enters_with (fun d => seated t p d && named c d && negb (du_host d)).
Definition puts : list expectation := [put 2 1 0; put 3 0 1; put 4 1 1; put 5 0 2; put 6 1 2].
Example ConfiguringStateJoining3V3Works :
  passes (session (test_env true []) 1 (opts [3; 3] FTDM_HOST_CHOOSES)
            [Enter 2; Enter 3; Enter 4; Enter 5; Enter 6])
    [(1, [entering; enters] ++ puts);
     (2, sees 1 :: puts); (3, sees 2 :: skipn 1 puts); (4, sees 3 :: skipn 2 puts);
     (5, sees 4 :: skipn 3 puts); (6, sees 5 :: skipn 4 puts)] = true.
Proof. vm_compute. reflexivity. Qed.

(** 360-394 *)
Example ConfiguringStateJoiningFullWorks :
  passes (session (test_env true []) 1 (opts [1; 1] FTDM_HOST_CHOOSES) [Enter 2; Enter 3; Enter 4])
    [(1, [entering; enters; enters; spectators 1; spectators 2]);
     (2, [entering; enters; spectators 1; spectators 2]);
     (3, [entering; spectators 1; spectators 2]);
     (4, [entering; spectators 2])] = true.
Proof. vm_compute. reflexivity. Qed.

(** 396-413 *)
Example ConfiguringUpdatingInvalidDeckWorks :
  passes (session (test_env false []) 1 default_options [Signal 1 s1])
    [(1, [entering; enters; deck_bad])] = true.
Proof. vm_compute. reflexivity. Qed.

(** 415-431 *)
Example ConfiguringUpdatingValidDeckWorks :
  passes (session (test_env true []) 1 default_options [Signal 1 s1])
    [(1, [entering; enters; deck_good])] = true.
Proof. vm_compute. reflexivity. Qed.

(** 433-468 *)
Example ConfiguringReadyingWithValidDeckWorks :
  passes (session (test_env true []) 1 default_options
            [Signal 1 s1; Signal 1 (s2 true); Signal 1 (s2 false)])
    [(1, [entering; enters; deck_status;
          update_with (fun d => seated 0 0 d && du_ready d);
          update_with (fun d => negb (du_ready d))])] = true.
Proof. vm_compute. reflexivity. Qed.

(** 470-515 *)
Example ConfiguringNonHostReadyingWorks :
  let ready := update_with (fun d => named 2 d && du_ready d) in
  passes (session (test_env true []) 1 default_options
            [Signal 1 s1; Signal 1 (s2 true); Enter 2; Signal 2 s1; Signal 2 (s2 true)])
    [(1, [entering; enters; deck_status; update; enters; ready]);
     (2, [entering_with (fun _ l =>
            match l with [d] => seated 0 0 d && named 1 d && du_ready d | _ => false end);
          enters; deck_status; ready])] = true.
Proof. vm_compute. reflexivity. Qed.

(** 552-581, SetUp and emplace_room *)
Definition started : list action :=
  [Signal 1 s1; Signal 1 (s2 true); Enter 2; Signal 2 s1; Signal 2 (s2 true); Signal 1 s3].
Definition before1 : list expectation :=
  [entering; enters; deck_status; update; enters; update; first_entering].
Definition before2 : list expectation := [entering; enters; deck_status; update; first_entering].

(** 517-544 *)
Example ConfiguringStartDuelWorks :
  passes (session (test_env true []) 1 default_options started)
    [(1, before1 ++ [decide]); (2, before2)] = true.
Proof. vm_compute. reflexivity. Qed.

(** 588-603 *)
Example HostDecidingWorks :
  let chosen := result_with (fun t _ => t =? 1) in
  passes (session (test_env true []) 1 default_options
            (started ++ [Signal 1 (SgFirst (FsTeam 1))]))
    [(1, before1 ++ [decide; chosen]); (2, before2 ++ [chosen])] = true.
Proof. vm_compute. reflexivity. Qed.

(** 605-611 *)
Example RPSWorks :
  passes (session (test_env true []) 1 (opts [] FTDM_RPS) started)
    [(1, before1); (2, before2)] = true.
Proof. vm_compute. reflexivity. Qed.

(** 613-639 *)
Example DiceRollWorks :
  let rolled := result_with (fun t h =>
    match h with
    | HowDice [(1, 1); (6, 6); (4, 4); (1, 2)] => t =? 1
    | _ => false
    end) in
  passes (session (test_env true [0; 0; 5; 5; 9; 9; 0; 1]) 1 (opts [] FTDM_DICE) started)
    [(1, before1 ++ [rolled]); (2, before2 ++ [rolled; decide])] = true.
Proof. vm_compute. reflexivity. Qed.

(** 641-660; COIN_RESULT_TAILS is 1 (room.proto). *)
Example CoinTossWorks :
  let tossed := result_with (fun t h => match h with HowCoin s => (s =? 1) && (t =? 1) | _ => false end) in
  passes (session (test_env true [1]) 1 (opts [] FTDM_COIN) started)
    [(1, before1 ++ [tossed]); (2, before2 ++ [tossed; decide])] = true.
Proof. vm_compute. reflexivity. Qed.
