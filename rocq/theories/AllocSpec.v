(** What it means that memory does not matter. *)
From Verif Require Import Base Place Frame FrameSpec Msg Event Query LateSpec FlipSpec Alloc.

Set Implicit Arguments.
Local Open Scope N_scope.

(** No address in use is handed out. *)
Definition sound_allocator (A : allocator) : Prop := forall k l, ~ In (A k l) l.

(** What the server does with its board, keeping what the queries return. *)
Definition serve (parse : event -> pboard card -> outcome (pboard card)) (x : pcall) (s : pboard card * list N) :
    outcome (pboard card * list N) :=
  match x with
  | PParse e => let! b := parse e (fst s) in Ok (b, snd s)
  | PQuery u q => let! (h, f) := parse_query u q (b_frame (fst s)) in Ok (set_frame f (fst s), snd s ++ [h])
  end.

(** Two boards nobody can tell apart by looking at them. *)
Record same_view {C} (a b : pboard C) : Prop := {
  sv_frame : alike (b_frame a) (b_frame b);
  sv_cards : map snd (f_heap (b_frame a)) = map snd (f_heap (b_frame b));
  sv_rest : set_frame (b_frame a) b = a
}.
