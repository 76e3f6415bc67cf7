(** Two boards given the same events in a build without assertions. *)
From Verif Require Import Base Place Frame FrameSpec Limbo LimboSpec Msg Event EventSpec UReplaySpec Release
  ReleaseFrameSpec.

Set Implicit Arguments.
Local Open Scope N_scope.

(** A board that records and one that does not show the same, the chain aside. *)
Definition alike {A B} (u : uboard A) (p : pboard B) : Prop :=
  sn_layout (scene_of u) = f_lay (b_frame p) /\ sn_turn (scene_of u) = b_turn p /\
  sn_turn_controller (scene_of u) = b_turn_controller p /\ sn_lp (scene_of u) = b_lp p /\
  sn_phase (scene_of u) = b_phase p /\ sn_blocked (scene_of u) = b_blocked p.

(** The chain of the last snapshot. *)
Definition snapshot_chain (es : list event) : list chain :=
  fold_left (fun c e => match e with EvBoard (BoardState s) => bs_chains s | _ => c end) es [].

(** Piles are grown or shrunk to at most half their size, from the frame
    or board the operations are given to. *)
Fixpoint halving {B} (b0 : B) (acts : list lact) (f : frame B) : Prop :=
  match acts with
  | [] => True
  | a :: acts' =>
      match a with
      | LResize p n => forall r i, slot p = Some (CPile r, i) ->
          let size := length (contents (CPile r) (f_lay f)) in
          (size <= N.to_nat n \/ 2 * N.to_nat n <= size)%nat
      | _ => True
      end /\
      forall f', rel_fstep b0 (plain_op a) f = Ok f' -> halving b0 acts' f'
  end.
Fixpoint halving_all {B} (b0 : B) (es : list event) (p : pboard B) : Prop :=
  match es with
  | [] => True
  | e :: es' => halving b0 (event_acts e) (b_frame p) /\
      forall p', rel_pparse b0 e p = Ok p' -> halving_all b0 es' p'
  end.
