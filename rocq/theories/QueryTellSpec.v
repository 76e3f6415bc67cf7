(** Specification vocabulary: what was done to a board apart from queries, and
    what the queries told about each card. *)
From Verif Require Import Base Place Frame FrameSpec Limbo LimboSpec Msg Query QuerySpec UQuery UQuerySpec QueryRunSpec.

Set Implicit Arguments.
Local Open Scope N_scope.

(** The operations alone. *)
Fixpoint ops_of (l : list qact) : list fop :=
  match l with
  | [] => []
  | QOp o :: l' => o :: ops_of l'
  | QQuery _ _ :: l' => ops_of l'
  end.
Fixpoint acts_of (l : list uact) : list lact :=
  match l with
  | [] => []
  | UOp a :: l' => a :: acts_of l'
  | _ :: l' => acts_of l'
  end.

(** The same cards at the same places, whatever is written on them. *)
Record same_board {C D} (f : frame C) (g : frame D) : Prop := {
  sb_lay : f_lay f = f_lay g;
  sb_live : map fst (f_heap f) = map fst (f_heap g);
  sb_next : f_next f = f_next g
}.
(** And the same history. *)
Record same_memory {C D} (w : limbo C) (v : limbo D) : Prop := {
  sm_board : same_board (lb_frame w) (lb_frame v);
  sm_op : lb_op w = lb_op v;
  sm_processed : lb_processed w = lb_processed v;
  sm_ops : lb_ops w = lb_ops v
}.

(** What the queries of a run told about a card, in order. *)
Fixpoint told (id : cid) (l : list qact) (f : frame card) : list qdata :=
  match l with
  | [] => []
  | a :: l' =>
      (match a with
       | QQuery _ q => match card_at_place (qr_place q) f with
                       | Ok x => if x =? id then [qr_data q] else []
                       | _ => []
                       end
       | QOp _ => []
       end) ++ match qstep a f with Ok f' => told id l' f' | _ => [] end
  end.
(** The last word about a field. *)
Fixpoint latest (x : field) (ds : list qdata) (v : fval) : fval :=
  match ds with
  | [] => v
  | d :: ds' => latest x ds' (match query_field x d with Some w => w | None => v end)
  end.
