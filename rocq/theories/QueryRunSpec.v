(** Frames that were used in any way, queries included. *)
From Verif Require Import Base Place Frame FrameSpec Limbo LimboSpec Msg Query UQuery UQuerySpec.

Set Implicit Arguments.

(** The plain frame. *)
Inductive qact := QOp (o : fop) | QQuery (use : bool) (q : query).
Definition qstep (a : qact) (f : frame card) : outcome (frame card) :=
  match a with
  | QOp o => fstep card0 o f
  | QQuery use q => let! (_, f') := parse_query use q f in Ok f'
  end.
Definition qrun (l : list qact) (f : frame card) : outcome (frame card) := ofold qstep l f.

(** The frame with memory; queries may be taken back, with whatever hits. *)
Inductive uact := UOp (a : lact) | UQuery (use : bool) (q : query) | UTakeBack (q : query) (hits : N).
Definition ustep (a : uact) (w : limbo ucard) : outcome (limbo ucard) :=
  match a with
  | UOp a => lstep ucard0 a w
  | UQuery use q => let! (_, w') := uparse_query use q w in Ok w'
  | UTakeBack q hits => take_back_query q hits w
  end.
Definition urun (l : list uact) (w : limbo ucard) : outcome (limbo ucard) := ofold ustep l w.
