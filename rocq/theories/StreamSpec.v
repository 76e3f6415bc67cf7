(** Specification vocabulary for streams of messages. *)
From Verif Require Import Base Place Frame FrameSpec Msg Event EventSpec Query Encode CoreMsg EncodeSpec.

Set Implicit Arguments.
Local Open Scope N_scope.

(** A caller's way through a stream: every message meets a context that has
    what it needs, and what the caller does in between works. *)
Fixpoint well_fed (between : eresult -> ctx -> outcome ctx) (c : ctx) (ms : list core_msg) : Prop :=
  match ms with
  | [] => True
  | m :: ms' =>
      ready c m /\
      forall r c', encode_one c (ser m) = Ok (r, c') ->
        exists c'', between r c' = Ok c'' /\ ctx_sound c'' /\ well_fed between c'' ms'
  end.
(** The same messages each in a buffer of its own. *)
Fixpoint one_by_one (between : eresult -> ctx -> outcome ctx) (c : ctx) (ms : list core_msg)
  : outcome (list eresult * ctx) :=
  match ms with
  | [] => Ok ([], c)
  | m :: ms' =>
      let! (r, c') := encode_one c (ser m) in
      let! c'' := between r c' in
      let! (l, d) := one_by_one between c'' ms' in
      Ok (r :: l, d)
  end.
