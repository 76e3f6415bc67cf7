(** The encoder with and without assertions. *)
From Verif Require Import Base Place Frame Msg Event Reader Encode EncodeSpec Release ReleaseEncode.

Set Implicit Arguments.
Local Open Scope N_scope.

(** One core message through encode_one and the parser, without assertions. *)
Definition rel_follow (r : eresult) (c : ctx) : outcome ctx :=
  match r_msg r with Some m => rel_ctx_parse m c | None => Ok c end.
Definition rel_feed (c : ctx) (bs : list N) : outcome ctx :=
  let! (r, c') := rel_encode_one c bs in rel_follow r c'.

(** The contexts a program without assertions can have. *)
Inductive rel_ctx_sound : ctx -> Prop :=
| rel_sound_value : rel_ctx_sound ctx_value_init
| rel_sound_default : rel_ctx_sound ctx_default_init
| rel_sound_encode : forall c bs r c', rel_ctx_sound c -> rel_encode_one c bs = Ok (r, c') -> rel_ctx_sound c'
| rel_sound_parse : forall c m c', rel_ctx_sound c -> rel_ctx_parse m c = Ok c' -> rel_ctx_sound c'.

(** What is left of an outcome when there is nothing that stops the program. *)
Definition unchecked {A} (m : outcome A) : outcome A :=
  match m with Abort => UB | x => x end.

(** MSG_SELECT_CARD without any cards; the numbers are those of the fields. *)
Definition no_cards (replier cancel : N) (mn mx rest : list N) : list N :=
  [15; replier; cancel] ++ mn ++ mx ++ [0; 0; 0; 0] ++ rest.
Definition asks_for_nothing (bs : list N) : Prop :=
  exists replier cancel mn mx rest, length mn = 4%nat /\ length mx = 4%nat /\ bs = no_cards replier cancel mn mx rest.
