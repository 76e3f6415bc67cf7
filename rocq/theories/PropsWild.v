(** C87: which buffers the encoder cannot read. *)
From Verif Require Import Base Place Msg Event Query Reader Encode CoreMsg EncodeSpec HazardSpec.
From Verif Require Import EncodeWildSpec EncodeWild EncodeWildRead EncodeWildTop.

Local Open Scope N_scope.

(** A wild message is undefined behaviour, whatever follows it. *)
Theorem C87_wild : forall c bs more, wild_message c bs -> encode_one c (bs ++ more) = UB.
Proof. intros c bs more W. apply wild_encode. now apply wild_more. Qed.
Print Assumptions C87_wild.

(** Every other buffer is only ever too short: it can be continued to one that is
    encoded or stopped by an assertion, or to a wild message. *)
Theorem C87_all : forall c bs, ctx_sound c -> bytes bs ->
  exists pad, bytes pad /\ (orderly (encode_one c (bs ++ pad)) \/ wild_message c (bs ++ pad)).
Proof. exact readable. Qed.
Print Assumptions C87_all.

(** So a buffer with undefined behaviour is a wild message, or ends too soon. *)
Theorem C87_undefined : forall c bs, ctx_sound c -> bytes bs -> encode_one c bs = UB ->
  wild_message c bs \/
  exists b pad, bytes (b :: pad) /\
    (orderly (encode_one c (bs ++ b :: pad)) \/ wild_message c (bs ++ b :: pad)).
Proof.
  intros c bs S B U. destruct (readable c bs S B) as (pad & Bp & H).
  destruct pad as [|b pad]; [|right; eauto]. rewrite app_nil_r in H. left.
  destruct H as [H|H]; [|exact H]. rewrite U in H. destruct H as [[a H]|H]; discriminate H.
Qed.
Print Assumptions C87_undefined.

(** Message types other than MSG_WIN, MSG_UPDATE_DATA, MSG_UPDATE_CARD and
    MSG_MOVE are never wild. *)
Theorem C87_other_types : forall c b bs, ctx_sound c -> bytes (b :: bs) -> ~ In b [5; 6; 7; 50] ->
  exists pad, bytes pad /\ orderly (encode_one c ((b :: bs) ++ pad)).
Proof.
  intros c b bs S B N. destruct (readable c _ S B) as (pad & Bp & [H|H]); [eauto|].
  exfalso. apply N. cbn [app] in H. inversion H; subst; cbn; tauto.
Qed.
Print Assumptions C87_other_types.

(** Each kind of wild message: a query with an unknown flag and a size below
    four, *)
Definition small_size : list N := [7; 0; 2; 0] ++ b2 3 ++ b4 0x1000.
Example C87_card_example : wild_message ctx_value_init small_size /\ encode_one ctx_value_init small_size = UB.
Proof.
  split; [|reflexivity]. change small_size with (7 :: 0 :: 2 :: 0 :: concat [] ++ b2 3 ++ b4 0x1000 ++ []).
  apply wild_card, wi_query; [constructor| |reflexivity]. split; [reflexivity|]. split; [discriminate|].
  cbn. intros H. repeat destruct H as [H|H]; try discriminate H. exact H.
Qed.
(** the same after the first card of a location, *)
Definition small_size_later : list N :=
  [6; 0; 2] ++ b4 100 ++ (b2 8 ++ b4 1 ++ b4 89631139 ++ b2 4 ++ b4 0x80000000) ++ [0; 0] ++ b2 3 ++ b4 0x1000.
Example C87_data_example : wild_message ctx_value_init small_size_later /\
  encode_one ctx_value_init small_size_later = UB.
Proof.
  split; [|reflexivity].
  change small_size_later with (6 :: 0 :: 2 :: b4 100 ++
    ((concat [b2 8 ++ b4 1 ++ b4 89631139] ++ b2 4 ++ b4 end_flag) ++ [0; 0]) ++ (concat [] ++ b2 3 ++ b4 0x1000 ++ [])).
  apply wild_data with (n := 18); try reflexivity; try discriminate.
  - apply up_card; [reflexivity| |discriminate|].
    + constructor; [|reflexivity]. repeat constructor; cbn; tauto.
    + apply up_none; [reflexivity|]. apply up_nil.
  - apply wi_query; [constructor| |reflexivity]. split; [reflexivity|]. split; [discriminate|].
    cbn. intros H. repeat destruct H as [H|H]; try discriminate H. exact H.
Qed.
(** a win before anything set the reason, *)
Example C87_win_example : wild_message ctx_default_init [5; 0; 1] /\
  encode_one ctx_default_init [5; 0; 1] = UB /\ orderly (encode_one ctx_value_init [5; 0; 1]).
Proof. split; [now apply wild_win|]. split; [reflexivity|]. left. eexists. reflexivity. Qed.
(** a move from both rows at once, or of a material of a pile's card. *)
Definition both_rows : list N :=
  50 :: b4 1 ++ ser_loc (mkCloc 0 0xC 0 1) ++ ser_loc (mkCloc 0 0x10 0 1) ++ b4 0 ++ [].
Definition stray : list N :=
  50 :: b4 1 ++ ser_loc (mkCloc 0 0x90 0 0) ++ ser_loc (mkCloc 0 0x10 0 1) ++ b4 0 ++ [].
Example C87_move_examples :
  (wild_message ctx_value_init both_rows /\ encode_one ctx_value_init both_rows = UB) /\
  (wild_message ctx_value_init stray /\ encode_one ctx_value_init stray = UB).
Proof.
  repeat split; try reflexivity; apply wild_moving; try reflexivity; try (constructor; reflexivity).
  - apply wm_both; [reflexivity|discriminate|]. right. split; [exists 4; split; [cbn; tauto|reflexivity]|].
    unfold is_mat. cbn. discriminate || (intros H; now apply H).
  - apply wm_stray.
    + exists 4. split; [cbn; tauto|reflexivity].
    + unfold is_mat. cbn. discriminate || lia.
    + discriminate.
    + unfold in_pile, is_mat. cbn. split; [intros _ H; now apply H|]. intros _. exists 4. split; [tauto|reflexivity].
    + intros v [].
Qed.
(** A draw cut off after the number of cards. *)
Example C87_cut_example : let cut := [90; 0; 1; 0; 0; 0] in
  bytes cut /\ encode_one ctx_value_init cut = UB /\
  orderly (encode_one ctx_value_init (cut ++ [1; 0; 0; 0; 1; 0; 0; 0])) /\
  ~ wild_message ctx_value_init cut.
Proof.
  repeat split; [repeat constructor|left; eexists; reflexivity|]. intros H. inversion H.
Qed.
(** An item with a known flag is read whatever its size says. *)
Example C87_known_flag_example : orderly (encode_one ctx_value_init ([7; 0; 2; 0] ++ b2 1 ++ b4 1 ++ b4 7 ++ b2 4 ++ b4 0x80000000)).
Proof. left. eexists. reflexivity. Qed.
