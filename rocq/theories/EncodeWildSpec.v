(** Specification vocabulary for buffers the core would not send: which of them
    the encoder cannot read, however they go on.  A buffer is the list of bytes
    from the read pointer on. *)
From Verif Require Import Base Place Msg Encode CoreMsg.

Set Implicit Arguments.
Local Open Scope N_scope.

Definition bytes (l : list N) : Prop := Forall (fun b => b < 256) l.

(** ** Queries

    An item is its size in two bytes, its flag in four and its value.  The size
    counts flag and value, but the values of known flags have the length they
    always have, whatever the size says. *)
Definition end_flag : N := 0x80000000.
Definition word_flags : list N :=
  [0x1; 0x2; 0x4; 0x8; 0x10; 0x20; 0x40; 0x100; 0x200; 0x400; 0x800; 0x80000; 0x200000; 0x400000; 0x2000000].
Definition long_flags : list N := [0x80; 0x800000].
Definition byte_flags : list N := [0x40000; 0x100000; 0x1000000].
Inductive carries : N -> list N -> Prop :=
| ca_word : forall f l, In f word_flags -> length l = 4%nat -> carries f l
| ca_long : forall f l, In f long_flags -> length l = 8%nat -> carries f l
| ca_byte : forall f l, In f byte_flags -> length l = 1%nat -> carries f l
| ca_place : forall l, length l = 10%nat -> carries 0x4000 l
| ca_places : forall n l, n < 2 ^ 32 -> lenN l = 10 * n -> carries 0x8000 (b4 n ++ l)
| ca_words : forall f n l, In f [0x10000; 0x20000] -> n < 2 ^ 32 -> lenN l = 4 * n -> carries f (b4 n ++ l).
Definition known_flags : list N :=
  word_flags ++ long_flags ++ byte_flags ++ [0x4000; 0x8000; 0x10000; 0x20000].
Definition strange (f : N) : Prop := f < 2 ^ 32 /\ f <> end_flag /\ ~ In f known_flags.

Inductive item : list N -> Prop :=
| it_known : forall size f l, size < 2 ^ 16 -> carries f l -> item (b2 size ++ b4 f ++ l)
| it_strange : forall size f l, 4 <= size < 2 ^ 16 -> strange f -> lenN l = size - 4 ->
    item (b2 size ++ b4 f ++ l).
(** A whole query: items up to the end flag. *)
Inductive whole_query : list N -> Prop :=
| wh_query : forall items size, Forall item items -> size < 2 ^ 16 ->
    whole_query (concat items ++ b2 size ++ b4 end_flag).
(** A query in which an unknown flag comes with a size that does not even cover
    the flag: what is left to skip is a negative number of bytes. *)
Inductive wild_query : list N -> Prop :=
| wi_query : forall items size f rest, Forall item items -> strange f -> size < 4 ->
    wild_query (concat items ++ b2 size ++ b4 f ++ rest).

(** The queries of a whole location, [total] bytes of them.  Two zero bytes
    stand for a place without a card.  [updates total n bs n']: when [n] bytes
    have been counted before [bs], [n'] have been after it, and the end was not
    reached before. *)
Inductive updates (total : N) : N -> list N -> N -> Prop :=
| up_nil : forall n, updates total n [] n
| up_none : forall n bs n', n < total -> updates total ((n + 2) mod 2 ^ 32) bs n' ->
    updates total n (0 :: 0 :: bs) n'
| up_card : forall n q bs n', n < total -> whole_query q -> firstn 2 q <> [0; 0] ->
    updates total ((n + lenN q) mod 2 ^ 32) bs n' -> updates total n (q ++ bs) n'.

(** ** Moves *)

(** A location as it is in the buffer. *)
Record raw_ok (c : cloc) : Prop := {
  ra_con : is_u8 (cl_con c); ra_loc : is_u8 (cl_loc c); ra_seq : is_u32 (cl_seq c); ra_pos : is_u32 (cl_pos c)
}.
Definition raw_place (c : cloc) : place :=
  let base := cl_loc c mod 0x80 in
  let '(l, s) := if N.testbit base 3 && (4 <? cl_seq c)
                 then if cl_seq c =? 5 then (0x100, 0) else (0x200, cl_seq c - 6)
                 else (base, cl_seq c) in
  mkPlace (Z.of_N (cl_con c)) l s
    (if 0x80 <=? cl_loc c
     then if cl_pos c <? 2 ^ 31 then Z.of_N (cl_pos c) else (Z.of_N (cl_pos c) - 2 ^ 32)%Z
     else (-1)%Z).
(** Deck, hand, graveyard, banished or extra deck, or several of them. *)
Definition in_pile (p : place) : Prop := exists b, In b [0; 1; 4; 5; 6] /\ N.testbit (p_loc p) b = true.
Definition is_mat (p : place) : Prop := (0 <= p_oseq p)%Z.

(** From a location that is monster zone and spell zone at once, to a pile or
    out of the duel; or a material of a card in a pile, when no card is known to
    have gone there from the field. *)
Inductive wild_move (c : ctx) (p q : place) : Prop :=
| wm_both : p_loc p = 0xC -> (p_con p <= 1)%Z -> p_loc q = 0 \/ (in_pile q /\ ~ is_mat q) -> wild_move c p q
| wm_stray : in_pile p -> is_mat p ->
    p_loc q <> 0 -> (in_pile q <-> ~ is_mat q) ->
    (forall v, ~ In (mkPlace (p_con p) (p_loc p) (p_seq p) (-1), v) (cx_left c)) -> wild_move c p q.

(** ** Messages *)
Inductive wild_message (c : ctx) : list N -> Prop :=
(* MSG_WIN before anything set the reason *)
| wild_win : forall w r rest, cx_mwr c = None -> wild_message c (5 :: w :: r :: rest)
(* MSG_UPDATE_DATA *)
| wild_data : forall con loc total us n w, total < 2 ^ 32 -> updates total 0 us n -> n < total ->
    wild_query w -> firstn 2 w <> [0; 0] -> wild_message c (6 :: con :: loc :: b4 total ++ us ++ w)
(* MSG_UPDATE_CARD *)
| wild_card : forall con loc seq w, wild_query w -> wild_message c (7 :: con :: loc :: seq :: w)
(* MSG_MOVE *)
| wild_moving : forall code p q reason rest, code < 2 ^ 32 -> reason < 2 ^ 32 -> raw_ok p -> raw_ok q ->
    wild_move c (raw_place p) (raw_place q) ->
    wild_message c (50 :: b4 code ++ ser_loc p ++ ser_loc q ++ b4 reason ++ rest).
