(** Model of encode_one_query: src/codec/edo9300_ocgcore_encode.cpp:319-488,
    with the flags of include/ygopen/client/queries.inl. *)
From Verif Require Import Base Place Msg Reader.

Set Implicit Arguments.
Local Open Scope N_scope.

(** 323-334, CoreQuery. *)
Definition QUERY_CODE : N := 0x1.
Definition QUERY_POSITION : N := 0x2.
Definition QUERY_ALIAS : N := 0x4.
Definition QUERY_TYPE : N := 0x8.
Definition QUERY_LEVEL : N := 0x10.
Definition QUERY_RANK : N := 0x20.
Definition QUERY_ATTRIBUTE : N := 0x40.
Definition QUERY_RACE : N := 0x80.
Definition QUERY_ATTACK : N := 0x100.
Definition QUERY_DEFENSE : N := 0x200.
Definition QUERY_BASE_ATTACK : N := 0x400.
Definition QUERY_BASE_DEFENSE : N := 0x800.
Definition QUERY_EQUIP_CARD : N := 0x4000.
Definition QUERY_TARGET_CARD : N := 0x8000.
Definition QUERY_OVERLAY_CARD : N := 0x10000.
Definition QUERY_COUNTERS : N := 0x20000.
Definition QUERY_OWNER : N := 0x40000.
Definition QUERY_STATUS : N := 0x80000.
Definition QUERY_IS_PUBLIC : N := 0x100000.
Definition QUERY_LSCALE : N := 0x200000.
Definition QUERY_RSCALE : N := 0x400000.
Definition QUERY_LINK : N := 0x800000.
Definition QUERY_IS_HIDDEN : N := 0x1000000.
Definition QUERY_COVER : N := 0x2000000.
Definition QUERY_END : N := 0x80000000.

(** The setters of Msg::Query::Data used below. *)
Definition qset_code v d := let '(mkQData a b c e f g h i j k l m n o p q r s t u w x y z) := d in
  mkQData v b c e f g h i j k l m n o p q r s t u w x y z.
Definition qset_position v d := let '(mkQData a b c e f g h i j k l m n o p q r s t u w x y z) := d in
  mkQData a v c e f g h i j k l m n o p q r s t u w x y z.
Definition qset_alias v d := let '(mkQData a b c e f g h i j k l m n o p q r s t u w x y z) := d in
  mkQData a b v e f g h i j k l m n o p q r s t u w x y z.
Definition qset_type v d := let '(mkQData a b c e f g h i j k l m n o p q r s t u w x y z) := d in
  mkQData a b c v f g h i j k l m n o p q r s t u w x y z.
Definition qset_level v d := let '(mkQData a b c e f g h i j k l m n o p q r s t u w x y z) := d in
  mkQData a b c e v g h i j k l m n o p q r s t u w x y z.
Definition qset_xyz_rank v d := let '(mkQData a b c e f g h i j k l m n o p q r s t u w x y z) := d in
  mkQData a b c e f v h i j k l m n o p q r s t u w x y z.
Definition qset_attribute v d := let '(mkQData a b c e f g h i j k l m n o p q r s t u w x y z) := d in
  mkQData a b c e f g v i j k l m n o p q r s t u w x y z.
Definition qset_race v d := let '(mkQData a b c e f g h i j k l m n o p q r s t u w x y z) := d in
  mkQData a b c e f g h v j k l m n o p q r s t u w x y z.
Definition qset_atk v d := let '(mkQData a b c e f g h i j k l m n o p q r s t u w x y z) := d in
  mkQData a b c e f g h i v k l m n o p q r s t u w x y z.
Definition qset_def v d := let '(mkQData a b c e f g h i j k l m n o p q r s t u w x y z) := d in
  mkQData a b c e f g h i j v l m n o p q r s t u w x y z.
Definition qset_base_atk v d := let '(mkQData a b c e f g h i j k l m n o p q r s t u w x y z) := d in
  mkQData a b c e f g h i j k v m n o p q r s t u w x y z.
Definition qset_base_def v d := let '(mkQData a b c e f g h i j k l m n o p q r s t u w x y z) := d in
  mkQData a b c e f g h i j k l v n o p q r s t u w x y z.
Definition qset_equipped_to v d := let '(mkQData a b c e f g h i j k l m n o p q r s t u w x y z) := d in
  mkQData a b c e f g h i j k l m v o p q r s t u w x y z.
Definition qset_targets v d := let '(mkQData a b c e f g h i j k l m n o p q r s t u w x y z) := d in
  mkQData a b c e f g h i j k l m n v p q r s t u w x y z.
Definition qset_counters v d := let '(mkQData a b c e f g h i j k l m n o p q r s t u w x y z) := d in
  mkQData a b c e f g h i j k l m n o v q r s t u w x y z.
Definition qset_owner v d := let '(mkQData a b c e f g h i j k l m n o p q r s t u w x y z) := d in
  mkQData a b c e f g h i j k l m n o p v r s t u w x y z.
Definition qset_status v d := let '(mkQData a b c e f g h i j k l m n o p q r s t u w x y z) := d in
  mkQData a b c e f g h i j k l m n o p q v s t u w x y z.
Definition qset_is_public v d := let '(mkQData a b c e f g h i j k l m n o p q r s t u w x y z) := d in
  mkQData a b c e f g h i j k l m n o p q r v t u w x y z.
Definition qset_pend_l_scale v d := let '(mkQData a b c e f g h i j k l m n o p q r s t u w x y z) := d in
  mkQData a b c e f g h i j k l m n o p q r s v u w x y z.
Definition qset_pend_r_scale v d := let '(mkQData a b c e f g h i j k l m n o p q r s t u w x y z) := d in
  mkQData a b c e f g h i j k l m n o p q r s t v w x y z.
Definition qset_link_rate v d := let '(mkQData a b c e f g h i j k l m n o p q r s t u w x y z) := d in
  mkQData a b c e f g h i j k l m n o p q r s t u v x y z.
Definition qset_link_arrow v d := let '(mkQData a b c e f g h i j k l m n o p q r s t u w x y z) := d in
  mkQData a b c e f g h i j k l m n o p q r s t u w v y z.
Definition qset_is_hidden v d := let '(mkQData a b c e f g h i j k l m n o p q r s t u w x y z) := d in
  mkQData a b c e f g h i j k l m n o p q r s t u w x v z.
Definition qset_cover v d := let '(mkQData a b c e f g h i j k l m n o p q r s t u w x y z) := d in
  mkQData a b c e f g h i j k l m n o p q r s t u w x y v.

(** [mutable_xs()->add_values()] on a possibly absent list. *)
Definition qappend {T} (old : option (list T)) (l : list T) : option (list T) :=
  Some (match old with Some o => o | None => [] end ++ l).

(** The data read so far and the view of the overlay codes
    (encode_common.hpp:36-43): the codes themselves stand for the pointer and
    the count. *)
Definition qstate : Type := qdata * list N.

(** 343-485, the switch except QUERY_END.  Widths: read_pos, read_type,
    read_attribute, read_status and read_link_arrow read 4 bytes, read_race 8.
    [default]: [size - sizeof(CQFlag)] wraps around when [size < 4] and the
    pointer leaves the buffer. *)
Definition query_item (size flag : N) (st : qstate) : reader qstate :=
  let '(d, ov) := st in
  let put (d' : qdata) : reader qstate := rret (d', ov) in
  if flag =? QUERY_CODE then v <- read 4 ;; put (qset_code (Some v) d)
  else if flag =? QUERY_POSITION then v <- read 4 ;; put (qset_position (Some v) d)
  else if flag =? QUERY_ALIAS then v <- read 4 ;; put (qset_alias (Some v) d)
  else if flag =? QUERY_TYPE then v <- read 4 ;; put (qset_type (Some v) d)
  else if flag =? QUERY_LEVEL then v <- read_i32 ;; put (qset_level (Some v) d)
  else if flag =? QUERY_RANK then v <- read 4 ;; put (qset_xyz_rank (Some v) d)
  else if flag =? QUERY_ATTRIBUTE then v <- read 4 ;; put (qset_attribute (Some v) d)
  else if flag =? QUERY_RACE then v <- read 8 ;; put (qset_race (Some v) d)
  else if flag =? QUERY_ATTACK then v <- read_i32 ;; put (qset_atk (Some v) d)
  else if flag =? QUERY_DEFENSE then v <- read_i32 ;; put (qset_def (Some v) d)
  else if flag =? QUERY_BASE_ATTACK then v <- read_i32 ;; put (qset_base_atk (Some v) d)
  else if flag =? QUERY_BASE_DEFENSE then v <- read_i32 ;; put (qset_base_def (Some v) d)
  else if flag =? QUERY_EQUIP_CARD then v <- read_loc_info ;; put (qset_equipped_to (Some v) d)
  else if flag =? QUERY_TARGET_CARD then
    l <- rlist 4 read_loc_info ;; put (qset_targets (qappend (q_targets d) l) d)
  else if flag =? QUERY_COUNTERS then
    l <- rlist 4 read_counter ;; put (qset_counters (qappend (q_counters d) l) d)
  else if flag =? QUERY_OWNER then v <- read_con ;; put (qset_owner (Some v) d)
  else if flag =? QUERY_STATUS then v <- read 4 ;; put (qset_status (Some v) d)
  else if flag =? QUERY_IS_PUBLIC then v <- read_bool ;; put (qset_is_public (Some v) d)
  else if flag =? QUERY_LSCALE then v <- read 4 ;; put (qset_pend_l_scale (Some v) d)
  else if flag =? QUERY_RSCALE then v <- read 4 ;; put (qset_pend_r_scale (Some v) d)
  else if flag =? QUERY_LINK then
    v <- read 4 ;; w <- read 4 ;; put (qset_link_arrow (Some w) (qset_link_rate (Some v) d))
  else if flag =? QUERY_IS_HIDDEN then v <- read_bool ;; put (qset_is_hidden (Some v) d)
  else if flag =? QUERY_COVER then v <- read 4 ;; put (qset_cover (Some v) d)
  else if flag =? QUERY_OVERLAY_CARD then ov' <- rlist 4 (read 4) ;; rret (d, ov')
  else if size <? 4 then rlift UB
  else rskip (size - 4) ;;; rret (d, ov).

(** 337-487, the loop.  Every iteration consumes at least six bytes, so the
    buffer length bounds the number of iterations. *)
Fixpoint query_loop (fuel : nat) (st : qstate) : reader qstate :=
  match fuel with
  | O => rlift Diverge
  | S fuel' =>
      size <- read 2 ;;
      flag <- read 4 ;;
      if flag =? QUERY_END then rret st
      else st' <- query_item size flag st ;; query_loop fuel' st'
  end.

(** 319-488.  The number of bytes read is what the reader consumed. *)
Definition encode_one_query (d : qdata) : reader qstate :=
  fun bs => query_loop (S (length bs)) (d, []) bs.
