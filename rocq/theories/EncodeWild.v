(** When the encoder cannot read a buffer. *)
From Verif Require Import Base BaseProofs Place PlaceProofs Frame FrameSpec Msg Event Query QuerySpec.
From Verif Require Import Reader EncodeQuery Encode CoreMsg EncodeSpec ReaderProofs EncodeProofs EncodeQueryProofs
  EncodeLocal EncodeWildSpec.
From Verif Require Import HazardSpec.

Local Open Scope N_scope.

(** ** Bytes *)
Lemma bytes_app : forall a b, bytes (a ++ b) <-> bytes a /\ bytes b.
Proof. intros a b. apply Forall_app. Qed.
Lemma bytes_zeros : forall n, bytes (repeat 0 n).
Proof. intros n. apply Forall_forall. intros x H. apply repeat_spec in H. subst. reflexivity. Qed.
Lemma bytes_le : forall w v, bytes (le_bytes w v).
Proof.
  induction w as [|w IH]; intros v; [constructor|]. cbn [le_bytes]. constructor; [|apply IH].
  apply N.mod_lt. discriminate.
Qed.
Lemma le_bound : forall l, bytes l -> le l < 256 ^ lenN l.
Proof.
  induction l as [|b l IH]; intros H; [reflexivity|]. inversion H; subst. apply IH in H3.
  replace (lenN (b :: l)) with (N.succ (lenN l)) by (unfold lenN; cbn [length]; lia).
  rewrite N.pow_succ_r'. cbn [le]. lia.
Qed.
Lemma le_bytes_le : forall l, bytes l -> le_bytes (length l) (le l) = l.
Proof.
  induction l as [|b l IH]; intros H; [reflexivity|]. inversion H; subst. cbn [length le_bytes le].
  rewrite (N.mul_comm 256), N.mod_add, N.div_add by discriminate.
  rewrite N.mod_small, N.div_small by assumption. rewrite N.add_0_l, IH by assumption. reflexivity.
Qed.

(** Any buffer becomes as long as wanted by adding zeros. *)
Lemma fill : forall n (bs : list N), exists pad s rest, bytes pad /\ bs ++ pad = s ++ rest /\ length s = n /\ (pad = [] \/ rest = []).
Proof.
  intros n bs. destruct (le_lt_dec n (length bs)) as [L|L].
  - exists [], (firstn n bs), (skipn n bs). split; [constructor|]. rewrite app_nil_r.
    split; [symmetry; apply firstn_skipn|]. split; [rewrite firstn_length; lia|]. now left.
  - exists (repeat 0 (n - length bs)), (bs ++ repeat 0 (n - length bs)), []. split; [apply bytes_zeros|].
    split; [now rewrite app_nil_r|]. split; [rewrite app_length, repeat_length; lia|]. now right.
Qed.
(** ... and the prefix consists of bytes if the buffer does. *)
Lemma fill_word : forall w bs, bytes bs -> exists pad v rest, bytes pad /\ bs ++ pad = le_bytes w v ++ rest /\
  v < 256 ^ N.of_nat w /\ bytes rest /\ (pad = [] \/ rest = []).
Proof.
  intros w bs B. destruct (fill w bs) as (pad & s & rest & P & E & L & T).
  assert (X : bytes (s ++ rest)) by (rewrite <- E; apply bytes_app; auto).
  apply bytes_app in X. destruct X as [Bs Br]. exists pad, (le s), rest.
  split; [exact P|]. rewrite E, <- L, le_bytes_le by exact Bs. split; [reflexivity|].
  split; [exact (le_bound s Bs)|]. auto.
Qed.

(** ** Queries: the grammar covers everything *)
Lemma fixed_pad : forall n bs f, (forall l, length l = n -> carries f l) ->
  exists pad l rest, bytes pad /\ bs ++ pad = l ++ rest /\ carries f l /\ (pad = [] \/ rest = []).
Proof.
  intros n bs f H. destruct (fill n bs) as (pad & s & rest & P & E & L & T). exists pad, s, rest. auto.
Qed.
Lemma list_pad : forall k bs f, bytes bs -> (forall n l, n < 2 ^ 32 -> lenN l = k * n -> carries f (b4 n ++ l)) ->
  exists pad l rest, bytes pad /\ bs ++ pad = l ++ rest /\ carries f l /\ (pad = [] \/ rest = []).
Proof.
  intros k bs f B H. destruct (fill_word 4 bs B) as (p1 & n & r1 & P1 & E1 & N1 & _ & T1).
  destruct (fill (N.to_nat (k * n)) r1) as (p2 & s & r2 & P2 & E2 & L2 & T2).
  exists (p1 ++ p2), (b4 n ++ s), r2. split; [now apply bytes_app|].
  split; [rewrite app_assoc, E1, <- app_assoc, E2, app_assoc; reflexivity|].
  split; [apply H; [exact N1|unfold lenN; lia]|].
  destruct T1 as [->| ->]; [destruct T2 as [->| ->]; auto|].
  destruct T2 as [->| ->]; auto. right. cbn in E2. destruct s; [now destruct r2|discriminate].
Qed.

Lemma value_pad : forall f bs, bytes bs -> In f known_flags ->
  exists pad l rest, bytes pad /\ bs ++ pad = l ++ rest /\ carries f l /\ (pad = [] \/ rest = []).
Proof.
  intros f bs B H. unfold known_flags in H. rewrite !in_app_iff in H. destruct H as [H|[H|[H|H]]].
  - apply (fixed_pad 4). intros. now apply ca_word.
  - apply (fixed_pad 8). intros. now apply ca_long.
  - apply (fixed_pad 1). intros. now apply ca_byte.
  - destruct H as [<-|[<-|[<-|[<-|[]]]]].
    + apply (fixed_pad 10). intros. now apply ca_place.
    + apply (list_pad 10); [exact B|]. intros. now apply ca_places.
    + apply (list_pad 4); [exact B|]. intros. apply ca_words; cbn; auto.
    + apply (list_pad 4); [exact B|]. intros. apply ca_words; cbn; auto.
Qed.

Lemma query_pad_rec : forall n bs, (length bs <= n)%nat -> bytes bs -> exists pad, bytes pad /\
  (wild_query (bs ++ pad) \/ exists q rest, bs ++ pad = q ++ rest /\ whole_query q /\ (pad = [] \/ rest = [])).
Proof.
  assert (Whole : forall size, size < 2 ^ 16 -> whole_query (b2 size ++ b4 end_flag)).
  { intros size H. exact (wh_query (Forall_nil _) H). }
  assert (Empty : exists pad, bytes pad /\
    (wild_query ([] ++ pad) \/ exists q rest, [] ++ pad = q ++ rest /\ whole_query q /\ (pad = [] \/ rest = []))).
  { exists (b2 4 ++ b4 end_flag). split; [apply bytes_app; split; apply bytes_le|]. right.
    exists (b2 4 ++ b4 end_flag), []. rewrite app_nil_r. split; [reflexivity|]. split; [now apply Whole|]. now right. }
  induction n as [|n IH]; intros bs L B.
  - destruct bs; [exact Empty|cbn in L; lia].
  - destruct bs as [|b0 bs0] eqn:Eb; [exact Empty|]. rewrite <- Eb in *. clear b0 bs0 Eb Empty.
    destruct (fill_word 2 bs B) as (p1 & size & r1 & P1 & E1 & N1 & B1 & T1).
    destruct (fill_word 4 r1 B1) as (p2 & f & r2 & P2 & E2 & N2 & B2 & T2).
    assert (E12 : bs ++ p1 ++ p2 = b2 size ++ b4 f ++ r2) by (rewrite app_assoc, E1, <- app_assoc, E2; reflexivity).
    assert (T12 : p1 ++ p2 = [] \/ r2 = []).
    { destruct T1 as [->| ->]; [destruct T2 as [->| ->]; auto|].
      destruct T2 as [->| ->]; auto. discriminate E2. }
    assert (P12 : bytes (p1 ++ p2)) by (apply bytes_app; auto).
    destruct (N.eq_dec f end_flag) as [->|NE].
    + exists (p1 ++ p2). split; [exact P12|]. right. exists (b2 size ++ b4 end_flag), r2.
      rewrite E12, <- app_assoc. auto.
    + assert (Item : (strange f /\ size < 4) \/ exists p3 l r3, bytes p3 /\ r2 ++ p3 = l ++ r3 /\
        item (b2 size ++ b4 f ++ l) /\ (p3 = [] \/ r3 = [])).
      { destruct (in_dec N.eq_dec f known_flags) as [K|K].
        - right. destruct (value_pad f r2 B2 K) as (p3 & l & r3 & P3 & E3 & C3 & T3).
          exists p3, l, r3. repeat split; auto. now apply it_known.
        - assert (S : strange f) by (split; auto). destruct (N.lt_ge_cases size 4) as [Z|Z]; [left; auto|right].
          destruct (fill (N.to_nat (size - 4)) r2) as (p3 & l & r3 & P3 & E3 & L3 & T3).
          exists p3, l, r3. repeat split; auto. apply it_strange; auto. unfold lenN. lia. }
      destruct Item as [[S Z]|(p3 & l & r3 & P3 & E3 & I3 & T3)].
      * exists (p1 ++ p2). split; [exact P12|]. left. rewrite E12.
        exact (wi_query r2 (Forall_nil _) S Z).
      * assert (E123 : bs ++ (p1 ++ p2) ++ p3 = (b2 size ++ b4 f ++ l) ++ r3).
        { rewrite app_assoc, E12, <- !app_assoc, E3. reflexivity. }
        assert (T123 : (p1 ++ p2) ++ p3 = [] \/ r3 = []).
        { destruct T12 as [->| ->]; [destruct T3 as [->| ->]; auto|].
          destruct T3 as [->| ->]; auto. right. cbn in E3. destruct l; [now destruct r3|discriminate]. }
        assert (B3 : bytes r3).
        { assert (X : bytes (l ++ r3)) by (rewrite <- E3; apply bytes_app; auto). now apply bytes_app in X. }
        assert (P123 : bytes ((p1 ++ p2) ++ p3)) by (apply bytes_app; auto).
        set (p := (p1 ++ p2) ++ p3) in *. clearbody p.
        assert (L3 : (length r3 <= n)%nat).
        { destruct T123 as [->| ->]; [|cbn; lia]. rewrite app_nil_r in E123.
          assert (X : length bs = length ((b2 size ++ b4 f ++ l) ++ r3)) by now rewrite E123.
          rewrite !app_length, !le_bytes_length in X. lia. }
        destruct (IH r3 L3 B3) as (p4 & P4 & R).
        exists (p ++ p4). split; [apply bytes_app; auto|].
        rewrite app_assoc, E123, <- app_assoc.
        destruct R as [W|(q & rest & Eq & W & T)].
        -- left. inversion W as [items size' f' rest' F S Z Ew]; subst.
           pose proof (wi_query rest' (Forall_cons _ I3 F) S Z) as X. cbn [concat] in X.
           now rewrite <- app_assoc in X.
        -- right. rewrite Eq. inversion W as [items size' F Z Ew]; subst.
           exists ((b2 size ++ b4 f ++ l) ++ concat items ++ b2 size' ++ b4 end_flag), rest.
           split; [now rewrite app_assoc|]. split.
           { pose proof (wh_query (Forall_cons _ I3 F) Z) as X. cbn [concat] in X. now rewrite <- app_assoc in X. }
           destruct T123 as [->| ->]; [destruct T as [->| ->]; auto|].
           destruct T as [->| ->]; auto. right. symmetry in Eq. apply app_eq_nil in Eq. tauto.
Qed.
Lemma query_pad : forall bs, bytes bs -> exists pad, bytes pad /\
  (wild_query (bs ++ pad) \/ exists q rest, bs ++ pad = q ++ rest /\ whole_query q /\ (pad = [] \/ rest = [])).
Proof. intros bs. exact (query_pad_rec (length bs) bs (le_n _)). Qed.

(** ** Updates: the grammar covers everything *)
Lemma whole_length : forall q, whole_query q -> (6 <= length q)%nat.
Proof. intros q H. inversion H; subst. rewrite !app_length, !le_bytes_length. lia. Qed.

Lemma u32_mod : forall n, u32 n = n mod 2 ^ 32.
Proof. reflexivity. Qed.

(** Places without cards up to the end. *)
Lemma finish_odd : forall k total rs, (N.to_nat (total - rs) <= k)%nat -> total < 2 ^ 32 -> rs < 2 ^ 32 ->
  total < 2 ^ 32 - 1 \/ rs mod 2 = 1 ->
  exists us n, bytes us /\ updates total rs us n /\ total <= n.
Proof.
  assert (Two : 2 ^ 32 = 4294967296) by reflexivity.
  induction k as [|k IH]; intros total rs K Ht Hr O.
  - exists [], rs. split; [constructor|]. split; [constructor|]. lia.
  - destruct (N.lt_ge_cases rs total) as [Lt|Ge].
    2: { exists [], rs. split; [constructor|]. split; [constructor|]. exact Ge. }
    assert (R2 : rs + 2 < 2 ^ 32).
    { destruct O as [O|O]; [lia|]. destruct (N.eq_dec rs 4294967294) as [->|]; [discriminate O|]. lia. }
    destruct (IH total (rs + 2)) as (us & n & Bu & U & Le); [lia|exact Ht|exact R2| |].
    { destruct O as [O|O]; [now left|right].
      replace (rs + 2) with (rs + 1 * 2) by lia. now rewrite N.mod_add. }
    exists (0 :: 0 :: us), n. split; [repeat constructor; exact Bu|]. split; [|exact Le].
    constructor; [exact Lt|]. now rewrite N.mod_small.
Qed.
(** A card that takes 13 bytes. *)
Definition thirteen : list N := (b2 5 ++ b4 0 ++ [0]) ++ b2 4 ++ b4 end_flag.
Lemma thirteen_whole : whole_query thirteen.
Proof.
  assert (S : strange 0).
  { split; [reflexivity|]. split; [discriminate|]. unfold known_flags, word_flags, long_flags, byte_flags. cbn. intros H.
    repeat destruct H as [H|H]; try discriminate H. exact H. }
  assert (I : item (b2 5 ++ b4 0 ++ [0])) by (apply it_strange; [split; [discriminate|reflexivity]|exact S|reflexivity]).
  assert (F : 4 < 2 ^ 16) by reflexivity.
  pose proof (wh_query (Forall_cons _ I (Forall_nil _)) F) as X. cbn [concat] in X. rewrite app_nil_r in X. exact X.
Qed.
Lemma finish : forall total rs, total < 2 ^ 32 -> rs < 2 ^ 32 ->
  exists us n, bytes us /\ updates total rs us n /\ total <= n.
Proof.
  assert (Two : 2 ^ 32 = 4294967296) by reflexivity.
  intros total rs Ht Hr. destruct (N.lt_ge_cases total (2 ^ 32 - 1)) as [T|T].
  { apply (finish_odd (N.to_nat (total - rs))); auto. }
  destruct (N.eq_dec (rs mod 2) 1) as [O|O].
  { apply (finish_odd (N.to_nat (total - rs))); auto. }
  destruct (N.lt_ge_cases rs total) as [Lt|Ge].
  2: { exists [], rs. split; [constructor|]. split; [constructor|]. exact Ge. }
  set (rs' := (rs + lenN thirteen) mod 2 ^ 32).
  destruct (finish_odd (N.to_nat (total - rs')) total rs') as (us & n & Bu & U & Le); auto.
  - unfold rs'. apply N.mod_lt. discriminate.
  - right. unfold rs'. change (lenN thirteen) with 13.
    assert (E : rs mod 2 = 0) by (pose proof (N.mod_lt rs 2 ltac:(discriminate)); lia).
    pose proof (N.div_mod rs 2 ltac:(discriminate)) as D. rewrite E, N.add_0_r in D.
    pose proof (N.div_mod (rs + 13) (2 ^ 32) ltac:(discriminate)) as M.
    set (q := (rs + 13) / 2 ^ 32) in *. set (m := (rs + 13) mod 2 ^ 32) in *.
    pose proof (N.div_mod m 2 ltac:(discriminate)) as Dm. pose proof (N.mod_lt m 2 ltac:(discriminate)) as Lm.
    rewrite Two in M. lia.
  - exists (thirteen ++ us), n. split; [apply bytes_app; split; [|exact Bu]|].
    { unfold thirteen. rewrite !bytes_app. repeat split; try apply bytes_le. repeat constructor. }
    split; [|exact Le]. apply up_card; [exact Lt|exact thirteen_whole|discriminate|exact U].
Qed.

Lemma updates_pad_rec : forall total, total < 2 ^ 32 -> forall k bs rs, (length bs <= k)%nat -> bytes bs -> rs < 2 ^ 32 ->
  exists pad, bytes pad /\
   ((exists us rest n, bs ++ pad = us ++ rest /\ updates total rs us n /\ total <= n) \/
    (exists us n w, bs ++ pad = us ++ w /\ updates total rs us n /\ n < total /\ wild_query w /\ firstn 2 w <> [0; 0])).
Proof.
  intros total Ht. induction k as [|k IH]; intros bs rs L B Hr.
  - destruct bs; [|cbn in L; lia]. destruct (finish total rs Ht Hr) as (us & n & Bu & U & Le).
    exists us. split; [exact Bu|]. left. exists us, [], n. rewrite app_nil_r. auto.
  - destruct (N.lt_ge_cases rs total) as [Lt|Ge].
    2: { exists []. split; [constructor|]. left. exists [], bs, rs. rewrite app_nil_r.
         split; [reflexivity|]. split; [constructor|exact Ge]. }
    destruct bs as [|b0 tl0] eqn:Eb.
    { destruct (finish total rs Ht Hr) as (us & n & Bu & U & Le).
      exists us. split; [exact Bu|]. left. exists us, [], n. rewrite app_nil_r. auto. }
    rewrite <- Eb in *.
    destruct (fill 2 bs) as (p1 & s & r & P1 & E1 & L1 & T1).
    destruct s as [|x [|y [|]]]; try discriminate L1. cbn [app] in E1.
    assert (Bx : bytes (x :: y :: r)) by (rewrite <- E1; apply bytes_app; auto).
    assert (Br : bytes r) by (inversion Bx; subst; now inversion H2).
    assert (Lr : (length r <= k)%nat).
    { destruct T1 as [->| ->]; [|cbn; lia]. rewrite app_nil_r in E1. rewrite E1 in L. cbn in L. lia. }
    assert (Y : (x = 0 /\ y = 0) \/ firstn 2 (x :: y :: r) <> [0; 0]).
    { destruct (N.eq_dec x 0) as [->|]; [destruct (N.eq_dec y 0) as [->|]|]; auto; right; cbn; congruence. }
    destruct Y as [[-> ->]|Y].
    + destruct (IH r ((rs + 2) mod 2 ^ 32) Lr Br) as (p2 & P2 & R); [apply N.mod_lt; discriminate|].
      exists (p1 ++ p2). split; [apply bytes_app; auto|].
      assert (E : bs ++ p1 ++ p2 = 0 :: 0 :: r ++ p2) by (rewrite app_assoc, E1; reflexivity).
      rewrite E. destruct R as [(us & rest & n & Eu & U & Le)|(us & n & w & Eu & U & Ln & W & F)].
      * left. exists (0 :: 0 :: us), rest, n. rewrite Eu. split; [reflexivity|]. split; [constructor; auto|exact Le].
      * right. exists (0 :: 0 :: us), n, w. rewrite Eu. split; [reflexivity|]. split; [constructor; auto|auto].
    + destruct (query_pad (x :: y :: r) Bx) as (p2 & P2 & [W|(q & rest & Eq & W & T)]).
      * exists (p1 ++ p2). split; [apply bytes_app; auto|]. rewrite app_assoc, E1. right.
        exists [], rs, ((x :: y :: r) ++ p2). split; [reflexivity|]. split; [constructor|]. auto.
      * pose proof (whole_length q W) as Lq.
        assert (Fq : firstn 2 q <> [0; 0]).
        { destruct q as [|q0 [|q1 q]]; try (cbn in Lq; lia). cbn in Eq. inversion Eq; subst. exact Y. }
        assert (Brest : bytes rest).
        { assert (X : bytes (q ++ rest)) by (rewrite <- Eq; apply bytes_app; auto). now apply bytes_app in X. }
        assert (Lrest : (length rest <= k)%nat).
        { destruct T as [->| ->]; [|cbn; lia]. rewrite app_nil_r in Eq.
          assert (X : length (x :: y :: r) = length (q ++ rest)) by now rewrite Eq.
          rewrite app_length in X. cbn [length] in X. lia. }
        destruct (IH rest ((rs + lenN q) mod 2 ^ 32) Lrest Brest) as (p3 & P3 & R); [apply N.mod_lt; discriminate|].
        exists (p1 ++ p2 ++ p3). split; [rewrite !bytes_app; auto|].
        assert (E : bs ++ p1 ++ p2 ++ p3 = q ++ rest ++ p3).
        { rewrite app_assoc, E1, app_assoc, Eq, <- app_assoc. reflexivity. }
        rewrite E. destruct R as [(us & r' & n & Eu & U & Le)|(us & n & w & Eu & U & Ln & Ww & F)].
        -- left. exists (q ++ us), r', n. rewrite Eu. split; [apply app_assoc|]. split; [constructor; auto|exact Le].
        -- right. exists (q ++ us), n, w. rewrite Eu. split; [apply app_assoc|]. split; [constructor; auto|auto].
Qed.

(** ** Readers of a fixed length *)
Definition exactly {A} (n : nat) (m : reader A) : Prop := forall l, length l = n -> exists x, reads m l x.
Lemma exactly_ret : forall A (x : A), exactly 0 (rret x).
Proof. intros A x [|] L; [|discriminate]. exists x. apply reads_ret. Qed.
Lemma exactly_bind : forall A B (m : reader A) (k : A -> reader B) a b,
  exactly a m -> (forall x, exactly b (k x)) -> exactly (a + b) (rbind m k).
Proof.
  intros A B m k a b H1 H2 l L.
  destruct (H1 (firstn a l)) as [x X]; [rewrite firstn_length; lia|].
  destruct (H2 x (skipn a l)) as [y Y]; [rewrite skipn_length; lia|].
  exists y. rewrite <- (firstn_skipn a l). eapply reads_bind; eauto.
Qed.
Lemma exactly_read : forall n, exactly (N.to_nat n) (read n).
Proof.
  intros n l L. exists (le l). unfold read. eapply reads_last; [apply reads_bytes; unfold lenN; lia|]. apply reads_ret.
Qed.
Lemma exactly_times : forall A (m : reader A) k n, exactly k m -> exactly (n * k) (rtimes n m).
Proof.
  intros A m k n H. induction n as [|n IH]; cbn [rtimes Nat.mul]; [apply exactly_ret|].
  apply exactly_bind; [exact H|]. intros x. replace (n * k)%nat with (n * k + 0)%nat by lia.
  apply exactly_bind; [exact IH|]. intros y. apply exactly_ret.
Qed.
Lemma exactly_eq : forall A (m : reader A) a b, exactly a m -> a = b -> exactly b m.
Proof. now intros A m a b H <-. Qed.
Lemma exactly_last : forall A B (m : reader A) (k : A -> reader B) a,
  exactly a m -> (forall x, exactly 0 (k x)) -> exactly a (rbind m k).
Proof. intros A B m k a H1 H2. eapply exactly_eq; [apply exactly_bind; eauto|lia]. Qed.
Lemma exactly_if : forall A (b : bool) (m m' : reader A) n, exactly n m -> exactly n m' -> exactly n (if b then m else m').
Proof. now intros A [] m m' n. Qed.

Lemma exactly_con : exactly 1 read_con.
Proof. apply exactly_last; [apply (exactly_read 1)|intros; apply exactly_ret]. Qed.
Lemma exactly_bool : exactly 1 read_bool.
Proof. apply exactly_last; [apply (exactly_read 1)|intros; apply exactly_ret]. Qed.
Lemma exactly_i32 : exactly 4 read_i32.
Proof. apply exactly_last; [apply (exactly_read 4)|intros; apply exactly_ret]. Qed.
Lemma exactly_counter : exactly 4 read_counter.
Proof. apply exactly_last; [apply (exactly_read 4)|intros; apply exactly_ret]. Qed.
Lemma exactly_loc : exactly 10 read_loc_info.
Proof.
  unfold read_loc_info, read_loc_info_.
  apply (exactly_bind _ _ _ _ 1 9); [apply exactly_con|]. intros con.
  apply (exactly_bind _ _ _ _ 1 8); [apply (exactly_read 1)|]. intros loc.
  apply (exactly_bind _ _ _ _ 4 4); [apply (exactly_read 4)|]. intros sq.
  destruct (fix_spell_loc_seq _ _) as [fl fs].
  apply (exactly_last _ _ _ _ 4); [apply (exactly_read 4)|]. intros. apply exactly_ret.
Qed.

(** ** Queries: what the encoder does *)
Lemma listed : forall A B (m : reader A) (k : list A -> reader B) w n l, exactly w m -> n < 2 ^ 32 ->
  lenN l = N.of_nat w * n -> (forall x, exactly 0 (k x)) -> exists y, reads (rbind (rlist 4 m) k) (b4 n ++ l) y.
Proof.
  intros A B m k w n l E Hn L K. unfold rlist.
  destruct (exactly_times _ m w (N.to_nat n) E l) as [x X]; [unfold lenN in L; lia|].
  destruct (K x [] eq_refl) as [y Y]. exists y.
  eapply reads_last; [|exact Y]. eapply reads_bind; [apply reads_4; exact Hn|]. exact X.
Qed.

Lemma carries_reads : forall f l size st, carries f l -> exists st', reads (query_item size f st) l st'.
Proof.
  intros f l size [d ov] C.
  inversion C as [f' l' H L|f' l' H L|f' l' H L|l' L|n l' Hn L|f' n l' H Hn L]; subst.
  - unfold word_flags in H. cbn [In] in H.
    assert (X : exactly 4 (query_item size f (d, ov))).
    { repeat destruct H as [<-|H]; try (exfalso; exact H); unfold query_item; cbn [N.eqb Pos.eqb];
        (apply exactly_last; [first [apply (exactly_read 4)|apply exactly_i32]|intros; apply exactly_ret]). }
    exact (X l L).
  - unfold long_flags in H. cbn [In] in H.
    assert (X : exactly 8 (query_item size f (d, ov))).
    { repeat destruct H as [<-|H]; try (exfalso; exact H); unfold query_item; cbn [N.eqb Pos.eqb].
      - apply exactly_last; [apply (exactly_read 8)|intros; apply exactly_ret].
      - apply (exactly_bind _ _ _ _ 4 4); [apply (exactly_read 4)|]. intros v.
        apply exactly_last; [apply (exactly_read 4)|intros; apply exactly_ret]. }
    exact (X l L).
  - unfold byte_flags in H. cbn [In] in H.
    assert (X : exactly 1 (query_item size f (d, ov))).
    { repeat destruct H as [<-|H]; try (exfalso; exact H); unfold query_item; cbn [N.eqb Pos.eqb];
        (apply exactly_last; [first [apply exactly_con|apply exactly_bool]|intros; apply exactly_ret]). }
    exact (X l L).
  - assert (X : exactly 10 (query_item size 0x4000 (d, ov))).
    { unfold query_item. cbn [N.eqb Pos.eqb]. apply exactly_last; [apply exactly_loc|intros; apply exactly_ret]. }
    exact (X l L).
  - unfold query_item. cbn [N.eqb Pos.eqb].
    eapply (listed _ _ _ _ 10); [apply exactly_loc|exact Hn|exact L|intros; apply exactly_ret].
  - destruct H as [<-|[<-|[]]]; unfold query_item; cbn [N.eqb Pos.eqb].
    + eapply (listed _ _ _ _ 4); [apply (exactly_read 4)|exact Hn|exact L|intros; apply exactly_ret].
    + eapply (listed _ _ _ _ 4); [apply exactly_counter|exact Hn|exact L|intros; apply exactly_ret].
Qed.

Lemma strange_item : forall f size d ov, strange f ->
  query_item size f (d, ov) = if size <? 4 then rlift UB else (rskip (size - 4) ;;; rret (d, ov)).
Proof.
  intros f size d ov (_ & _ & H). unfold query_item.
  repeat match goal with
  | |- (if f =? ?x then _ else _) = _ =>
      destruct (N.eqb_spec f x) as [->|_]; [exfalso; apply H; vm_compute; tauto|]
  end.
  reflexivity.
Qed.

Lemma item_reads : forall it, item it -> (6 <= length it)%nat /\
  exists size f l, it = b2 size ++ b4 f ++ l /\ size < 2 ^ 16 /\ f < 2 ^ 32 /\ f <> end_flag /\
    forall st, exists st', reads (query_item size f st) l st'.
Proof.
  intros it I. inversion I as [size f l Hs C|size f l Hs S L]; subst;
    (split; [rewrite !app_length, !le_bytes_length; lia|]); exists size, f, l; (split; [reflexivity|]).
  - split; [exact Hs|]. assert (K : In f known_flags).
    { unfold known_flags. rewrite !in_app_iff. inversion C; subst; auto; right; right; right; cbn; auto.
      }
    assert (F : f < 2 ^ 32 /\ f <> end_flag).
    { vm_compute in K. repeat destruct K as [<-|K]; try (exfalso; exact K); split; first [reflexivity|discriminate]. }
    destruct F as [F1 F2]. split; [exact F1|]. split; [exact F2|]. intros st. now apply carries_reads.
  - split; [apply Hs|]. destruct S as (F1 & F2 & F3). split; [exact F1|]. split; [exact F2|]. intros [d ov].
    exists (d, ov). rewrite strange_item by (split; auto). destruct (N.ltb_spec size 4) as [X|_]; [lia|].
    eapply reads_last; [apply reads_skip; exact L|apply reads_ret].
Qed.

Lemma loop_whole : forall items, Forall item items -> forall size fuel st, size < 2 ^ 16 -> (length items < fuel)%nat ->
  exists st', reads (query_loop fuel st) (concat items ++ b2 size ++ b4 end_flag) st'.
Proof.
  induction 1 as [|it items I F IH]; intros size fuel st Hs Lf; (destruct fuel as [|fuel]; [cbn in Lf; lia|]); cbn [query_loop concat].
  - exists st. cbn [app]. eapply reads_bind; [apply reads_2; exact Hs|].
    eapply reads_last; [apply reads_4; reflexivity|]. apply reads_ret.
  - destruct (item_reads it I) as (_ & size' & f & l & -> & S' & Hf & Ne & R).
    destruct (R st) as [st1 R1]. destruct (IH size fuel st1 Hs) as [st' R']; [cbn in Lf; lia|].
    exists st'. rewrite <- !app_assoc. eapply reads_bind; [apply reads_2; exact S'|].
    eapply reads_bind; [apply reads_4; exact Hf|]. destruct (N.eqb_spec f QUERY_END) as [X|_]; [contradiction|].
    eapply reads_bind; [exact R1|exact R'].
Qed.
Lemma items_length : forall items, Forall item items -> (6 * length items <= length (concat items))%nat.
Proof.
  induction 1 as [|it items I F IH]; [cbn; lia|]. cbn [concat length]. rewrite app_length.
  pose proof (proj1 (item_reads it I)). lia.
Qed.
Lemma whole_reads : forall q d, whole_query q -> exists st, reads (encode_one_query d) q st.
Proof.
  intros q d W. inversion W as [items size F Hs]; subst.
  pose proof (items_length items F) as L.
  destruct (loop_whole items F size (S (length items)) (d, []) Hs) as [st R]; [lia|].
  exists st. intros rest. unfold encode_one_query.
  destruct (local_loop _ _ _ _ _ (R rest)) as (s & E & _ & R').
  apply app_inv_tail in E. rewrite <- E in R'. apply R'. rewrite !app_length. lia.
Qed.
Lemma loop_wild : forall items, Forall item items -> forall size f rest fuel st, strange f -> size < 4 -> (length items < fuel)%nat ->
  query_loop fuel st (concat items ++ b2 size ++ b4 f ++ rest) = UB.
Proof.
  induction 1 as [|it items I F IH]; intros size f rest fuel st S Hs Lf; (destruct fuel as [|fuel]; [cbn in Lf; lia|]); cbn [query_loop concat].
  - cbn [app]. unfold rbind at 1. rewrite reads_2 by (unfold is_u16; lia). cbn [obind].
    unfold rbind at 1. rewrite reads_4 by apply S. cbn [obind].
    destruct (N.eqb_spec f QUERY_END) as [X|_]; [destruct S as (_ & Y & _); contradiction|].
    destruct st as [d ov]. unfold rbind. rewrite strange_item by exact S.
    destruct (N.ltb_spec size 4) as [_|X]; [reflexivity|lia].
  - destruct (item_reads it I) as (_ & size' & f' & l & -> & S' & Hf & Ne & R).
    destruct (R st) as [st1 R1]. rewrite <- !app_assoc.
    unfold rbind at 1. rewrite reads_2 by exact S'. cbn [obind].
    unfold rbind at 1. rewrite reads_4 by exact Hf. cbn [obind].
    destruct (N.eqb_spec f' QUERY_END) as [X|_]; [contradiction|].
    unfold rbind. rewrite R1. cbn [obind]. apply IH; auto. cbn in Lf. lia.
Qed.
Lemma wild_ub : forall w d, wild_query w -> encode_one_query d w = UB.
Proof.
  intros w d W. inversion W as [items size f rest F S Hs]; subst. unfold encode_one_query.
  apply loop_wild; auto. pose proof (items_length items F). rewrite app_length. lia.
Qed.
