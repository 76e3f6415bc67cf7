(** C20, exactly, at the live end of the history. *)
From Verif Require Import Base BaseProofs Place Frame FrameSpec FrameProofs Limbo LimboSpec LimboProofs PropsLimbo.
Local Open Scope N_scope.

(** A resize at the live end works and is taken back exactly when the pile does
    not shrink, or shrinks to half of its size. *)
Theorem C20_resize_iff_partial : forall C (c0 : C) w p r i count, lreachable c0 w ->
  slot p = Some (CPile r, i) -> at_end w ->
  ((exists w' w'', l_pile_resize c0 p count w = Ok w' /\ l_undo_pile_resize p count w' = Ok w'' /\ same_view w w'') <->
   (length (contents (CPile r) (lb_lay w)) <= N.to_nat count)%nat \/
   length (contents (CPile r) (lb_lay w)) = (2 * N.to_nat count)%nat).
Proof.
  intros C c0 w p r i count R S A. split.
  - intros (w' & w'' & E & U & _).
    destruct (Nat.le_gt_cases (length (contents (CPile r) (lb_lay w))) (N.to_nat count)) as [L|L]; [now left|right].
    destruct (Nat.lt_ge_cases (length (contents (CPile r) (lb_lay w))) (2 * N.to_nat count)) as [L2|L2].
    + rewrite (C20_shrink_more_than_half_left _ _ _ _ _ _ _ R S A) in E by lia. discriminate.
    + destruct (C20_shrink_at_most_half_left _ _ _ _ _ _ _ R S A L2 L) as (w1 & E1 & _ & B & _).
      assert (w1 = w') by congruence. subst w1.
      destruct (Nat.eq_dec (length (contents (CPile r) (lb_lay w))) (2 * N.to_nat count)) as [|N]; [assumption|].
      rewrite B in U by lia. discriminate.
  - intros [L|L].
    + destruct (C20_growth_succeeds _ _ _ _ _ _ _ R S A L) as (w' & E & _).
      destruct (C20_undo_growth_partial _ _ _ _ _ _ _ _ R S L E) as (w'' & w3 & U & V & _).
      exists w', w''. auto.
    + destruct (Nat.eq_dec (N.to_nat count) 0) as [Z|Z].
      * assert (L' : (length (contents (CPile r) (lb_lay w)) <= N.to_nat count)%nat) by lia.
        destruct (C20_growth_succeeds _ _ _ _ _ _ _ R S A L') as (w' & E & _).
        destruct (C20_undo_growth_partial _ _ _ _ _ _ _ _ R S L' E) as (w'' & w3 & U & V & _).
        exists w', w''. auto.
      * destruct (C20_shrink_at_most_half_left C c0 w p r i count R S A) as (w' & E & _ & _ & B); [lia|lia|].
        destruct B as (w'' & w3 & U & V & _); [lia|]. exists w', w''. auto.
Qed.
Print Assumptions C20_resize_iff_partial.

(** Four cards: to six, and to two, and back; to one not back. *)
Example C20_resize_iff_ex :
  at_end ex_live /\ length (contents (CPile (false, LDeck)) (lb_lay ex_live)) = 4%nat /\
  (exists w' w'', l_pile_resize tt (mkPlace 0 1 0 (-1)) 2 ex_live = Ok w' /\
     l_undo_pile_resize (mkPlace 0 1 0 (-1)) 2 w' = Ok w'' /\
     contents (CPile (false, LDeck)) (lb_lay w'') = map Some [0; 1; 2; 3]) /\
  (exists w', l_pile_resize tt (mkPlace 0 1 0 (-1)) 1 ex_live = Ok w' /\
     l_undo_pile_resize (mkPlace 0 1 0 (-1)) 1 w' = Abort).
Proof. split; [vm_compute; reflexivity|]. split; [reflexivity|]. split; repeat eexists; vm_compute; reflexivity. Qed.
