(** * The walking loop: horizons of consecutive iterations *)
From Coq Require Import String List Reals Arith Bool Lra Lia Sorting.Sorted.
From Verif Require Import Base BaseFacts LeftRight FootParameters Solution StanceFSM StanceSpec StanceFSMFacts StanceFSMFacts2 StanceTimeFacts WalkPreview WalkPreviewSpec WalkPreviewFacts WalkModel WalkLoop WalkLoopSpec
  WalkLoopFacts WalkLoopFacts2 WalkLoopFacts3 WalkLoopFacts4 WalkLoopFacts5 WalkLoopFacts6 WalkStepsFacts.
Import ListNotations.
Local Open Scope nat_scope.

Theorem horizons_agree : forall p s0, exists F, forall fuel junk nan inc pr sols, F <= fuel -> walking p s0 fuel junk nan inc pr sols -> forall n s s' s'',
  consecutive fuel junk nan inc (finalize pr) sols s0 n s s' -> consecutive fuel junk nan inc (finalize pr) sols s0 (S n) s' s'' ->
  let steps := h_steps (wg_horizon (wl_wpg s')) in let steps' := h_steps (wg_horizon (wl_wpg s'')) in
  ~ In 0 steps /\
  (forall i, S i < horizon_length (wg_par (wl_wpg s0)) -> (In (S i) steps <-> i = 0 /\ ms_stance (md_state (wl_model s')) = TDS \/ In i steps')) /\
  length steps <= S (length steps') /\ length steps' <= S (length steps).
Proof.
  intros p s0. exists (stances_left (wl_fsm s0) + 1). intros fuel junk nan inc pr sols FU W n s s' s'' C C'.
  destruct (iteration p s0 fuel junk nan inc pr sols n s s' FU W C) as (I & I' & h & rs & M & pf & com & Ma). destruct Ma as (_ & HF & Sh & _ & _ & _ & _ & G).
  destruct (iteration p s0 fuel junk nan inc pr sols (S n) s' s'' FU W C') as (_ & _ & h' & rs' & M' & pf' & com' & Ma'). destruct Ma' as (_ & HF' & _ & _ & _ & _ & _ & G').
  pose proof W as (Reg & Sta & _). pose proof Sta as (Ini & _). assert (F1 : 1 <= fuel) by lia. cbv zeta. rewrite G, G'. cbn [wg_horizon].
  pose proof (steps_shift p _ _ _ _ _ _ _ _ _ _ _ _ _ _ Reg Ini (i_reach _ _ _ _ _ _ _ I) (i_time _ _ _ _ _ _ _ I) (i_grid _ _ _ _ _ _ _ I) HF F1 Sh HF') as E.
  pose proof (steps_number p _ _ _ _ _ _ _ _ _ _ _ _ _ _ Reg Ini (i_reach _ _ _ _ _ _ _ I) (i_time _ _ _ _ _ _ _ I) (i_grid _ _ _ _ _ _ _ I) HF F1 Sh HF') as Nu.
  assert (X : forall j, In j (h_steps h) <-> j < horizon_length (wg_par (wl_wpg s0)) /\ exists i, j = S i /\ (i = 0 /\ ms_stance (md_state (wl_model s')) = TDS \/ In i (h_steps h'))).
  { intros j. rewrite E. unfold below. rewrite filter_In, in_map_iff. rewrite (i_stance _ _ _ _ _ _ _ I'). split.
    - intros ((i & <- & Hi) & L). apply Nat.ltb_lt in L. split; [exact L|]. exists i. split; [reflexivity|]. apply in_app_or in Hi. destruct Hi as [Hi|Hi]; [left|right; exact Hi].
      destruct (st_type (cur (wl_fsm s'))); try (destruct Hi; fail). destruct Hi as [<-|[]]. split; reflexivity.
    - intros (L & i & -> & K). split; [|apply Nat.ltb_lt; exact L]. exists i. split; [reflexivity|]. apply in_or_app. destruct K as [[-> K]|K]; [left; rewrite K; left; reflexivity|right; exact K]. }
  split. { rewrite X. intros (_ & i & Z & _). discriminate Z. }
  split; [|exact Nu]. intros i L. rewrite X. split.
  - intros (_ & k & Ek & K). injection Ek as <-. exact K.
  - intros K. split; [exact L|]. exists i. split; [reflexivity|exact K].
Qed.
