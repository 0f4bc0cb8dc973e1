(** * The walking loop: the iterations *)
From Coq Require Import String List Reals Arith Bool Lra Lia Sorting.Sorted.
From Verif Require Import Base BaseFacts Matrix Mat2 Mat3 LeftRight FootParameters FootTrajectory PointMass6z PointMass6zSpec PointMass6zFacts Solution Constraints ConstraintsSpec Condense MpcGuess
  PepperTasksSpec StanceFSM StanceSpec StanceFSMFacts StanceFSMFacts2 StanceTimeFacts WalkPreview WalkPreviewSpec WalkPreviewFacts WalkPreviewFacts2 WalkHeadingFacts WalkPreviewFacts3
  WalkMpc WalkMpcFacts WalkProfiles WalkProfilesSpec WalkProfilesFacts WalkProfilesFacts2 WalkTasks WalkTasksSpec WalkModel WalkModelSpec WalkModelFacts WalkLoop WalkLoopSpec WalkLoopFacts WalkLoopFacts2 WalkLoopFacts3 WalkLoopFacts4.
Import ListNotations.
Local Open Scope nat_scope.

Lemma total_start p f : init p = Ok f -> walkable p -> left_ms f = total_ms p.
Proof.
  unfold init, walkable. intros I W. apply assert_ok in I. destruct I as [N1 I]. cbv zeta in I. unfold left_ms, rest_ms, total_ms.
  destruct (first_stance p) eqn:E1; try discriminate I.
  - destruct (first_ss_type p) eqn:E2; try discriminate I; inversion I; cbn [cur st_type duration cur_time ss_left fparams]; rewrite ?E1; destruct (num_steps p) as [|k]; cbn; try lia; try (exfalso; intuition discriminate).
  - inversion I; cbn [cur st_type duration cur_time ss_left fparams]. destruct (num_steps p) as [|k]; cbn; lia.
  - inversion I; cbn [cur st_type duration cur_time ss_left fparams]. destruct (num_steps p) as [|k]; cbn; lia.
Qed.

Lemma progress fuel junk p mp f0 nan inc H theta pr sol s :
  regular mp p -> init p = Ok f0 -> (0 < H)%R -> stances_left f0 + 1 <= fuel -> inv mp f0 nan inc H theta s ->
  left_ms (wl_fsm s) < horizon_length mp * sampling_ms mp /\ cycle fuel junk nan inc (finalize pr) sol s = Finished (Ok None) \/
  horizon_length mp * sampling_ms mp <= left_ms (wl_fsm s) /\ exists g, wg_update fuel junk nan inc (wl_model s) (wl_fsm s) (wl_wpg s) = Finished (Ok (true, g)) /\
    (fits_walk g sol -> exists s' h rs M pf com, iterated fuel junk nan inc (finalize pr) sol s s' h rs M pf com /\
       sol_structure sol = structure_wpg (horizon_length mp) (length (h_steps h)) /\ length (sol_x sol) = 2 * horizon_length mp + 2 * length (h_steps h)).
Proof.
  intros Reg Ini HH FU I. pose proof Reg as (Wk & HP & N2 & TP & DP & Gs & Gt & FP & Gf & Gl).
  destruct (reached p f0 _ Ini Wk (i_reach _ _ _ _ _ _ _ I)) as (W & Hi & Fp & Td & Cfg). inversion Fp as [[FP1 FP2 FP3]].
  pose proof (i_time _ _ _ _ _ _ _ I) as CT.
  assert (Rs : terminal (wl_fsm s) -> rest_ms (wl_fsm s) = 0) by (intros [X Y]; unfold rest_ms; rewrite X, Y; reflexivity).
  assert (Rn : ~ terminal (wl_fsm s) -> last_duration p <= rest_ms (wl_fsm s)).
  { intros X. unfold rest_ms. rewrite FP3. destruct (st_type (cur (wl_fsm s))) eqn:T; try lia. destruct (ss_left (wl_fsm s)) eqn:L; cbn; [exfalso; apply X; split; assumption|lia]. }
  destruct (st_over p mp f0 nan inc H theta s Reg Ini I fuel FU) as (r & F & O1 & O2).
  assert (Dec : terminal (wl_fsm s) /\ duration (cur (wl_fsm s)) - cur_time (wl_fsm s) < horizon_length mp * sampling_ms mp \/
               ~ (terminal (wl_fsm s) /\ duration (cur (wl_fsm s)) - cur_time (wl_fsm s) < horizon_length mp * sampling_ms mp)).
  { destruct (terminal_dec (wl_fsm s)) as [Te|Te]; [|right; tauto].
    destruct (Nat.lt_ge_cases (duration (cur (wl_fsm s)) - cur_time (wl_fsm s)) (horizon_length mp * sampling_ms mp)) as [L|L]; [left; auto|right; lia]. }
  unfold yaw in F. cbn [foot_of] in F. destruct Dec as [[Te L]|Ne].
  - left. split; [unfold left_ms; rewrite (Rs Te); lia|]. rewrite (O1 (conj Te L)) in F. unfold cycle, wg_update. rewrite (i_par _ _ _ _ _ _ _ I), F. reflexivity.
  - right. split.
    { unfold left_ms. destruct (terminal_dec (wl_fsm s)) as [Te|Te]; [|specialize (Rn Te); lia].
      destruct (Nat.lt_ge_cases (duration (cur (wl_fsm s)) - cur_time (wl_fsm s)) (horizon_length mp * sampling_ms mp)); [exfalso; auto|lia]. }
    destruct (O2 Ne) as [h ->]. clear O1 O2.
    destruct (st_problem p mp f0 nan inc H theta s Reg Ini HH I fuel junk h F) as (rs & Ro & _ & K).
    assert (U : exists M, walk_update junk (horizon_length mp) (intervals_of h H) (interval_rotations h) (h_steps h) (step_rotations h rs) (support_of nan (wl_model s)) (cstate_of (wl_model s)) = Ok M).
    { destruct (K (mkSolution (structure_wpg (horizon_length mp) (length (h_steps h))) (repeat 0%R (2 * horizon_length mp + 2 * length (h_steps h)))) eq_refl ltac:(apply repeat_length)) as (M & pf & So).
      destruct So as (_ & _ & _ & X & _). eauto. }
    destruct U as [M U]. exists (mkWpg mp false h H M (wg_profiles (wl_wpg s))). split.
    { unfold wg_update. rewrite (i_par _ _ _ _ _ _ _ I), F. cbn [rbind]. rewrite Ro. cbn [bind]. rewrite (i_height _ _ _ _ _ _ _ I), U. reflexivity. }
    intros [S1 S2]. cbn [wg_par wg_horizon] in S1, S2. destruct (K sol S1 S2) as (M' & pf & So).
    destruct (st_motion p mp f0 nan inc H theta s Reg Ini I fuel junk h rs sol M' pf F So) as (u & c & th & _ & _ & U3).
    assert (M' = M) by (destruct So as (_ & _ & _ & X & _); congruence). subst M'.
    destruct (st_remaining p mp f0 nan inc H theta s Reg I fuel h F) as [R1 R2].
    destruct (machine_step fuel _ (sampling_ms mp) TP ltac:(lia) W CT R1) as (f' & Sh & _).
    destruct (st_model p mp f0 nan inc H theta pr s Reg Ini I fuel h (V2 (vget (wp_footpos pf) 0) (vget (wp_footpos pf) 1))
       (evaluate (INR (subsampling_ms mp) / 1000) (INR (sampling_ms mp) / 1000) H (cstate_of (wl_model s)) u) f' F Sh ltac:(lia)) as (m' & C1 & _).
    eexists (mkWloop m' f' (mkWpg mp true h H M pf)), h, rs, M, pf, _. split; [|split; [exact S1|exact S2]].
    unfold iterated. cbn [wl_model wl_fsm wl_wpg]. rewrite (i_par _ _ _ _ _ _ _ I), (i_height _ _ _ _ _ _ _ I).
    split; [exact F|]. split; [exact Ro|]. split; [exact U|]. split; [destruct So as (_ & _ & _ & _ & X); exact X|]. split; [apply U3|]. split; [exact Sh|]. split; [exact C1|reflexivity].
Qed.

Section Loop.
Variables (fuel : nat) (junk : nat -> nat -> nat -> R) (nan inc : R) (pr : primary) (sols : nat -> solution) (p : params) (s0 : wloop).
Let mp := wg_par (wl_wpg s0).
Let theta := (yaw nan (wl_model s0) (first_foot p) + INR (turns p) * inc)%R.
Hypothesis Reg : regular mp p.
Hypothesis Sta : started p s0.
Hypothesis FU : stances_left (wl_fsm s0) + 1 <= fuel.
Hypothesis Ans : answered fuel junk nan inc (finalize pr) sols s0.
Notation run_to := (after fuel junk nan inc (finalize pr) sols s0).

Definition loop_inv : wloop -> Prop := inv mp (wl_fsm s0) nan inc (height_of (wl_model s0)) theta.
Lemma loop_step n s s' : loop_inv s -> run_to n = Finished (Ok (Some s)) -> run_to (S n) = Finished (Ok (Some s')) ->
  exists h rs M pf com, iterated fuel junk nan inc (finalize pr) (sols n) s s' h rs M pf com /\
    sol_structure (sols n) = structure_wpg (horizon_length mp) (length (h_steps h)) /\ length (sol_x (sols n)) = 2 * horizon_length mp + 2 * length (h_steps h).
Proof.
  intros I A A'. cbn [after] in A'. rewrite A in A'. cbn [rbind] in A'. pose proof Sta as (Ini & _ & _ & _ & HH).
  destruct (progress fuel junk p mp _ nan inc _ theta pr (sols n) s Reg Ini HH FU I) as [[_ C]|(_ & g & U & K)]; [congruence|].
  destruct (K (Ans n s g A U)) as (x & h & rs & M & pf & com & It & Q). pose proof (cycle_intro _ _ _ _ _ _ _ _ _ _ _ _ _ It) as C. rewrite A' in C. injection C as <-. exists h, rs, M, pf, com. auto.
Qed.
Lemma landings_S n s s' : run_to n = Finished (Ok (Some s)) -> run_to (S n) = Finished (Ok (Some s')) ->
  landings fuel junk nan inc (finalize pr) sols s0 (S n) = landings fuel junk nan inc (finalize pr) sols s0 n + (if lands (md_state (wl_model s)) (md_state (wl_model s')) then 1 else 0).
Proof.
  intros A A'. unfold landings. rewrite seq_S, filter_app, app_length. f_equal. cbn [Nat.add filter]. unfold state_at at 1 2. rewrite A, A'. destruct (lands _ _); reflexivity.
Qed.
Lemma loop_at n : exists o, run_to n = Finished (Ok o) /\
  match o with
  | Some s => loop_inv s /\ left_ms (wl_fsm s) + n * sampling_ms mp = total_ms p /\ (n = 0 \/ (horizon_length mp + (n - 1)) * sampling_ms mp <= total_ms p) /\
              landings_left (wl_fsm s) + landings fuel junk nan inc (finalize pr) sols s0 n = landings_left (wl_fsm s0)
  | None => 0 < n /\ total_ms p < (horizon_length mp + (n - 1)) * sampling_ms mp
  end.
Proof.
  pose proof Sta as (Ini & _ & _ & _ & HH). pose proof Reg as (Wk & _).
  induction n as [|n IH].
  - exists (Some s0). split; [reflexivity|]. split; [apply inv_start; assumption|]. rewrite (total_start p _ Ini Wk). split; [lia|]. split; [auto|]. unfold landings. cbn. lia.
  - destruct IH as ([s|] & A & B).
    + destruct B as (I & L & G & La). destruct (progress fuel junk p mp _ nan inc _ theta pr (sols n) s Reg Ini HH FU I) as [[Lt C]|(Ge & g & U & K)].
      * exists None. split; [cbn [after]; rewrite A; exact C|]. split; [lia|]. replace (S n - 1) with n by lia. lia.
      * destruct (K (Ans n s g A U)) as (s' & h & rs & M & pf & com & It & Q1 & Q2). pose proof (cycle_intro _ _ _ _ _ _ _ _ _ _ _ _ _ It) as C.
        assert (A' : run_to (S n) = Finished (Ok (Some s'))) by (cbn [after]; rewrite A; exact C).
        exists (Some s'). split; [exact A'|].
        destruct (inv_step fuel junk p mp _ nan inc _ theta pr (sols n) s s' h rs M pf com Reg Ini HH ltac:(lia) I Q1 Q2 It) as (I' & L' & La' & _).
        split; [exact I'|]. split; [lia|]. split; [right; replace (S n - 1) with n by lia; lia|]. rewrite (landings_S n s s' A A'). lia.
    + exists None. split; [cbn [after]; rewrite A; reflexivity|]. destruct B as [B1 B2]. split; [lia|]. replace (S n - 1) with n by lia. nia.
Qed.
Lemma loop_some n s : run_to n = Finished (Ok (Some s)) -> loop_inv s /\ left_ms (wl_fsm s) + n * sampling_ms mp = total_ms p /\ landings_left (wl_fsm s) + landings fuel junk nan inc (finalize pr) sols s0 n = landings_left (wl_fsm s0).
Proof. intros A. destruct (loop_at n) as (o & B & C). rewrite A in B. injection B as <-. destruct C as (C1 & C2 & _ & C3). auto. Qed.
Lemma loop_ended n s : ended fuel junk nan inc (finalize pr) sols s0 n s -> loop_inv s /\ terminal (wl_fsm s) /\ landings fuel junk nan inc (finalize pr) sols s0 n = landings_left (wl_fsm s0).
Proof.
  intros [A A']. destruct (loop_some n s A) as (I & L & La). pose proof Sta as (Ini & _ & _ & _ & HH).
  assert (Te : terminal (wl_fsm s)).
  { destruct (progress fuel junk p mp _ nan inc _ theta pr (sols n) s Reg Ini HH FU I) as [[Lt C]|(Ge & g & U & K)].
    - destruct (terminal_dec (wl_fsm s)) as [Te|Te]; [exact Te|exfalso]. pose proof Reg as (Wk & _ & _ & _ & _ & _ & _ & _ & _ & Gl).
      destruct (reached p _ _ Ini Wk (i_reach _ _ _ _ _ _ _ I)) as (W & Hi & Fp & Td & Cfg). inversion Fp as [[FP1 FP2 FP3]].
      assert (last_duration p <= rest_ms (wl_fsm s)); [|unfold left_ms in Lt; lia].
      unfold rest_ms. rewrite FP3. destruct (st_type (cur (wl_fsm s))) eqn:T; try lia. destruct (ss_left (wl_fsm s)) eqn:E; cbn; [exfalso; apply Te; split; assumption|lia].
    - exfalso. destruct (K (Ans n s g A U)) as (s' & h & rs & M & pf & com & It & Q1 & Q2). pose proof (cycle_intro _ _ _ _ _ _ _ _ _ _ _ _ _ It) as C. cbn [after] in A'. rewrite A in A'. cbn [rbind] in A'. congruence. }
  split; [exact I|]. split; [exact Te|]. destruct Te as [T1 T2]. unfold landings_left at 1 in La. rewrite T1, T2 in La. exact La.
Qed.
End Loop.
