(** * The walking loop: the walk with default parameters; counterexamples *)
From Coq Require Import String List Reals Arith Bool Lra Lia Sorting.Sorted.
From Verif Require Import Base BaseFacts Matrix Mat2 Mat3 LeftRight FootParameters FootTrajectory PointMass6z PointMass6zSpec PointMass6zFacts Solution Constraints ConstraintsSpec Condense MpcGuess
  PepperTasksSpec StanceFSM StanceSpec StanceFSMFacts StanceFSMFacts2 StanceTimeFacts WalkPreview WalkPreviewSpec WalkPreviewFacts WalkPreviewFacts2 WalkHeadingFacts WalkPreviewFacts3
  WalkMpc WalkMpcFacts WalkProfiles WalkProfilesSpec WalkProfilesFacts WalkProfilesFacts2 WalkTasks WalkTasksSpec WalkTasksFacts2 WalkModel WalkModelSpec WalkModelFacts WalkLoop WalkLoopSpec WalkLoopFacts WalkLoopFacts2 WalkLoopFacts3 WalkLoopFacts4 WalkLoopFacts5 WalkLoopFacts6 WalkLoopFacts7 WalkLoopFacts8.
Import ListNotations.
Local Open Scope nat_scope.

(** the next state is the one that is predicted at the end of the subsampling interval *)
Theorem sampled : forall p s0, exists F, forall fuel junk nan inc pr sols, F <= fuel -> walking p s0 fuel junk nan inc pr sols -> forall n s s',
  consecutive fuel junk nan inc (finalize pr) sols s0 n s s' -> subsampling_ms (wg_par (wl_wpg s0)) <= sampling_ms (wg_par (wl_wpg s0)) ->
  wg_com (wl_model s) (subsampling_ms (wg_par (wl_wpg s0))) (wl_wpg s') = Ok (ms_com (md_state (wl_model s'))).
Proof.
  intros p s0. exists (stances_left (wl_fsm s0) + 1). intros fuel junk nan inc pr sols FU W n s s' C Le. pose proof W as (Reg & Sta & Ans). pose proof Sta as (Ini & _ & _ & _ & HH).
  destruct (iteration p s0 fuel junk nan inc pr sols n s s' FU W C) as (I & I' & h & rs & M & pf & com & It & F & Sh & So & _ & Co & _ & G).
  destruct (st_support p _ _ nan inc _ _ s Reg Ini I fuel h F) as (iv & w & c & J1 & J2 & _).
  unfold wg_com. rewrite G. cbn [wg_parsed assert_then wg_horizon wg_height wg_profiles].
  assert (V : nth_error (intervals_of h (height_of (wl_model s0))) 0 = Some (mkWI (sampling_ms (wg_par (wl_wpg s0))) (height_of (wl_model s0)))).
  { unfold intervals_of. rewrite nth_error_map. unfold interval_at in J1. rewrite J1. cbn [option_map]. rewrite J2. reflexivity. }
  rewrite (next_state_is_com_state _ _ _ _ _ _ _ _ _ _ _ _ _ So V Le). destruct It as (_ & _ & _ & _ & Cm & _). rewrite (i_par _ _ _ _ _ _ _ I), (i_height _ _ _ _ _ _ _ I) in Cm. rewrite Co. exact Cm.
Qed.

(** ** the walk with default parameters *)
Definition ex_foot (y : R) : body_state := mkBody (V3 0 y 0) (V3 0 0 0) (V3 0 0 0) (V3 0 0 0) (V3 0 0 0) (V3 0 0 0).
Definition ex_model (x : R) : wpg_model :=
  mkWpgModel (mkWpgState (mkPM (V3 x 0 1) (V3 0 0 0) (V3 0 0 0)) (mkFeetStates (Some (ex_foot (95 / 1000))) (Some (ex_foot (- (95 / 1000))))) DS DS) (Some (V2 0 0)).
Definition ex_fsm : fsm := mkFsm false 7 0 (mkStance DS LSS ST_UNDEFINED FIRST 300 0) default_params.
Definition ex_loop (mp : mpc_params) (x : R) : wloop := mkWloop (ex_model x) ex_fsm (wg_new mp).
Definition fine_mpc : mpc_params := mkMpc 16 100 50 100.
Lemma ex_started mp x : started default_params (ex_loop mp x).
Proof.
  split; [reflexivity|]. split; [reflexivity|]. split; [intros []; discriminate|]. split; [|cbn; lra].
  exists (V2 0 0). split; [reflexivity|]. cbn. eexists _, _. split; [reflexivity|]. split; [reflexivity|]. cbn. split; lra.
Qed.
Lemma ex_regular u : regular (mkMpc 16 100 u 100) default_params.
Proof.
  split; [right; discriminate|]. split; [repeat split; cbn; lia|]. cbn [horizon_length sampling_ms tds_sampling_ms default_params ss_duration tds_duration first_duration last_duration].
  split; [lia|]. split; [lia|]. split; [lia|]. split; [exists 7; lia|]. split; [reflexivity|]. split; [lia|]. split; [exists 3; lia|lia].
Qed.
Lemma ex_sensible : sensible (prim default_feet).
Proof. repeat split; cbn; lra. Qed.
Lemma ex_default : finalize (prim default_feet) = default_feet.
Proof. reflexivity. Qed.
Theorem walk_case : exists F, forall fuel junk nan inc, F <= fuel -> exists sols s,
  walking default_params (ex_loop default_mpc 0) fuel junk nan inc (prim default_feet) sols /\
  (forall n x x', consecutive fuel junk nan inc default_feet sols (ex_loop default_mpc 0) n x x' -> obeys_cop nan default_feet x' (sols n) /\ obeys_steps nan default_feet x' (sols n)) /\
  ended fuel junk nan inc default_feet sols (ex_loop default_mpc 0) 74 s /\ landings fuel junk nan inc default_feet sols (ex_loop default_mpc 0) 74 = 7.
Proof.
  destruct (realizable default_params (ex_loop default_mpc 0)) as [F1 K1]. destruct (iterations default_params (ex_loop default_mpc 0)) as [F2 K2]. destruct (steps default_params (ex_loop default_mpc 0)) as [F3 K3].
  exists (F1 + F2 + F3). intros fuel junk nan inc FU.
  destruct (K1 fuel junk nan inc (prim default_feet) ltac:(lia) (ex_regular 100) (ex_started default_mpc 0) ex_sensible) as (sols & W & O).
  destruct (K2 fuel junk nan inc _ sols ltac:(lia) W 74) as (o & A & B). destruct (K2 fuel junk nan inc _ sols ltac:(lia) W 75) as (o' & A' & B').
  change (total_ms default_params) with (89 * 100) in B, B'. change (horizon_length (wg_par (wl_wpg (ex_loop default_mpc 0)))) with 16 in B, B'. change (sampling_ms (wg_par (wl_wpg (ex_loop default_mpc 0)))) with 100 in B, B'.
  destruct o as [s|]; [|exfalso; apply B; [right; lia|reflexivity]]. destruct o' as [s'|]; [exfalso; destruct (proj1 B'); [discriminate|lia|lia]|].
  exists sols, s. split; [exact W|]. split; [exact O|]. split; [split; assumption|]. exact (K3 fuel junk nan inc _ sols ltac:(lia) W 74 s (conj A A')).
Qed.

(** ** counterexamples *)
(** a subsampling interval which is shorter than the sampling interval: the machine and the CoM lose step *)
Theorem subsampling_refuted : exists F, forall fuel junk nan inc, F <= fuel -> exists sols s' com,
  mpc_finalize fine_mpc <> Throw /\ walking default_params (ex_loop fine_mpc 100) fuel junk nan inc (prim default_feet) sols /\
  consecutive fuel junk nan inc default_feet sols (ex_loop fine_mpc 100) 0 (ex_loop fine_mpc 100) s' /\
  (exists f, shiftTime f (wl_fsm (ex_loop fine_mpc 100)) 100 = Finished (Ok (wl_fsm s'))) /\
  wg_com (wl_model (ex_loop fine_mpc 100)) 100 (wl_wpg s') = Ok com /\ ms_com (md_state (wl_model s')) <> com.
Proof.
  set (s0 := ex_loop fine_mpc 100).
  destruct (realizable default_params s0) as [F1 K1]. destruct (iterations default_params s0) as [F2 K2]. destruct (cop default_params s0) as [F3 K3]. destruct (sampled default_params s0) as [F4 K4]. destruct (schedule default_params s0) as [F5 K5].
  exists (F1 + F2 + F3 + F4 + F5). intros fuel junk nan inc FU.
  destruct (K1 fuel junk nan inc (prim default_feet) ltac:(lia) (ex_regular 50) (ex_started fine_mpc 100) ex_sensible) as (sols & W & O).
  destruct (K2 fuel junk nan inc _ sols ltac:(lia) W 1) as (o & A & B). change (total_ms default_params) with (89 * 100) in B. change (horizon_length (wg_par (wl_wpg s0))) with 16 in B. change (sampling_ms (wg_par (wl_wpg s0))) with 100 in B.
  destruct o as [s'|]; [|exfalso; apply B; [right; lia|reflexivity]].
  assert (C : consecutive fuel junk nan inc default_feet sols s0 0 s0 s') by (split; [reflexivity|exact A]).
  destruct (K3 fuel junk nan inc _ sols ltac:(lia) W 0 s0 s' C (proj1 (O 0 s0 s' C))) as (q & Q1 & _ & Q2).
  set (q0 := fun a : axis => match a with AxisX => 100%R | AxisY => 0%R end).
  assert (E0 : forall a, is_cop (height_of (wl_model s0)) (ms_com (md_state (wl_model s0))) a (q0 a)) by (intros []; unfold is_cop; cbn; lra).
  change (sampling_ms (wg_par (wl_wpg s0))) with 100 in *.
  destruct (Q2 q0 100 E0 ltac:(lia)) as (com & D1 & D2). destruct (Q2 q0 50 E0 ltac:(lia)) as (com5 & D3 & D4).
  pose proof (K4 fuel junk nan inc _ sols ltac:(lia) W 0 s0 s' C ltac:(cbn; lia)) as D5. change (subsampling_ms (wg_par (wl_wpg s0))) with 50 in D5. rewrite D5 in D3. injection D3 as <-.
  exists sols, s', com. split; [discriminate|]. split; [exact W|]. split; [exact C|]. split; [destruct (K5 fuel junk nan inc _ sols ltac:(lia) W 1 s' A) as ((f & X) & _); exists f; exact X|]. split; [exact D1|].
  intros Eq. rewrite Eq in D4. specialize (D2 AxisX). specialize (D4 AxisX). unfold is_cop in D2, D4.
  assert (G0 : (gravity <> 0)%R) by (unfold gravity; lra).
  assert (X : (q AxisX = 100)%R).
  { assert (Y : ((1 - INR 100 / INR 100) * q0 AxisX + INR 100 / INR 100 * q AxisX = (1 - INR 50 / INR 100) * q0 AxisX + INR 50 / INR 100 * q AxisX)%R).
    { apply (Rmult_eq_reg_l gravity); [|exact G0]. lra. }
    replace (INR 100) with 100%R in Y by (cbn; lra). replace (INR 50) with 50%R in Y by (cbn; lra). cbn [q0] in Y. unfold q0 in Y. lra. }
  destruct Q1 as (c & th & Sp & Bo). cbn in Sp. destruct Sp as (l & r & L & Rr & C1 & C2 & T). injection L as <-. injection Rr as <-. cbn in C1, C2, T.
  specialize (Bo AxisX). assert (T0 : th = 0%R) by lra. rewrite T0 in Bo. unfold in_frame, rot2 in Bo. cbn [a00 a10] in Bo. rewrite cos_0, sin_0, X in Bo. cbn [coordinate] in Bo. rewrite C1 in Bo. cbn in Bo.
  match type of Bo with (Rabs ?x <= _)%R => pose proof (Rle_abs x) end. lra.
Qed.
(** the update which ends the loop keeps the preceding problem: a solution of it is accepted afterwards *)
Theorem stopped : forall p s0, exists F, forall fuel junk nan inc pr sols, F <= fuel -> walking p s0 fuel junk nan inc pr sols -> forall n s,
  ended fuel junk nan inc (finalize pr) sols s0 (S n) s -> exists g g' com, wg_update fuel junk nan inc (wl_model s) (wl_fsm s) (wl_wpg s) = Finished (Ok (false, g)) /\
    wg_parse (junk 13) (sols n) g = Ok g' /\ wg_com (wl_model s) 0 g' = Ok com.
Proof.
  intros p s0. exists (stances_left (wl_fsm s0) + 1). intros fuel junk nan inc pr sols FU W n s E. pose proof W as (Reg & Sta & Ans). pose proof Sta as (Ini & _ & _ & _ & HH).
  pose proof E as [A A']. destruct (loop_at fuel junk nan inc pr sols p s0 Reg Sta FU Ans n) as ([x|] & Ax & _); [|exfalso; cbn [after] in A; rewrite Ax in A; discriminate A].
  destruct (iteration p s0 fuel junk nan inc pr sols n x s FU W (conj Ax A)) as (I & I' & h & rs & M & pf & com & It & F & Sh & So & _ & Co & _ & G).
  destruct (st_support p _ _ nan inc _ _ x Reg Ini I fuel h F) as (iv & w & c & J1 & J2 & _).
  change (after fuel junk nan inc (finalize pr) sols s0 (S (S n))) with (rbind (after fuel junk nan inc (finalize pr) sols s0 (S n)) (fun o => match o with None => Finished (Ok None) | Some x => cycle fuel junk nan inc (finalize pr) (sols (S n)) x end)) in A'.
  rewrite A in A'. cbn [rbind] in A'.
  assert (U : exists g, wg_update fuel junk nan inc (wl_model s) (wl_fsm s) (wl_wpg s) = Finished (Ok (false, g))).
  { unfold cycle in A'. apply rbind_ok in A'. destruct A' as ([[|] g] & U & X); [|eauto]. exfalso. cbn [fst snd] in X. apply rbind_ok in X. destruct X as (f & _ & X). injection X as X. apply bind_ok in X. destruct X as (y & _ & X). apply bind_ok in X. destruct X as (z & _ & X). discriminate X. }
  destruct U as [g U]. pose proof U as U'. unfold wg_update in U'. apply rbind_ok in U'. destruct U' as ([h'|] & _ & U').
  { exfalso. injection U' as U'. apply bind_ok in U'. destruct U' as (y & _ & U'). apply bind_ok in U'. destruct U' as (z & _ & U'). discriminate U'. }
  injection U' as <-. rewrite G. cbn [wg_par wg_horizon wg_height wg_matrices wg_profiles h_intervals h_steps].
  pose proof So as (FW & S1 & S2 & _ & Pa). eexists _, _, _. split; [rewrite <- G; rewrite U, G; reflexivity|]. split.
  - unfold wg_parse. cbn [wg_matrices]. rewrite Pa. reflexivity.
  - unfold wg_com. cbn [wg_parsed assert_then wg_horizon wg_height wg_profiles].
    assert (V : nth_error (intervals_of (mkHorizon [] (h_intervals h) (h_steps h)) (height_of (wl_model s0))) 0 = Some (mkWI (sampling_ms (wg_par (wl_wpg s0))) (height_of (wl_model s0)))).
    { unfold intervals_of. cbn [h_intervals]. rewrite nth_error_map. unfold interval_at in J1. rewrite J1. cbn [option_map]. rewrite J2. reflexivity. }
    destruct (walk_total junk _ _ _ _ _ _ _ (sols n) FW S1 S2) as (M' & pf' & S' & L1 & _).
    assert (pf' = pf). { destruct So as (_ & _ & _ & X1 & X2). destruct S' as (_ & _ & _ & Y1 & Y2). congruence. } subst pf'.
    assert (HN : 0 < horizon_length (wg_par (wl_wpg s0))) by (destruct Reg as (_ & _ & X & _); lia).
    unfold getCoMState, PepperPreview.com_interval. destruct (intervals_of _ _) as [|v l]; [discriminate V|]. injection V as ->. cbn [map wi_T_ms]. cbn [PepperPreview.com_lookup Nat.ltb Nat.leb length bind assert_then vec_at nth_error Nat.eqb Nat.mul].
    unfold PepperMpc.vsegment. rewrite assert_true by (apply Nat.leb_le; rewrite L1; lia). reflexivity.
Qed.
