(** * The walking program: the walk with default parameters; a failure which is not noticed *)
From Coq Require Import String List Reals Arith Bool ZArith Lra Lia.
From Verif Require Import Base BaseFacts RSum Matrix Mat2 Mat3 ActiveSet ConstraintType HierarchyLevel HierarchySpec Constraints ConstraintsSpec QP QPSpec Problem ProblemSpec LeftRight FootParameters FootTrajectory
  PointMass6z PointMass6zSpec PointMass6zFacts Solution Task MpcGuess MpcGuessFacts PepperTasksSpec StanceFSM StanceSpec StanceFSMFacts StanceFSMFacts2 StanceTimeFacts WalkPreview WalkPreviewSpec WalkPreviewFacts WalkMpc WalkModel WalkModelSpec WalkProfiles WalkProfilesSpec WalkTasks WalkTasksSpec WalkTasksFacts2
  QpoasesBridge QpoasesBridgeSpec Backends BackendsSpec Solver SolverLife SolverLifeSpec SolverLifeFacts WalkLoop WalkLoopSpec WalkLoopFacts WalkLoopFacts2 WalkLoopFacts3 WalkLoopFacts4 WalkLoopFacts5 WalkLoopFacts6 WalkLoopFacts7 WalkLoopFacts8 WalkLoopFacts9
  WalkProgram WalkProgramSpec WalkProgramFacts WalkProgramFacts2 WalkProgramFacts3 WalkProgramFacts4 WalkProgramFacts5 WalkProgramFacts6 WalkProgramFacts7.
Import ListNotations.
Local Open Scope nat_scope.

(** the default gains (task_comvelocity.h:31, task_copvelocity.h:31, task_copposition.h:32), the velocity of the fixture
    (regression_test_000_body.h:50-51) *)
Definition ex_settings (fixed : bool) (hs : hotstart) : settings :=
  mkSettings default_feet 0 (mkWV (V2 (1 / 10) 0) (V2 (1 / 10) 0) (V2 0 0)) fixed (707106781186548 / 1000000000000000) (223606797749979 / 1000000000000000) hs.
Definition ex_centering : R := 122474487139159 / 10000000000000.
Definition ex_par (crash : bool) : qparams := mkQParams crash true 10000 0 [].
Definition ex_world : world := mkWorld [4; 2] 9 [].
Lemma ex_moderate : moderate (prim default_feet).
Proof.
  assert (G : (2 <= g_infinity)%R) by (unfold g_infinity; lra).
  unfold moderate. generalize dependent g_infinity. intros g G. cbn. repeat split; try lra; unfold Rabs; destruct (Rcase_abs _); lra.
Qed.
Lemma ex_launched fixed hs crash : exists s, launched default_params (ex_loop default_mpc 0) (prim default_feet) (ex_settings fixed hs) (ex_par crash) ex_centering None ex_world s.
Proof.
  destruct (setup_shape pb_new pr_new) as (q & l0 & l1 & E & _). eexists. unfold launched.
  split; [exact (ex_regular 100)|]. split; [exact (ex_started default_mpc 0)|]. split; [vm_compute; reflexivity|]. split; [exact ex_sensible|]. split; [exact ex_moderate|].
  split; [symmetry; exact ex_default|]. split; [reflexivity|]. split; [intros a Ha; cbn in *; lia|]. unfold pg_start. rewrite E. reflexivity.
Qed.
Theorem program_case : exists F, forall fuel junk nan fixed hs es, F <= fuel -> exists s lib x,
  launched default_params (ex_loop default_mpc 0) (prim default_feet) (ex_settings fixed hs) (ex_par true) ex_centering None ex_world s /\
  library_is right_answer fuel junk nan (ex_settings fixed hs) (fun n => with_library (es n) (lib n)) s /\
  library_is sensible_answer fuel junk nan (ex_settings fixed hs) (fun n => with_library (es n) (lib n)) s /\
  stops fuel junk nan (ex_settings fixed hs) (fun n => with_library (es n) (lib n)) s 74 x.
Proof.
  destruct (program_solvable default_params (ex_loop default_mpc 0)) as [F1 K1]. destruct (program_complete default_params (ex_loop default_mpc 0)) as [F2 K2].
  exists (F1 + F2). intros fuel junk nan fixed hs es FU. destruct (ex_launched fixed hs true) as [s La].
  destruct (K1 fuel junk nan _ _ _ _ _ _ s es ltac:(lia) La) as (lib & Li & Se).
  assert (Un : understood fuel junk nan (ex_settings fixed hs) (fun n => with_library (es n) (lib n)) s) by (intros _; exact Se).
  destruct (K2 fuel junk nan _ _ _ _ _ _ s _ ltac:(lia) La Un Li 74) as (o & A & B). destruct (K2 fuel junk nan _ _ _ _ _ _ s _ ltac:(lia) La Un Li 75) as (o' & A' & B').
  change (total_ms default_params) with (89 * 100) in B, B'. change (horizon_length (wg_par (wl_wpg (ex_loop default_mpc 0)))) with 16 in B, B'. change (sampling_ms (wg_par (wl_wpg (ex_loop default_mpc 0)))) with 100 in B, B'.
  destruct o as [x|]; [|exfalso; apply B; [right; lia|reflexivity]]. destruct o' as [x'|]; [exfalso; destruct (proj1 B'); [discriminate|lia|lia]|].
  exists s, lib, x. split; [exact La|]. split; [exact Li|]. split; [exact Se|]. split; assumption.
Qed.

(** crash_on_any_failure_ is switched off: a failure of the library is not noticed by the program, the CoP leaves the support *)
Definition failing : environment := mkEnv (fun _ _ _ => 0%R) (fun _ => 1000%R) (fun _ => mkAnswer (CODE_FAILURE 0) 0 None (fun _ => 0%R) (fun _ => 0%R)) (empty_objective, empty_ILU_ALU) ([], []).
Theorem program_ignored : exists F, forall fuel junk nan hs, F <= fuel -> exists s x,
  launched default_params (ex_loop default_mpc 0) (prim default_feet) (ex_settings false hs) (ex_par false) ex_centering None ex_world s /\
  steps_to fuel junk nan (ex_settings false hs) (fun _ => failing) s 0 s x /\ so_status (pg_solution x) = STATUS_OTHER /\
  forall q, (forall a, is_cop (height_of (wl_model (ex_loop default_mpc 0))) (ms_com (md_state (wl_model (pg_loop x)))) a (q a)) -> ~ supported (prim default_feet) (md_state (wl_model (pg_loop s))) q.
Proof.
  set (s0 := ex_loop default_mpc 0).
  destruct (program_total default_params s0) as [F1 K1]. destruct (motion default_params s0) as [F2 K2].
  exists (F1 + F2 + (stances_left (wl_fsm s0) + 1)). intros fuel junk nan hs FU. destruct (ex_launched false hs false) as [s La].
  assert (Un : understood fuel junk nan (ex_settings false hs) (fun _ => failing) s) by (intros _ n k _; split; intros i _; right; left; reflexivity).
  assert (FU' : stances_left (wl_fsm s0) + 1 <= fuel) by lia.
  destruct (K1 fuel junk nan _ _ _ _ _ _ s (fun _ => failing) ltac:(lia) La Un 1) as [(o & A & B)|(_ & D & _)]; [|discriminate D].
  change (total_ms default_params) with (89 * 100) in B. change (horizon_length (wg_par (wl_wpg s0))) with 16 in B. change (sampling_ms (wg_par (wl_wpg s0))) with 100 in B.
  destruct o as [x|]; [|exfalso; apply B; [right; lia|reflexivity]]. exists s, x. split; [exact La|].
  assert (St : steps_to fuel junk nan (ex_settings false hs) (fun _ => failing) s 0 s x) by (split; [reflexivity|exact A]). split; [exact St|].
  destruct (stepped default_params s0 fuel junk nan _ _ _ _ _ _ s FU' La _ Un 0 s x St) as (_ & _ & g & f & q & so & h & rs & M & l0 & l1 & t & k & pf & P & As & Ho & Ef & Sc & C & Fi & Gw & Sx & _ & Ws & Ls & _).
  pose proof (ef_written _ _ _ _ _ _ _ _ Ef) as Wr. cbn [pg_call cl_library cl_solution failing en_library] in Wr.
  split. { rewrite Sx. pose proof (wr_ok _ _ _ Wr) as W1. pose proof (wr_max_iter _ _ _ Wr) as W2. pose proof (wr_set _ _ _ Wr) as W3. cbn [an_code] in W1, W2.
    destruct (so_status (cs_solution t)); try reflexivity; exfalso; first [exact (W3 eq_refl)|discriminate (proj1 W1 eq_refl)|discriminate (proj1 W2 eq_refl)]. }
  destruct (start_good default_params s0 nan _ _ _ _ _ _ s La) as (_ & E0 & _). rewrite E0. intros v Cv (c & th & Sp & Bo).
  destruct (mixed_solution default_params s0 fuel junk nan _ _ _ _ _ _ s FU' La _ Un 0 s x St) as (Cn & Es). rewrite E0 in Cn.
  destruct (K2 fuel junk nan _ _ _ ltac:(lia) (mixed_walking default_params s0 fuel junk nan _ _ _ _ _ _ s FU' La _ Un) 0 _ _ Cn) as (u & c' & th' & U1 & U2 & U3 & _).
  destruct (support_pose_unique _ _ _ _ _ Sp U1) as [<- <-].
  assert (X : forall a, cop_local (last_solution x) 0 a = 1000%R).
  { intros a. destruct P as (_ & _ & _ & _ & _ & _ & _ & _ & _ & _ & _ & NV & VL & SX & _). change (cop_local (last_solution x) 0 a) with (point (last_solution x) (2 * 0 + axis_index a)).
    change (horizon_length (wg_par (wl_wpg s0))) with 16 in NV. rewrite Ls, solution_point by (rewrite (wr_size _ _ _ Wr), VL, NV; destruct a; cbn [axis_index]; lia).
    rewrite (wr_no_x _ _ _ Wr eq_refl), SX. reflexivity. }
  rewrite Es in U2. rewrite !X in U2.
  assert (Q : forall a, v a = vget u (axis_index a)).
  { intros a. specialize (Cv a). rewrite U3 in Cv. change (subsampling_ms (wg_par (wl_wpg s0))) with 100 in Cv. change (sampling_ms (wg_par (wl_wpg s0))) with 100 in Cv.
    assert (D : is_cop (height_of (wl_model s0)) (evaluate (seconds 100) (seconds 100) (height_of (wl_model s0)) (convertCoMState_to_6d (ms_com (md_state (wl_model s0)))) u) a (vget u (axis_index a))).
    { apply cop_reached; [cbn; lra|]. unfold seconds. cbn. lra. }
    unfold is_cop in Cv, D. assert (G0 : (gravity <> 0)%R) by (unfold gravity; lra). apply (Rmult_eq_reg_l gravity); [|exact G0]. lra. }
  specialize (Bo AxisX). rewrite (frame_id th 1000 1000) in Bo by (intros a; rewrite Q, U2; ring). cbn in Bo. unfold Rabs in Bo. destruct (Rcase_abs 1000); lra.
Qed.
Theorem not_noticed : ~ forall p s0, exists F, forall fuel junk nan se pr par centering details w s es, F <= fuel -> launched p s0 pr se par centering details w s ->
  library_is honest_answer fuel junk nan se es s -> forall n x x', steps_to fuel junk nan se es s n x x' ->
  exists q, supported pr (md_state (wl_model (pg_loop x))) q /\
    (subsampling_ms (wg_par (wl_wpg s0)) = sampling_ms (wg_par (wl_wpg s0)) -> forall a, is_cop (height_of (wl_model s0)) (ms_com (md_state (wl_model (pg_loop x')))) a (q a)).
Proof.
  intros K. destruct (K default_params (ex_loop default_mpc 0)) as [F1 K1]. destruct program_ignored as [F2 K2].
  destruct (K2 (F1 + F2) (fun _ _ _ => 0%R) 0%R run1 ltac:(lia)) as (s & x & La & St & _ & N).
  destruct (K1 (F1 + F2) _ _ _ _ _ _ _ _ s (fun _ => failing) ltac:(lia) La ltac:(intros n k _ Co; discriminate Co) 0 s x St) as (q & S1 & C1).
  exact (N q (C1 eq_refl) S1).
Qed.
