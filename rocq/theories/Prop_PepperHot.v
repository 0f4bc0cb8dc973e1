(** * Property C105: the program which moves the wheeled robot tells the solver what it knows from the previous iteration. Vocabulary in PepperProgramHotSpec.v, PepperProgramSpec.v, SolverLifeSpec.v, QpoasesBridgeSpec.v. *)
From Coq Require Import String List Reals Arith Bool ZArith Lra Lia.
From Verif Require Import Base BaseFacts RSum Matrix Mat2 Mat3 ActiveSet Mixins ConstraintType HierarchyLevel HierarchySpec Constraints ConstraintsSpec QP QPSpec Problem ProblemSpec
  PointMass6z PointMass6zSpec TripleIntegratorSpec Solution Task MpcGuess MpcGuessSpec
  QpoasesBridge QpoasesBridgeSpec Backends BackendsSpec Solver SolverLife SolverLifeSpec WalkProgram WalkProgramSpec
  PepperPreview PepperPreviewSpec PepperModel PepperMpc PepperMpcSpec PepperTasks PepperTasksSpec PepperLoop PepperLoopSpec
  PepperProgram PepperProgramSpec PepperProgramHotSpec PepperProgramFacts7 PepperProgramHot.
Import ListNotations.
Local Open Scope R_scope.

(** Nothing is guessed if it was not asked for *)
Theorem C105_nothing : forall junk se par gain details w s0 s es, ready se par gain details w s0 s -> kp_understood junk se es s -> forall n k, kp_asked junk se es s n k ->
  qa_nV (lc_problem k) = (4 * horizon_length (mg_par (lp_mg s0)))%nat /\ (hs_solution (ks_start se) = false -> lc_guess k = None) /\ (hs_active (ks_start se) = false -> lc_active k = None).
Proof. exact kp_hot_nothing. Qed.
(** The guess of the solution is the previous solution one interval later *)
Theorem C105_solution : forall junk se par gain details w s0 s es, ready se par gain details w s0 s -> kp_understood junk se es s -> hs_solution (ks_start se) = true -> let N := horizon_length (mg_par (lp_mg s0)) in
  (forall k, kp_asked junk se es s 0 k -> exists g, lc_guess k = Some g /\ vlen g = (4 * N)%nat /\ forall i, (i < 4 * N)%nat -> vget g i = 0) /\
  (forall n x x' k k', kp_steps junk se es s n x x' -> kp_asked junk se es s n k -> kp_asked junk se es s (S n) k' ->
    exists g, lc_guess k' = Some g /\ moved_commands N (point (kp_last x')) g /\ forall y, an_primal (en_library (es n) k) = Some y -> forall i, (i < 4 * N)%nat -> point (kp_last x') i = y i).
Proof. exact kp_hot_solution. Qed.
(** The guess of the active set is the previous working set one interval later *)
Theorem C105_active : forall junk se par gain details w s0 s es, ready se par gain details w s0 s -> kp_understood junk se es s -> hs_active (ks_start se) = true -> let N := horizon_length (mg_par (lp_mg s0)) in
  (forall n k, n = 0%nat \/ hs_report (ks_start se) = false \/ (ks_subsampling se < sampling_ms (mg_par (lp_mg s0)))%Z -> kp_asked junk se es s n k -> exists g, lc_active k = Some g /\ empty_working_set N g) /\
  (hs_report (ks_start se) = true -> (sampling_ms (mg_par (lp_mg s0)) <= ks_subsampling se)%Z -> finite_velocity (ks_bounds se) -> forall n k k', kp_asked junk se es s n k -> kp_asked junk se es s (S n) k' ->
    exists g, lc_active k' = Some g /\ moved_working_set N (an_wsb (en_library (es n) k)) (an_wsc (en_library (es n) k)) g).
Proof. exact kp_hot_active. Qed.

(** a case which meets the hypotheses: guesses of all kinds, calls in all of the four iterations *)
Theorem C105_case : forall junk hs es, exists s, let se := cr_settings hs in let es' := fun n => cr_environment (es n) in
  ready se cr_par (1 / 2) None cr_world cr_loop s /\ kp_understood junk se es' s /\ finite_velocity (ks_bounds se) /\ (sampling_ms (mg_par (lp_mg cr_loop)) <= ks_subsampling se)%Z /\
  forall n, (n < 4)%nat -> exists x x' k, kp_steps junk se es' s n x x' /\ kp_asked junk se es' s n k.
Proof. exact kp_hot_case. Qed.

Print Assumptions C105_nothing. Print Assumptions C105_solution. Print Assumptions C105_active. Print Assumptions C105_case.
