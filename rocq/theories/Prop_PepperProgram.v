(** * Property C104: the program which moves the wheeled robot. Vocabulary in PepperProgramSpec.v, WalkProgramSpec.v, PepperLoopSpec.v, SolverLifeSpec.v. *)
From Coq Require Import String List Reals Arith Bool ZArith Lra Lia.
From Verif Require Import Base BaseFacts RSum Matrix Mat2 Mat3 ActiveSet Mixins ConstraintType HierarchyLevel HierarchySpec Constraints ConstraintsSpec QP QPSpec Problem ProblemSpec
  PointMass6z PointMass6zSpec TripleIntegratorSpec Solution Task MpcGuess MpcGuessSpec
  QpoasesBridge QpoasesBridgeSpec Backends BackendsSpec Solver SolverLife SolverLifeSpec WalkProgram WalkProgramSpec
  PepperPreview PepperPreviewSpec PepperModel PepperMpc PepperMpcSpec PepperTasks PepperTasksSpec PepperLoop PepperLoopSpec
  PepperProgram PepperProgramSpec PepperRobot PepperRobotSpec PepperProgramFacts6 PepperProgramFacts7 PepperProgramFacts8 PepperProgramFacts9.
Import ListNotations.
Local Open Scope R_scope.

(** For any library the program makes the iterations of C98, or it is left by the exception which is thrown for a failure of the library *)
Theorem C104_total : forall junk se par gain details w s0 s es, ready se par gain details w s0 s -> movable (ks_bounds se) -> kp_understood junk se es s -> forall n,
  let p := mg_par (lp_mg s0) in let q := as_queue (lp_motions s0) in
  (exists o, kp_after junk se es s n = Ok o /\
    (o <> None <-> n = 0%nat \/ endless q \/ (Z.of_nat (horizon_length p) * sampling_ms p + Z.of_nat (n - 1) * ks_shift se <= total q)%Z)) \/
  (kp_after junk se es s n = Throw /\ pr_crash par = true /\ exists m k, (m < n)%nat /\ kp_asked junk se es s m k /\ an_code (en_library (es m) k) <> CODE_SUCCESS).
Proof. exact kp_total. Qed.
(** Bounds on the velocity which contradict each other: the first iteration throws, the library is never called *)
Theorem C104_contradiction : forall junk se par gain details w s0 s es, ready se par gain details w s0 s -> ~ movable (ks_bounds se) ->
  let p := mg_par (lp_mg s0) in let q := as_queue (lp_motions s0) in
  (forall n k, ~ kp_asked junk se es s n k) /\
  forall n, (endless q \/ (Z.of_nat (horizon_length p) * sampling_ms p <= total q)%Z -> kp_after junk se es s (S n) = Throw) /\
    (~ (endless q \/ (Z.of_nat (horizon_length p) * sampling_ms p <= total q)%Z) -> kp_after junk se es s (S n) = Ok None).
Proof. exact kp_contradiction. Qed.
(** One call of the library per iteration, one object of the library at most *)
Theorem C104_memory : forall junk se par gain details w s0 s es, ready se par gain details w s0 s -> kp_understood junk se es s -> forall n x, kp_after junk se es s n = Ok (Some x) ->
  length (wd_calls (kp_world x)) = (length (wd_calls w) + n)%nat /\ tidy (kp_world x) /\
  (wd_live (kp_world x) = wd_live w \/ exists a, ~ In a (wd_live w) /\ wd_live (kp_world x) = a :: wd_live w).
Proof. exact kp_memory. Qed.
(** Each run of the program is a run of the loop of C98 with the solutions of the program *)
Theorem C104_refines : forall junk se par gain details w s0 s es, ready se par gain details w s0 s -> kp_understood junk se es s ->
  exists sols, well_posed (ks_advance se) (ks_shift se) sols s0 /\
    (forall n x, kp_after junk se es s n = Ok (Some x) -> after junk (ks_bounds se) (ks_advance se) (ks_shift se) sols s0 n = Ok (Some (kp_loop x))) /\
    (forall n x x', kp_steps junk se es s n x x' -> sols n = kp_last x') /\
    (forall n x, kp_stops junk se es s n x -> after junk (ks_bounds se) (ks_advance se) (ks_shift se) sols s0 (S n) = Ok None).
Proof. exact kp_refines. Qed.
(** The solution is the best one within the bounds of the robot *)
Theorem C104_optimal : forall junk se par gain details w s0 s es, ready se par gain details w s0 s -> kp_understood junk se es s -> pr_crash par = true -> kp_library_is sound_answer junk se es s ->
  forall n x x', kp_steps junk se es s n x x' -> let N := horizon_length (mg_par (lp_mg s0)) in let q := as_queue (lp_motions s0) in
  fits_problem N (kp_last x') /\ finite N (kp_last x') /\ exists P, planned (kp_loop x) (kp_last x') P /\ respects (ks_bounds se) q (ks_shift se) n (kp_loop x) P /\
  forall sol', fits_problem N sol' -> (exists P', planned (kp_loop x) sol' P') /\
    forall P', planned (kp_loop x) sol' P' -> finite N sol' -> respects (ks_bounds se) q (ks_shift se) n (kp_loop x) P' ->
      plan_cost se gain q n (kp_loop x) (kp_last x') P <= plan_cost se gain q n (kp_loop x) sol' P'.
Proof. exact kp_optimal. Qed.
(** The plan of a solution is the only one *)
Theorem C104_plan_unique : forall l sol P P', PepperPreviewSpec.proper (mg_par (lp_mg l)) -> ps_base_mass (lp_model l) + ps_body_mass (lp_model l) <> 0 -> planned l sol P -> planned l sol P' ->
  (forall k a, (k <= horizon_length (mg_par (lp_mg l)))%nat -> pl_base P k a = pl_base P' k a /\ pl_body P k a = pl_body P' k a) /\
  (forall k a, (k < horizon_length (mg_par (lp_mg l)))%nat -> pl_jerk P k a = pl_jerk P' k a /\ pl_cop P k a = pl_cop P' k a).
Proof. exact kp_plan_unique. Qed.
(** The program goes on if and only if some plan keeps the bounds *)
Theorem C104_feasible : forall junk se par gain details w s0 s es, ready se par gain details w s0 s -> kp_understood junk se es s -> pr_crash par = true ->
  forall n x, kp_after junk se es s n = Ok (Some x) -> let N := horizon_length (mg_par (lp_mg s0)) in let q := as_queue (lp_motions s0) in
  endless q \/ (Z.of_nat N * sampling_ms (mg_par (lp_mg s0)) + Z.of_nat n * ks_shift se <= total q)%Z ->
  (kp_library_is honest_answer junk se es s -> (forall sol P, fits_problem N sol -> finite N sol -> planned (kp_loop x) sol P -> ~ respects (ks_bounds se) q (ks_shift se) n (kp_loop x) P) ->
     kp_after junk se es s (S n) = Throw) /\
  (kp_library_is capable_answer junk se es s -> forall sol P, fits_problem N sol -> finite N sol -> planned (kp_loop x) sol P -> respects (ks_bounds se) q (ks_shift se) n (kp_loop x) P ->
     exists x', kp_steps junk se es s n x x').
Proof. exact kp_feasible. Qed.
(** The robot keeps its bounds if each iteration advances it by a whole interval *)
Theorem C104_bounds : forall junk junk' se par gain details w s0 s es, ready se par gain details w s0 s -> kp_understood junk se es s -> pr_crash par = true -> kp_library_is honest_answer junk se es s ->
  ks_advance se = Whole -> forall n x x', kp_steps junk se es s n x x' -> let r := ks_bounds se in let s' := kp_loop x' in
  (forall a, within (rb_velocity r) a (vy (base_of s' a)) /\ within (rb_acceleration r) a (vz (base_of s' a)) /\ within (rb_body r) a (base_offset s' a)) /\
  ((0 < n)%nat \/ default_masses s0 -> exists c, getCoP junk' (lp_model s') = Ok c /\ forall a, within (rb_cop r) a (vget c (axis_index a))).
Proof. exact kp_bounds. Qed.
(** Accelerations and velocities if an iteration advances the robot by a part of an interval *)
Theorem C104_gentle : forall junk se par gain details w s0 s es, ready se par gain details w s0 s -> kp_understood junk se es s -> pr_crash par = true -> kp_library_is honest_answer junk se es s ->
  gentle (ks_bounds se) s0 -> forall n x, kp_after junk se es s n = Ok (Some x) -> gentle (ks_bounds se) (kp_loop x) /\
  let p := mg_par (lp_mg s0) in let e a := acceleration_range (ks_bounds se) a * (seconds (sampling_ms p) - seconds (step_ms (sampling_ms p) (ks_advance se))) in
  (slow (ks_bounds se) e s0 -> slow (ks_bounds se) e (kp_loop x)).
Proof. exact kp_gentle. Qed.
(** The discs: speed, acceleration and CoP with the bounds computed from the parameters of the robot *)
Theorem C104_movable : forall p, movable (rp_bounds p) <-> 0 <= rp_max_nominal_base_velocity p.
Proof. exact kp_movable_robot. Qed.
Theorem C104_discs : forall junk junk' se par gain details w s0 s es rp, ready se par gain details w s0 s -> kp_understood junk se es s -> pr_crash par = true -> kp_library_is honest_answer junk se es s ->
  ks_advance se = Whole -> ks_bounds se = rp_bounds rp -> forall n x x', kp_steps junk se es s n x x' -> let s' := kp_loop x' in
  Rsqr (vy (base_of s' AxisX)) + Rsqr (vy (base_of s' AxisY)) <= Rsqr (rp_max_nominal_base_velocity rp) /\
  Rsqr (vz (base_of s' AxisX)) + Rsqr (vz (base_of s' AxisY)) <= Rsqr (rp_max_nominal_base_acceleration rp) /\
  ((0 < n)%nat \/ default_masses s0 -> exists c, getCoP junk' (lp_model s') = Ok c /\ Rsqr (vget c 0) + Rsqr (vget c 1) <= Rsqr (rp_base_radius rp)).
Proof. exact kp_discs. Qed.
(** From rest the program can always go on; the default robot can always be started *)
Theorem C104_rests : forall junk se par gain details w s0 s es d, ready se par gain details w s0 s -> kp_understood junk se es s -> pr_crash par = true -> kp_library_is capable_answer junk se es s ->
  roomy (ks_bounds se) d -> forall n x, kp_after junk se es s n = Ok (Some x) -> let N := horizon_length (mg_par (lp_mg s0)) in let q := as_queue (lp_motions s0) in
  endless q \/ (Z.of_nat N * sampling_ms (mg_par (lp_mg s0)) + Z.of_nat n * ks_shift se <= total q)%Z ->
  at_rest (kp_loop x) -> near d (kp_loop x) -> 0 <= ps_base_mass (lp_model (kp_loop x)) -> 0 <= ps_body_mass (lp_model (kp_loop x)) -> exists x', kp_steps junk se es s n x x'.
Proof. exact kp_rests. Qed.
Theorem C104_starts : forall junk se par gain details w s0 s es, ready se par gain details w s0 s -> kp_understood junk se es s -> pr_crash par = true -> kp_library_is capable_answer junk se es s ->
  ks_bounds se = rp_bounds rp_defaults -> lp_model s0 = ps_setParameters default_base_height default_body_height default_body_x_offset default_base_mass default_body_mass ->
  let p := mg_par (lp_mg s0) in let q := as_queue (lp_motions s0) in endless q \/ (Z.of_nat (horizon_length p) * sampling_ms p <= total q)%Z ->
  exists x, kp_after junk se es s 1 = Ok (Some x).
Proof. exact kp_default_starts. Qed.
(** The program goes on if the last plan can be prolonged by an interval, in particular if it stops in time *)
Theorem C104_continues : forall junk se par gain details w s0 s es, ready se par gain details w s0 s -> kp_understood junk se es s -> pr_crash par = true -> kp_library_is capable_answer junk se es s ->
  kp_library_is sound_answer junk se es s -> let p := mg_par (lp_mg s0) in let q := as_queue (lp_motions s0) in
  ks_advance se = Whole -> ks_shift se = sampling_ms p -> forall n x x' P e, kp_steps junk se es s n x x' -> (0 < n)%nat \/ default_masses s0 ->
  endless q \/ (Z.of_nat (horizon_length p) * sampling_ms p + Z.of_nat (S n) * ks_shift se <= total q)%Z ->
  planned (kp_loop x) (kp_last x') P -> prolonged (ks_bounds se) q (ks_shift se) n (kp_loop x) P e -> exists x'', kp_steps junk se es s (S n) x' x''.
Proof. exact kp_continues. Qed.
Theorem C104_halts : forall junk se par gain details w s0 s es d, ready se par gain details w s0 s -> kp_understood junk se es s -> pr_crash par = true -> kp_library_is capable_answer junk se es s ->
  kp_library_is sound_answer junk se es s -> let p := mg_par (lp_mg s0) in let q := as_queue (lp_motions s0) in
  ks_advance se = Whole -> ks_shift se = sampling_ms p -> roomy (ks_bounds se) d -> forall n x x' P, kp_steps junk se es s n x x' -> (0 < n)%nat \/ default_masses s0 ->
  endless q \/ (Z.of_nat (horizon_length p) * sampling_ms p + Z.of_nat (S n) * ks_shift se <= total q)%Z ->
  0 <= ps_base_mass (lp_model (kp_loop x)) -> 0 <= ps_body_mass (lp_model (kp_loop x)) ->
  planned (kp_loop x) (kp_last x') P -> halted d (pl_base P (horizon_length p)) (pl_body P (horizon_length p)) -> exists x'', kp_steps junk se es s (S n) x' x''.
Proof. exact kp_halts. Qed.
(** A robot within all its bounds which cannot go on: no plan keeps them in the next interval *)
Theorem C104_stuck_refuted : ~ (forall junk se par gain details w s0 s es, ready se par gain details w s0 s -> movable (ks_bounds se) -> kp_understood junk se es s -> pr_crash par = true ->
  kp_library_is sound_answer junk se es s -> kp_library_is capable_answer junk se es s -> keeps_bounds (ks_bounds se) s0 -> endless (as_queue (lp_motions s0)) ->
  exists x, kp_after junk se es s 1 = Ok (Some x)).
Proof. exact kp_stuck. Qed.
(** The result depends on the library and on the way to start it in no other way *)
Theorem C104_determined : forall junk se hs par par' gain details details' w w' s0 s s' es es', ready se par gain details w s0 s -> ready (kp_with_start se hs) par' gain details' w' s0 s' ->
  kp_understood junk se es s -> kp_understood junk (kp_with_start se hs) es' s' -> pr_crash par = true -> pr_crash par' = true ->
  kp_library_is sound_answer junk se es s -> kp_library_is sound_answer junk (kp_with_start se hs) es' s' -> gain <> 0 -> ks_base_jerk se <> 0 \/ ks_reference se <> 0 ->
  forall n x y, kp_after junk se es s n = Ok (Some x) -> kp_after junk (kp_with_start se hs) es' s' n = Ok (Some y) -> kp_loop x = kp_loop y /\ ((0 < n)%nat -> kp_last x = kp_last y).
Proof. exact kp_result_determined. Qed.
Theorem C104_same : forall junk se hs par par' gain details details' w w' s0 s s' es es', ready se par gain details w s0 s -> ready (kp_with_start se hs) par' gain details' w' s0 s' ->
  kp_understood junk se es s -> kp_understood junk (kp_with_start se hs) es' s' -> pr_crash par = true -> pr_crash par' = true ->
  kp_library_is sound_answer junk se es s -> kp_library_is sound_answer junk (kp_with_start se hs) es' s' -> kp_library_is capable_answer junk se es s -> kp_library_is capable_answer junk (kp_with_start se hs) es' s' ->
  gain <> 0 -> ks_base_jerk se <> 0 \/ ks_reference se <> 0 -> forall n,
  (kp_after junk se es s n = Ok None /\ kp_after junk (kp_with_start se hs) es' s' n = Ok None) \/ (kp_after junk se es s n = Throw /\ kp_after junk (kp_with_start se hs) es' s' n = Throw) \/
  exists x y, kp_after junk se es s n = Ok (Some x) /\ kp_after junk (kp_with_start se hs) es' s' n = Ok (Some y) /\ kp_loop x = kp_loop y /\ ((0 < n)%nat -> kp_last x = kp_last y).
Proof. exact kp_result_same. Qed.

(** a case which meets the hypotheses: the program is left by the break after 4 iterations *)
Theorem C104_case : forall junk hs es, exists s x, let se := cr_settings hs in let es' := fun n => cr_environment (es n) in
  ready se cr_par (1 / 2) None cr_world cr_loop s /\ movable (ks_bounds se) /\ kp_understood junk se es' s /\ kp_library_is sound_answer junk se es' s /\ kp_library_is capable_answer junk se es' s /\ kp_stops junk se es' s 4 x.
Proof. exact kp_case. Qed.
(** the default robot meets the hypotheses of C104_rests and C104_starts *)
Theorem C104_default_case : forall hs, let se := mkPepper (rp_bounds rp_defaults) Whole 100 100 false 10 1 1 hs in let m := Queue [mkMotion (V2 1 0) (V2 0 0) 1 2500] in
  exists s, ready se st_par 1 None st_world (df_loop m) s /\ roomy (ks_bounds se) (3 / 100) /\ at_rest (df_loop m) /\ near (3 / 100) (df_loop m).
Proof. exact kp_default_case. Qed.

Print Assumptions C104_total. Print Assumptions C104_contradiction. Print Assumptions C104_memory. Print Assumptions C104_refines. Print Assumptions C104_optimal. Print Assumptions C104_plan_unique. Print Assumptions C104_feasible. Print Assumptions C104_bounds. Print Assumptions C104_gentle. Print Assumptions C104_movable. Print Assumptions C104_discs. Print Assumptions C104_rests. Print Assumptions C104_starts. Print Assumptions C104_continues. Print Assumptions C104_halts. Print Assumptions C104_stuck_refuted. Print Assumptions C104_determined. Print Assumptions C104_same. Print Assumptions C104_case. Print Assumptions C104_default_case.
