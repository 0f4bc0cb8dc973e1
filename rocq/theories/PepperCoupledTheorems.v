(** * Theorems about the program which plans motions of Pepper and executes them (C108) *)
From Coq Require Import String List Reals Arith Bool ZArith Lra Lia.
From Verif Require Import Base BaseFacts RSum Matrix Mat2 Mat3 ActiveSet Mixins ConstraintType HierarchyLevel HierarchySpec Constraints ConstraintsSpec QP QPSpec Problem ProblemSpec
  PointMass6z PointMass6zSpec TripleIntegratorSpec Solution Task MpcGuess MpcGuessSpec MpcGuessFacts
  QpoasesBridge QpoasesBridgeSpec Backends BackendsSpec Solver SolverLife SolverLifeSpec SolverLifeFacts WalkProgram WalkProgramSpec WalkProgramFacts WalkProgramFacts2
  RotarySpec Rotary Euler EulerSpec Rbdl RbdlSpec PepperIk PepperIkSpec PepperIkFacts PepperIkTasks PepperIkTasksSpec PepperIkTasksFacts PepperIkLoop PepperIkCommandFacts PepperIkLoopSpec KKT KKTSpec KKTPosedSpec PepperIkProgram PepperIkProgramSpec PepperIkProgramFacts2 PepperIkProgramRun
  PepperPreview PepperPreviewSpec PepperFormFacts PepperModel PepperMpc PepperMpcSpec PepperMpcFacts2 PepperTasks PepperTasksSpec PepperTasksFacts PepperTasksFacts2 PepperLoop PepperLoopSpec PepperLoopFacts PepperLoopFacts2
  PepperProgram PepperProgramSpec PepperProgramFacts PepperProgramFacts2 PepperProgramFacts3 PepperProgramFacts4 PepperProgramFacts5 PepperCoupled PepperCoupledSpec PepperCoupledIk PepperCoupledFacts.
Import ListNotations.
Local Open Scope R_scope.

(** After n iterations the program has passed, has ended because the motions do not cover the horizon, or has failed, with the reason *)
Theorem coupled_iterations (eig : m3 -> euler_type -> v3) (junk : nat -> nat -> nat -> R) (se : co_settings) (par : qparams) (body_jerk : R) (details : option (backend_code * Z)) (w : world) (s0 : loop)
    (m0 : ikmodel) (wb : wbc) (matrices : nat -> mat) (qp : objective * contAB) (c0 : PepperIkTasks.command) (s : coupled) (es : nat -> environment) (n : nat) : co_ready eig se par body_jerk details w s0 m0 wb matrices qp c0 s ->
  (exists x, co_after eig junk se es s n = Ok (Some x) /\ ((n = 0)%nat \/ co_enough se s0 (n - 1))) \/
  (co_after eig junk se es s n = Ok None /\ (0 < n)%nat /\ ~ co_enough se s0 (n - 1)) \/
  ((forall o, co_after eig junk se es s n <> Ok o) /\ exists j x y, (j < n)%nat /\ co_after eig junk se es s j = Ok (Some x) /\ co_begins eig se j x y /\ co_enough se s0 j /\
     ((co_after eig junk se es s n = Throw /\ ~ movable (ct_bounds se) /\ j = 0%nat) \/
      (co_after eig junk se es s n = Throw /\ pr_crash par = true /\ exists k, co_asked eig junk se es s j k /\ an_code (en_library (es j) k) <> CODE_SUCCESS) \/
      co_untracked eig junk se es s j n y)).
Proof. intros Re. exact (runs eig junk se par body_jerk details w s0 m0 wb matrices qp c0 s Re es n). Qed.
(** Every iteration can begin: the robot is moved by the feedback, the model of the MPC is set from it, the motions are those which remain *)
Theorem coupled_begins (eig : m3 -> euler_type -> v3) (junk : nat -> nat -> nat -> R) (se : co_settings) (par : qparams) (body_jerk : R) (details : option (backend_code * Z)) (w : world) (s0 : loop)
    (m0 : ikmodel) (wb : wbc) (matrices : nat -> mat) (qp : objective * contAB) (c0 : PepperIkTasks.command) (s : coupled) (es : nat -> environment) (n : nat) (x : coupled) : co_ready eig se par body_jerk details w s0 m0 wb matrices qp c0 s ->
  co_after eig junk se es s n = Ok (Some x) -> exists y, co_begins eig se n x y /\ reachable eig ROOT_PLANAR (is_kinematics (ct_ik se)) (robot y) /\ synced eig (robot y) (lp_model (mpc x)) (lp_model (mpc y)) /\
  ((n = 0)%nat -> robot y = m0 /\ mpc x = s0) /\
  ((0 < n)%nat -> moved (co_command x) (INR (ct_difference se) / 1000) (ik_gc (robot x)) (ik_gc (robot y)) /\ forall j, angle ROOT_PLANAR (ik_gc (robot y)) j = angle_in ROOT_PLANAR (cmd_joints (co_command x)) j) /\
  forall u, (0 <= u)%Z -> commanded (as_queue (lp_motions (mpc y))) u = commanded (as_queue (lp_motions s0)) (Z.of_nat n * co_elapsed se + u).
Proof. intros Re. exact (begun eig junk se par body_jerk details w s0 m0 wb matrices qp c0 s Re es n x). Qed.
(** The plan of every iteration respects the constraints and is optimal *)
Theorem coupled_optimal (eig : m3 -> euler_type -> v3) (junk : nat -> nat -> nat -> R) (se : co_settings) (par : qparams) (body_jerk : R) (details : option (backend_code * Z)) (w : world) (s0 : loop)
    (m0 : ikmodel) (wb : wbc) (matrices : nat -> mat) (qp : objective * contAB) (c0 : PepperIkTasks.command) (s : coupled) (es : nat -> environment) (n : nat) (x : coupled) (x' : coupled) (y : coupled) : co_ready eig se par body_jerk details w s0 m0 wb matrices qp c0 s ->
  pr_crash par = true -> co_library_is sound_answer eig junk se es s -> co_passes eig junk se es s n x x' -> co_begins eig se n x y ->
  let sol := kp_last (co_pepper x') in
  fits_problem (horizon_length (mg_par (lp_mg s0))) sol /\ finite (horizon_length (mg_par (lp_mg s0))) sol /\ exists Pl, planned (mpc y) sol Pl /\ respects (ct_bounds se) (as_queue (lp_motions s0)) (co_elapsed se) n (mpc y) Pl /\
  forall sol', fits_problem (horizon_length (mg_par (lp_mg s0))) sol' -> (exists Pl', planned (mpc y) sol' Pl') /\
    forall Pl', planned (mpc y) sol' Pl' -> finite (horizon_length (mg_par (lp_mg s0))) sol' -> respects (ct_bounds se) (as_queue (lp_motions s0)) (co_elapsed se) n (mpc y) Pl' -> plan_cost (co_costs se) body_jerk (as_queue (lp_motions s0)) n (mpc y) sol Pl <= plan_cost (co_costs se) body_jerk (as_queue (lp_motions s0)) n (mpc y) sol' Pl'.
Proof. intros Re. exact (optimal eig junk se par body_jerk details w s0 m0 wb matrices qp c0 s Re es n x x' y). Qed.
(** An iteration whose constraints contradict each other throws *)
Theorem coupled_fails (eig : m3 -> euler_type -> v3) (junk : nat -> nat -> nat -> R) (se : co_settings) (par : qparams) (body_jerk : R) (details : option (backend_code * Z)) (w : world) (s0 : loop)
    (m0 : ikmodel) (wb : wbc) (matrices : nat -> mat) (qp : objective * contAB) (c0 : PepperIkTasks.command) (s : coupled) (es : nat -> environment) (n : nat) (x : coupled) (y : coupled) : co_ready eig se par body_jerk details w s0 m0 wb matrices qp c0 s ->
  pr_crash par = true -> co_library_is honest_answer eig junk se es s -> co_after eig junk se es s n = Ok (Some x) -> co_begins eig se n x y -> co_enough se s0 n ->
  (forall sol Pl, fits_problem (horizon_length (mg_par (lp_mg s0))) sol -> finite (horizon_length (mg_par (lp_mg s0))) sol -> planned (mpc y) sol Pl -> ~ respects (ct_bounds se) (as_queue (lp_motions s0)) (co_elapsed se) n (mpc y) Pl) -> co_after eig junk se es s (S n) = Throw.
Proof. intros Re. exact (planning_fails eig junk se par body_jerk details w s0 m0 wb matrices qp c0 s Re es n x y). Qed.
(** Planning succeeds when the constraints do not contradict each other *)
Theorem coupled_succeeds (eig : m3 -> euler_type -> v3) (junk : nat -> nat -> nat -> R) (se : co_settings) (par : qparams) (body_jerk : R) (details : option (backend_code * Z)) (w : world) (s0 : loop)
    (m0 : ikmodel) (wb : wbc) (matrices : nat -> mat) (qp : objective * contAB) (c0 : PepperIkTasks.command) (s : coupled) (es : nat -> environment) (n : nat) (x : coupled) (y : coupled) : co_ready eig se par body_jerk details w s0 m0 wb matrices qp c0 s ->
  co_library_is capable_answer eig junk se es s -> co_after eig junk se es s n = Ok (Some x) -> co_begins eig se n x y -> co_enough se s0 n ->
  (exists sol Pl, fits_problem (horizon_length (mg_par (lp_mg s0))) sol /\ finite (horizon_length (mg_par (lp_mg s0))) sol /\ planned (mpc y) sol Pl /\ respects (ct_bounds se) (as_queue (lp_motions s0)) (co_elapsed se) n (mpc y) Pl) ->
  exists k, co_plan junk se (es n) (co_pepper y) = Ok (Some k).
Proof. intros Re. exact (planning_succeeds eig junk se par body_jerk details w s0 m0 wb matrices qp c0 s Re es n x y). Qed.
(** The planned state *)
Theorem coupled_planned (eig : m3 -> euler_type -> v3) (junk : nat -> nat -> nat -> R) (se : co_settings) (par : qparams) (body_jerk : R) (details : option (backend_code * Z)) (w : world) (s0 : loop)
    (m0 : ikmodel) (wb : wbc) (matrices : nat -> mat) (qp : objective * contAB) (c0 : PepperIkTasks.command) (s : coupled) (es : nat -> environment) (n : nat) (x : coupled) (x' : coupled) (y : coupled) : co_ready eig se par body_jerk details w s0 m0 wb matrices qp c0 s ->
  co_passes eig junk se es s n x x' -> co_begins eig se n x y ->
  let T := seconds (sampling_ms (mg_par (lp_mg s0))) in let t := seconds (Z.of_nat (ct_subsampling se)) in let sol := kp_last (co_pepper x') in
  exists v p om, commanded (as_queue (lp_motions s0)) (Z.of_nat n * co_elapsed se + sampling_ms (mg_par (lp_mg s0)) - 1) = Some (v, p, om) /\
  (forall a, moved3 (base_of (mpc y) a) (base_of (mpc x') a) (vel_jerk (base_of (mpc y) a) (base_command sol 0 a) T) t /\ moved3 (body_of (mpc y) a) (body_of (mpc x') a) (body_command (horizon_length (mg_par (lp_mg s0))) sol 0 a) t) /\
  heading_of (mpc x') = heading_of (mpc y) + om * t /\ base_height_of (mpc x') = base_height_of (mpc y) /\ body_height_of (mpc x') = body_height_of (mpc y).
Proof. intros Re. exact (planned_motion eig junk se par body_jerk details w s0 m0 wb matrices qp c0 s Re es n x x' y). Qed.
(** The inverse kinematics: best steps until the robot is close to the planned state or a step is small; the command *)
Theorem coupled_tracks (eig : m3 -> euler_type -> v3) (junk : nat -> nat -> nat -> R) (se : co_settings) (par : qparams) (body_jerk : R) (details : option (backend_code * Z)) (w : world) (s0 : loop)
    (m0 : ikmodel) (wb : wbc) (matrices : nat -> mat) (qp : objective * contAB) (c0 : PepperIkTasks.command) (s : coupled) (es : nat -> environment) (n : nat) (x : coupled) (x' : coupled) (y : coupled) : co_ready eig se par body_jerk details w s0 m0 wb matrices qp c0 s ->
  co_passes eig junk se es s n x x' -> co_begins eig se n x y ->
  exists mp m j st sols, refers mp (lp_model (mpc x')) /\ saveCurrentState (robot y) = Ok m /\ (j < wp_iterations (is_wbc (ct_ik se)))%nat /\ steps_of (ct_ik se) mp (ik_with_model m (co_ik y)) st sols (S j) /\
    co_stops se mp st sols j /\ co_ik x' = st (S j) /\ (forall i reg, (i <= j)%nat -> solvable (ct_ik se) mp reg (ip_loop (st i)) -> best_step (ct_ik se) mp reg (ip_loop (st i)) (sols i)) /\
    exists A A', getBasePosition (robot y) = Ok A /\ getBasePosition (robot x') = Ok A' /\ executes ROOT_PLANAR (is_kinematics (ct_ik se)) (wp_interval (is_wbc (ct_ik se))) (co_command x') (ip_loop (co_ik y)) (ip_loop (co_ik x')) A A'.
Proof. intros Re. exact (tracked eig junk se par body_jerk details w s0 m0 wb matrices qp c0 s Re es n x x' y). Qed.
(** The iterations of the inverse kinematics end with a command, or the program throws *)
Theorem coupled_tracking (eig : m3 -> euler_type -> v3) (junk : nat -> nat -> nat -> R) (se : co_settings) (par : qparams) (body_jerk : R) (details : option (backend_code * Z)) (w : world) (s0 : loop)
    (m0 : ikmodel) (wb : wbc) (matrices : nat -> mat) (qp : objective * contAB) (c0 : PepperIkTasks.command) (s : coupled) (es : nat -> environment) (n : nat) (x : coupled) (y : coupled) (k : pepper_program) (reg : R) : co_ready eig se par body_jerk details w s0 m0 wb matrices qp c0 s ->
  co_after eig junk se es s n = Ok (Some x) -> co_begins eig se n x y -> co_plan junk se (es n) (co_pepper y) = Ok (Some k) ->
  exists mp, refers mp (lp_model (kp_loop k)) /\
  ((forall m, saveCurrentState (robot y) = Ok m -> forall i st sols, (i < wp_iterations (is_wbc (ct_ik se)))%nat -> steps_of (ct_ik se) mp (ik_with_model m (co_ik y)) st sols i -> co_goes_on se mp st sols i -> solvable (ct_ik se) mp reg (ip_loop (st i))) ->
   exists m st sols, saveCurrentState (robot y) = Ok m /\
    ((exists j, (j < wp_iterations (is_wbc (ct_ik se)))%nat /\ steps_of (ct_ik se) mp (ik_with_model m (co_ik y)) st sols (S j) /\ co_stops se mp st sols j /\
        co_after eig junk se es s (S n) = bind (getRobotCommand (wp_interval (is_wbc (ct_ik se))) (lk_model (ip_loop (st (S j))))) (fun c => Ok (Some (mkCo k (st (S j)) c)))) \/
     (steps_of (ct_ik se) mp (ik_with_model m (co_ik y)) st sols (wp_iterations (is_wbc (ct_ik se))) /\ co_goes_on se mp st sols (wp_iterations (is_wbc (ct_ik se))) /\ co_after eig junk se es s (S n) = Throw))).
Proof. intros Re. exact (tracking eig junk se par body_jerk details w s0 m0 wb matrices qp c0 s Re es n x y k reg). Qed.
(** The robot between two iterations *)
Theorem coupled_moves (eig : m3 -> euler_type -> v3) (junk : nat -> nat -> nat -> R) (se : co_settings) (par : qparams) (body_jerk : R) (details : option (backend_code * Z)) (w : world) (s0 : loop)
    (m0 : ikmodel) (wb : wbc) (matrices : nat -> mat) (qp : objective * contAB) (c0 : PepperIkTasks.command) (s : coupled) (es : nat -> environment) (n : nat) (x : coupled) (x' : coupled) (y : coupled) (y' : coupled) : co_ready eig se par body_jerk details w s0 m0 wb matrices qp c0 s ->
  base_is_root (is_kinematics (ct_ik se)) -> co_passes eig junk se es s n x x' -> co_begins eig se n x y -> co_begins eig se (S n) x' y' ->
  let dt := wp_interval (is_wbc (ct_ik se)) in let q := ik_gc (robot y) in let q' := ik_gc (robot y') in let c := co_command x' in
  root_at q' 0 = root_at q 0 + (dt + (INR (ct_difference se) / 1000)) * vx (cmd_base c) /\ root_at q' 1 = root_at q 1 + (dt + (INR (ct_difference se) / 1000)) * vy (cmd_base c) /\
  (exists turn, root_at q' 2 = root_at q 2 + turn + (INR (ct_difference se) / 1000) * vz (cmd_base c) /\ sin turn = dt * vz (cmd_base c)) /\
  (forall j, angle ROOT_PLANAR q' j = angle_in ROOT_PLANAR (cmd_joints c) j) /\ almost_within ROOT_PLANAR 1e-7 q' /\ slow_enough ROOT_PLANAR q q' dt /\ wheels_slow (cmd_wheels c).
Proof. intros Re. exact (turns eig junk se par body_jerk details w s0 m0 wb matrices qp c0 s Re es n x x' y y'). Qed.
(** The heading of the model of the MPC is that of the base *)
Theorem coupled_heading (eig : m3 -> euler_type -> v3) (junk : nat -> nat -> nat -> R) (se : co_settings) (par : qparams) (body_jerk : R) (details : option (backend_code * Z)) (w : world) (s0 : loop)
    (m0 : ikmodel) (wb : wbc) (matrices : nat -> mat) (qp : objective * contAB) (c0 : PepperIkTasks.command) (s : coupled) (es : nat -> environment) (n : nat) (x : coupled) (y : coupled) : co_ready eig se par body_jerk details w s0 m0 wb matrices qp c0 s ->
  documented_eulerAngles eig -> base_is_root (is_kinematics (ct_ik se)) -> co_after eig junk se es s n = Ok (Some x) -> co_begins eig se n x y -> 0 < root_at (ik_gc (robot y)) 2 < PI ->
  heading_of (mpc y) = root_at (ik_gc (robot y)) 2.
Proof. intros Re. exact (heading eig junk se par body_jerk details w s0 m0 wb matrices qp c0 s Re es n x y). Qed.
