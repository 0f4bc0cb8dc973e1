(** * Specification vocabulary for C104 *)
From Coq Require Import String List Reals Arith Bool ZArith.
From Verif Require Import Base RSum Matrix Mat2 Mat3 ActiveSet ConstraintType HierarchyLevel Constraints ConstraintsSpec QP QPSpec Problem PointMass6z PointMass6zSpec TripleIntegratorSpec Solution MpcGuess
  QpoasesBridge QpoasesBridgeSpec Backends BackendsSpec Solver SolverLife SolverLifeSpec WalkProgram WalkProgramSpec
  PepperPreview PepperPreviewSpec PepperModel PepperMpc PepperMpcSpec PepperTasks PepperTasksSpec PepperLoop PepperLoopSpec PepperProgram.
Import ListNotations.
Local Open Scope R_scope.

(** ** the program *)
(** the program before its loop: proper parameters, durations of motions, shift and subsampling time (C98), masses which are not zero, a new hierarchy, solution
    and solver; if the active set is guessed from the previous one, then the horizon has two intervals at least *)
Definition ready (se : pepper_settings) (par : qparams) (body_jerk : R) (details : option (backend_code * Z)) (w : world) (s0 : loop) (s : pepper_program) : Prop :=
  let p := mg_par (lp_mg s0) in
  PepperPreviewSpec.proper p /\ valid_queue (as_queue (lp_motions s0)) /\ (0 <= ks_shift se)%Z /\ (0 <= step_ms (sampling_ms p) (ks_advance se) <= sampling_ms p)%Z /\
  ps_base_mass (lp_model s0) + ps_body_mass (lp_model s0) <> 0 /\
  (hs_active (ks_start se) = true -> hs_report (ks_start se) = true -> (sampling_ms p <= ks_subsampling se)%Z -> (1 < horizon_length p)%nat) /\
  pr_two_levels par = true /\ tidy w /\ kp_start se par body_jerk details w s0 = Ok s.
(** the bounds on the velocity of the base do not exclude all velocities *)
Definition movable (r : robot_bounds) : Prop := forall a, exists q, within (rb_velocity r) a q /\ - g_infinity <= q <= g_infinity.

(** the call [k] of the library in the iteration [n] of the program *)
Definition kp_asked (junk : nat -> nat -> nat -> R) (se : pepper_settings) (es : nat -> environment) (s0 : pepper_program) (n : nat) (k : libcall) : Prop :=
  exists s g x f p r t, kp_after junk se es s0 n = Ok (Some s) /\ kp_prepare junk se (es n) s = Ok (Some (g, x, f, p, r)) /\
    (sv_solve (kp_call se (es n) f p r) (kp_solver s) (kp_world s) = Returned t \/ sv_solve (kp_call se (es n) f p r) (kp_solver s) (kp_world s) = Thrown t) /\
    wd_calls (cs_world t) = k :: wd_calls (kp_world s).
(** what is known of the answers of the library (WalkProgramSpec.v) *)
Definition kp_library_is (P : qpoases_args -> answer -> Prop) (junk : nat -> nat -> nat -> R) (se : pepper_settings) (es : nat -> environment) (s0 : pepper_program) : Prop :=
  forall n k, kp_asked junk se es s0 n k -> P (lc_problem k) (en_library (es n) k).
Definition kp_understood (junk : nat -> nat -> nat -> R) (se : pepper_settings) (es : nat -> environment) (s0 : pepper_program) : Prop :=
  hs_report (ks_start se) = true -> kp_library_is sensible_answer junk se es s0.
(** the library does not fail if there is a point which satisfies the constraints *)
Definition capable_answer (a : qpoases_args) (an : answer) : Prop := (exists x, qpoases_feasible a x) -> an_code an = CODE_SUCCESS.

(** the program passes from [s] to [s'] in the iteration [n]; it leaves the loop by the break in the state [s] *)
Definition kp_steps (junk : nat -> nat -> nat -> R) (se : pepper_settings) (es : nat -> environment) (s0 : pepper_program) (n : nat) (s s' : pepper_program) : Prop :=
  kp_after junk se es s0 n = Ok (Some s) /\ kp_after junk se es s0 (S n) = Ok (Some s').
Definition kp_stops (junk : nat -> nat -> nat -> R) (se : pepper_settings) (es : nat -> environment) (s0 : pepper_program) (n : nat) (s : pepper_program) : Prop :=
  kp_after junk se es s0 n = Ok (Some s) /\ kp_after junk se es s0 (S n) = Ok None.
(** the solution of the last iteration *)
Definition kp_last (s : pepper_program) : solution := solution_of (structure_pepper (horizon_length (mg_par (lp_mg (kp_loop s))))) (kp_solution s).
(** the same settings with another choice of what is used of the previous iteration *)
Definition kp_with_start (se : pepper_settings) (hs : hotstart) : pepper_settings :=
  mkPepper (ks_bounds se) (ks_advance se) (ks_shift se) (ks_subsampling se) (ks_position se) (ks_reference se) (ks_base_jerk se) (ks_center se) hs.

(** ** the problem of an iteration, in terms of the robot *)
(** a plan: states of the base and of the body after [k] intervals, the jerk of the base in the interval [k], the position of the CoP with respect to
    the base after the interval [k] *)
Record plan := mkPlan { pl_base : nat -> axis -> v3; pl_body : nat -> axis -> v3; pl_jerk : nat -> axis -> R; pl_cop : nat -> axis -> R }.
(** the plan [P] results from the commands of [sol] (velocities of the base, jerks of the body) and from the state [s] *)
Definition planned (s : loop) (sol : solution) (P : plan) : Prop :=
  let p := mg_par (lp_mg s) in let N := horizon_length p in let T := seconds (sampling_ms p) in
  (forall a, pl_base P 0 a = base_of s a /\ pl_body P 0 a = body_of s a) /\
  forall k a, (k < N)%nat ->
    moved3 (pl_base P k a) (pl_base P (k + 1) a) (pl_jerk P k a) T /\ vy (pl_base P (k + 1) a) = base_command sol k a /\
    moved3 (pl_body P k a) (pl_body P (k + 1) a) (body_command N sol k a) T /\
    relative_cop (ps_base_mass (lp_model s)) (ps_body_mass (lp_model s)) (base_height_of s) (body_height_of s) (pl_base P (k + 1) a) (pl_body P (k + 1) a) (pl_cop P k a).
(** the last millisecond of the interval [k] of the horizon in the iteration [n] *)
Definition interval_end (p : mpc_parameters) (shift : Z) (n k : nat) : Z := (Z.of_nat n * shift + Z.of_nat (k + 1) * sampling_ms p - 1)%Z.
(** the heading after the interval [k]; [q] are the motions of the program, [n] is the iteration *)
Definition heading_after (q : list motion) (shift : Z) (n : nat) (s : loop) (k : nat) : R :=
  let p := mg_par (lp_mg s) in heading_of s + turned (fun i => angular_at q (interval_end p shift n i)) (seconds (sampling_ms p)) (k + 1).
(** the plan keeps the bounds of the robot: velocity and acceleration of the base, position of the CoP, position of the base with respect to the body in the
    frame of the base *)
Definition respects (r : robot_bounds) (q : list motion) (shift : Z) (n : nat) (s : loop) (P : plan) : Prop :=
  forall k a, (k < horizon_length (mg_par (lp_mg s)))%nat ->
    within (rb_velocity r) a (vy (pl_base P (k + 1) a)) /\ within (rb_acceleration r) a (vz (pl_base P (k + 1) a)) /\ within (rb_cop r) a (pl_cop P k a) /\
    within (rb_body r) a (in_frame (rot2 (heading_after q shift n s k))
      (vx (pl_base P (k + 1) AxisX) - vx (pl_body P (k + 1) AxisX)) (vx (pl_base P (k + 1) AxisY) - vx (pl_body P (k + 1) AxisY)) a).
(** the commands are below the infinity of the library *)
Definition finite (N : nat) (sol : solution) : Prop := forall v, (v < 4 * N)%nat -> - g_infinity <= point sol v <= g_infinity.
(** the difference between the plan and the motion which is commanded at the end of the interval [k]: of positions, or of velocities *)
Definition deviation (position : bool) (q : list motion) (shift : Z) (n : nat) (s : loop) (P : plan) (k : nat) (a : axis) : R :=
  match commanded q (interval_end (mg_par (lp_mg s)) shift n k) with
  | Some (v, x, _) =>
      let th := heading_after q shift n s k in
      if position then vx (pl_base P (k + 1) a) - component x a
      else vy (pl_base P (k + 1) a) - match a with AxisX => cos th * ux v - sin th * uy v | AxisY => sin th * ux v + cos th * uy v end
  | None => 0
  end.
(** the weighted sum of squares of the deviations, of the jerks of the base and of the body, and of the displacements of the CoP *)
Definition plan_cost (se : pepper_settings) (body_jerk : R) (q : list motion) (n : nat) (s : loop) (sol : solution) (P : plan) : R :=
  let N := horizon_length (mg_par (lp_mg s)) in
  Rsum N (fun k =>
    let d a := ks_reference se * deviation (ks_position se) q (ks_shift se) n s P k a in
    let j a := ks_base_jerk se * pl_jerk P k a in
    let b a := body_jerk * body_command N sol k a in
    let c a := ks_center se * pl_cop P k a in
    (Rsqr (d AxisX) + Rsqr (d AxisY)) + (Rsqr (j AxisX) + Rsqr (j AxisY)) + (Rsqr (b AxisX) + Rsqr (b AxisY)) + (Rsqr (c AxisX) + Rsqr (c AxisY))).
