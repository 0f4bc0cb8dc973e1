(** * Specification vocabulary for C104: robots within their bounds, robots at rest *)
From Coq Require Import String List Reals Arith Bool ZArith.
From Verif Require Import Base RSum Matrix Mat2 Mat3 ActiveSet ConstraintType HierarchyLevel Constraints ConstraintsSpec QP QPSpec Problem PointMass6z PointMass6zSpec TripleIntegratorSpec Solution MpcGuess
  QpoasesBridge QpoasesBridgeSpec Backends BackendsSpec Solver SolverLife SolverLifeSpec WalkProgram WalkProgramSpec
  PepperPreview PepperPreviewSpec PepperModel PepperMpc PepperMpcSpec PepperTasks PepperTasksSpec PepperLoop PepperLoopSpec PepperProgram PepperProgramSpec.
Import ListNotations.
Local Open Scope R_scope.

(** nothing moves: velocities and accelerations of the base and of the body are zero *)
Definition at_rest (s : loop) : Prop := forall a, vy (base_of s a) = 0 /\ vz (base_of s a) = 0 /\ vy (body_of s a) = 0 /\ vz (body_of s a) = 0.
(** the horizontal distance between the base and the body is [d] at most *)
Definition near (d : R) (s : loop) : Prop := Rsqr (vx (base_of s AxisX) - vx (body_of s AxisX)) + Rsqr (vx (base_of s AxisY) - vx (body_of s AxisY)) <= Rsqr d.
(** the bounds allow the base to stand still, and the body and the CoP to be up to [d] away from the base *)
Definition roomy (r : robot_bounds) (d : R) : Prop := 0 <= d /\ forall a,
  within (rb_velocity r) a 0 /\ within (rb_acceleration r) a 0 /\ within (rb_body r) a (- d) /\ within (rb_body r) a d /\ within (rb_cop r) a (- d) /\ within (rb_cop r) a d.
(** the state of the robot is within all its bounds *)
Definition keeps_bounds (r : robot_bounds) (s : loop) : Prop := forall a,
  within (rb_velocity r) a (vy (base_of s a)) /\ within (rb_acceleration r) a (vz (base_of s a)) /\ within (rb_body r) a (base_offset s a) /\
  exists c, relative_cop (ps_base_mass (lp_model s)) (ps_body_mass (lp_model s)) (base_height_of s) (body_height_of s) (base_of s a) (body_of s a) c /\ within (rb_cop r) a c.

(** an interval after the last one of the plan: states after it, jerks during it, position of the CoP with respect to the base *)
Record interval_plan := mkIP { ip_base : axis -> v3; ip_body : axis -> v3; ip_base_jerk : axis -> R; ip_body_jerk : axis -> R; ip_cop : axis -> R }.
Definition prolonged_motion (s : loop) (P : plan) (e : interval_plan) : Prop :=
  let p := mg_par (lp_mg s) in let N := horizon_length p in let T := seconds (sampling_ms p) in forall a,
  moved3 (pl_base P N a) (ip_base e a) (ip_base_jerk e a) T /\ moved3 (pl_body P N a) (ip_body e a) (ip_body_jerk e a) T /\
  relative_cop (ps_base_mass (lp_model s)) (ps_body_mass (lp_model s)) (base_height_of s) (body_height_of s) (ip_base e a) (ip_body e a) (ip_cop e a) /\
  - g_infinity <= vy (ip_base e a) <= g_infinity /\ - g_infinity <= ip_body_jerk e a <= g_infinity.
(** the plan can be prolonged by the interval [e] within the bounds *)
Definition prolonged (r : robot_bounds) (q : list motion) (shift : Z) (n : nat) (s : loop) (P : plan) (e : interval_plan) : Prop :=
  prolonged_motion s P e /\ forall a,
  within (rb_velocity r) a (vy (ip_base e a)) /\ within (rb_acceleration r) a (vz (ip_base e a)) /\ within (rb_cop r) a (ip_cop e a) /\
  within (rb_body r) a (in_frame (rot2 (heading_after q shift n s (horizon_length (mg_par (lp_mg s)))))
    (vx (ip_base e AxisX) - vx (ip_body e AxisX)) (vx (ip_base e AxisY) - vx (ip_body e AxisY)) a).
(** the base and the body do not move, the horizontal distance between them is [d] at most *)
Definition halted (d : R) (base body : axis -> v3) : Prop :=
  (forall a, vy (base a) = 0 /\ vz (base a) = 0 /\ vy (body a) = 0 /\ vz (body a) = 0) /\ Rsqr (vx (base AxisX) - vx (body AxisX)) + Rsqr (vx (base AxisY) - vx (body AxisY)) <= Rsqr d.
