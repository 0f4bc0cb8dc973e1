(** * Specification vocabulary for C98 *)
From Coq Require Import String List Reals Arith ZArith.
From Verif Require Import Base Matrix Mat2 Mat3 PointMass6z PointMass6zSpec TripleIntegratorSpec Solution Constraints ConstraintsSpec PepperPreview PepperPreviewSpec
  MpcGuess PepperModel PepperMpc PepperMpcSpec PepperTasks PepperTasksSpec PepperLoop.
Import ListNotations.
Local Open Scope R_scope.

Definition as_queue (x : motions) : list motion := match x with One m => [m] | Queue q => q end.

(** position, velocity and acceleration of the base and of the body along an axis, heading, heights *)
Definition base_of (s : loop) (a : axis) : v3 := along_axis (ps_base (lp_model s)) a.
Definition body_of (s : loop) (a : axis) : v3 := along_axis (ps_body (lp_model s)) a.
Definition heading_of (s : loop) : R := vz (ps_rpy (lp_model s)).
Definition base_height_of (s : loop) : R := vz (pm_position (ps_base (lp_model s))).
Definition body_height_of (s : loop) : R := vz (pm_position (ps_body (lp_model s))).
Definition default_masses (s : loop) : Prop := ps_base_mass (lp_model s) = default_base_mass /\ ps_body_mass (lp_model s) = default_body_mass.

(** position of the base relative to the body in the frame of the base *)
Definition base_offset (s : loop) (a : axis) : R :=
  in_frame (rot2 (heading_of s)) (vx (base_of s AxisX) - vx (body_of s AxisX)) (vx (base_of s AxisY) - vx (body_of s AxisY)) a.

(** solutions of the structure that the controller gives to them *)
Definition fits_problem (N : nat) (sol : solution) : Prop := sol_structure sol = structure_pepper N /\ length (sol_x sol) = (4 * N)%nat.

(** how long an iteration advances the state, in ms *)
Definition step_ms (T : Z) (a : advance) : Z := match a with Whole => T | Part ms => Z.of_nat ms end.
Definition seconds (ms : Z) : R := IZR ms / 1000.

(** the situation in which a loop is started: a controller with proper parameters, valid durations of motions, a shift and a
    subsampling time that make sense, solutions of the right size *)
Definition well_posed (a : advance) (shift : Z) (sols : nat -> solution) (s : loop) : Prop :=
  let p := mg_par (lp_mg s) in
  proper p /\ valid_queue (as_queue (lp_motions s)) /\ (0 <= shift)%Z /\ (0 <= step_ms (sampling_ms p) a <= sampling_ms p)%Z /\
  forall k, fits_problem (horizon_length p) (sols k).

(** [s'] is the state of the loop after an iteration in which the solver returned [sol]: the solution satisfies the constraints of a task
    which is formed in this iteration *)
Definition obeys_velocity (s' : loop) (sol : solution) : Prop := exists jk old c,
  form_baseVelocityBounds jk old (structure_pepper (mg_size (lp_mg s'))) (mg_horizon (lp_mg s')) = Ok c /\ satisfies c (point sol).
Definition obeys_acceleration (s' : loop) (sol : solution) : Prop := exists jk c,
  form_baseAccelerationBounds jk (structure_pepper (mg_size (lp_mg s'))) (mg_horizon (lp_mg s')) (mg_matrices (lp_mg s')) = Ok c /\ satisfies c (point sol).
Definition obeys_cop (s' : loop) (sol : solution) : Prop := exists jk c,
  form_copPositionBounds jk (structure_pepper (mg_size (lp_mg s'))) (mg_horizon (lp_mg s')) (mg_matrices (lp_mg s')) = Ok c /\ satisfies c (point sol).
Definition obeys_body (s' : loop) (sol : solution) : Prop := exists jk c,
  form_bodyPositionBounds jk (structure_pepper (mg_size (lp_mg s'))) (mg_horizon (lp_mg s')) (mg_matrices (lp_mg s')) = Ok c /\ satisfies c (point sol).

(** a state of the loop, and the one after the next iteration *)
Definition consecutive (junk : nat -> nat -> nat -> R) (r : robot_bounds) (a : advance) (shift : Z) (sols : nat -> solution) (s0 : loop) (n : nat) (s s' : loop) : Prop :=
  after junk r a shift sols s0 n = Ok (Some s) /\ after junk r a shift sols s0 (S n) = Ok (Some s').

(** the solver obeys the tasks in the iterations before the [n]-th one *)
Definition obeyed (O : loop -> solution -> Prop) (junk : nat -> nat -> nat -> R) (r : robot_bounds) (a : advance) (shift : Z) (sols : nat -> solution) (s0 : loop) (n : nat) : Prop :=
  forall k s', (k < n)%nat -> after junk r a shift sols s0 (S k) = Ok (Some s') -> O s' (sols k).

(** the angular velocity that is commanded at the given time *)
Definition angular_at (q : list motion) (t : Z) : R := match commanded q t with Some (_, w) => w | None => 0 end.

(** velocities and accelerations of the base within bounds; the velocity up to [e] *)
Definition slow (r : robot_bounds) (e : axis -> R) (s : loop) : Prop :=
  forall a, lower_bound (rb_velocity r) a - e a <= vy (base_of s a) <= upper_bound (rb_velocity r) a + e a.
Definition gentle (r : robot_bounds) (s : loop) : Prop := forall a, within (rb_acceleration r) a (vz (base_of s a)).
(** half of the range of accelerations *)
Definition acceleration_range (r : robot_bounds) (a : axis) : R := (upper_bound (rb_acceleration r) a - lower_bound (rb_acceleration r) a) / 2.

(** ** sequences of calls *)
Definition is_update (c : mg_call) : Prop := match c with CallUpdate _ _ | CallUpdateAndShift _ _ _ => True | _ => False end.
(** the answers of these calls are computed from a parsed solution *)
Definition needs_parsed (c : mg_call) : Prop := match c with CallNext _ | CallStateMs _ _ | CallStateS _ _ => True | _ => False end.
(** in the history [h] (in the order of calls) a solution has been parsed by a call that returned, and there was no update since then *)
Definition parses (c : mg_call) : Prop := match c with CallParse _ | CallNextOf _ _ => True | _ => False end.
Definition parsed_since (h : list (mg_call * mg_answer)) : Prop :=
  exists h1 c x h2, h = h1 ++ (c, x) :: h2 /\ parses c /\ x <> Failed /\ forall c' x', In (c', x') h2 -> ~ is_update c'.
(** a solution has been given to the controller since the last update: to parseSolution, which returned, or to getNextModelState *)
Definition given_since (h : list (mg_call * mg_answer)) : Prop :=
  exists h1 c x h2, h = h1 ++ (c, x) :: h2 /\ (match c with CallParse _ => x <> Failed | CallNextOf _ _ => True | _ => False end) /\
    forall c' x', In (c', x') h2 -> ~ is_update c'.
