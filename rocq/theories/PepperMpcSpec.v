(** * Specification vocabulary for C60, C69, C70, C71 *)
From Coq Require Import List Reals Arith.
From Verif Require Import Base Matrix Mat2 Mat3 PointMass6z PointMass6zSpec TripleIntegratorSpec Solution PepperPreview PepperModel PepperMpc.
Local Open Scope R_scope.

(** position, velocity and acceleration of a mass along a horizontal axis *)
Definition along_axis (s : point_mass_state) (a : axis) : v3 := V3 (along a (pm_position s)) (along a (pm_velocity s)) (along a (pm_acceleration s)).

(** [y] is reached from [x] after time [t] with the constant jerk [j] *)
Definition moved3 (x y : v3) (j t : R) : Prop :=
  vx y = motion_position (vx x) (vy x) (vz x) j t /\ vy y = motion_velocity (vy x) (vz x) j t /\ vz y = motion_acceleration (vz x) j t.

(** the states before and after each interval: the state of the model, then the entries of the predicted profile, in which the
    states of the base come before the states of the body *)
Definition profile_entry (v : vec) (first k : nat) (a : axis) : v3 :=
  V3 (vget v (first + 6 * k + 3 * axis_index a)) (vget v (first + 6 * k + 3 * axis_index a + 1)) (vget v (first + 6 * k + 3 * axis_index a + 2)).
Definition base_at (model : pepper_state) (p : pepper_profiles) (k : nat) (a : axis) : v3 :=
  match k with O => along_axis (ps_base model) a | S j => profile_entry (pp_cstate p) 0 j a end.
Definition body_at (N : nat) (model : pepper_state) (p : pepper_profiles) (k : nat) (a : axis) : v3 :=
  match k with O => along_axis (ps_body model) a | S j => profile_entry (pp_cstate p) (6 * N) j a end.

(** commands of the k-th interval: entries of the solution *)
Definition base_command (sol : solution) (k : nat) (a : axis) : R := nth (2 * k + axis_index a) (sol_x sol) 0.
Definition body_command (N : nat) (sol : solution) (k : nat) (a : axis) : R := nth (2 * N + 2 * k + axis_index a) (sol_x sol) 0.

(** the centre of pressure of two masses, of which [c] is the offset from the base:
    (ms + md) cop = ms (xs - hs/g as) + md (xd - hd/g ad) *)
Definition relative_cop (base_mass body_mass base_height body_height : R) (base body : v3) (c : R) : Prop :=
  (base_mass + body_mass) * (vx base + c) =
  base_mass * (vx base - base_height / gravity * vz base) + body_mass * (vx body - body_height / gravity * vz body).

(** the values A x + a *)
Definition affine_value (A a : mat) (x : list R) (i : nat) : R := vget (mulv A (vec_of_list x)) i + mget a i 0.
Definition first_half (N : nat) (sol : solution) : list R := firstn (2 * N) (sol_x sol).

(** a preview horizon of [N] intervals, each with a duration and a rotation *)
Definition formed_horizon (N : nat) (l : list interval) : Prop := length l = N /\ forall v, In v l -> in_T v <> 0 /\ in_set v <> None.

(** a solution [sol] of the problem of a formed horizon, the matrices [M] and the profiles [p] computed from it *)
Definition solved (junk : nat -> nat -> nat -> R) (N : nat) (l : list interval) (model : pepper_state) (sol : solution) (M : pepper_matrices) (p : pepper_profiles) : Prop :=
  (0 < N)%nat /\ formed_horizon N l /\ sol_structure sol = MpcGuess.structure_pepper N /\ length (sol_x sol) = (4 * N)%nat /\
  updateMatrices junk N l model = Ok M /\ parseSolution N M sol = Ok p.

(** what the model state at [offset] in the interval [k] must be: the motion from the state before the interval with the jerks of the interval *)
Definition predicts_state (N : nat) (l : list interval) (model : pepper_state) (sol : solution) (p : pepper_profiles) (k : nat) : Prop :=
  forall v offset s a, nth_error l k = Some v -> getModelState N l p model k offset = Ok s ->
    moved3 (base_at model p k a) (along_axis (ps_base s) a) (vget (pp_jerk p) (2 * k + axis_index a)) offset /\
    moved3 (body_at N model p k a) (along_axis (ps_body s) a) (body_command N sol k a) offset.

(** the heading at the beginning of an interval *)
Definition heading_before (l : list interval) (model : pepper_state) (k : nat) : R :=
  match k with O => vz (ps_rpy model) | S j => in_theta (nth j l default_interval) end.

(** coordinates of the vector (dx, dy) in the frame rotated by [r]: r^T (dx, dy) *)
Definition in_frame (r : m2) (dx dy : R) (a : axis) : R :=
  match a with AxisX => a00 r * dx + a10 r * dy | AxisY => a01 r * dx + a11 r * dy end.

(** the constant jerk that takes the velocity of [x] to [u] in time [T]: velocity + acceleration T + jerk T^2 / 2 = u *)
Definition vel_jerk (x : v3) (u T : R) : R := -2 / (T * T) * vy x + -2 / T * vz x + 2 / (T * T) * u.
