(** * Specification vocabulary for C80, C81 *)
From Coq Require Import String List Reals Arith.
Import ListNotations.
From Verif Require Import Base ActiveSet Matrix Mat2 Mat3 PointMass6z PointMass6zSpec Solution StanceFSM ConstraintType Constraints ConstraintsSpec PepperTasksSpec WalkProfiles WalkProfilesSpec WalkTasks.
Local Open Scope R_scope.

(** a constraint object of [rows] rows on the variables of a walking problem with [N] intervals and [n] variable steps, which passes the consistency checks *)
Definition walk_object (t : ctype) (N n rows : nat) (c : constr) : Prop :=
  getType c = t /\ usable (2 * N + 2 * n) c /\ getNumberOfConstraints c = rows.

(** velocity of the CoM predicted for the end of the k-th interval *)
Definition com_velocity (cstate : vec) (p : walk_profiles) (k : nat) (v : walk_interval) (a : axis) : R :=
  along a (pm_velocity (state_of (cstate_at cstate p (k + 1)) (wi_height v))).

(** the motion of the CoM in the k-th interval *)
Definition com_motion (N : nat) (steps : list nat) (Rs Rhs : list m2) (support cstate : vec) (sol : solution) (p : walk_profiles) (k : nat) (v : walk_interval) (t : R) : point_mass_state :=
  evaluate t (wi_T v) (wi_height v) (cstate_at cstate p k) (mkVec 2 (fun q => commanded_cop N steps Rs Rhs support sol k (if (q =? 0)%nat then AxisX else AxisY))).
(** the capture point of a state *)
Definition capture_point (height : R) (s : point_mass_state) (a : axis) : R := along a (pm_position s) + along a (pm_velocity s) / sqrt (gravity / height).

(** bounds of the walk state of the k-th interval *)
Definition state_bounds (index : list nat) (states : list walk_bounds) (k : nat) : option walk_bounds :=
  match nth_error index k with Some s => nth_error states s | None => None end.
(** the horizon refers to existing walk states *)
Definition indexed (N : nat) (index : list nat) (states : list walk_bounds) : Prop :=
  length index = N /\ forall s, In s index -> (s < length states)%nat.
(** a fixed step: the front bound and, laterally, the upper bound in a right support and the lower one otherwise *)
Definition fixed_step (w : walk_bounds) (a : axis) : R :=
  match a with AxisX => upper_bound (wb_fd w) AxisX | AxisY => match wb_type w with RSS => upper_bound (wb_fd w) AxisY | _ => lower_bound (wb_fd w) AxisY end end.

(** guessed statuses of the bounds on [n] steps, when the solved problem had [m] steps with the statuses [actual]: equalities for fixed steps, no change for the same number
    of steps, without the first step if there are fewer, with inactive bounds on the new ones if there are more *)
Definition guessed_steps (fixed : bool) (m n : nat) (actual : aset) : aset :=
  if fixed then repeat EQUALITY (2 * n)
  else if (m =? n)%nat then actual
  else if (n <? m)%nat then skipn 2 actual
  else actual ++ repeat INACTIVE (2 * (n - m)).

(** a rotation of the plane *)
Definition rotation2 (r : m2) : Prop := (a00 r * a00 r + a10 r * a10 r = 1 /\ a01 r * a01 r + a11 r * a11 r = 1 /\ a00 r * a01 r + a10 r * a11 r = 0)%R.
(** coordinates of the displacement [d] in the frame [r] *)
Definition in_frame (r : m2) (d : axis -> R) (a : axis) : R := match a with AxisX => a00 r * d AxisX + a10 r * d AxisY | AxisY => a01 r * d AxisX + a11 r * d AxisY end.
(** displacement of the j-th predicted footprint from the preceding one *)
Definition step_made (support : vec) (p : walk_profiles) (j : nat) (a : axis) : R :=
  vget (wp_footpos p) (2 * j + axis_index a) - match j with O => vget support (axis_index a) | S i => vget (wp_footpos p) (2 * i + axis_index a) end.
