(** * Specification vocabulary for C105: what the solver is told about the previous iteration *)
From Coq Require Import List Reals Arith Bool.
From Verif Require Import Matrix Mat2 PointMass6z PointMass6zSpec Constraints QP QpoasesBridge QpoasesBridgeSpec PepperLoop PepperTasksSpec.
Import ListNotations.
Local Open Scope nat_scope.

(** The variables are the velocities of the base at the ends of [N] intervals and the jerks of the body in these intervals, two coordinates each. *)
Definition base_var (k : nat) (a : axis) : nat := 2 * k + axis_index a.
Definition jerk_var (N k : nat) (a : axis) : nat := 2 * N + 2 * k + axis_index a.
(** The rows of constraints: accelerations of the base, positions of the CoP, positions of the body, in this order. *)
Inductive row_kind := AccelerationRow | CopRow | BodyRow.
Definition row_index (b : row_kind) : nat := match b with AccelerationRow => 0 | CopRow => 1 | BodyRow => 2 end.
Definition row_at (N : nat) (b : row_kind) (k : nat) (a : axis) : nat := row_index b * (2 * N) + 2 * k + axis_index a.

(** the guess of the solution is the solution [x] of the previous iteration one interval later: the first interval is dropped, the commands of the last one
    are zero *)
Record moved_commands (N : nat) (x : nat -> R) (g : vec) : Prop := mkMovedCommands {
  mc_size : vlen g = 4 * N;
  mc_base : forall k a, S k < N -> vget g (base_var k a) = x (base_var (S k) a);
  mc_base_last : forall a, vget g (base_var (N - 1) a) = 0%R;
  mc_jerk : forall k a, S k < N -> vget g (jerk_var N k a) = x (jerk_var N (S k) a);
  mc_jerk_last : forall a, vget g (jerk_var N (N - 1) a) = 0%R }.

(** the statuses of bounds on variables and of rows are those of the working set of the previous iteration, [wsb] for the variables and [wsc] for the rows, one
    interval later: the last interval is inactive; jerks of the body have no bounds *)
Record moved_working_set (N : nat) (wsb wsc : nat -> R) (g : list qstatus * list qstatus) : Prop := mkMovedWorkingSet {
  mw_size : length (fst g) = 4 * N;
  mw_velocity : forall k a, S k < N -> exists q, nth_error (fst g) (base_var k a) = Some q /\ qstatus_of (wsb (base_var (S k) a)) q;
  mw_velocity_last : forall a, nth_error (fst g) (base_var (N - 1) a) = Some ST_INACTIVE;
  mw_jerk : forall k a, k < N -> nth_error (fst g) (jerk_var N k a) = Some ST_INACTIVE;
  mw_row : forall b k a, S k < N -> exists q, nth_error (snd g) (row_at N b k a) = Some q /\ qstatus_of (wsc (row_at N b (S k) a)) q;
  mw_row_last : forall b a, nth_error (snd g) (row_at N b (N - 1) a) = Some ST_INACTIVE }.

(** nothing is known about the previous iteration *)
Record empty_working_set (N : nat) (g : list qstatus * list qstatus) : Prop := mkEmptyWorkingSet {
  ew_size : length (fst g) = 4 * N;
  ew_variable : forall v, v < 4 * N -> nth_error (fst g) v = Some ST_INACTIVE;
  ew_row : forall b k a, k < N -> nth_error (snd g) (row_at N b k a) = Some ST_INACTIVE }.

(** the bounds on the velocity of the base are within the infinity of the library *)
Definition finite_velocity (r : robot_bounds) : Prop := forall a, (- g_infinity <= lower_bound (rb_velocity r) a /\ upper_bound (rb_velocity r) a <= g_infinity)%R.
