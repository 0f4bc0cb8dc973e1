(** * Specification vocabulary for C103: what the solver is told about the previous iteration *)
From Coq Require Import List Reals Arith Bool.
From Verif Require Import Matrix PointMass6z PointMass6zSpec QpoasesBridge QpoasesBridgeSpec.
Import ListNotations.
Local Open Scope nat_scope.

(** The variables are the CoP of [N] intervals, two coordinates each, and the positions of the steps of the preview horizon, two coordinates
    each. [m] steps were in the horizon of the previous iteration, [m'] steps are in this one. *)
Definition cop_at (k : nat) (a : axis) : nat := 2 * k + axis_index a.
Definition step_at (N j : nat) (a : axis) : nat := 2 * N + 2 * j + axis_index a.

(** the guess of the solution is the solution [x] of the previous iteration one interval later: the first interval is dropped and the last one
    is zero; if a step has been made, then it is dropped too; a step which is new is zero *)
Record moved_solution (N m m' : nat) (x : nat -> R) (g : vec) : Prop := mkMovedSolution {
  ms_size : vlen g = 2 * N + 2 * m';
  ms_steps : m <= S m' /\ m' <= S m;
  ms_cop : forall k a, S k < N -> vget g (cop_at k a) = x (cop_at (S k) a);
  ms_last : forall a, vget g (cop_at (N - 1) a) = 0%R;
  ms_step_made : m = S m' -> forall j a, j < m' -> vget g (step_at N j a) = x (step_at N (S j) a);
  ms_step_kept : m <= m' -> forall j a, j < m -> vget g (step_at N j a) = x (step_at N j a);
  ms_step_new : forall j a, m <= j < m' -> vget g (step_at N j a) = 0%R }.

(** the statuses of the bounds are those of the working set [ws] of the previous iteration one interval later: the last interval is inactive; if a
    step has been made, then it is dropped too; a step which is new is inactive. If the steps are fixed, then their bounds are active. *)
Record moved_statuses (fixed : bool) (N m m' : nat) (ws : nat -> R) (g : list qstatus) : Prop := mkMovedStatuses {
  mt_size : length g = 2 * N + 2 * m';
  mt_steps : m <= S m';
  mt_cop : forall k a, S k < N -> exists q, nth_error g (cop_at k a) = Some q /\ qstatus_of (ws (cop_at (S k) a)) q;
  mt_last : forall a, nth_error g (cop_at (N - 1) a) = Some ST_INACTIVE;
  mt_fixed : fixed = true -> forall j a, j < m' -> nth_error g (step_at N j a) = Some ST_LOWER;
  mt_step_made : fixed = false -> m = S m' -> forall j a, j < m' -> exists q, nth_error g (step_at N j a) = Some q /\ qstatus_of (ws (step_at N (S j) a)) q;
  mt_step_kept : fixed = false -> m <= m' -> forall j a, j < m -> exists q, nth_error g (step_at N j a) = Some q /\ qstatus_of (ws (step_at N j a)) q;
  mt_step_new : fixed = false -> forall j a, m <= j < m' -> nth_error g (step_at N j a) = Some ST_INACTIVE }.

(** nothing is known about the previous iteration *)
Definition no_statuses (fixed : bool) (N m : nat) (g : list qstatus) : Prop :=
  length g = 2 * N + 2 * m /\ (forall k a, k < N -> nth_error g (cop_at k a) = Some ST_INACTIVE) /\
  forall j a, j < m -> nth_error g (step_at N j a) = Some (if fixed then ST_LOWER else ST_INACTIVE).
