(** * Specification vocabulary for C82 and C83 *)
From Coq Require Import List Arith Bool Reals.
From Verif Require Import Base ActiveSet Mixins MixinsSpec ConstraintType HierarchyLevel HierarchySpec Matrix Constraints
  ConstraintsSpec Problem.
Import ListNotations.
Local Open Scope nat_scope.

(** any history of resets, pushes, forming (with or without guessing, with any behaviour of the user's form() functions)
    and distribution of active sets, in which no call has thrown *)
Inductive preach : problem -> Prop :=
| pr_new : preach pb_new
| pr_reset p n : preach p -> preach (pb_reset n p)
| pr_push p t i p' : preach p -> pb_pushTask p t i = Ok p' -> preach p'
| pr_form p fo gu p' : preach p -> pb_formHierarchy fo gu p = Ok p' -> preach p'
| pr_process p s p' : preach p -> pb_processActiveSet p s = Ok p' -> preach p'.

(** a problem built by a reset and pushes *)
Definition push_all (n : nat) (ts : list (task * nat)) (p : problem) : outcome problem :=
  fold_left (fun o ti => bind o (fun p => pb_pushTask p (fst ti) (snd ti))) ts (Ok (pb_reset n p)).

(** level [l] can be formed: each of its tasks can, and together they give at least one constraint *)
Definition level_formable (fo : nat -> formed) (guessing : bool) (l : level) : Prop :=
  Forall (fun i => formable fo guessing (ti_task i)) (lv_tasks l) /\
  0 < list_sum (map (fun i => f_n (fo (tk_id (ti_task i)))) (lv_tasks l)).

(** the number of constraints which the tasks of a level produced *)
Definition rows_of (fo : nat -> formed) (l : level) : nat := list_sum (map (fun i => f_n (fo (tk_id (ti_task i)))) (lv_tasks l)).

(** the tasks of the level are the same, in the same order *)
Definition task_ids (l : level) : list (nat * ctype) := map (fun i => (tk_id (ti_task i), tk_type (ti_task i))) (lv_tasks l).

(** the constraint objects of all tasks of the problem *)
Definition described_problem (cs : nat -> constr) (fo : nat -> formed) (nv : nat) (p : problem) : Prop :=
  Forall (described cs fo nv) (pb_levels p).

(** what the activation type of row [j] of a task with constraints [c] must mean for the solution [x] *)
Definition status_means (c : constr) (x : nat -> R) (j : nat) (a : act) : Prop :=
  match c_bounds c with
  | BoundsB0 | BoundsB _ => a = EQUALITY
  | BoundsL lb => meaningL (vget lb j) (row_value c j x) a
  | BoundsU ub => meaningU (vget ub j) (row_value c j x) a
  | BoundsLU lb ub => meaningLU (vget lb j) (vget ub j) (row_value c j x) a
  end.

(** the signed violation of row [j]: zero iff the row is satisfied, negative (distance to the lower bound) iff the lower
    bound is violated, otherwise positive (distance to the upper bound) *)
Definition violation_means (c : constr) (x : nat -> R) (j : nat) (v : R) : Prop :=
  let y := row_value c j x in
  (v = 0%R <-> at_least y (lower c j) /\ at_most y (upper c j)) /\
  ((v < 0)%R <-> ~ at_least y (lower c j)) /\
  ((v < 0)%R -> exists b, lower c j = Some b /\ (v = y - b)%R) /\
  ((v > 0)%R -> exists b, upper c j = Some b /\ (v = y - b)%R).

(** the point satisfies the constraints of all tasks of all levels *)
Definition satisfies_problem (cs : nat -> constr) (p : problem) (x : nat -> R) : Prop :=
  Forall (fun l => satisfies_level cs l x) (pb_levels p).

(** an active set with one entry for each constraint of each level *)
Definition fits (s : asets) (p : problem) : Prop :=
  length s = pb_getNumberOfLevels p /\
  forall i l a, nth_error (pb_levels p) i = Some l -> nth_error s i = Some a -> length a = level_getNumberOfConstraints l.
