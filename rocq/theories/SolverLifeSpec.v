(** * Specification vocabulary for C97 *)
From Coq Require Import List Arith ZArith Bool Reals.
From Verif Require Import Base ActiveSet ConstraintType HierarchyLevel HierarchySpec Matrix Constraints ConstraintsSpec RowsSpec QP QPSpec Problem ProblemSpec
  QpoasesBridge QpoasesBridgeSpec Backends BackendsSpec Solver SolverLife.
Import ListNotations.
Open Scope R_scope.

(** the parameters in force: those which were given last, to the constructor, to setParameters() or to solve() *)
Definition params_of (c : call) (p : qparams) : qparams := match cl_params c with Some q => q | None => p end.
Fixpoint in_force (p : qparams) (es : list event) : qparams :=
  match es with
  | [] => p
  | SetParameters q :: rest => in_force q rest
  | Solve c :: rest => in_force (params_of c p) rest
  end.

(** the hierarchy given to a call: formed, of two levels [l0] (constraints) and [l1] (objective), on the variables of the
    solution given to the call *)
Definition hierarchy_of (c : call) (fo : nat -> formed) (gu : bool) (p : problem) (l0 l1 : level) : Prop :=
  preach p /\ pb_formHierarchy fo gu p = Ok (cl_problem c) /\ described_problem (cl_cs c) fo (so_nv (cl_solution c)) p /\ qp_hierarchy p l0 l1.

(** the guess of the solution exists during the call, and it has a number for each variable; so does the solution; a
    given active set has the sizes of the hierarchy *)
Definition sized (c : call) : Prop :=
  (forall a, cl_guess c = Some a -> exists v, cl_memory c a = Some v /\ (so_nv (cl_solution c) <= vlen v)%nat) /\
  vlen (so_x (cl_solution c)) = so_nv (cl_solution c) /\
  (forall a, cl_active c = Some a -> fits a (cl_problem c)).

Definition proper (c : call) : Prop := sized c /\ exists fo gu p l0 l1, hierarchy_of c fo gu p l0 l1.

(** a history: each call is a proper one, or it is refused by the checks of its inputs *)
Fixpoint careful (p : qparams) (es : list event) : Prop :=
  match es with
  | [] => True
  | SetParameters q :: rest => careful q rest
  | Solve c :: rest =>
      (proper c \/ sv_accepts (params_of c p) (pb_levels (cl_problem c)) = false) /\ careful (params_of c p) rest
  end.

(** the addresses of new objects are not used *)
Definition tidy (w : world) : Prop := forall a, In a (wd_live w) -> (a < wd_next w)%nat.

(** the library is given the problem of the hierarchy (C85): its minima are the minima of the objective among the points
    which satisfy the constraints, up to the infinity of the library *)
Definition same_minima (cs : nat -> constr) (nv : nat) (l0 l1 : level) (a : qpoases_args) : Prop :=
  qa_nV a = nv /\
  (forall x, minimum (qpoases_cost a) (qpoases_feasible a) x ->
     satisfies_level cs l0 x /\ forall y, reasonable cs l0 nv y -> satisfies_level cs l0 y -> level_cost cs l1 x <= level_cost cs l1 y) /\
  (forall x, reasonable cs l0 nv x -> minimum (level_cost cs l1) (satisfies_level cs l0) x ->
     minimum (qpoases_cost a) (qpoases_feasible a) x).

(** the library looks for the minimum among the points which satisfy the constraints, up to its infinity; if a task with bounds on single variables has a
    row, then all variables are below the infinity *)
Definition same_points (cs : nat -> constr) (nv : nat) (l0 : level) (a : qpoases_args) : Prop :=
  (forall x, qpoases_feasible a x -> satisfies_level cs l0 x) /\
  (forall x, reasonable cs l0 nv x -> satisfies_level cs l0 x -> qpoases_feasible a x) /\
  (forall x, qpoases_feasible a x -> forall i, In i (lv_tasks l0) -> simple_task (ti_task i) = true -> (0 < getNumberOfConstraints (cs (tk_id (ti_task i))))%nat ->
     forall v, (v < nv)%nat -> - g_infinity <= x v <= g_infinity).

(** the library is given the guess of the active set (C84) *)
Definition same_active_set (cs : nat -> constr) (nv : nat) (l : level) (v : aset) (g : list qstatus * list qstatus) : Prop :=
  length (fst g) = nv /\
  (forall i j, In i (lv_tasks l) -> (j < len (ti_loc i))%nat -> simple_task (ti_task i) = false ->
     exists t q, nth_error v (offset (ti_loc i) + j) = Some t /\ nth_error (snd g) (offset (ti_loc i) + j) = Some q /\ guess_means t q) /\
  (forall y, (y < nv)%nat -> exists q, nth_error (fst g) y = Some q /\ last_active cs l v y q).

(** what the library gets in the call [c] while the parameters [p] are in force and the world is [w]: a new object, and
    only what was given to this call *)
Record gets (p : qparams) (c : call) (w : world) (l0 l1 : level) (k : libcall) : Prop := mkGets {
  gt_object : ~ In (lc_object k) (wd_live w);
  gt_options : lc_options k = pr_options p;
  gt_iterations : lc_iterations k = pr_max_iterations p;
  gt_no_time : pr_max_cpu_time p = 0 -> lc_time k = None;
  gt_time : pr_max_cpu_time p <> 0 -> lc_time k = Some (pr_max_cpu_time p);
  gt_no_guess : cl_guess c = None -> lc_guess k = None;
  gt_guess : forall a, cl_guess c = Some a -> exists v g, cl_memory c a = Some v /\ lc_guess k = Some g /\ vlen g = so_nv (cl_solution c) /\
               forall i, (i < so_nv (cl_solution c))%nat -> vget g i = vget v i;
  gt_no_active : cl_active c = None -> lc_active k = None;
  gt_active : forall a, cl_active c = Some a -> exists l v g, nth_error (pb_levels (cl_problem c)) 0 = Some l /\ nth_error a 0 = Some v /\
               lc_active k = Some g /\ same_active_set (cl_cs c) (so_nv (cl_solution c)) l v g;
  gt_problem : same_minima (cl_cs c) (so_nv (cl_solution c)) l0 l1 (lc_problem k);
  gt_points : same_points (cl_cs c) (so_nv (cl_solution c)) l0 (lc_problem k)
}.

(** what is left in the solution: what the library gave back *)
Record written (an : answer) (before after : qsolution) : Prop := mkWritten {
  wr_nv : so_nv after = so_nv before;
  wr_size : vlen (so_x after) = vlen (so_x before);
  wr_x : forall x, an_primal an = Some x -> forall i, (i < so_nv before)%nat -> vget (so_x after) i = x i;
  wr_no_x : an_primal an = None -> so_x after = so_x before;
  wr_ok : so_status after = STATUS_OK <-> an_code an = CODE_SUCCESS;
  wr_max_iter : so_status after = STATUS_MAX_ITER <-> an_code an = CODE_MAX_ITER;
  wr_set : so_status after <> STATUS_UNDEFINED;
  wr_details : forall d, so_details before = Some d -> so_details after = Some (an_code an, an_iterations an)
}.

(** the bounds on single variables have a common point within the infinity of the library, and the guess of the active set says something about
    each constraint; the other constraints do not matter *)
Definition acceptable_call (c : call) (l0 : level) : Prop :=
  (exists x, (forall i, In i (lv_tasks l0) -> simple_task (ti_task i) = true -> satisfies (cl_cs c (tk_id (ti_task i))) x) /\
     forall v, (v < so_nv (cl_solution c))%nat -> - g_infinity <= x v <= g_infinity) /\
  (forall a v, cl_active c = Some a -> nth_error a 0 = Some v -> ~ In UNDEFINED v).

(** the working sets given back by the library are made of -1, 0 and 1 *)
Definition sensible (an : answer) (k : libcall) : Prop :=
  working (qa_nC (lc_problem k)) (an_wsc an) /\ working (qa_nV (lc_problem k)) (an_wsb an).
