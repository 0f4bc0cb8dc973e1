(** * Specification vocabulary for C84 *)
From Coq Require Import List Arith Bool Reals.
From Verif Require Import Base ActiveSet ConstraintType HierarchyLevel HierarchySpec Matrix Constraints ConstraintsSpec RowsSpec QP QPSpec Problem ProblemSpec
  QpoasesBridge.
Import ListNotations.
Open Scope R_scope.

(** qpOASES describes its working set by numbers: -1 at the lower bound, 1 at the upper bound, 0 not in the working set *)
Definition working (n : nat) (w : nat -> R) : Prop := forall i, (i < n)%nat -> w i = -1 \/ w i = 0 \/ w i = 1.

(** the working sets tell the truth about the point [x] for the problem given to the library:
    lbA <= A x <= ubA and, if there are simple bounds, lb <= x <= ub *)
Definition truthful (q : qpc_ILU_ALU) (wsb wsc : nat -> R) (x : nat -> R) : Prop :=
  (forall r, (r < mrows (alu_A (q_general q)))%nat ->
     (wsc r = -1 -> mrow (alu_A (q_general q)) r x = vget (alu_lb (q_general q)) r) /\
     (wsc r = 1 -> mrow (alu_A (q_general q)) r x = vget (alu_ub (q_general q)) r)) /\
  (forall v, (v < vlen (q_lb q))%nat -> (wsb v = -1 -> x v = vget (q_lb q) v) /\ (wsb v = 1 -> x v = vget (q_ub q) v)).

(** a reported status is true: a row reported at a bound has this bound and is equal to it *)
Definition status_true (c : constr) (x : nat -> R) (j : nat) (a : act) : Prop :=
  match a with
  | LOWER_BOUND => lower c j = Some (row_value c j x)
  | UPPER_BOUND => upper c j = Some (row_value c j x)
  | INACTIVE => True
  | EQUALITY | UNDEFINED => False
  end.

(** a problem of constraints and an objective, as the solvers of QPs take it: equality tasks with an objective on the
    second level, no gains on the first one *)
Definition qp_hierarchy (p : problem) (l0 l1 : level) : Prop :=
  pb_levels p = [l0; l1] /\ equality_level l1 /\ forall i, In i (lv_tasks l0) -> has_gains (tk_type (ti_task i)) = false.

(** row [j] of the constraints [c] bounds variable [v]: its class is a simple one and its index is [v] *)
Definition bounds_variable (c : constr) (j v : nat) : Prop :=
  match c_body c with BodyI ix => nth_error ix j = Some v | _ => False end.

(** the status which the working set has for a general constraint *)
Definition act_of (w : R) (a : act) : Prop :=
  (w = -1 -> a = LOWER_BOUND) /\ (w = 0 -> a = INACTIVE) /\ (w = 1 -> a = UPPER_BOUND).
Definition qstatus_of (w : R) (q : qstatus) : Prop :=
  (w = -1 -> q = ST_LOWER) /\ (w = 0 -> q = ST_INACTIVE) /\ (w = 1 -> q = ST_UPPER).

(** the meaning of an activation type in a guess *)
Definition guess_means (a : act) (q : qstatus) : Prop :=
  match a with
  | LOWER_BOUND | EQUALITY => q = ST_LOWER
  | UPPER_BOUND => q = ST_UPPER
  | INACTIVE => q = ST_INACTIVE
  | UNDEFINED => False
  end.

(** the largest lower and the smallest upper bound of a variable *)
Definition largest_lower (cs : nat -> constr) (l : level) (y : nat) (b : R) : Prop :=
  - g_infinity <= b /\ forall i j, In i (lv_tasks l) -> bounds_variable (cs (tk_id (ti_task i))) j y -> lower_or_inf (cs (tk_id (ti_task i))) j <= b.
Definition smallest_upper (cs : nat -> constr) (l : level) (y : nat) (b : R) : Prop :=
  b <= g_infinity /\ forall i j, In i (lv_tasks l) -> bounds_variable (cs (tk_id (ti_task i))) j y -> b <= upper_or_inf (cs (tk_id (ti_task i))) j.

(** what is reported for row [j] of task [i] *)
Definition reports (cs : nat -> constr) (l : level) (wsb wsc : nat -> R) (i : tinfo) (j : nat) (t : act) : Prop :=
  let c := cs (tk_id (ti_task i)) in
  (t = LOWER_BOUND \/ t = INACTIVE \/ t = UPPER_BOUND) /\
  (simple_task (ti_task i) = false -> act_of (wsc (offset (ti_loc i) + j)%nat) t) /\
  (forall y, bounds_variable c j y ->
     (t = LOWER_BOUND <-> wsb y = -1 /\ largest_lower cs l y (lower_or_inf c j)) /\
     (t = UPPER_BOUND <-> wsb y = 1 /\ smallest_upper cs l y (upper_or_inf c j))).

(** what the guess for the bounds of variable [y] is: the meaning of the last of the statuses of [y] which are not
    inactive; if all of them are inactive, or if there is none, the bounds are inactive *)
Definition last_active (cs : nat -> constr) (l : level) (a : aset) (y : nat) (q : qstatus) : Prop :=
  (exists i j t, In i (lv_tasks l) /\ bounds_variable (cs (tk_id (ti_task i))) j y /\
     nth_error a (offset (ti_loc i) + j) = Some t /\ t <> INACTIVE /\ guess_means t q /\
     forall i' j', In i' (lv_tasks l) -> bounds_variable (cs (tk_id (ti_task i'))) j' y ->
       (offset (ti_loc i) + j < offset (ti_loc i') + j')%nat -> nth_error a (offset (ti_loc i') + j') = Some INACTIVE) \/
  ((forall i j, In i (lv_tasks l) -> bounds_variable (cs (tk_id (ti_task i))) j y -> nth_error a (offset (ti_loc i) + j) = Some INACTIVE) /\
   q = ST_INACTIVE).

(** variable [y] has bounds, and none of them is beyond the infinity of the library *)
Definition bounded_variable (cs : nat -> constr) (l : level) (y : nat) : Prop :=
  (exists i j, In i (lv_tasks l) /\ bounds_variable (cs (tk_id (ti_task i))) j y) /\
  forall i j, In i (lv_tasks l) -> bounds_variable (cs (tk_id (ti_task i))) j y ->
    - g_infinity <= lower_or_inf (cs (tk_id (ti_task i))) j /\ upper_or_inf (cs (tk_id (ti_task i))) j <= g_infinity.
