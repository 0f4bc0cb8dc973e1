(** * Specification vocabulary for C85: what the libraries minimise, and what a solution of a hierarchy is *)
From Coq Require Import List Arith Bool Reals.
From Verif Require Import Base RSum ConstraintType HierarchyLevel Matrix Constraints ConstraintsSpec QP QPSpec Backends.
Import ListNotations.
Open Scope R_scope.

(** a minimum of [cost] on the set [feasible] *)
Definition minimum (cost : (nat -> R) -> R) (feasible : (nat -> R) -> Prop) (x : nat -> R) : Prop :=
  feasible x /\ forall y, feasible y -> cost x <= cost y.

(** qpOASES (manual, section 1): min 1/2 x'Hx + x'g, lbA <= A x <= ubA, lb <= x <= ub; matrices are stored by rows; null
    pointers are missing matrices and bounds *)
Definition between (o1 o2 : option (nat -> R)) (i : nat) (v : R) : Prop :=
  match o1 with Some l => l i <= v | None => True end /\ match o2 with Some u => v <= u i | None => True end.
Definition qpoases_cost (a : qpoases_args) (x : nat -> R) : R :=
  / 2 * Rsum (qa_nV a) (fun i => Rsum (qa_nV a) (fun j => x i * qa_H a (i * qa_nV a + j)%nat * x j)) +
  Rsum (qa_nV a) (fun i => qa_g a i * x i).
Definition qpoases_feasible (a : qpoases_args) (x : nat -> R) : Prop :=
  (forall r, (r < qa_nC a)%nat -> exists A, qa_A a = Some A /\
     between (qa_lbA a) (qa_ubA a) r (Rsum (qa_nV a) (fun j => A (r * qa_nV a + j)%nat * x j))) /\
  (forall v, (v < qa_nV a)%nat -> between (qa_lb a) (qa_ub a) v (x v)).

(** QuadProg++: min 1/2 x'Gx + g0'x, CE'x + ce0 = 0, CI'x + ci0 >= 0 *)
Definition quadprogpp_cost (a : quadprogpp_args) : (nat -> R) -> R := quadratic (qg_G a) (qg_g a).
Definition quadprogpp_feasible (a : quadprogpp_args) (x : nat -> R) : Prop :=
  (forall r, (r < mcols (qg_CE a))%nat -> Rsum (mrows (qg_CE a)) (fun i => mget (qg_CE a) i r * x i) + vget (qg_ce a) r = 0) /\
  (forall r, (r < mcols (qg_CI a))%nat -> 0 <= Rsum (mrows (qg_CI a)) (fun i => mget (qg_CI a) i r * x i) + vget (qg_ci a) r).

(** qpmad: min 1/2 x'Hx + g'x with the lower triangle of H, lb <= x <= ub unless they are empty, Alb <= A x <= Aub *)
Definition qpmad_cost (a : qpmad_args) : (nat -> R) -> R := quadratic (symmetric_of_lower (qm_H a)) (qm_g a).
Definition qpmad_feasible (a : qpmad_args) (x : nat -> R) : Prop :=
  (forall r, (r < mrows (qm_A a))%nat -> vget (qm_Alb a) r <= mrow (qm_A a) r x <= vget (qm_Aub a) r) /\
  (forall v, (v < vlen (qm_lb a))%nat -> vget (qm_lb a) v <= x v <= vget (qm_ub a) v).

(** points for which the number 1e20 is an infinity *)
Definition reasonable (cs : nat -> constr) (l : level) (nv : nat) (x : nat -> R) : Prop :=
  (forall i, In i (lv_tasks l) -> within_infinity (cs (tk_id (ti_task i))) x) /\
  forall v, (v < nv)%nat -> - g_infinity <= x v <= g_infinity.

(** the cost of the objective with a regularization term *)
Definition regularized_cost (cs : nat -> constr) (l : level) (nv : nat) (f : R) (x : nat -> R) : R :=
  level_cost cs l x + f * Rsum nv (fun i => x i * x i).
