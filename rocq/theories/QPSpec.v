(** * Specification vocabulary for C13 and C14 *)
From Coq Require Import List Arith Reals Bool.
From Verif Require Import Base RSum Matrix ConstraintType HierarchyLevel Constraints ConstraintsSpec QP.
Import ListNotations.
Open Scope R_scope.

(** right hand side of row [r] of an equality *)
Definition rhs (c : constr) (r : nat) : R := match lower c r with Some b => b | None => 0 end.
Definition residual (c : constr) (r : nat) (x : nat -> R) : R := row_value c r x - rhs c r.

Fixpoint sum_list (l : list R) : R := match l with [] => 0 | a :: t => a + sum_list t end.

(** |A_t x - b_t|^2 *)
Definition squared_residuals (c : constr) (x : nat -> R) : R :=
  Rsum (getNumberOfConstraints c) (fun r => residual c r x * residual c r x).
(** sum over the tasks of a level *)
Definition level_cost (cs : nat -> constr) (l : level) (x : nat -> R) : R :=
  sum_list (map (fun i => squared_residuals (cs (tk_id (ti_task i))) x) (lv_tasks l)).

(** 1/2 x'Hx + g'x *)
Definition quadratic (H : mat) (g : vec) (x : nat -> R) : R :=
  / 2 * Rsum (mrows H) (fun i => Rsum (mcols H) (fun j => x i * mget H i j * x j)) + Rsum (vlen g) (fun i => vget g i * x i).

(** the symmetric matrix with the given lower triangle *)
Definition symmetric_of_lower (H : mat) : mat :=
  mkMat (mrows H) (mcols H) (fun i j => if (j <=? i)%nat then mget H i j else mget H j i).

Definition symmetric (H : mat) : Prop :=
  mrows H = mcols H /\ forall i j, (i < mrows H)%nat -> (j < mrows H)%nat -> mget H i j = mget H j i.
Definition diagonal (H : mat) : Prop :=
  forall i j, (i < mrows H)%nat -> (j < mcols H)%nat -> i <> j -> mget H i j = 0.

Definition sizes (o : objective) (nv : nat) : Prop := mrows (o_H o) = nv /\ mcols (o_H o) = nv /\ vlen (o_g o) = nv.

(** all tasks are equalities of classes whose objective exists (all except IB, which does not compile) *)
Definition equality_level (l : level) : Prop :=
  forall i, In i (lv_tasks l) -> ct_isEquality (tk_type (ti_task i)) = true /\ tk_type (ti_task i) <> IB.

(** what it means for a QP to have the objective of level [l] *)
Definition objective_of (cs : nat -> constr) (nv : nat) (l : level) (up : bool) (o : objective) : Prop :=
  sizes o nv /\ exists k, forall x,
    quadratic (if up then o_H o else symmetric_of_lower (o_H o)) (o_g o) x = / 2 * level_cost cs l x + k.
