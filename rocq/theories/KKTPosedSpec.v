(** * Specification vocabulary for C16: problems which have exactly one solution, factorisations *)
From Coq Require Import List Arith Reals Bool.
From Verif Require Import Base RSum Matrix ConstraintType HierarchyLevel Constraints ConstraintsSpec QP QPSpec KKT KKTSpec.
Import ListNotations.
Open Scope R_scope.

(** whatever values are asked of all rows of all tasks of a level, there is a point where they are taken *)
Definition attainable (cs : nat -> constr) (l : level) : Prop :=
  forall t : nat -> nat -> R, exists x, forall k i, nth_error (lv_tasks l) k = Some i ->
    forall r, (r < getNumberOfConstraints (cs (tk_id (ti_task i))))%nat -> row_value (cs (tk_id (ti_task i))) r x = t k r.
(** a direction along which no row of the two levels changes is zero *)
Definition observable (cs : nat -> constr) (nv : nat) (l0 l1 : level) : Prop :=
  forall d, (forall i, In i (lv_tasks l0) \/ In i (lv_tasks l1) ->
               forall r, (r < getNumberOfConstraints (cs (tk_id (ti_task i))))%nat -> row_value (cs (tk_id (ti_task i))) r d = 0) ->
    forall j, (j < nv)%nat -> d j = 0.

(** a square matrix which maps only zero to zero *)
Definition nonsingular (K : mat) : Prop :=
  mrows K = mcols K /\ forall y : nat -> R, (forall i, (i < mrows K)%nat -> Rsum (mcols K) (fun j => mget K i j * y j) = 0) ->
    forall j, (j < mcols K)%nat -> y j = 0.
Definition positive_definite (S : mat) : Prop :=
  symmetric S /\ forall d : nat -> R, (exists i, (i < mrows S)%nat /\ d i <> 0) ->
    0 < Rsum (mrows S) (fun i => Rsum (mcols S) (fun j => d i * mget S i j * d j)).
(** LU and QR factorisations solve systems with nonsingular matrices, the Cholesky factorisation systems with positive definite ones *)
Definition solves_nonsingular (lin : mat -> vec -> vec) : Prop := forall K r, nonsingular K -> vlen r = mrows K -> solves K r (lin K r).
Definition solves_positive (llt : mat -> vec -> vec) : Prop := forall S r, positive_definite S -> vlen r = mrows S -> solves S r (llt S r).

(** [x] is the only minimiser, as far as the first [nv] components are concerned *)
Definition only_minimiser (nv : nat) (f : (nat -> R) -> R) (P : (nat -> R) -> Prop) (x : nat -> R) : Prop :=
  minimises f P x /\ forall y, minimises f P y -> forall i, (i < nv)%nat -> y i = x i.
