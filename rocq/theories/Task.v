(** * Predefined tasks (/repo/core/include/humoto/task_generic.h) and gains of tasks (humoto/task.h) *)
From Coq Require Import String List Arith Reals Bool.
From Verif Require Import Base RSum Matrix ConstraintType HierarchyLevel Solution Constraints.
Import ListNotations.
Open Scope R_scope.

(** the members of TaskZeroVariables: gain_ (task.h:402), is_modified_ (task.h:112), location_of_variables_ and
    variables_id_ (task_generic.h:36-38), and its constraint object of the class GIB0 *)
Record zero_task := mkZT { zt_gain : R; zt_modified : bool; zt_location : Location; zt_id : string; zt_constr : constr }.

(** task_generic.h:60-69 with task.h:429-434, 108-112, 124-128; [nv0] is the number of variables of a new object *)
Definition zero_new (gain : R) (variables_id : string) : zero_task :=
  mkZT gain true (mkLoc 0 0) variables_id (mkConstr 0 (BodyGI [] (vconst 0 0)) BoundsB0).

(** task.h:466-470 (WeightedSimpleTaskBaseMixin::setGain) *)
Definition zero_setGain (g : R) (t : zero_task) : zero_task :=
  mkZT g true (zt_location t) (zt_id t) (zt_constr t).

(** task_generic.h:47-50 *)
Definition zero_setVariablesID (id : string) (t : zero_task) : zero_task :=
  mkZT (zt_gain t) (zt_modified t) (zt_location t) id (zt_constr t).

(** task_generic.h:83-91 *)
Definition zero_location (s : structure) (t : zero_task) : Location :=
  if String.eqb (zt_id t) "" then mkLoc 0 (Solution.getNumberOfVariables s)
  else getSolutionPartLocation s (zt_id t).

(** task.h:41-46 preForm followed by task_generic.h:79-117 form *)
Definition zero_form (s : structure) (t : zero_task) : zero_task :=
  let l := zero_location s t in
  let nv := Solution.getNumberOfVariables s in
  if loc_eqb l (zt_location t)
  then mkZT (zt_gain t) false (zt_location t) (zt_id t) (mkConstr nv (c_body (zt_constr t)) (c_bounds (zt_constr t)))
  else mkZT (zt_gain t) true l (zt_id t)
         (mkConstr nv (BodyGI (map (fun i => (offset l + i)%nat) (seq 0 (len l))) (vconst (len l) (zt_gain t))) BoundsB0).

(** TaskZeroSelectedVariables: task_generic.h:135, 140-160 *)
Record selected_task := mkST { st_gain : R; st_indices : list nat; st_constr : constr }.
(** task_generic.h:146-153 *)
Definition selected_new (ix : list nat) (gain : R) : selected_task := mkST gain ix (mkConstr 0 (BodyGI [] (vconst 0 0)) BoundsB0).
(** task.h:466-470 *)
Definition selected_setGain (g : R) (t : selected_task) : selected_task := mkST g (st_indices t) (st_constr t).
(** task_generic.h:162-170 *)
Definition selected_form (s : structure) (t : selected_task) : selected_task :=
  mkST (st_gain t) (st_indices t)
    (mkConstr (Solution.getNumberOfVariables s) (BodyGI (st_indices t) (vconst (length (st_indices t)) (st_gain t))) BoundsB0).

(** TaskInfeasibleInequality: task_generic.h:181-183; is_modified_ as above *)
Record infeasible_task := mkIT { it_nvars : nat; it_modified : bool; it_constr : constr }.
(** task_generic.h:192-198 *)
Definition infeasible_new : infeasible_task :=
  mkIT 0 true (mkConstr 0 (BodyA (mzero 0 0)) (BoundsLU (vconst 0 0) (vconst 0 0))).
(** task.h:41-46, task_generic.h:208-231 *)
Definition infeasible_form (s : structure) (t : infeasible_task) : infeasible_task :=
  let nv := Solution.getNumberOfVariables s in
  if (it_nvars t =? nv)%nat
  then mkIT (it_nvars t) false (mkConstr nv (c_body (it_constr t)) (c_bounds (it_constr t)))
  else mkIT nv true (mkConstr nv (BodyA (mkMat 1 nv (fun _ _ => 1))) (BoundsLU (vconst 1 1) (vconst 1 (-1)))).
