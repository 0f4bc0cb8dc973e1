(** * The program of the inverse kinematics of Pepper: the control loop with the tasks, the hierarchy and the solver
    (/repo/modules/pepper_ik/tests/test_001.cpp, run() of /repo/modules/pepper_ik/tests/regression_test_001.cpp, hierarchies of
    /repo/modules/pepper_ik/tests/hierarchy.h and /repo/modules/pepper_ik/config/hierarchies_planar.yaml, solver /repo/core/include/kktsolver.h).

    The loop without the tasks and the solver is in PepperIkLoop.v. Hierarchies with two levels of any tasks of the classes below are modelled. An exception is not
    caught in the loop: it leaves the program ([Throw]). Timers, logs and getStateError() (used for logs only) are omitted. *)
From Coq Require Import String List Reals Arith Bool ZArith.
From Verif Require Import Base RSum Matrix Mat3 ConstraintType HierarchyLevel Constraints QP Problem Solution WalkProgram Rbdl PepperIk PepperIkTasks PepperIkLoop Solver KKT.
Import ListNotations.
Local Open Scope R_scope.

(** ** tasks *)
(** objects of the classes of tasks with the values of their members: task_basecom.h:60-75, task_bodycom.h:55-70, task_baseorient.h:60-75, task_jointsref.h:61-69,
    task_jointsbounds.h:22-26, task_fixarms.h:26-30, task_fixhead.h:26-30 *)
Inductive ik_task :=
| BaseCoM (gain k : R)
| BodyCoM (gain k : R) (flag : Z)
| BaseOrientation (gain k : R)
| JointsReference (gain k : R) (reference : list R)
| JointsBounds
| FixArms
| FixHead.
(** the classes of constraints: task_basecom.h:19, 34, task_bodycom.h:20, 65, task_baseorient.h:19, 34, task_jointsref.h:20, 64, task_jointsbounds.h:20, 23, task_fixarms.h:20, 28, task_fixhead.h:20, 28 *)
Definition ik_class (t : ik_task) : ctype :=
  match t with
  | BaseCoM _ _ | BodyCoM _ _ _ | BaseOrientation _ _ => AB
  | JointsReference _ _ _ => GIB
  | JointsBounds => ILU
  | FixArms | FixHead => IB0
  end.
(** form() of the tasks (files as above); [old] is the matrix of the task before the call, used by Jacobians (Rbdl.v) *)
Definition ik_form_task (f : features) (t : ik_task) (old : mat) (m : ikmodel) (w : wbc) : outcome constr :=
  let st := w_structure w in
  match t with
  | BaseCoM gain k => form_baseCoM f gain k old st m w
  | BodyCoM gain k flag => form_bodyCoM gain k flag old st m w
  | BaseOrientation gain k => form_baseOrientation f gain k st m w
  | JointsReference gain k reference => Ok (form_jointsReference gain k reference st m)
  | JointsBounds => Ok (form_jointsBounds st m)
  | FixArms => Ok (form_fixArms f st)
  | FixHead => Ok (form_fixHead f st)
  end.

(** ** the hierarchy *)
(** the two levels: hierarchy.h:17-36 (tests), hierarchies_planar.yaml Hierarchy00 *)
Definition hierarchy_v0 (reference : list R) : list ik_task * list ik_task :=
  ([BaseCoM 1 1; BodyCoM 1 1 7; BaseOrientation 1 1], [JointsReference 1 1 reference]).
(** hierarchy.h:44-61 (tests), hierarchies_planar.yaml Hierarchy02 *)
Definition hierarchy_v1 (reference : list R) : list ik_task * list ik_task :=
  ([BodyCoM 1 1 7], [BaseCoM 1 1; BaseOrientation 1 1; JointsReference 1 1 reference]).
(** hierarchies_planar.yaml Hierarchy01 *)
Definition hierarchy_01 : list ik_task * list ik_task :=
  ([BaseCoM 1 1; BaseOrientation 1 1; FixArms; FixHead; JointsBounds], [BodyCoM 1 1 7]).
(** tests/hierarchy.h:28-34: pushTask() for the tasks of one level; [i] is the identity of the first of them *)
Fixpoint ik_push (i level : nat) (ts : list ik_task) (p : problem) : outcome problem :=
  match ts with
  | [] => Ok p
  | t :: r => bind (pb_pushTask p (new_task i (ik_class t)) level) (ik_push (S i) level r)
  end.
(** tests/hierarchy.h:26-35: reset(2), pushTask(); the identities are the positions in the order of pushing *)
Definition ik_setup (h : list ik_task * list ik_task) (p : problem) : outcome problem :=
  bind (ik_push 0 0 (fst h) (pb_reset 2 p)) (ik_push (length (fst h)) 1 (snd h)).

(** ** the program *)
(** what does not change: the robot, parameters of the controller, tasks, parameters of the solver; Eigen: solutions of systems with the factorisations *)
Record ik_settings := mkIkSet { is_features : features; is_kinematics : list R -> rb; is_wbc : wbc_parameters; is_hierarchy : list ik_task * list ik_task;
  is_solver : kkt_parameters; is_llt : mat -> vec -> vec; is_lin : mat -> vec -> vec }.
(** test_001.cpp:57-87: model and wbc, opt_problem, matrices of the tasks, qp_problem_ of the solver *)
Record ik_program := mkIkp { ip_loop : ikloop; ip_problem : problem; ip_matrices : nat -> mat; ip_qp : objective * contAB }.

(** hierarchy.h:39-54: form() of all tasks; [i] is the identity of the first one *)
Fixpoint ik_form_tasks (f : features) (ts : list ik_task) (i : nat) (old : nat -> mat) (m : ikmodel) (w : wbc) : outcome (list constr) :=
  match ts with
  | [] => Ok []
  | t :: r => bind (ik_form_task f t (old i) m w) (fun c => bind (ik_form_tasks f r (S i) old m w) (fun cs => Ok (c :: cs)))
  end.
(** constraints of the task with the given identity (hierarchy_level.h:207-233); other identities are not used *)
Definition ik_constraints_of (cs : list constr) (k : nat) : constr := nth k cs (mkConstr 0 (BodyI []) BoundsB0).
(** what form() did (task.h:178-194): no task is marked as unmodified, no task has its own guess *)
Definition ik_formed (cs : list constr) (k : nat) : formed :=
  mkFormed (getNumberOfConstraints (ik_constraints_of cs k)) (checkConsistency (ik_constraints_of cs k)) false None.
(** the matrices of the tasks after form() (constraints_mixins.h) *)
Definition ik_matrices (cs : list constr) (old : nat -> mat) (k : nat) : mat :=
  match c_body (ik_constraints_of cs k) with BodyA A => A | _ => old k end.
(** test_001.cpp:149: form(solution, model, wbc); hierarchy.h:39-54, 106-111; solution.h:214-219 *)
Definition ik_form (se : ik_settings) (w : wbc) (s : ik_program) : outcome (list constr * problem) :=
  assert_then (isNonEmpty (w_structure w))
    (bind (ik_form_tasks (is_features se) (fst (is_hierarchy se) ++ snd (is_hierarchy se)) 0 (ip_matrices s) (lk_model (ip_loop s)) w) (fun cs =>
     bind (pb_formHierarchy (ik_formed cs) false (ip_problem s)) (fun p => Ok (cs, p)))).
(** test_001.cpp:152: solve(solution, opt_problem): solver.h:150-157, kktsolver.h:97-128; the status is OK whenever solveHierarchy() returns, so that
    checkResults() passes; the solution and the new contents of qp_problem_ *)
Definition ik_solve (se : ik_settings) (w : wbc) (cs : list constr) (p : problem) (qp : objective * contAB) : outcome (solution * (objective * contAB)) :=
  let nv := Solution.getNumberOfVariables (w_structure w) in
  bind (getQPProblem (fun l => initializeConstraints_AB (ik_constraints_of cs) l nv) (ik_constraints_of cs) (pb_levels p) true qp) (fun q =>
  bind (kkt_solveHierarchy (is_solver se) (is_llt se) (is_lin se) q nv) (fun x =>
  Ok (mkSolution (w_structure w) (map (vget x) (seq 0 (vlen x))), q))).
(** test_001.cpp:140-179: one iteration; ControlProblem::update() is a part of [ik_iteration] (PepperIkLoop.v), it is computed here once more, with the same result *)
Definition ik_step (se : ik_settings) (mp : motion_parameters) (s : ik_program) : outcome (solution * ik_program) :=
  let w := wbc_update (is_features se) mp (lk_wbc (ip_loop s)) in
  bind (ik_form se w s) (fun r =>
  bind (ik_solve se w (fst r) (snd r) (ip_qp s)) (fun a =>
  bind (ik_iteration (is_features se) (is_kinematics se) mp (fst a) (ip_loop s)) (fun l =>
  Ok (fst a, mkIkp l (snd r) (ik_matrices (fst r) (ip_matrices s)) (snd a))))).
(** test_001.cpp:132-195: iterations until a small step; [j] are done, [left] are allowed *)
Fixpoint ik_steps (se : ik_settings) (mp : motion_parameters) (left j : nat) (s : ik_program) : outcome (nat * ik_program) :=
  match left with
  | O => Throw
  | S left' => bind (ik_step se mp s) (fun a =>
      if Rlt_dec (norm_inf (sol_x (fst a))) (wp_tolerance (is_wbc se)) then Ok (S j, snd a) else ik_steps se mp left' (S j) (snd a))
  end.
(** replaced model of the program *)
Definition ik_with_model (m : ikmodel) (s : ik_program) : ik_program := mkIkp (mkIkloop m (lk_wbc (ip_loop s))) (ip_problem s) (ip_matrices s) (ip_qp s).
(** test_001.cpp:131-197: one control interval *)
Definition ik_control (se : ik_settings) (mp : motion_parameters) (s : ik_program) : outcome (command * ik_program) :=
  bind (saveCurrentState (lk_model (ip_loop s))) (fun m =>
  bind (ik_steps se mp (wp_iterations (is_wbc se)) 0 (ik_with_model m s)) (fun r =>
  bind (getRobotCommand (wp_interval (is_wbc se)) (lk_model (ip_loop (snd r)))) (fun c => Ok (c, snd r)))).
(** test_001.cpp:117-250: [n] control intervals, with the references of each of them *)
Fixpoint ik_controls (se : ik_settings) (mps : nat -> motion_parameters) (n : nat) (s : ik_program) : outcome (list command * ik_program) :=
  match n with
  | O => Ok ([], s)
  | S n' => bind (ik_controls se mps n' s) (fun r => bind (ik_control se (mps n') (snd r)) (fun q => Ok (fst r ++ [fst q], snd q)))
  end.
(** test_001.cpp:55-97: the state before the loop: new objects, loadParameters() was called, updateState(); [matrices], [qp] are the contents of new matrices *)
Definition ik_start (se : ik_settings) (m : ikmodel) (w : wbc) (matrices : nat -> mat) (qp : objective * contAB) : outcome ik_program :=
  bind (ik_setup (is_hierarchy se) pb_new) (fun p => Ok (mkIkp (mkIkloop m w) p matrices qp)).
(** test_001.cpp:119-128: the references of the control intervals, from the first ones *)
Definition ik_references (mp : motion_parameters) (i : nat) : motion_parameters :=
  let d := INR (S i) * 0.0005 in
  mkMP (V3 (vx (mp_base_com mp) + d) (vy (mp_base_com mp)) (vz (mp_base_com mp))) (V3 (vx (mp_body_com mp) + d) (vy (mp_body_com mp)) (vz (mp_body_com mp))) (mp_base_rpy mp).
