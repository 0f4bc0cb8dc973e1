(** * The program which finds reachable positions of the body of Pepper: inverse kinematics with limits of joints, solver humoto::qpoases::Solver
    (main() of /repo/modules/pepper_ik/tests/test_003.cpp, hierarchy /repo/modules/pepper_ik/config/hierarchies_planar.yaml Hierarchy01; the loop of
    iterations is that of /repo/modules/pepper_ik/tests/test_000.cpp and test_004.cpp too).

    The tasks and the hierarchy are in PepperIkProgram.v, the life of the solver in SolverLife.v. Timers, logs and the text of the files are omitted: the
    hierarchy is built from the list of its tasks (reading of the file is in ConfigProblem.v), parameters are given. *)
From Coq Require Import String List Reals Arith Bool ZArith.
From Verif Require Import Base RSum Matrix Mat3 ActiveSet ConstraintType HierarchyLevel Constraints QP Problem Solution MpcGuess QpoasesBridge Backends Solver SolverLife WalkProgram
  Rbdl PepperIk PepperIkTasks PepperIkLoop Task PepperIkProgram.
Import ListNotations.
Local Open Scope R_scope.

(** what does not change: the robot, WBCParameters (common.h:39-62) with motion_parameters_tolerance_, the tasks of the two levels *)
Record scan_settings := mkScan { sc_features : features; sc_kinematics : list R -> rb; sc_wbc : wbc_parameters; sc_tolerance : R; sc_hierarchy : list ik_task * list ik_task }.
(** test_003.cpp:89-125: model and wbc, opt_problem, matrices of its tasks, solution, solver; the world of the objects of the library *)
Record scan_program := mkScp { sp_loop : ikloop; sp_problem : problem; sp_matrices : nat -> mat; sp_solution : qsolution; sp_solver : qsolver; sp_world : world }.

(** ** one iteration *)
(** test_003.cpp:153: form(solution, model, wbc); hierarchy.h:39-54, 106-111, solution.h:214-219; new elements of x_ are not set *)
Definition sc_form (se : scan_settings) (e : environment) (w : wbc) (s : scan_program) : outcome (list constr * problem * qsolution) :=
  let nv := Solution.getNumberOfVariables (w_structure w) in
  assert_then (isNonEmpty (w_structure w))
    (bind (ik_form_tasks (sc_features se) (fst (sc_hierarchy se) ++ snd (sc_hierarchy se)) 0 (sp_matrices s) (lk_model (sp_loop s)) w) (fun cs =>
     bind (pb_formHierarchy (ik_formed cs) false (sp_problem s)) (fun p =>
     Ok (cs, p, mkQSol nv (mkVec nv (en_x e)) (so_status (sp_solution s)) (so_details (sp_solution s)))))).
(** test_003.cpp:158: the arguments of solve(solution, opt_problem): no guesses, no report *)
Definition sc_call (e : environment) (cs : list constr) (p : problem) (so : qsolution) : call :=
  mkCall None p so None None false (fun _ => None) (ik_constraints_of cs) (en_library e) (en_broken e) (en_broken_guess e).
(** an iteration goes on, or the solver has thrown an exception, which is caught (test_003.cpp:156-166) *)
Inductive scan_step := Stepped (sol : solution) (s : scan_program) | Failed (s : scan_program).
(** the state after an iteration, test_003.cpp:136-194 *)
Definition step_state (r : scan_step) : scan_program := match r with Stepped _ s => s | Failed s => s end.
(** test_003.cpp:145-187: update(), form(), solve(), getNextGeneralizedCoordinates(), updateState(); update() returns OK
    (whole_body_controller.h:247-262); it is a part of [ik_iteration] too (PepperIkLoop.v), with the same result *)
Definition sc_step (se : scan_settings) (mp : motion_parameters) (e : environment) (s : scan_program) : outcome scan_step :=
  let w := wbc_update (sc_features se) mp (lk_wbc (sp_loop s)) in
  bind (sc_form se e w s) (fun r =>
    let cs := fst (fst r) in
    let p := snd (fst r) in
    let a := ik_matrices cs (sp_matrices s) in
    match sv_solve (sc_call e cs p (snd r)) (sp_solver s) (sp_world s) with
    | Returned t =>
        let sol := solution_of (w_structure w) (cs_solution t) in
        bind (ik_iteration (sc_features se) (sc_kinematics se) mp sol (sp_loop s)) (fun l =>
        Ok (Stepped sol (mkScp l p a (cs_solution t) (cs_solver t) (cs_world t))))
    | Thrown t => Ok (Failed (mkScp (mkIkloop (lk_model (sp_loop s)) w) p a (cs_solution t) (cs_solver t) (cs_world t)))
    | Undefined => UB
    end).

(** ** one point *)
(** values of feasibility_flags: test_003.cpp:140 (1), 164 (2), 191 (3), 204 (4), 227 (-1) *)
Inductive flag := ITERATIONS | ERROR | SMALL | BOUNDS | REACHED.
(** test_003.cpp:136-194: the loop of iterations; [j] are done, [left] are allowed; [es j] is the environment of the iteration [j] *)
Fixpoint sc_steps (se : scan_settings) (mp : motion_parameters) (es : nat -> environment) (left j : nat) (s : scan_program) : outcome (flag * scan_program) :=
  match left with
  | O => Ok (ITERATIONS, s)
  | S left' => bind (sc_step se mp (es j) s) (fun r =>
      match r with
      | Failed s' => Ok (ERROR, s')
      | Stepped sol s' => if Rlt_dec (norm_inf (sol_x sol)) (wp_tolerance (sc_wbc se)) then Ok (SMALL, s') else sc_steps se mp es left' (S j) s'
      end)
  end.
(** replaced model of the program *)
Definition sc_with_model (m : ikmodel) (s : scan_program) : scan_program := mkScp (mkIkloop m (lk_wbc (sp_loop s))) (sp_problem s) (sp_matrices s) (sp_solution s) (sp_solver s) (sp_world s).
(** test_003.cpp:223-225: sum of the norms of the errors *)
Definition sc_error (e : motion_parameters) : R := v3norm (mp_base_com e) + v3norm (mp_base_rpy e) + v3norm (mp_body_com e).
(** test_003.cpp:135-228: saveCurrentState(), the iterations, checkCurrentState(), getStateError(); an exception of checkCurrentState() is caught *)
Definition sc_point (se : scan_settings) (mp : motion_parameters) (es : nat -> environment) (s : scan_program) : outcome (flag * scan_program) :=
  bind (saveCurrentState (lk_model (sp_loop s))) (fun m =>
  bind (sc_steps se mp es (wp_iterations (sc_wbc se)) 0 (sc_with_model m s)) (fun r =>
  bind (match checkCurrentState (lk_model (sp_loop (snd r))) with Ok _ => Ok (fst r) | Throw => Ok BOUNDS | UB => UB end) (fun c =>
  bind (getStateError mp (lk_model (sp_loop (snd r)))) (fun e =>
  Ok (if Rlt_dec (sc_error e) (sc_tolerance se) then REACHED else c, snd r))))).
(** test_003.cpp:89-125: the objects of one point: a new hierarchy, solver, solution, controller and model; [m], [w] are the model after loadParameters() and
    updateState() and the controller, [a] are the contents of new matrices, [wd] is the world before *)
Definition sc_start (se : scan_settings) (par : qparams) (details : option (backend_code * Z)) (m : ikmodel) (w : wbc) (a : nat -> mat) (wd : world) : outcome scan_program :=
  bind (ik_setup (sc_hierarchy se) pb_new) (fun p => Ok (mkScp (mkIkloop m w) p a (mkQSol 0 (mkVec 0 (fun _ => 0)) STATUS_UNDEFINED details) (sv_new par) wd)).

(** ** the points *)
(** what is new for a point: the references, the model, the controller, the matrices, the environments *)
Record scan_point := mkPoint { pt_motion : motion_parameters; pt_model : ikmodel; pt_wbc : wbc; pt_matrices : nat -> mat; pt_environment : nat -> environment }.
(** test_003.cpp:83-238: the points one after another; at the end of each of them its objects are destroyed (solver.h:504-507 of qpoases) *)
Fixpoint sc_scan (se : scan_settings) (par : qparams) (details : option (backend_code * Z)) (pts : list scan_point) (wd : world) : outcome (list flag * world) :=
  match pts with
  | [] => Ok ([], wd)
  | q :: rest =>
      bind (sc_start se par details (pt_model q) (pt_wbc q) (pt_matrices q) wd) (fun s =>
      bind (sc_point se (pt_motion q) (pt_environment q) s) (fun r =>
      match sv_destroy (sp_solver (snd r)) (sp_world (snd r)) with
      | None => UB
      | Some wd' => bind (sc_scan se par details rest wd') (fun a => Ok (fst r :: fst a, snd a))
      end))
  end.

(** ** the grid *)
(** test_003.cpp:83, 85, 87: the values of the variable of a loop [for (x = first; x <= last; x += step)], in exact arithmetic; [None]: not finished yet *)
Fixpoint grid_values (fuel : nat) (x last step : R) : option (list R) :=
  match fuel with
  | O => None
  | S k => if Rle_dec x last then match grid_values k (x + step) last step with Some l => Some (x :: l) | None => None end else Some []
  end.
(** test_003.cpp:69-73, 75-79: static_cast<int>(1+round((last-first)/step)), the places which are allotted for one variable; round() of a number which
    is not negative *)
Definition grid_places (first last step : R) : Z := (1 + Int_part ((last - first) / step + / 2))%Z.
(** test_003.cpp:83-87: points_i in the iteration with the numbers [i], [j], [k] of the three loops, which make [ny] and [nz] iterations *)
Definition grid_index (ny nz i j k : nat) : nat := ((i * ny + j) * nz + k)%nat.
