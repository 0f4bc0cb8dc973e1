(** * The Pepper program: the control loop with the tasks, the hierarchy and the solver
    (run() of /repo/modules/pepper_mpc/tests/regression_test_000_body.h and the four programs of /repo/modules/pepper_mpc/tests/test_001_body.h, with the
    hierarchy of /repo/modules/pepper_mpc/tests/utilities.h and the solver humoto::qpoases::Solver).

    The loop without the solver is in PepperLoop.v, the life of the solver in SolverLife.v. An exception is not caught in the loop: it leaves the program
    ([Throw]). Timers and logs are omitted. *)
From Coq Require Import String List Reals Arith Bool ZArith.
From Verif Require Import Base Matrix Mat2 Mat3 ActiveSet ConstraintType HierarchyLevel Constraints QP Problem PointMass6z Solution Task MpcGuess
  QpoasesBridge Backends Solver SolverLife WalkProgram PepperPreview PepperModel PepperMpc PepperTasks PepperLoop.
Import ListNotations.
Local Open Scope R_scope.

(** ** the hierarchy *)
(** utilities.h:26 new TaskBaseVelocityBounds: task_basevelocitybounds.h:29-53 *)
Definition VELOCITY : nat := 0.
(** utilities.h:27 new TaskBodyPositionBounds: task_bodypositionbounds.h:29-51 *)
Definition BODY : nat := 1.
(** utilities.h:28 new TaskCoPPositionBounds: task_coppositionbounds.h:29-53 *)
Definition PRESSURE : nat := 2.
(** utilities.h:29 new TaskBaseAccelerationBounds: task_baseaccelerationbounds.h:29-54 *)
Definition ACCELERATION : nat := 3.
(** utilities.h:31-32 new TaskBasePositionReference or new TaskBaseVelocityReference: task_basepositionref.h:30-51, task_basevelocityref.h:30-53 *)
Definition REFERENCE : nat := 4.
(** utilities.h:34 new TaskBaseJerkMinimization: task_basejerkminimization.h:30-43 *)
Definition BASE_JERK : nat := 5.
(** utilities.h:35 new TaskBodyJerkMinimization: task_bodyjerkminimization.h:22-26 *)
Definition BODYJERK : nat := 6.
(** utilities.h:36 new TaskCoPCentering: task_copcentering.h:30-38 *)
Definition CENTER : nat := 7.
(** utilities.h:39-63: reset(2) and pushTask() in their order; [position]: the mode is MAINTAIN_POSITION, otherwise it is MAINTAIN_VELOCITY; an
    unsupported mode is not modelled *)
Definition kp_setup (position : bool) (p : problem) : outcome problem :=
  bind (pb_pushTask (pb_reset 2 p) (new_task VELOCITY ILU) 0) (fun p =>
  bind (pb_pushTask p (new_task BODY ALU) 0) (fun p =>
  bind (pb_pushTask p (new_task PRESSURE ALU) 0) (fun p =>
  bind (pb_pushTask p (new_task ACCELERATION ASLU) 0) (fun p =>
  bind (pb_pushTask p (new_task REFERENCE (if position then ASB else GIB)) 1) (fun p =>
  bind (pb_pushTask p (new_task BASE_JERK ASB) 1) (fun p =>
  bind (pb_pushTask p (new_task BODYJERK GIB0) 1) (fun p =>
  pb_pushTask p (new_task CENTER AB) 1))))))).

(** ** the program *)
(** what does not change: the bounds of the robot (common.h:40-103), how the state is advanced and by how much the motions are shifted
    (regression_test_000_body.h:87-103, test_001_body.h:70-90), subsampling_time_ms_ of the parameters of the controller (common.h:330-363), which the tasks of
    bounds read, the mode of the motion (common.h:176-199), gains of three tasks (the gain of the fourth one is in its object), and what is used of the
    previous iteration *)
Record pepper_settings := mkPepper { ks_bounds : robot_bounds; ks_advance : advance; ks_shift : Z; ks_subsampling : Z; ks_position : bool;
  ks_reference : R; ks_base_jerk : R; ks_center : R; ks_start : hotstart }.
(** test_001_body.h:57-95 SolverPerformanceNoHotstarting, 99-142 SolverPerformanceActiveSetGuess, 145-192 SolverPerformanceActiveSetAndSolutionGuess,
    195-238 SolverPerformanceSolutionGuess *)
Definition no_hotstarting : hotstart := mkHot false false false.
Definition active_set_guess : hotstart := mkHot true true false.
Definition active_set_and_solution_guess : hotstart := mkHot true true true.
Definition solution_guess : hotstart := mkHot false false true.
(** the variables of the fixture, test_001_body.h:21-40; the objects of tasks which keep something: the vectors of indices of the tasks of the classes
    ILU and GIB and the object of TaskBodyJerkMinimization; old_solution, test_001_body.h:153, 200 *)
Record pepper_program := mkKP {
  kp_loop : loop;
  kp_problem : problem;
  kp_velocity_ix : list nat;
  kp_reference_ix : list nat;
  kp_body_jerk : zero_task;
  kp_solution : qsolution;
  kp_solver : qsolver;
  kp_world : world;
  kp_old : solution }.

(** the constraint objects of the tasks after form() (hierarchy_level.h:60-102) *)
Record pepper_tasks := mkPT { kt_velocity : constr; kt_body : constr; kt_pressure : constr; kt_acceleration : constr;
  kt_reference : constr; kt_base_jerk : constr; kt_body_jerk : zero_task; kt_center : constr }.
(** the form() functions of the tasks: task_basevelocitybounds.h:29-53, task_bodypositionbounds.h:29-51, task_coppositionbounds.h:29-53,
    task_baseaccelerationbounds.h:29-54, task_basepositionref.h:30-51, task_basevelocityref.h:30-53, task_basejerkminimization.h:30-43,
    task_generic.h:79-117, task_copcentering.h:30-38; [g] is the controller after updateAndShift() *)
Definition kp_form_tasks (se : pepper_settings) (e : environment) (g : mg) (s : pepper_program) : outcome pepper_tasks :=
  let st := structure_pepper (mg_size g) in
  let l := mg_horizon g in
  let M := mg_matrices g in
  bind (form_baseVelocityBounds (en_junk e VELOCITY) (kp_velocity_ix s) st l) (fun c0 =>
  bind (form_bodyPositionBounds (en_junk e BODY) st l M) (fun c1 =>
  bind (form_copPositionBounds (en_junk e PRESSURE) st l M) (fun c2 =>
  bind (form_baseAccelerationBounds (en_junk e ACCELERATION) st l M) (fun c3 =>
  bind (if ks_position se then form_basePositionReference (en_junk e REFERENCE) (ks_reference se) st l M
        else form_baseVelocityReference (en_junk e REFERENCE) (kp_reference_ix s) (ks_reference se) st l) (fun c4 =>
  Ok (mkPT c0 c1 c2 c3 c4 (form_baseJerkMinimization (ks_base_jerk se) st M) (zero_form st (kp_body_jerk s)) (form_copCentering (ks_center se) st M))))))).
(** the constraint object of the task with the given identity (hierarchy_level.h:207-233) *)
Definition kp_constraints (f : pepper_tasks) (k : nat) : constr :=
  match k with
  | O => kt_velocity f | 1%nat => kt_body f | 2%nat => kt_pressure f | 3%nat => kt_acceleration f
  | 4%nat => kt_reference f | 5%nat => kt_base_jerk f | 6%nat => zt_constr (kt_body_jerk f) | _ => kt_center f
  end.
(** what form() did (task.h:178-194, constraints.h); only TaskBodyJerkMinimization marks itself as unmodified (task_generic.h:116); the functions
    guessActiveSet() of the tasks of bounds: task_baseaccelerationbounds.h:58-86, task_basevelocitybounds.h:57-85, task_bodypositionbounds.h:55-83,
    task_coppositionbounds.h:57-85; task.h:140-170 for the other tasks *)
Definition kp_formed (se : pepper_settings) (g : mg) (f : pepper_tasks) (k : nat) : formed :=
  let c := kp_constraints f k in
  mkFormed (getNumberOfConstraints c) (checkConsistency c) (if (k =? BODYJERK)%nat then negb (zt_modified (kt_body_jerk f)) else false)
    (if (k <? REFERENCE)%nat then Some (fun t => bind (guess_pepper (sampling_ms (mg_par g)) (ks_subsampling se) (mg_horizon g) t) (fun t' => Ok (tk_guess t'))) else None).
(** the member with the indices of constraints of the classes ILU and GIB (constraints.h:22-52) *)
Definition kp_indices (c : constr) : list nat := match c_body c with BodyI ix => ix | BodyGI ix _ => ix | _ => [] end.

(** test_001_body.h:76, 118, 170, 216: form(); hierarchy.h:39-54, 106-172 with control_problem.h:64-69, solution.h:214-219 and mpc_mg.h:613-647 *)
Definition kp_form (se : pepper_settings) (e : environment) (g : mg) (s : pepper_program) : outcome (pepper_tasks * problem * request) :=
  let st := structure_pepper (mg_size g) in
  let nv := Solution.getNumberOfVariables st in
  let so := mkQSol nv (mkVec nv (en_x e)) (so_status (kp_solution s)) (so_details (kp_solution s)) in
  assert_then (isNonEmpty st)
    (bind (kp_form_tasks se e g s) (fun f =>
     bind (pb_formHierarchy (kp_formed se g f) (hs_active (ks_start se)) (kp_problem s)) (fun p =>
     bind (if hs_solution (ks_start se) then bind (guessSolution_pepper st (kp_old s)) (fun v => Ok (Some (vector_of (sol_x v)))) else Ok None) (fun v =>
     bind (if hs_active (ks_start se) then bind (pb_guessActiveSet p) (fun a => Ok (Some a)) else Ok None) (fun a =>
     Ok (f, p, mkRequest so v a)))))).
(** test_001_body.h:81, 123, 175, 221: the arguments of solve(), solver.h:155-162 ...; solution_guess is a local variable of the program which lives
    during the call *)
Definition kp_call (se : pepper_settings) (e : environment) (f : pepper_tasks) (p : problem) (r : request) : call :=
  mkCall None p (rq_solution r) (match rq_guess r with Some _ => Some O | None => None end) (rq_active r) (hs_report (ks_start se)) (fun _ => rq_guess r)
    (kp_constraints f) (en_library e) (en_broken e) (en_broken_guess e).
(** test_001_body.h:126, 178: processActiveSet(active_set_actual); a call of the solver which has returned has filled active_set_actual (C97) *)
Definition kp_process (se : pepper_settings) (p : problem) (t : cstate) : outcome problem :=
  if hs_report (ks_start se) then pb_processActiveSet p (match cs_report t with Some a => a | None => [] end) else Ok p.

(** test_001_body.h:67-76: one iteration until the solver is called: the controller, the motions which are left, the tasks, the hierarchy and the
    request; [None] is the break *)
Definition kp_prepare (junk : nat -> nat -> nat -> R) (se : pepper_settings) (e : environment) (s : pepper_program) : outcome (option (mg * motions * pepper_tasks * problem * request)) :=
  let l := kp_loop s in
  bind (mg_updateAndShift junk (ks_bounds se) (lp_motions l) (lp_model l) (ks_shift se) (lp_mg l)) (fun u =>
    if fst (fst u) then bind (kp_form se e (snd (fst u)) s) (fun r => Ok (Some (snd (fst u), snd u, fst (fst r), snd (fst r), snd r))) else Ok None).
(** regression_test_000_body.h:101-103, test_001_body.h:84-90, 126-134, 178-187, 223-231: the rest of the iteration; [t] is what the solver has left *)
Definition kp_finish (se : pepper_settings) (g : mg) (x : motions) (f : pepper_tasks) (p : problem) (t : cstate) (s : pepper_program) : outcome (option pepper_program) :=
  let l := kp_loop s in
  let sol := solution_of (structure_pepper (mg_size g)) (cs_solution t) in
  bind (kp_process se p t) (fun p =>
  bind (match ks_advance se with
        | Whole => mg_next_of sol (lp_model l) g
        | Part ms => bind (mg_parse sol g) (fun g => bind (mg_state_ms (lp_model l) ms g) (fun m => Ok (m, g)))
        end) (fun n =>
  Ok (Some (mkKP (mkLoop (fst n) x (snd n)) p (kp_indices (kt_velocity f)) (if ks_position se then kp_reference_ix s else kp_indices (kt_reference f)) (kt_body_jerk f)
              (cs_solution t) (cs_solver t) (cs_world t) (if hs_solution (ks_start se) then sol else kp_old s))))).
(** regression_test_000_body.h:84-104, test_001_body.h:64-94, 106-141, 155-191, 203-237: one iteration *)
Definition kp_iterate (junk : nat -> nat -> nat -> R) (se : pepper_settings) (e : environment) (s : pepper_program) : outcome (option pepper_program) :=
  bind (kp_prepare junk se e s) (fun o =>
    match o with
    | None => Ok None
    | Some (g, x, f, p, r) =>
        match sv_solve (kp_call se e f p r) (kp_solver s) (kp_world s) with
        | Returned t => kp_finish se g x f p t s
        | Thrown _ => Throw
        | Undefined => UB
        end
    end).
(** [n] iterations, regression_test_000_body.h:84-104; [es k] is the environment of the iteration [k]; [None]: the loop has been left before *)
Fixpoint kp_after (junk : nat -> nat -> nat -> R) (se : pepper_settings) (es : nat -> environment) (s : pepper_program) (n : nat) : outcome (option pepper_program) :=
  match n with
  | O => Ok (Some s)
  | S k => bind (kp_after junk se es s k) (fun o => match o with None => Ok None | Some x => kp_iterate junk se (es k) x end)
  end.
(** the variables before the loop (regression_test_000_body.h:24-80, test_001_body.h:21-54): a new hierarchy with its tasks, a new solution, a new solver
    with the parameters [par]; [s0] are the model, the motions and the controller, [w] is the world before; [details]: the class of the solution is that of
    the bridge *)
Definition kp_start (se : pepper_settings) (par : qparams) (body_jerk : R) (details : option (backend_code * Z)) (w : world) (s0 : loop) : outcome pepper_program :=
  bind (kp_setup (ks_position se) pb_new) (fun p => Ok (mkKP s0 p [] [] (new_bodyJerkMinimization body_jerk) (mkQSol 0 vec0 STATUS_UNDEFINED details) (sv_new par) w
    (mkSolution structure_reset []))).
