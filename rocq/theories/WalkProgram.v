(** * The walking program: the control loop with the tasks, the hierarchy and the solver
    (run1() ... run6() of /repo/modules/wpg04/tests/regression_test_000_body.h with the hierarchies 0, 1 and 5 of /repo/modules/wpg04/tests/utilities.h and the
    solver humoto::qpoases::Solver).

    The loop without the solver is in WalkLoop.v, the life of the solver in SolverLife.v. The program is left by an exception ([Throw]), which is not
    caught in the loop. *)
From Coq Require Import String List Reals Arith Bool ZArith.
From Verif Require Import Base Matrix Mat2 Mat3 ActiveSet ConstraintType HierarchyLevel Constraints QP Problem LeftRight FootParameters FootTrajectory PointMass6z Solution Task MpcGuess
  StanceFSM WalkPreview WalkMpc WalkModel WalkProfiles WalkTasks WalkLoop QpoasesBridge Backends Solver SolverLife.
Import ListNotations.
Local Open Scope R_scope.

(** ** references of the velocity of the CoM *)
(** wpg04/common.h:41-43 *)
Record walk_velocities := mkWV { wv_walk : v2; wv_first : v2; wv_last : v2 }.
(** preview_horizon.h:256-311 *)
Definition velocity_of (V : walk_velocities) (r : velocity_ref) : v2 := match r with VelWalk => wv_walk V | VelFirst => wv_first V | VelLast => wv_last V end.
(** preview_horizon.h:319 R_cvel_ref_ *)
Definition state_reference (V : walk_velocities) (w : walk_state) : v2 := m2app (rot2 (ws_theta w)) (velocity_of V (ws_vel w)).
(** preview_horizon.h:388 cvel_ref_ of the intervals; all of them are initialised by a successful form (C55) *)
Definition references_of (V : walk_velocities) (h : horizon) : list v2 :=
  map (fun o => match o with
                | Some iv => match nth_error (h_states h) (iv_velocity iv) with Some w => state_reference V w | None => V2 0 0 end
                | None => V2 0 0
                end) (h_intervals h).

(** ** the hierarchy *)
(** a task which is not formed yet, task.h:20-35, 108-112; the identities are the numbers below *)
Definition new_task (id : nat) (t : ctype) : task := mkTask id t 0 true [] [].
(** utilities.h:29 new TaskFootstepBounds (or 55, 164): task_footstepbounds.h:42-45 *)
Definition STEPS : nat := 0.
(** utilities.h:30 new TaskCoPBounds: task_copbounds.h:35 *)
Definition COPS : nat := 1.
(** utilities.h:26 new TaskCoMVelocity: task_comvelocity.h:42 *)
Definition COMVEL : nat := 2.
(** utilities.h:28 new TaskCoPVelocity: task_copvelocity.h:42-45 *)
Definition COPVEL : nat := 3.
(** utilities.h:27 new TaskCoPPosition (or 162): task_copposition.h:43-47 *)
Definition CENTERING : nat := 4.
(** utilities.h:33-40, 59-67, 168-175: reset(2) and pushTask() in their order *)
Definition setup_hierarchy (p : problem) : outcome problem :=
  bind (pb_pushTask (pb_reset 2 p) (new_task STEPS ILU) 0) (fun p =>
  bind (pb_pushTask p (new_task COPS ILU) 0) (fun p =>
  bind (pb_pushTask p (new_task COMVEL AB) 1) (fun p =>
  bind (pb_pushTask p (new_task COPVEL AB) 1) (fun p =>
  pb_pushTask p (new_task CENTERING GIB0) 1)))).

(** ** the program *)
(** what is used of the previous iteration (regression_test_000_body.h:66-288): active sets are guessed (run2() ... run5()), the active set of
    the solver is given to the hierarchy (run2(), run4()), the solution is guessed (run4() ... run6()); the program is given by the three flags *)
Record hotstart := mkHot { hs_active : bool; hs_report : bool; hs_solution : bool }.
(** regression_test_000_body.h:66-93 run1(), 101-132 run2(), 138-168 run3(), 173-210 run4(), 215-250 run5(), 255-288 run6() *)
Definition run1 : hotstart := mkHot false false false.
Definition run2 : hotstart := mkHot true true false.
Definition run3 : hotstart := mkHot true false false.
Definition run4 : hotstart := mkHot true true true.
Definition run5 : hotstart := mkHot true false true.
Definition run6 : hotstart := mkHot false false true.
(** what does not change: the parameters of the feet, theta_increment_, the velocities, whether the steps are fixed, gains of two tasks (the gain
    of the third one is in its object), and what is used of the previous iteration (wpg04/common.h:41-46, task_footstepbounds.h:29-45, task_comvelocity.h:42, task_copvelocity.h:42-45) *)
Record settings := mkSettings { se_feet : feet_params; se_inc : R; se_velocities : walk_velocities; se_fixed : bool; se_comvel : R; se_copvel : R; se_start : hotstart }.
(** the variables of the fixture, regression_test_000_body.h:24-41; the objects of tasks which keep something: the vectors of indices of the
    two tasks of the class ILU and the object of TaskCoPPosition; old_solution of run4() ... run6(), lines 178, 219, 257 *)
Record program := mkProgram {
  pg_loop : wloop;
  pg_problem : problem;
  pg_steps_ix : list nat;
  pg_cop_ix : list nat;
  pg_centering : zero_task;
  pg_solution : qsolution;
  pg_solver : qsolver;
  pg_world : world;
  pg_old : solution }.
(** an iteration gets from outside: the values of new vectors and matrices, the library, and what is left by an interrupted construction of a QP
    (qpoases/solver.h:166-291) *)
Record environment := mkEnv { en_junk : nat -> nat -> nat -> R; en_x : nat -> R; en_library : libcall -> answer; en_broken : objective * qpc_ILU_ALU; en_broken_guess : list qstatus * list qstatus }.

(** the constraint objects of the tasks after form() (hierarchy_level.h:60-102) *)
Record formed_tasks := mkFT { ft_steps : constr; ft_cop : constr; ft_comvel : constr; ft_copvel : constr; ft_centering : zero_task }.
(** the form() functions of the tasks: task_footstepbounds.h:50-91, task_copbounds.h:41-67, task_comvelocity.h:48-69, task_copvelocity.h:49-70,
    task_generic.h:79-117; [g] is the controller after update() *)
Definition form_tasks (nan : R) (se : settings) (e : environment) (g : wpg) (s : program) : outcome formed_tasks :=
  let h := wg_horizon g in
  let N := horizon_length (wg_par g) in
  let st := structure_wpg N (length (h_steps h)) in
  let index := indices_of h in
  let states := bounds_of nan (se_feet se) h in
  bind (form_footstepBounds (en_junk e STEPS) (pg_steps_ix s) (se_fixed se) st (h_steps h) index states) (fun c0 =>
  bind (form_copBounds (en_junk e COPS) (pg_cop_ix s) st index states) (fun c1 =>
  bind (form_comVelocity (en_junk e COMVEL) (se_comvel se) st N (references_of (se_velocities se) h) (wg_matrices g)) (fun c2 =>
  bind (form_copVelocity (en_junk e COPVEL) (se_copvel se) st (wg_matrices g)) (fun c3 =>
  Ok (mkFT c0 c1 c2 c3 (zero_form st (pg_centering s))))))).
(** the constraint object of the task with the given identity (hierarchy_level.h:207-233) *)
Definition constraints_of (f : formed_tasks) (k : nat) : constr :=
  match k with O => ft_steps f | 1%nat => ft_cop f | 2%nat => ft_comvel f | 3%nat => ft_copvel f | _ => zt_constr (ft_centering f) end.
(** what form() did (task.h:178-194, constraints.h); only TaskCoPPosition marks itself as unmodified (task_generic.h:116);
    the functions guessActiveSet() of the tasks: task_footstepbounds.h:95-137, task_copbounds.h:71-91, task.h:244-255 for the other three *)
Definition formed_of (se : settings) (st : structure) (f : formed_tasks) (k : nat) : formed :=
  let c := constraints_of f k in
  mkFormed (getNumberOfConstraints c) (checkConsistency c) (if (k =? CENTERING)%nat then negb (zt_modified (ft_centering f)) else false)
    (if (k =? STEPS)%nat then Some (footstepBounds_guess (se_fixed se) st) else if (k =? COPS)%nat then Some (copBounds_guess st) else None).
(** the member with the indices of constraints of the class ILU (constraints.h:22-52) *)
Definition indices_in (c : constr) : list nat := match c_body c with BodyI ix => ix | _ => [] end.

(** the variables which form() fills for the solver: the solution, the guess of the solution and the guess of the active set *)
Record request := mkRequest { rq_solution : qsolution; rq_guess : option vec; rq_active : option asets }.
(** Eigen::VectorXd with the given elements (solution.h:127-133 get_x()) *)
Definition vector_of (x : list R) : vec := mkVec (length x) (fun i => nth i x 0).
(** regression_test_000_body.h:78, 115, 151, 190, 231, 269: form(); hierarchy.h:39-54, 106-172 with control_problem.h:64-69 and solution.h:214-219 *)
Definition pg_form (nan : R) (se : settings) (e : environment) (g : wpg) (s : program) : outcome (formed_tasks * problem * request) :=
  let st := structure_wpg (horizon_length (wg_par g)) (length (h_steps (wg_horizon g))) in
  let nv := Solution.getNumberOfVariables st in
  let so := mkQSol nv (mkVec nv (en_x e)) (so_status (pg_solution s)) (so_details (pg_solution s)) in
  assert_then (isNonEmpty st)
    (bind (form_tasks nan se e g s) (fun f =>
     bind (pb_formHierarchy (formed_of se st f) (hs_active (se_start se)) (pg_problem s)) (fun p =>
     bind (if hs_solution (se_start se) then bind (guessSolution_wpg st (pg_old s)) (fun v => Ok (Some (vector_of (sol_x v)))) else Ok None) (fun v =>
     bind (if hs_active (se_start se) then bind (pb_guessActiveSet p) (fun a => Ok (Some a)) else Ok None) (fun a =>
     Ok (f, p, mkRequest so v a)))))).
(** regression_test_000_body.h:81, 118, 154, 193, 234, 272: the arguments of solve(), solver.h:155-162 ...; solution_guess is a local variable of the
    program which lives during the call *)
Definition pg_call (se : settings) (e : environment) (f : formed_tasks) (p : problem) (r : request) : call :=
  mkCall None p (rq_solution r) (match rq_guess r with Some _ => Some O | None => None end) (rq_active r) (hs_report (se_start se)) (fun _ => rq_guess r)
    (constraints_of f) (en_library e) (en_broken e) (en_broken_guess e).
(** regression_test_000_body.h:119, 194: processActiveSet(active_set_actual); a call of the solver which has returned has filled active_set_actual
    (C97) *)
Definition pg_process (se : settings) (p : problem) (t : cstate) : outcome problem :=
  if hs_report (se_start se) then pb_processActiveSet p (match cs_report t with Some a => a | None => [] end) else Ok p.
(** the vector of the solution with its structure, solution.h:35-39, 193-196 *)
Definition solution_of (st : structure) (so : qsolution) : solution := mkSolution st (map (vget (so_x so)) (seq 0 (vlen (so_x so)))).

(** regression_test_000_body.h:71-77: one iteration until the solver is called; [None] is the break *)
Definition pg_prepare (fuel : nat) (junk : nat -> nat -> nat -> R) (nan : R) (se : settings) (e : environment) (s : program) : run (option (wpg * formed_tasks * problem * request)) :=
  rbind (wg_update fuel junk nan (se_inc se) (wl_model (pg_loop s)) (wl_fsm (pg_loop s)) (wl_wpg (pg_loop s))) (fun u =>
    if fst u then Finished (bind (pg_form nan se e (snd u) s) (fun r => Ok (Some (snd u, fst (fst r), snd (fst r), snd r)))) else Finished (Ok None)).
(** regression_test_000_body.h:82-86, 119-124, 155-160, 194-201, 236-241, 274-279: the rest of the iteration; [t] is what the solver has left *)
Definition pg_advance (fuel : nat) (junk : nat -> nat -> nat -> R) (se : settings) (g : wpg) (f : formed_tasks) (p : problem) (t : cstate) (s : program) : run (option program) :=
  let l := pg_loop s in
  let st := structure_wpg (horizon_length (wg_par g)) (length (h_steps (wg_horizon g))) in
  let sol := solution_of st (cs_solution t) in
  match pg_process se p t with
  | Throw => Finished Throw
  | UB => Finished UB
  | Ok p =>
    rbind (shiftTime fuel (wl_fsm l) (sampling_ms (wg_par (wl_wpg l)))) (fun fsm =>
      Finished (bind (wg_next_of (junk 13%nat) (se_feet se) sol fsm (wl_model l) g) (fun n =>
        let m := updateState (wl_model l) (fst n) in
        bind (snd m) (fun _ => Ok (Some (mkProgram (mkWloop (fst m) fsm (snd n)) p (indices_in (ft_steps f)) (indices_in (ft_cop f)) (ft_centering f)
                                          (cs_solution t) (cs_solver t) (cs_world t) (if hs_solution (se_start se) then sol else pg_old s)))))))
  end.
(** regression_test_000_body.h:68-86: one iteration *)
Definition pg_iterate (fuel : nat) (junk : nat -> nat -> nat -> R) (nan : R) (se : settings) (e : environment) (s : program) : run (option program) :=
  rbind (pg_prepare fuel junk nan se e s) (fun o =>
    match o with
    | None => Finished (Ok None)
    | Some (g, f, p, r) =>
        match sv_solve (pg_call se e f p r) (pg_solver s) (pg_world s) with
        | Returned t => pg_advance fuel junk se g f p t s
        | Thrown _ => Finished Throw
        | Undefined => Finished UB
        end
    end).
(** [n] iterations, regression_test_000_body.h:68-86; [es k] is the environment of the iteration [k]; [None]: the loop has been left before *)
Fixpoint pg_after (fuel : nat) (junk : nat -> nat -> nat -> R) (nan : R) (se : settings) (es : nat -> environment) (s : program) (n : nat) : run (option program) :=
  match n with
  | O => Finished (Ok (Some s))
  | S k => rbind (pg_after fuel junk nan se es s k) (fun o => match o with None => Finished (Ok None) | Some x => pg_iterate fuel junk nan se (es k) x end)
  end.
(** the variables before the loop (regression_test_000_body.h:24-60): a new hierarchy with its tasks, a new solution, a new solver with the parameters
    [par]; [s0] are the model, the machine and the controller, [w] is the world before; [details]: the class of the solution is that of the bridge *)
Definition pg_start (par : qparams) (centering : R) (details : option (backend_code * Z)) (w : world) (s0 : wloop) : outcome program :=
  bind (setup_hierarchy pb_new) (fun p => Ok (mkProgram s0 p [] [] (new_copPosition centering) (mkQSol 0 vec0 STATUS_UNDEFINED details) (sv_new par) w
    (mkSolution structure_reset []))).
