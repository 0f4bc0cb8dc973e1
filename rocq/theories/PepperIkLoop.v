(** * Inverse kinematics of Pepper in a loop: iterations of one control interval, control loop, order of calls
    (pepper_ik/include/pepper_ik/whole_body_controller.h:218-315, pepper_ik/include/pepper_ik/common.h:25-77,
    pepper_ik/tests/test_001.cpp:117-201; the same loop: pepper_ik/tests/test_003.cpp:130-200, pepper_ik/tests/regression_test_001.cpp:105-150) *)
From Coq Require Import String List Reals Arith.
From Verif Require Import Base Mat3 Solution Rbdl PepperIk PepperIkTasks.
Import ListNotations.
Local Open Scope R_scope.

(** common.h:39-52, 55-62 (WBCParameters): control_interval_, joint_angle_error_tolerance_, maximal_number_of_iterations_ *)
Record wbc_parameters := mkWP { wp_interval : R; wp_tolerance : R; wp_iterations : nat }.
(** common.h:42-53, default values: 10 ms, 1e-2, 3 *)
Definition wbc_parameters_default : wbc_parameters := mkWP (10 / 1000) 1e-2 3.

(** Eigen: [x.lpNorm<Eigen::Infinity>()], the largest absolute value; 0 for an empty vector (test_001.cpp:191) *)
Definition norm_inf (x : list R) : R := fold_right (fun a m => Rmax (Rabs a) m) 0 x.

(** ** One control interval *)

(** state of the loop: the model and the controller (test_001.cpp:76, 79) *)
Record ikloop := mkIkloop { lk_model : ikmodel; lk_wbc : wbc }.
(** test_001.cpp:141-152, 178-179: WholeBodyController::update(), OptimizationProblem::form(), Solver::solve(),
    getNextGeneralizedCoordinates(), Model::updateState(). What the solver returns is given. *)
Definition ik_iteration (f : features) (fk : list R -> rb) (mp : motion_parameters) (sol : solution) (s : ikloop) : outcome ikloop :=
  bind (getNextGeneralizedCoordinates sol (lk_model s) (wbc_update f mp (lk_wbc s))) (fun p =>
  bind (updateState fk (fst p) (lk_model s)) (fun m => Ok (mkIkloop m (snd p)))).
(** test_001.cpp:133-195; [j] is the number of the iteration, [left] iterations are allowed; [sols j] is the solution found in the
    iteration [j]; returns the number of iterations too *)
Fixpoint ik_iterations (f : features) (fk : list R -> rb) (tolerance : R) (mp : motion_parameters) (sols : nat -> solution) (left j : nat) (s : ikloop)
  : outcome (nat * ikloop) :=
  match left with
  | O => Throw
  | S left' => bind (ik_iteration f fk mp (sols j) s) (fun s' =>
      if Rlt_dec (norm_inf (sol_x (sols j))) tolerance then Ok (S j, s') else ik_iterations f fk tolerance mp sols left' (S j) s')
  end.
(** test_001.cpp:131-197: Model::saveCurrentState(), the iterations, Model::getRobotCommand() *)
Definition ik_interval (f : features) (fk : list R -> rb) (p : wbc_parameters) (mp : motion_parameters) (sols : nat -> solution) (s : ikloop)
  : outcome (command * ikloop) :=
  bind (saveCurrentState (lk_model s)) (fun m =>
  bind (ik_iterations f fk (wp_tolerance p) mp sols (wp_iterations p) 0 (mkIkloop m (lk_wbc s))) (fun r =>
  bind (getRobotCommand (wp_interval p) (lk_model (snd r))) (fun c => Ok (c, snd r)))).
(** test_001.cpp:117-250: control intervals one after another, with references and solutions of each of them; the commands given so far *)
Fixpoint ik_intervals (f : features) (fk : list R -> rb) (p : wbc_parameters) (mps : nat -> motion_parameters) (sols : nat -> nat -> solution) (n : nat) (s : ikloop)
  : outcome (list command * ikloop) :=
  match n with
  | O => Ok ([], s)
  | S n' => bind (ik_intervals f fk p mps sols n' s) (fun r =>
            bind (ik_interval f fk p (mps n') (sols n') (snd r)) (fun q => Ok (fst r ++ [fst q], snd q)))
  end.

(** ** Order of calls *)

(** calls of the controller: update() with a model of any state; parseSolution(); getNextGeneralizedCoordinates(solution, model).
    The overload getNextGeneralizedCoordinates(model) (whole_body_controller.h:306-314) refers to a member which the model does not
    have; it cannot be instantiated. *)
Inductive wbc_call := WCUpdate (mp : motion_parameters) | WCParse (sol : solution) | WCNext (sol : solution) (m : ikmodel).
(** whole_body_controller.h:25-31: set_parsed is the assignment of line 272 *)
Definition set_parsed (w : wbc) : wbc := mkWbc true (w_dt w) (w_motion w) (w_velocity w) (w_pose w) (w_structure w).
(** whole_body_controller.h:247-262, 270-273, 285-299: the controller after the call, and the answer: [None] for calls without a result.
    The flag is set before the parts of the solution are found, an exception does not reset it.
    When the assertion of line 289 fails the flag is already set, so setting it again changes nothing. *)
Definition wbc_do (f : features) (c : wbc_call) (w : wbc) : wbc * outcome (option gcoord) :=
  match c with
  | WCUpdate mp => (wbc_update f mp w, Ok None)
  | WCParse _ => (set_parsed w, Ok None)
  | WCNext sol m =>
      match getNextGeneralizedCoordinates sol m w with
      | Ok (g, w') => (w', Ok (Some g))
      | Throw => (set_parsed w, Throw)
      | UB => (set_parsed w, UB)
      end
  end.
(** whole_body_controller.h:221-236: a new controller; a history of calls with their answers *)
Fixpoint wbc_calls (f : features) (l : list wbc_call) (w : wbc) : wbc * list (wbc_call * outcome (option gcoord)) :=
  match l with
  | [] => (w, [])
  | c :: r => let (w1, a) := wbc_do f c w in let (w2, h) := wbc_calls f r w1 in (w2, (c, a) :: h)
  end.
