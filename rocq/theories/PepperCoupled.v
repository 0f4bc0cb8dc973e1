(** * The program which plans motions of Pepper and executes them: the MPC and the inverse kinematics in one loop
    (main() of /repo/modules/pepper_ik/tests/test_002.cpp; the hierarchy of the MPC is that of /repo/modules/pepper_mpc/tests/utilities.h, the solver of the MPC is
    humoto::qpoases::Solver without hot starting, the solver of the inverse kinematics is /repo/core/include/kktsolver.h).

    The parts are in PepperLoop.v, PepperProgram.v, PepperIkLoop.v and PepperIkProgram.v. An exception is not caught in the loop: it leaves the program ([Throw]).
    Timers, logs and the text of the configuration files are omitted. sampling_interval_difference is a number of milliseconds here, its conversion is in Time.v. *)
From Coq Require Import String List Reals Arith Bool ZArith.
From Verif Require Import Base RSum Matrix Mat2 Mat3 ActiveSet ConstraintType HierarchyLevel Constraints QP Problem PointMass6z Solution Task MpcGuess QpoasesBridge Backends Solver SolverLife WalkProgram
  PepperPreview PepperModel PepperMpc PepperTasks PepperLoop PepperProgram Rotary Euler Rbdl PepperIk PepperIkTasks PepperIkLoop KKT PepperIkProgram.
Import ListNotations.
Local Open Scope R_scope.

(** what does not change, test_002.cpp:30-153: bounds of the robot, subsampling_time_ms_, the mode of motions and gains of the tasks of the MPC, the settings of the
    inverse kinematics, motion_parameters_tolerance_ (common.h:39-62), sampling_interval_difference in milliseconds (test_002.cpp:26) *)
Record co_settings := mkCoSet { ct_bounds : robot_bounds; ct_subsampling : nat; ct_position : bool; ct_reference : R; ct_base_jerk : R; ct_center : R;
  ct_ik : ik_settings; ct_tolerance : R; ct_difference : nat }.
(** test_002.cpp:175-177: the time by which the motions are shifted *)
Definition co_shift (se : co_settings) : Z := (Z.of_nat (ct_subsampling se) + Z.of_nat (ct_difference se))%Z.
(** the part of the MPC: the settings of PepperProgram.v; test_002.cpp:218, 236 *)
Definition co_mpc (se : co_settings) : pepper_settings :=
  mkPepper (ct_bounds se) (Part (ct_subsampling se)) (co_shift se) (Z.of_nat (ct_subsampling se)) (ct_position se) (ct_reference se) (ct_base_jerk se) (ct_center se) no_hotstarting.
(** test_002.cpp:30-159: variables of the MPC, of the inverse kinematics, and command *)
Record coupled := mkCo { co_pepper : pepper_program; co_ik : ik_program; co_command : command }.
(** replaced state of the model, motions and controller of the MPC (variables of test_002.cpp:30-120) *)
Definition kp_with_loop (l : loop) (s : pepper_program) : pepper_program :=
  mkKP l (kp_problem s) (kp_velocity_ix s) (kp_reference_ix s) (kp_body_jerk s) (kp_solution s) (kp_solver s) (kp_world s) (kp_old s).

(** test_002.cpp:164-179: feedback in the iteration [i]; mpc_mg.h:478-523, model.h:569-609, 624-637 *)
Definition co_feedback (eig : m3 -> euler_type -> v3) (se : co_settings) (i : nat) (s : coupled) : outcome coupled :=
  if (i =? 0)%nat then Ok s else
    let m := lk_model (ip_loop (co_ik s)) in
    let l := kp_loop (co_pepper s) in
    bind (correct_state eig (is_features (ct_ik se)) (is_kinematics (ct_ik se)) (ik_gc m) (co_command s) (INR (ct_difference se) / 1000) m) (fun m' =>
    Ok (mkCo (kp_with_loop (mkLoop (lp_model l) (shift_motions (sampling_ms (mg_par (lp_mg l))) (co_shift se) (lp_motions l)) (lp_mg l)) (co_pepper s))
             (ik_with_model m' (co_ik s)) (co_command s))).
(** test_002.cpp:182-190: the state of the MPC is that of the robot; model_state.h:172-186, model.h:356-361 (pepper_mpc) *)
Definition co_sync (eig : m3 -> euler_type -> v3) (s : coupled) : outcome coupled :=
  let m := lk_model (ip_loop (co_ik s)) in
  let l := kp_loop (co_pepper s) in
  bind (getBaseCoM m) (fun base => bind (getBodyCoM m) (fun body => bind (getBaseYaw eig m) (fun yaw =>
  Ok (mkCo (kp_with_loop (mkLoop (ps_update (lp_model l) (getBaseMass m) (getBodyMass m) base body yaw) (lp_motions l) (lp_mg l)) (co_pepper s)) (co_ik s) (co_command s))))).
(** test_002.cpp:198-236: update(), form(), solve(), parseSolution(), getModelState(); [None] is the break *)
Definition co_plan (junk : nat -> nat -> nat -> R) (se : co_settings) (e : environment) (s : pepper_program) : outcome (option pepper_program) :=
  let l := kp_loop s in
  bind (mg_update junk (ct_bounds se) (lp_motions l) (lp_model l) (lp_mg l)) (fun u =>
    if fst u
    then bind (kp_form (co_mpc se) e (snd u) s) (fun r =>
      match sv_solve (kp_call (co_mpc se) e (fst (fst r)) (snd (fst r)) (snd r)) (kp_solver s) (kp_world s) with
      | Returned t => kp_finish (co_mpc se) (snd u) (lp_motions l) (fst (fst r)) (snd (fst r)) t s
      | Thrown _ => Throw
      | Undefined => UB
      end)
    else Ok None).
(** test_002.cpp:238-246: references for the inverse kinematics from the planned state *)
Definition co_references (m : pepper_state) : motion_parameters :=
  mkMP (pm_position (ps_base m)) (pm_position (ps_body m)) (V3 0 0 (vz (ps_rpy m))).
(** test_002.cpp:296-298 *)
Definition co_error (e : motion_parameters) : R := v3norm (mp_base_com e) + v3norm (mp_base_rpy e) + v3norm (mp_body_com e).
(** test_002.cpp:256-308: iterations of the inverse kinematics; [left] are allowed *)
Fixpoint co_steps (se : ik_settings) (tolerance : R) (mp : motion_parameters) (left : nat) (s : ik_program) : outcome ik_program :=
  match left with
  | O => Throw
  | S left' => bind (ik_step se mp s) (fun a => bind (getStateError mp (lk_model (ip_loop (snd a)))) (fun e =>
      if Rlt_dec (co_error e) tolerance then Ok (snd a)
      else if Rlt_dec (norm_inf (sol_x (fst a))) (wp_tolerance (is_wbc se)) then Ok (snd a)
      else co_steps se tolerance mp left' (snd a)))
  end.
(** test_002.cpp:255-310 *)
Definition co_control (se : ik_settings) (tolerance : R) (mp : motion_parameters) (s : ik_program) : outcome (command * ik_program) :=
  bind (saveCurrentState (lk_model (ip_loop s))) (fun m =>
  bind (co_steps se tolerance mp (wp_iterations (is_wbc se)) (ik_with_model m s)) (fun r =>
  bind (getRobotCommand (wp_interval (is_wbc se)) (lk_model (ip_loop r))) (fun c => Ok (c, r)))).
(** test_002.cpp:161-316: the iteration [i] *)
Definition co_iterate (eig : m3 -> euler_type -> v3) (junk : nat -> nat -> nat -> R) (se : co_settings) (e : environment) (i : nat) (s : coupled) : outcome (option coupled) :=
  bind (co_feedback eig se i s) (fun s1 => bind (co_sync eig s1) (fun s2 =>
  bind (co_plan junk se e (co_pepper s2)) (fun o =>
    match o with
    | None => Ok None
    | Some k => bind (co_control (ct_ik se) (ct_tolerance se) (co_references (lp_model (kp_loop k))) (co_ik s2)) (fun r => Ok (Some (mkCo k (snd r) (fst r))))
    end))).
(** test_002.cpp:161: [n] iterations; [None]: the loop has been left before *)
Fixpoint co_after (eig : m3 -> euler_type -> v3) (junk : nat -> nat -> nat -> R) (se : co_settings) (es : nat -> environment) (s : coupled) (n : nat) : outcome (option coupled) :=
  match n with
  | O => Ok (Some s)
  | S k => bind (co_after eig junk se es s k) (fun o => match o with None => Ok None | Some x => co_iterate eig junk se (es k) k x end)
  end.
(** test_002.cpp:30-159: the variables before the loop: the parts are those of PepperProgram.v and PepperIkProgram.v; [c] is the contents of command, whose
    constructor sets nothing (model.h:20-50) *)
Definition co_start (se : co_settings) (par : qparams) (body_jerk : R) (details : option (backend_code * Z)) (w : world) (s0 : loop)
  (m : ikmodel) (wb : wbc) (matrices : nat -> mat) (qp : objective * contAB) (c : command) : outcome coupled :=
  bind (kp_start (co_mpc se) par body_jerk details w s0) (fun k => bind (ik_start (ct_ik se) m wb matrices qp) (fun i => Ok (mkCo k i c))).
