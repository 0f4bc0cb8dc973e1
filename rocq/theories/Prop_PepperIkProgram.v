(** * Property C106: the program of the inverse kinematics of Pepper. Vocabulary in PepperIkProgramSpec.v, PepperIkLoopSpec.v, PepperIkTasksSpec.v, KKTPosedSpec.v. *)
From Coq Require Import String List Reals Arith Bool ZArith Lra Lia.
From Verif Require Import Base BaseFacts RSum Matrix Mat3 ConstraintType Constraints ConstraintsSpec QP QPSpec Problem Solution PepperTasksSpec RotarySpec Rotary Euler EulerSpec Rbdl RbdlSpec
  PepperIk PepperIkSpec PepperIkExample PepperIkTasks PepperIkTasksSpec PepperIkLoop PepperIkLoopSpec Solver KKT KKTSpec KKTPosedSpec KKTGauss PepperIkProgram PepperIkProgramSpec PepperIkProgramRun PepperIkProgramExample PepperIkProgramMeaning PepperIkRefuse.
Import ListNotations.
Local Open Scope nat_scope.

(** The program starts *)
Theorem C106_starts : forall (eig : m3 -> euler_type -> v3) (se : ik_settings) (m : ikmodel) (w : wbc) (a : nat -> mat) (q : objective * contAB),
  reachable eig (is_features se) (is_kinematics se) m -> exists s, ik_start se m w a q = Ok s /\ ip_loop s = mkIkloop m w.
Proof. exact program_starts. Qed.
(** A step is the only best one *)
Theorem C106_step : forall (eig : m3 -> euler_type -> v3) (se : ik_settings) (mp : motion_parameters) (reg : R) (s : ik_program),
  kinematics (is_features se) (is_kinematics se) -> proper_hierarchy (is_hierarchy se) -> arrives eig se s -> solvable se mp reg (ip_loop s) ->
  exists sol s', ik_step se mp s = Ok (sol, s') /\ answers (is_features se) sol /\ ik_iteration (is_features se) (is_kinematics se) mp sol (ip_loop s) = Ok (ip_loop s') /\
    minimal_step se mp reg (ip_loop s) sol /\ best_step se mp reg (ip_loop s) sol.
Proof. exact program_step. Qed.
(** Settings with which there are no steps *)
Theorem C106_refuses : forall (eig : m3 -> euler_type -> v3) (se : ik_settings) (mp : motion_parameters) (s : ik_program),
  kinematics (is_features se) (is_kinematics se) -> proper_hierarchy (is_hierarchy se) -> arrives eig se s ->
  solution_method (is_solver se) = KKT_UNDEFINED \/ (solution_method (is_solver se) = CONSTRAINT_ELIMINATION_LLT /\ ~ Forall simple_class (snd (is_hierarchy se))) -> ik_step se mp s = Throw.
Proof. exact program_refuses. Qed.
(** The command of a control interval is made after the first small step *)
Theorem C106_interval : forall (eig : m3 -> euler_type -> v3) (se : ik_settings) (mp : motion_parameters) (s s' : ik_program) (c : command),
  kinematics (is_features se) (is_kinematics se) -> proper_hierarchy (is_hierarchy se) -> arrives eig se s -> ik_control se mp s = Ok (c, s') ->
  exists m n st sols, saveCurrentState (lk_model (ip_loop s)) = Ok m /\ n < wp_iterations (is_wbc se) /\ steps_of se mp (ik_with_model m s) st sols (S n) /\
    first_small (wp_tolerance (is_wbc se)) sols n /\ s' = st (S n) /\ getRobotCommand (wp_interval (is_wbc se)) (lk_model (ip_loop s')) = Ok c.
Proof. exact program_interval. Qed.
(** When all problems can be solved, the interval fails only if there are no small steps or the command is not allowed *)
Theorem C106_control : forall (eig : m3 -> euler_type -> v3) (se : ik_settings) (mp : motion_parameters) (reg : R) (s : ik_program),
  kinematics (is_features se) (is_kinematics se) -> proper_hierarchy (is_hierarchy se) -> arrives eig se s ->
  (forall m k st sols, saveCurrentState (lk_model (ip_loop s)) = Ok m -> k < wp_iterations (is_wbc se) -> steps_of se mp (ik_with_model m s) st sols k ->
     (forall i, i < k -> ~ small (wp_tolerance (is_wbc se)) (sols i)) -> solvable se mp reg (ip_loop (st k))) ->
  exists m st sols, saveCurrentState (lk_model (ip_loop s)) = Ok m /\
    ((exists n, n < wp_iterations (is_wbc se) /\ steps_of se mp (ik_with_model m s) st sols (S n) /\ first_small (wp_tolerance (is_wbc se)) sols n /\
        ik_control se mp s = bind (getRobotCommand (wp_interval (is_wbc se)) (lk_model (ip_loop (st (S n))))) (fun c => Ok (c, st (S n)))) \/
     (steps_of se mp (ik_with_model m s) st sols (wp_iterations (is_wbc se)) /\ (forall k, k < wp_iterations (is_wbc se) -> ~ small (wp_tolerance (is_wbc se)) (sols k)) /\ ik_control se mp s = Throw)).
Proof. exact program_control. Qed.
(** When the iterations stop, the errors of the first level are small *)
Theorem C106_stopped : forall (eig : m3 -> euler_type -> v3) (se : ik_settings) (mp : motion_parameters) (reg tolerance : R) (s s' : ik_program) (sol : solution) (t : ik_task),
  kinematics (is_features se) (is_kinematics se) -> proper_hierarchy (is_hierarchy se) -> arrives eig se s -> solvable se mp reg (ip_loop s) ->
  ik_step se mp s = Ok (sol, s') -> small tolerance sol -> In t (fst (is_hierarchy se)) -> gain_of t <> 0%R ->
  almost_done (is_features se) mp tolerance (lk_model (ip_loop s)) t.
Proof. exact program_stopped. Qed.
(** Many control intervals *)
Theorem C106_intervals : forall (eig : m3 -> euler_type -> v3) (se : ik_settings) (mps : nat -> motion_parameters) (n : nat) (s s' : ik_program) (cs : list command),
  kinematics (is_features se) (is_kinematics se) -> proper_hierarchy (is_hierarchy se) -> arrives eig se s -> wp_interval (is_wbc se) <> 0%R -> ik_controls se mps n s = Ok (cs, s') ->
  length cs = n /\ exists st P, st 0 = s /\ st n = s' /\ (forall i, i <= n -> getBasePosition (lk_model (ip_loop (st i))) = Ok (P i)) /\
    (forall i c, nth_error cs i = Some c -> ik_control se (mps i) (st i) = Ok (c, st (S i)) /\ executes (is_features se) (is_kinematics se) (wp_interval (is_wbc se)) c (ip_loop (st i)) (ip_loop (st (S i))) (P i) (P (S i))) /\
    forall c0, (vx (P n) = vx (P 0%nat) + wp_interval (is_wbc se) * Rsum n (fun i => vx (cmd_base (nth i cs c0))) /\
                vy (P n) = vy (P 0%nat) + wp_interval (is_wbc se) * Rsum n (fun i => vy (cmd_base (nth i cs c0))))%R.
Proof. exact program_intervals. Qed.
(** The hierarchies of the repository, and the references of its control intervals *)
Theorem C106_hierarchies : forall (reference : list R),
  length reference = JOINTS_DOF_NUMBER -> proper_hierarchy (hierarchy_v0 reference) /\ proper_hierarchy (hierarchy_v1 reference) /\
  ~ proper_hierarchy hierarchy_01.
Proof. exact hierarchies_proper. Qed.
Theorem C106_second_hierarchy_refused : forall (eig : m3 -> euler_type -> v3) (se : ik_settings) (reference : list R) (mp : motion_parameters) (s : ik_program),
  kinematics (is_features se) (is_kinematics se) -> is_hierarchy se = hierarchy_v1 reference -> length reference = JOINTS_DOF_NUMBER -> arrives eig se s ->
  solution_method (is_solver se) = CONSTRAINT_ELIMINATION_LLT -> ik_step se mp s = Throw.
Proof. exact second_hierarchy_refused. Qed.
(** With limits of joints, no step can be made; one of the hierarchies of the repository has them *)
Theorem C106_limits : forall (eig : m3 -> euler_type -> v3) (se : ik_settings) (mp : motion_parameters) (s : ik_program),
  kinematics (is_features se) (is_kinematics se) -> limiting_hierarchy (is_hierarchy se) -> arrives eig se s -> ik_step se mp s = Throw.
Proof. exact program_limits. Qed.
Theorem C106_third_hierarchy : limiting_hierarchy hierarchy_01.
Proof. exact third_hierarchy_limits. Qed.
Theorem C106_third_case : forall (eig : m3 -> euler_type -> v3) (method : kkt_method),
  kinematics ROOT_PLANAR ex_pepper /\ exists s, arrives eig (third_set method) s.
Proof. exact third_case. Qed.
Theorem C106_references : forall (mp : motion_parameters),
  (forall i, let before := match i with O => mp | S i' => ik_references mp i' end in let r := ik_references mp i in
  vx (mp_base_com r) = vx (mp_base_com before) + 0.0005 /\ vx (mp_body_com r) = vx (mp_body_com before) + 0.0005 /\
  vy (mp_base_com r) = vy (mp_base_com before) /\ vz (mp_base_com r) = vz (mp_base_com before) /\ vy (mp_body_com r) = vy (mp_body_com before) /\ vz (mp_body_com r) = vz (mp_body_com before) /\
  mp_base_rpy r = mp_base_rpy before)%R.
Proof. exact references_move. Qed.
Theorem C106_second_case : forall (eig : m3 -> euler_type -> v3) (reference : list R),
  kinematics ROOT_PLANAR ex_pepper /\ exists s, arrives eig (second_set reference) s.
Proof. exact second_case. Qed.

Local Open Scope R_scope.
(** a case which meets the hypotheses: all states of a robot and all references; the robot turns its head *)
Theorem C106_case_solvable : forall (eig : m3 -> euler_type -> v3) (method : kkt_method) (reference : list R) (mp : motion_parameters) (s : ikloop),
  length reference = 15%nat -> reachable eig ROOT_PLANAR ex_pepper (lk_model s) -> method <> KKT_UNDEFINED ->
  solvable (ex_set method reference) mp (match method with CONSTRAINT_ELIMINATION_LLT => 1e-3 | _ => 0 end) s.
Proof. exact ex_solvable. Qed.
Theorem C106_case_step : forall (eig : m3 -> euler_type -> v3) (reference : list R) (mp : motion_parameters) (s : ik_program) (yaw : R),
  length reference = 15%nat -> arrives eig (ex_set LU reference) s -> mp_base_rpy mp = V3 0 0 yaw ->
  let q := ik_gc (lk_model (ip_loop s)) in
  exists sol s', ik_step (ex_set LU reference) mp s = Ok (sol, s') /\ answers ROOT_PLANAR sol /\ ik_iteration ROOT_PLANAR ex_pepper mp sol (ip_loop s) = Ok (ip_loop s') /\
    point sol 0 = vx (mp_base_com mp) - root_at q 0 /\ point sol 1 = vy (mp_base_com mp) - root_at q 1 /\ point sol 2 = sin (yaw - root_at q 2) /\
    forall j, point sol (3 + joint_id ROOT_PLANAR j) = angle_in ROOT_PLANAR reference j - angle ROOT_PLANAR q j.
Proof. exact ex_step. Qed.
Theorem C106_case_control : forall (eig : m3 -> euler_type -> v3) (turn : R),
  1e-2 <= Rabs turn <= 0.07 ->
  exists s c s', arrives eig (ex_set LU (ex_reference turn)) s /\ ik_control (ex_set LU (ex_reference turn)) ex_stay s = Ok (c, s') /\
    angle ROOT_PLANAR (ik_gc (lk_model (ip_loop s'))) HeadYaw = angle ROOT_PLANAR (ik_gc (lk_model (ip_loop s))) HeadYaw + turn.
Proof. exact ex_control. Qed.

Print Assumptions C106_starts. Print Assumptions C106_step. Print Assumptions C106_refuses. Print Assumptions C106_interval. Print Assumptions C106_control. Print Assumptions C106_stopped. Print Assumptions C106_intervals. Print Assumptions C106_hierarchies. Print Assumptions C106_second_hierarchy_refused. Print Assumptions C106_limits. Print Assumptions C106_third_hierarchy. Print Assumptions C106_third_case. Print Assumptions C106_references. Print Assumptions C106_second_case. Print Assumptions C106_case_solvable. Print Assumptions C106_case_step. Print Assumptions C106_case_control.
