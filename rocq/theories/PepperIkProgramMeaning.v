(** * The program of the inverse kinematics of Pepper with the hierarchies and references of the repository (C106) *)
From Coq Require Import String List Reals Arith Bool ZArith Lra Lia.
From Verif Require Import Base BaseFacts RSum Matrix Mat3 ConstraintType Constraints ConstraintsSpec QP QPSpec Problem Solution PepperTasksSpec RotarySpec Rotary Euler EulerSpec Rbdl RbdlSpec
  PepperIk PepperIkSpec PepperIkTasks PepperIkTasksSpec PepperIkLoop PepperIkLoopSpec Solver KKT KKTSpec KKTPosedSpec PepperIkProgram PepperIkProgramSpec PepperIkExample PepperIkLoopWitness PepperIkTasksExample PepperIkFacts KKTGauss PepperIkProgramRun PepperIkProgramExample.
Import ListNotations.
Local Open Scope nat_scope.

Theorem hierarchies_proper (reference : list R) : length reference = JOINTS_DOF_NUMBER -> proper_hierarchy (hierarchy_v0 reference) /\ proper_hierarchy (hierarchy_v1 reference) /\
  ~ proper_hierarchy hierarchy_01.
Proof.
  intros L. split; [|split].
  - repeat split; try discriminate; repeat constructor; cbn; auto; lia.
  - repeat split; try discriminate; repeat constructor; cbn; auto; lia.
  - intros (_ & _ & F & _). do 4 (apply Forall_inv_tail in F). apply Forall_inv in F. exact F.
Qed.
(** the hierarchy 1 cannot be used with one of the methods of solution *)
Theorem second_hierarchy_refused (eig : m3 -> euler_type -> v3) (se : ik_settings) (reference : list R) (mp : motion_parameters) (s : ik_program) :
  kinematics (is_features se) (is_kinematics se) -> is_hierarchy se = hierarchy_v1 reference -> length reference = JOINTS_DOF_NUMBER -> arrives eig se s ->
  solution_method (is_solver se) = CONSTRAINT_ELIMINATION_LLT -> ik_step se mp s = Throw.
Proof.
  intros K H L A M. apply (program_refuses eig se mp s K); [rewrite H; exact (proj1 (proj2 (hierarchies_proper reference L)))|exact A|]. right. split; [exact M|]. rewrite H.
  intros F. apply Forall_inv in F. exact F.
Qed.
(** the references of [n] control intervals move forward by half a millimetre before each of them *)
Theorem references_move (mp : motion_parameters) : (forall i, let before := match i with O => mp | S i' => ik_references mp i' end in let r := ik_references mp i in
  vx (mp_base_com r) = vx (mp_base_com before) + 0.0005 /\ vx (mp_body_com r) = vx (mp_body_com before) + 0.0005 /\
  vy (mp_base_com r) = vy (mp_base_com before) /\ vz (mp_base_com r) = vz (mp_base_com before) /\ vy (mp_body_com r) = vy (mp_body_com before) /\ vz (mp_body_com r) = vz (mp_body_com before) /\
  mp_base_rpy r = mp_base_rpy before)%R.
Proof.
  intros i before r. subst before r. destruct i as [|i]; unfold ik_references; cbn [mp_base_com mp_body_com mp_base_rpy vx vy vz]; rewrite ?S_INR; cbn [INR]; repeat split; lra.
Qed.

(** a case: the robot of PepperIkProgramExample.v in its default posture *)
Definition second_set (reference : list R) : ik_settings :=
  mkIkSet ROOT_PLANAR ex_pepper wbc_parameters_default (hierarchy_v1 reference) (mkKKTP CONSTRAINT_ELIMINATION_LLT 1e-3) gauss_lin gauss_lin.
Theorem second_case (eig : m3 -> euler_type -> v3) (reference : list R) : kinematics ROOT_PLANAR ex_pepper /\ exists s, arrives eig (second_set reference) s.
Proof.
  split; [exact pepper_kinematics|]. destruct (pepper_at eig (gc_default (fun _ => 0%R) ROOT_PLANAR) (proj1 (ik_default (fun _ => 0%R) ROOT_PLANAR HeadYaw))) as (m & RC & _).
  destruct (program_starts eig (second_set reference) m (mkWbc true 0 ex_stay [] [] structure_reset) (fun _ => mzero 0 0)
    (mkObjective (mzero 0 0) (vconst 0 0) HESSIAN_UNDEFINED QP_UNDEFINED, mkAB (mzero 0 0) (vconst 0 0)) RC) as (s & ES & _).
  exists s. exact (ar_start eig (second_set reference) m _ _ _ s RC ES).
Qed.
