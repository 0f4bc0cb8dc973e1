(** * Specification vocabulary for C106: the program of the inverse kinematics of Pepper *)
From Coq Require Import String List Reals Arith ZArith.
From Verif Require Import Base Mat3 RSum Matrix Constraints ConstraintsSpec ConstraintType Solution QPSpec PepperTasksSpec RotarySpec Rotary Euler EulerSpec Rbdl RbdlSpec PepperIk PepperIkSpec PepperIkTasks PepperIkTasksSpec PepperIkLoop
  PepperIkLoopSpec KKT KKTSpec KKTPosedSpec PepperIkProgram.
Import ListNotations.
Local Open Scope R_scope.

(** ** What the tasks ask for.
    The robot is in the state of the model [m] and moves with the velocities [x]; [MS] are its models during this motion. The errors of a task are the
    differences between the velocities of what it tracks and the velocities which it asks for. *)
Definition axes (f : features) : list nat := match f with ROOT_PLANAR => [0; 1] | _ => [0; 1; 2] end%nat.
Definition joint_rate (f : features) (x : nat -> R) (j : joint) : R := x (ROOT_DOF_NUMBER f + joint_id f j)%nat.
Definition joints : list joint :=
  [HeadYaw; HeadPitch; HipRoll; HipPitch; KneePitch; LShoulderPitch; LShoulderRoll; LElbowYaw; LElbowRoll; LWristYaw; RShoulderPitch; RShoulderRoll; RElbowYaw; RElbowRoll; RWristYaw].
Definition errors (f : features) (m : ikmodel) (mp : motion_parameters) (MS : R -> rmodel) (x : nat -> R) (t : ik_task) (e : list R) : Prop :=
  match t with
  | BaseCoM _ k => exists P v, (forall s, getBaseCoM (at_time m MS s) = Ok (P s)) /\ v3_derivative P 0 v /\
      e = map (fun i => component i v - k * (component i (mp_base_com mp) - component i (P 0))) (axes f)
  | BodyCoM _ k flag => exists P v, (forall s, getBodyCoM (at_time m MS s) = Ok (P s)) /\ v3_derivative P 0 v /\
      e = map (fun i => component i v - k * (component i (mp_body_com mp) - component i (P 0))) (selected_axes flag)
  | BaseOrientation _ k => exists O v r, (forall s, getBaseOrientation (at_time m MS s) = Ok (O s)) /\ turns_with O v /\
      orientation_error (O 0) (rotation_zyx (mp_base_rpy mp)) r /\
      e = map (fun i => component i v - k * component i r) (match f with ROOT_PLANAR => [2] | _ => [0; 1; 2] end)%nat
  | JointsReference _ k reference => e = map (fun j => joint_rate f x j - k * (angle_in f reference j - angle f (ik_gc m) j)) joints
  | JointsBounds => False
  | FixArms => e = map (joint_rate f x) [LShoulderPitch; LShoulderRoll; LElbowYaw; LElbowRoll; LWristYaw; RShoulderPitch; RShoulderRoll; RElbowYaw; RElbowRoll; RWristYaw]
  | FixHead => e = map (joint_rate f x) [HeadYaw; HeadPitch]
  end.
(** the weight of the errors of a task: its gain; for some classes a gain which differs from 1 by less than 1e-12 is taken for 1 *)
Definition weighs (t : ik_task) (g : R) : Prop :=
  match t with
  | BaseCoM gain _ | BodyCoM gain _ _ | BaseOrientation gain _ => if Rlt_dec (Rabs (1 - gain)) 1e-12 then g = 1 else g = gain
  | JointsReference gain _ _ => g = gain
  | _ => g = 1
  end.
(** the velocities are exactly those which the tasks ask for *)
Definition as_asked (f : features) (m : ikmodel) (mp : motion_parameters) (MS : R -> rmodel) (x : nat -> R) (ts : list ik_task) : Prop :=
  forall t, In t ts -> exists e, errors f m mp MS x t e /\ Forall (fun v => v = 0) e.
(** the sum of the squared weighted errors *)
Definition costs (f : features) (m : ikmodel) (mp : motion_parameters) (MS : R -> rmodel) (x : nat -> R) (ts : list ik_task) (c : R) : Prop :=
  exists q, Forall2 (fun t v => exists e g, errors f m mp MS x t e /\ weighs t g /\ v = g * g * sum_list (map (fun u => u * u) e)) ts q /\ c = sum_list q.

(** ** Tasks and problems *)
Definition gain_of (t : ik_task) : R := match t with BaseCoM gain _ | BodyCoM gain _ _ | BaseOrientation gain _ | JointsReference gain _ _ => gain | _ => 1 end.
(** tasks which are equalities and whose parameters make sense *)
Definition proper_task (t : ik_task) : Prop :=
  match t with
  | BodyCoM _ _ flag => (1 <= flag <= 7)%Z
  | JointsReference _ _ reference => length reference = JOINTS_DOF_NUMBER
  | JointsBounds => False
  | _ => True
  end.
(** tasks which constrain variables one by one *)
Definition simple_class (t : ik_task) : Prop := match t with JointsReference _ _ _ | JointsBounds | FixArms | FixHead => True | _ => False end.
Definition proper_hierarchy (h : list ik_task * list ik_task) : Prop :=
  fst h <> [] /\ snd h <> [] /\ Forall proper_task (fst h) /\ Forall proper_task (snd h).

(** constraints of the tasks in the state [s] of the loop, with the references [mp] *)
Definition constraints_of (f : features) (mp : motion_parameters) (s : ikloop) (ts : list ik_task) (cs : list constr) : Prop :=
  Forall2 (fun t c => exists old, ik_form_task f t old (lk_model s) (wbc_update f mp (lk_wbc s)) = Ok c) ts cs.
(** whatever values are asked of all rows, there is a point where they are taken *)
Definition independent (cs : list constr) : Prop :=
  forall v : nat -> nat -> R, exists x, forall k c, nth_error cs k = Some c -> forall r, (r < getNumberOfConstraints c)%nat -> row_value c r x = v k r.
(** a direction along which no row changes is zero *)
Definition determined (nv : nat) (cs : list constr) : Prop :=
  forall d, (forall c, In c cs -> forall r, (r < getNumberOfConstraints c)%nat -> row_value c r d = 0) -> forall j, (j < nv)%nat -> d j = 0.
(** the tasks of the first level do not contradict each other; the two levels determine the velocities *)
Definition posed (se : ik_settings) (mp : motion_parameters) (s : ikloop) : Prop :=
  (forall cs, constraints_of (is_features se) mp s (fst (is_hierarchy se)) cs -> independent cs) /\
  (forall cs, constraints_of (is_features se) mp s (fst (is_hierarchy se) ++ snd (is_hierarchy se)) cs -> determined (DOF_NUMBER (is_features se)) cs).
Definition posed_first (se : ik_settings) (mp : motion_parameters) (s : ikloop) : Prop :=
  forall cs, constraints_of (is_features se) mp s (fst (is_hierarchy se)) cs -> independent cs.

(** ** Programs *)
(** states which the program can reach: it is started with a loaded model, and makes steps with any references *)
Inductive arrives (eig : m3 -> euler_type -> v3) (se : ik_settings) : ik_program -> Prop :=
| ar_start m w a q s : reachable eig (is_features se) (is_kinematics se) m -> ik_start se m w a q = Ok s -> arrives eig se s
| ar_step mp s sol s' : arrives eig se s -> ik_step se mp s = Ok (sol, s') -> arrives eig se s'
| ar_save s m : arrives eig se s -> saveCurrentState (lk_model (ip_loop s)) = Ok m -> arrives eig se (ik_with_model m s).

(** the step from [s] with the solution [sol] is the best one: it does what the first level asks for, and among all such steps its errors with respect to the
    second level, plus [reg] times the squared velocities, are the smallest; no other step is as good *)
Definition best_step (se : ik_settings) (mp : motion_parameters) (reg : R) (s : ikloop) (sol : solution) : Prop :=
  let f := is_features se in let m := lk_model s in
  forall M MS, moving f (is_kinematics se) m M MS (point sol) -> Forall (fun t => gain_of t <> 0) (fst (is_hierarchy se)) ->
    as_asked f m mp MS (point sol) (fst (is_hierarchy se)) /\
    exists c, costs f m mp MS (point sol) (snd (is_hierarchy se)) c /\
      forall N NS y c', moving f (is_kinematics se) m N NS y -> as_asked f m mp NS y (fst (is_hierarchy se)) -> costs f m mp NS y (snd (is_hierarchy se)) c' ->
        let total := c + reg * Rsum (DOF_NUMBER f) (fun i => point sol i * point sol i) in
        let total' := c' + reg * Rsum (DOF_NUMBER f) (fun i => y i * y i) in
        total <= total' /\ (total' <= total -> forall i, (i < DOF_NUMBER f)%nat -> y i = point sol i).

(** the same in terms of the constraints of the tasks: the point of the solution is the only minimiser of the sum of the squared residuals of the second level
    (plus [reg] times the squared velocities) among the points which satisfy the first one *)
Definition minimal_step (se : ik_settings) (mp : motion_parameters) (reg : R) (s : ikloop) (sol : solution) : Prop :=
  let f := is_features se in let nv := DOF_NUMBER f in
  exists cs0 cs1, constraints_of f mp s (fst (is_hierarchy se)) cs0 /\ constraints_of f mp s (snd (is_hierarchy se)) cs1 /\
    only_minimiser nv (fun y => sum_list (map (fun c => squared_residuals c y) cs1) + reg * Rsum nv (fun i => y i * y i)) (fun y => forall c, In c cs0 -> satisfies c y) (point sol).

(** [st] are the states of the program after 0, 1, ..., [n] steps from [s], [sols] are the solutions *)
Definition steps_of (se : ik_settings) (mp : motion_parameters) (s : ik_program) (st : nat -> ik_program) (sols : nat -> solution) (n : nat) : Prop :=
  st 0%nat = s /\ forall k, (k < n)%nat -> ik_step se mp (st k) = Ok (sols k, st (S k)).
(** the solver finds the solutions: the direct methods, [reg] is zero *)
Definition direct (se : ik_settings) : Prop :=
  (solution_method (is_solver se) = LU \/ solution_method (is_solver se) = QR) /\ solves_nonsingular (is_lin se).
(** elimination, for a second level with constraints on single variables *)
Definition eliminating (se : ik_settings) : Prop :=
  solution_method (is_solver se) = CONSTRAINT_ELIMINATION_LLT /\ 0 < elimination_regularization_factor (is_solver se) /\ solves_positive (is_llt se) /\
  Forall simple_class (snd (is_hierarchy se)).
(** the solver can find the solution in the state [s] *)
Definition solvable (se : ik_settings) (mp : motion_parameters) (reg : R) (s : ikloop) : Prop :=
  (direct se /\ reg = 0 /\ posed se mp s) \/ (eliminating se /\ reg = elimination_regularization_factor (is_solver se) /\ posed_first se mp s).

(** the errors of the first level before a step are small: a bound of what the task asks for *)
Definition almost_done (f : features) (mp : motion_parameters) (tolerance : R) (m : ikmodel) (t : ik_task) : Prop :=
  match t with
  | BaseCoM _ k => exists old J P, getBaseCoMJacobian old m = Ok J /\ getBaseCoM m = Ok P /\
      forall i, In i (axes f) -> Rabs (k * (component i (mp_base_com mp) - component i P)) <= tolerance * row_norm J i
  | BodyCoM _ k flag => exists old J P, getBodyCoMJacobian old m = Ok J /\ getBodyCoM m = Ok P /\
      forall i, In i (selected_axes flag) -> Rabs (k * (component i (mp_body_com mp) - component i P)) <= tolerance * row_norm J i
  | BaseOrientation _ k => exists J O e, getBaseOrientationJacobian m = Ok J /\ getBaseOrientation m = Ok O /\ orientation_error O (rotation_zyx (mp_base_rpy mp)) e /\
      forall i, (i < 3)%nat -> f <> ROOT_PLANAR \/ i = 2%nat -> Rabs (k * component i e) <= tolerance * row_norm J i
  | JointsReference _ k reference => forall j, Rabs (k * (angle_in f reference j - angle f (ik_gc m) j)) <= tolerance
  | _ => True
  end.
