(** * Specification vocabulary for C107: the program which finds reachable positions of the body of Pepper *)
From Coq Require Import String List Reals Arith ZArith.
From Verif Require Import Base Mat3 RSum Matrix ConstraintType Constraints ConstraintsSpec HierarchyLevel QP QPSpec Problem Solution PepperTasksSpec RotarySpec Rotary Euler EulerSpec QpoasesBridge QpoasesBridgeSpec Backends BackendsSpec Solver SolverLife SolverLifeSpec
  WalkProgram WalkProgramSpec Rbdl RbdlSpec PepperIk PepperIkSpec PepperIkTasks PepperIkTasksSpec PepperIkLoop PepperIkLoopSpec PepperIkProgram PepperIkProgramSpec PepperIkScan.
Import ListNotations.
Local Open Scope R_scope.

(** ** Hierarchies *)
(** the first level has equalities and limits of joints, its gains are not zero, there are no gains on single variables; the second level has equalities *)
Definition constraint_task (t : ik_task) : Prop := match t with JointsReference _ _ _ => False | JointsBounds => True | _ => proper_task t end.
Definition scan_hierarchy (h : list ik_task * list ik_task) : Prop :=
  fst h <> [] /\ snd h <> [] /\ Forall constraint_task (fst h) /\ Forall proper_task (snd h) /\ Forall (fun t => gain_of t <> 0) (fst h).

(** ** What a step must and should do *)
(** the velocities [x] are exactly those which the equalities of the list ask for, and the joints are within their limits after one unit of time *)
Definition permitted (f : features) (m : ikmodel) (mp : motion_parameters) (MS : R -> rmodel) (x : nat -> R) (ts : list ik_task) : Prop :=
  (forall t, In t ts -> t <> JointsBounds -> exists e, errors f m mp MS x t e /\ Forall (fun v => v = 0) e) /\
  (In JointsBounds ts -> forall j, lower_limit j <= angle f (ik_gc m) j + joint_rate f x j <= upper_limit j).
(** numbers below the infinity of the library *)
Definition bounded (n : nat) (x : nat -> R) : Prop := forall i, (i < n)%nat -> - g_infinity <= x i <= g_infinity.
(** the solution does what the first level asks for *)
Definition permitted_step (se : scan_settings) (mp : motion_parameters) (m : ikmodel) (sol : solution) : Prop :=
  let f := sc_features se in
  forall M MS, moving f (sc_kinematics se) m M MS (point sol) -> permitted f m mp MS (point sol) (fst (sc_hierarchy se)).
(** no other velocities which do so have smaller errors with respect to the second level *)
Definition least_step (se : scan_settings) (mp : motion_parameters) (m : ikmodel) (sol : solution) : Prop :=
  let f := sc_features se in
  forall M MS, moving f (sc_kinematics se) m M MS (point sol) -> exists c, costs f m mp MS (point sol) (snd (sc_hierarchy se)) c /\
    forall N NS y c', moving f (sc_kinematics se) m N NS y -> bounded (DOF_NUMBER f) y -> permitted f m mp NS y (fst (sc_hierarchy se)) ->
      costs f m mp NS y (snd (sc_hierarchy se)) c' -> c <= c'.
(** there are no velocities which do what the first level asks for *)
Definition impossible_step (se : scan_settings) (mp : motion_parameters) (m : ikmodel) : Prop :=
  let f := sc_features se in
  forall M MS y, moving f (sc_kinematics se) m M MS y -> bounded (DOF_NUMBER f) y -> ~ permitted f m mp MS y (fst (sc_hierarchy se)).

(** ** Programs *)
(** states which the program can reach *)
Inductive scanning (eig : m3 -> euler_type -> v3) (se : scan_settings) (par : qparams) : scan_program -> Prop :=
| sg_start details m w a wd s : reachable eig (sc_features se) (sc_kinematics se) m -> tidy wd -> sc_start se par details m w a wd = Ok s -> scanning eig se par s
| sg_step mp e s r : scanning eig se par s -> sc_step se mp e s = Ok r -> scanning eig se par (step_state r)
| sg_save s m : scanning eig se par s -> saveCurrentState (lk_model (sp_loop s)) = Ok m -> scanning eig se par (sc_with_model m s).
(** the call [k] of the library in an iteration *)
Definition sc_asked (se : scan_settings) (mp : motion_parameters) (e : environment) (s : scan_program) (k : libcall) : Prop :=
  exists r, sc_step se mp e s = Ok r /\ wd_calls (sp_world (step_state r)) = k :: wd_calls (sp_world s).
(** what is known of the answers of the library in an iteration *)
Definition answering (P : qpoases_args -> answer -> Prop) (se : scan_settings) (mp : motion_parameters) (e : environment) (s : scan_program) : Prop :=
  forall k, sc_asked se mp e s k -> P (lc_problem k) (en_library e k).

(** the library is asked for the velocities which do what the first level asks for, with the smallest errors with respect to the second level *)
Definition asks_for (se : scan_settings) (mp : motion_parameters) (m : ikmodel) (a : qpoases_args) : Prop :=
  let f := sc_features se in
  qa_nV a = DOF_NUMBER f /\
  forall M MS y, moving f (sc_kinematics se) m M MS y ->
    (qpoases_feasible a y -> permitted f m mp MS y (fst (sc_hierarchy se))) /\
    (bounded (DOF_NUMBER f) y -> permitted f m mp MS y (fst (sc_hierarchy se)) ->
       qpoases_feasible a y /\ (costs f m mp MS y (snd (sc_hierarchy se)) 0 -> minimum (qpoases_cost a) (qpoases_feasible a) y)).

(** [n] iterations without exceptions from [s]: [st] are the states, [sols] the solutions *)
Definition scan_steps (se : scan_settings) (mp : motion_parameters) (es : nat -> environment) (s : scan_program) (st : nat -> scan_program) (sols : nat -> solution) (n : nat) : Prop :=
  st 0%nat = s /\ forall k, (k < n)%nat -> sc_step se mp (es k) (st k) = Ok (Stepped (sols k) (st (S k))).
(** how the iterations end, after [n] of them, in the state [s'] *)
Definition scan_ends (se : scan_settings) (mp : motion_parameters) (es : nat -> environment) (st : nat -> scan_program) (sols : nat -> solution) (n : nat) (why : flag) (s' : scan_program) : Prop :=
  let eps := wp_tolerance (sc_wbc se) in
  let most := wp_iterations (sc_wbc se) in
  match why with
  | ITERATIONS => n = most /\ (forall k, (k < n)%nat -> ~ small eps (sols k)) /\ s' = st n
  | ERROR => (n < most)%nat /\ (forall k, (k < n)%nat -> ~ small eps (sols k)) /\ sc_step se mp (es n) (st n) = Ok (Failed s')
  | SMALL => exists k, n = S k /\ (k < most)%nat /\ first_small eps sols k /\ s' = st n
  | _ => False
  end.
(** what the flag of a point means; [why] is how the iterations have ended, [s'] is the last state *)
Definition flag_means (se : scan_settings) (mp : motion_parameters) (why : flag) (s' : scan_program) (fl : flag) : Prop :=
  let m := lk_model (sp_loop s') in
  exists b p o e, getBaseCoM m = Ok b /\ getBodyCoM m = Ok p /\ getBaseOrientation m = Ok o /\ orientation_error o (rotation_zyx (mp_base_rpy mp)) e /\
  let total := v3norm (v3sub (mp_base_com mp) b) + v3norm e + v3norm (v3sub (mp_body_com mp) p) in
  (fl = REACHED <-> total < sc_tolerance se) /\
  (~ total < sc_tolerance se -> (fl = BOUNDS <-> ~ almost_within (sc_features se) 1e-7 (ik_gc m)) /\ (almost_within (sc_features se) 1e-7 (ik_gc m) -> fl = why)).
