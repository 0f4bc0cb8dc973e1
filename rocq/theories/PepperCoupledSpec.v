(** * Specification vocabulary for C108: the program which plans motions of Pepper and executes them *)
From Coq Require Import String List Reals Arith Bool ZArith.
From Verif Require Import Base RSum Matrix Mat2 Mat3 ActiveSet ConstraintType HierarchyLevel Constraints ConstraintsSpec QP QPSpec Problem PointMass6z PointMass6zSpec Solution MpcGuess
  QpoasesBridge QpoasesBridgeSpec Backends BackendsSpec Solver SolverLife SolverLifeSpec WalkProgram WalkProgramSpec
  RotarySpec Rotary Euler EulerSpec Rbdl RbdlSpec PepperIk PepperIkSpec PepperIkTasks PepperIkTasksSpec PepperIkLoop PepperIkLoopSpec KKT KKTSpec KKTPosedSpec PepperIkProgram PepperIkProgramSpec
  PepperPreview PepperPreviewSpec PepperModel PepperMpc PepperMpcSpec PepperTasks PepperTasksSpec PepperLoop PepperLoopSpec PepperProgram PepperProgramSpec PepperCoupled.
Import ListNotations.
Local Open Scope R_scope.

(** ** the settings *)
(** the motions advance in every iteration by the subsampling time and the difference of the sampling intervals, in milliseconds *)
Definition co_elapsed (se : co_settings) : Z := (Z.of_nat (ct_subsampling se) + Z.of_nat (ct_difference se))%Z.
(** what the plans cost: the mode of the motions, the gains of the tasks of the reference, of the jerk of the base and of the centering of the center of pressure *)
Definition co_costs (se : co_settings) : pepper_settings :=
  {| ks_bounds := ct_bounds se; ks_advance := Part (ct_subsampling se); ks_shift := co_elapsed se; ks_subsampling := Z.of_nat (ct_subsampling se);
     ks_position := ct_position se; ks_reference := ct_reference se; ks_base_jerk := ct_base_jerk se; ks_center := ct_center se; ks_start := no_hotstarting |}.

(** ** the program *)
(** the program before its loop: proper parameters and durations of motions (C98), the step of the MPC is not longer than an interval of its horizon, a new hierarchy,
    solution and solver; a planar robot with a proper hierarchy of tasks (C106), whose masses do not cancel, loaded and updated; *)
Definition co_ready (eig : m3 -> euler_type -> v3) (se : co_settings) (par : qparams) (body_jerk : R) (details : option (backend_code * Z)) (w : world) (s0 : loop)
    (m : ikmodel) (wb : wbc) (matrices : nat -> mat) (qp : objective * contAB) (c : PepperIkTasks.command) (s : coupled) : Prop :=
  let p := mg_par (lp_mg s0) in let ik := ct_ik se in let fk := is_kinematics ik in
  PepperPreviewSpec.proper p /\ valid_queue (as_queue (lp_motions s0)) /\ (Z.of_nat (ct_subsampling se) <= sampling_ms p)%Z /\ pr_two_levels par = true /\ tidy w /\
  is_features ik = ROOT_PLANAR /\ kinematics ROOT_PLANAR fk /\ proper_hierarchy (is_hierarchy ik) /\ wp_interval (is_wbc ik) <> 0 /\
  (forall m, reachable eig ROOT_PLANAR fk m -> getBaseMass m + getBodyMass m <> 0) /\ reachable eig ROOT_PLANAR fk m /\
  co_start se par body_jerk details w s0 m wb matrices qp c = Ok s.
(** the robot and the model of the inverse kinematics of the program *)
Definition robot (s : coupled) : ikmodel := lk_model (ip_loop (co_ik s)).
(** the state of the MPC, its motions and its controller *)
Definition mpc (s : coupled) : loop := kp_loop (co_pepper s).
(** the program passes from [s] to [s'] in the iteration [n] *)
Definition co_passes (eig : m3 -> euler_type -> v3) (junk : nat -> nat -> nat -> R) (se : co_settings) (es : nat -> environment) (s0 : coupled) (n : nat) (s s' : coupled) : Prop :=
  co_after eig junk se es s0 n = Ok (Some s) /\ co_after eig junk se es s0 (S n) = Ok (Some s').
(** when the planning begins in the iteration [n], the program is in the state [x] *)
Definition co_begins (eig : m3 -> euler_type -> v3) (se : co_settings) (n : nat) (s x : coupled) : Prop :=
  exists s1, co_feedback eig se n s = Ok s1 /\ co_sync eig s1 = Ok x.
(** the call [k] of the library in the iteration [n] *)
Definition co_asked (eig : m3 -> euler_type -> v3) (junk : nat -> nat -> nat -> R) (se : co_settings) (es : nat -> environment) (s0 : coupled) (n : nat) (k : libcall) : Prop :=
  exists s x g f p r t, co_after eig junk se es s0 n = Ok (Some s) /\ co_begins eig se n s x /\
    mg_update junk (ct_bounds se) (lp_motions (mpc x)) (lp_model (mpc x)) (lp_mg (mpc x)) = Ok (true, g) /\ kp_form (co_mpc se) (es n) g (co_pepper x) = Ok (f, p, r) /\
    (sv_solve (kp_call (co_mpc se) (es n) f p r) (kp_solver (co_pepper x)) (kp_world (co_pepper x)) = Returned t \/
     sv_solve (kp_call (co_mpc se) (es n) f p r) (kp_solver (co_pepper x)) (kp_world (co_pepper x)) = Thrown t) /\
    wd_calls (cs_world t) = k :: wd_calls (kp_world (co_pepper x)).
(** what is known of the answers of the library (WalkProgramSpec.v) *)
Definition co_library_is (P : qpoases_args -> answer -> Prop) (eig : m3 -> euler_type -> v3) (junk : nat -> nat -> nat -> R) (se : co_settings) (es : nat -> environment) (s0 : coupled) : Prop :=
  forall n k, co_asked eig junk se es s0 n k -> P (lc_problem k) (en_library (es n) k).

(** ** states *)
(** the state [b] of the MPC is that of the robot; velocities and accelerations are those of the state [a] *)
Definition synced (eig : m3 -> euler_type -> v3) (m : ikmodel) (a b : pepper_state) : Prop :=
  getBaseCoM m = Ok (pm_position (ps_base b)) /\ getBodyCoM m = Ok (pm_position (ps_body b)) /\ getBaseYaw eig m = Ok (vz (ps_rpy b)) /\
  ps_base_mass b = getBaseMass m /\ ps_body_mass b = getBodyMass m /\
  pm_velocity (ps_base b) = pm_velocity (ps_base a) /\ pm_acceleration (ps_base b) = pm_acceleration (ps_base a) /\
  pm_velocity (ps_body b) = pm_velocity (ps_body a) /\ pm_acceleration (ps_body b) = pm_acceleration (ps_body a).
(** the robot is where the references are: the base, the body and the orientation of the base *)
Definition distance (a b : v3) : R := sqrt ((vx a - vx b) * (vx a - vx b) + (vy a - vy b) * (vy a - vy b) + (vz a - vz b) * (vz a - vz b)).
Definition close (tolerance : R) (mp : motion_parameters) (m : ikmodel) : Prop :=
  exists b p o e, getBaseCoM m = Ok b /\ getBodyCoM m = Ok p /\ getBaseOrientation m = Ok o /\ orientation_error o (rotation_zyx (mp_base_rpy mp)) e /\
    distance (mp_base_com mp) b + distance e (V3 0 0 0) + distance (mp_body_com mp) p < tolerance.
(** the planned state [st] is what the inverse kinematics has to reach *)
Definition refers (mp : motion_parameters) (st : pepper_state) : Prop :=
  mp_base_com mp = pm_position (ps_base st) /\ mp_body_com mp = pm_position (ps_body st) /\ rotation_zyx (mp_base_rpy mp) = Rz (vz (ps_rpy st)).
(** the step [n] is the first one after which the robot is close to the references or which is small *)
Definition co_stops (se : co_settings) (mp : motion_parameters) (st : nat -> ik_program) (sols : nat -> solution) (n : nat) : Prop :=
  let done k := close (ct_tolerance se) mp (lk_model (ip_loop (st (S k)))) \/ small (wp_tolerance (is_wbc (ct_ik se))) (sols k) in
  done n /\ forall k, (k < n)%nat -> ~ done k.
(** no step stops the iterations *)
Definition co_goes_on (se : co_settings) (mp : motion_parameters) (st : nat -> ik_program) (sols : nat -> solution) (n : nat) : Prop :=
  forall k, (k < n)%nat -> ~ close (ct_tolerance se) mp (lk_model (ip_loop (st (S k)))) /\ ~ small (wp_tolerance (is_wbc (ct_ik se))) (sols k).
(** there are motions for the horizon of the iteration [n] *)
Definition co_enough (se : co_settings) (s0 : loop) (n : nat) : Prop :=
  let p := mg_par (lp_mg s0) in let q := as_queue (lp_motions s0) in
  endless q \/ (Z.of_nat (horizon_length p) * sampling_ms p + Z.of_nat n * co_elapsed se <= total q)%Z.
(** a state was planned in the iteration [j], but the inverse kinematics does not reach it: it throws or its system is not solvable *)
Definition co_untracked (eig : m3 -> euler_type -> v3) (junk : nat -> nat -> nat -> R) (se : co_settings) (es : nat -> environment) (s : coupled) (j n : nat) (y : coupled) : Prop :=
  exists k, co_plan junk se (es j) (co_pepper y) = Ok (Some k) /\ (forall r, co_control (ct_ik se) (ct_tolerance se) (co_references (lp_model (kp_loop k))) (co_ik y) <> Ok r) /\
    (co_control (ct_ik se) (ct_tolerance se) (co_references (lp_model (kp_loop k))) (co_ik y) = Throw -> co_after eig junk se es s n = Throw).
