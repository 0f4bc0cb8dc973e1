(** * The configurable classes of the library and of its modules, with the members which are not stored in configuration files.
    Tasks and hierarchies are in ConfigProblem.v. NaN is a member like any other ([e_nan]: some number); third-party defaults
    (qpOASES::Options::setToMPC(), qpmad::SolverParameters) are arguments. *)
From Coq Require Import String List ZArith Arith Reals Bool.
From Verif Require Import Base RSum Matrix Mat2 Config FootParameters PepperTasks.
Import ListNotations.
Open Scope list_scope.
Local Open Scope nat_scope.
Local Open Scope string_scope.

(** a class: its entries, the type of the members which are not entries, what setDefaults() and finalize() do to them (given
    the new values of the entries), and the object made by the default constructor (define_accessors.h:12-161, config.h:131-182) *)
Record kclass := mkK {
  k_cls : cls;
  k_hidden : Set;
  k_default_hidden : list value -> k_hidden -> k_hidden;
  k_final_hidden : list value -> k_hidden -> k_hidden;
  k_new : list value * k_hidden }.
(** a C++ object of such a class, config.h:131-182 *)
Definition object (K : kclass) : Set := (list value * k_hidden K)%type.
(** config.h:131-182 readConfig(), readNestedConfig(): setDefaults(), the entries, finalize() if the section exists. The calls of
    finalize() from parent classes are followed by another one with all entries (define_accessors.h:63-69). *)
Definition k_read (K : kclass) (name : string) (crash : bool) (o : object K) (r : reader) : reader * res (object K) :=
  let h0 := k_default_hidden K (c_defaults (k_cls K) (fst o)) (snd o) in
  match readConfig (k_cls K) name crash (fst o) r with
  | (r1, Done vs) => (r1, Done (vs, match descend name r with Some _ => k_final_hidden K vs h0 | None => h0 end))
  | (r1, Thrown) => (r1, Thrown)
  end.

(** a class without other members: defaults [d], finalize() does nothing (e.g. point_mass_state.h:22-54) *)
Definition plain (es : list entry) (d : list value) : kclass :=
  mkK (mkCls es (fun _ => true) (fun _ => d)) unit (fun _ h => h) (fun _ h => h) (d, tt).
(** a class whose other members [D] are computed from the entries by finalize(), which is called by setDefaults() (e.g. robot_foot_parameters.h:44-53, 176-223) *)
Definition derived {D : Set} (es : list entry) (ok : list value -> bool) (f : list value -> D) (d : list value) : kclass :=
  mkK (mkCls es ok (fun _ => d)) D (fun vs _ => f vs) (fun vs _ => f vs) (d, f d).
(** HUMOTO_CONFIG_MEMBER_CLASS (config.h:26) *)
Definition member (name : string) (K : kclass) : entry := EMember name (c_entries (k_cls K)) (c_finalize (k_cls K)) (c_defaults (k_cls K)).
(** HUMOTO_CONFIG_PARENT_CLASS (config.h:25) *)
Definition parent (K : kclass) : entry := EParent (c_entries (k_cls K)).
(** a member of class type after its constructor, e.g. rigid_body_state.h:18-49 *)
Definition default_object (K : kclass) : value := VObject (fst (k_new K)).

(** setZero() of a vector in a function setDefaults(), e.g. point_mass_state.h:44-54 *)
Definition vec0 (n : nat) : value := VVector (repeat 0%R n).
(** the value of an entry HUMOTO_CONFIG_SCALAR, config.h:20-30 *)
Definition real (x : R) : value := VScalar (SReal x).
(** the value of an entry HUMOTO_CONFIG_SCALAR, config.h:20-30 *)
Definition int (z : Z) : value := VScalar (SInt z).
(** the value of an entry HUMOTO_CONFIG_SCALAR, config.h:20-30 *)
Definition bool_ (b : bool) : value := VScalar (SBool b).
(** the member of an entry, of type double, in the functions finalize(), e.g. robot_foot_parameters.h:176-223 *)
Definition number_at (vs : list value) (i : nat) : R := match nth_error vs i with Some (VScalar (SReal x)) => x | _ => 0%R end.
(** the member of an entry, of integer type, in the functions finalize(), e.g. wpg04/common.h:114-140 *)
Definition integer_at (vs : list value) (i : nat) : Z := match nth_error vs i with Some (VScalar (SInt z)) => z | _ => 0%Z end.

(** ** rigid bodies *)
(** point_mass_state.h:22-54 *)
Definition PointMassState : kclass :=
  plain [EVector "position" (Some 3); EVector "velocity" (Some 3); EVector "acceleration" (Some 3)] [vec0 3; vec0 3; vec0 3].
(** rotary_state.h:227-260 *)
Definition RotaryState : kclass :=
  plain [EVector "rpy" (Some 3); EVector "angular_velocity" (Some 3); EVector "angular_acceleration" (Some 3)] [vec0 3; vec0 3; vec0 3].
(** rigid_body_state.h:102-127 *)
Definition RigidBodyState : kclass :=
  plain [parent PointMassState; parent RotaryState] [default_object PointMassState; default_object RotaryState].
(** rigid_body_state.h:18-49: NaNs *)
Definition RigidBodyPose (nan : R) : kclass :=
  plain [EVector "position" (Some 3); EVector "rpy" (Some 3)] [VVector [nan; nan; nan]; VVector [nan; nan; nan]].
(** obstacle_base.h:20-45: setDefaults() of the parent; the constraints (134-135) are not stored *)
Definition ObstacleBase : kclass :=
  mkK (mkCls [parent RigidBodyState] (fun _ => true) (fun _ => [default_object RigidBodyState])) (mat * list R)
    (fun _ h => h) (fun _ h => h) ([default_object RigidBodyState], (mzero 0 0, [])).

(** ** walking (robot_foot_parameters.h:44-53, the entries as arguments of finalize(), 176-223) *)
Definition foot_primary (vs : list value) : primary :=
  mkPrimary (number_at vs 0) (number_at vs 1) (number_at vs 2) (number_at vs 3) (number_at vs 4) (number_at vs 5).
(** robot_foot_parameters.h:44-53, 176-223, 229-248 *)
Definition RobotFootParameters : kclass :=
  derived [EScalar "max_step_len" KReal; EScalar "min_feet_dist" KReal; EScalar "max_feet_dist" KReal; EScalar "feet_dist_default" KReal;
           EScalar "foot_length" KReal; EScalar "foot_width" KReal]
    (fun _ => true) (fun vs => finalize (foot_primary vs))
    [real 0.2; real 0.19; real 0.3; real 0.19; real 0.1372; real 0.058].
(** stance_finite_state_machine.h:94-126, 155-172; the enums: UNDEFINED = 0, DS = 1, LSS = 2, RSS = 3, TDS = 4 (20-40) *)
Definition StanceFSMParameters : kclass :=
  plain [EScalar "ss_duration_ms" KInt; EScalar "tds_duration_ms" KInt; EScalar "first_stance_duration_ms" KInt;
         EScalar "last_stance_duration_ms" KInt; EScalar "num_steps" KInt; EEnum "first_stance"; EEnum "first_ss_type"; EEnum "last_stance"]
    [int 700; int 100; int 300; int 2900; int 7; VEnum 1; VEnum 3; VEnum 1].
(** wpg04/common.h:23-76 *)
Definition WalkParameters : kclass :=
  plain [EVector "com_velocity" (Some 2); EVector "first_stance_com_velocity" (Some 2); EVector "last_stance_com_velocity" (Some 2);
         EScalar "step_height" KReal; EScalar "theta_increment" KReal; parent StanceFSMParameters]
    [VVector [0.2; 0]%R; VVector [0.2; 0]%R; vec0 2; real 0.07; real 0; default_object StanceFSMParameters].
(** time.h:22-25; in real numbers (doubles: C18) *)
Definition to_seconds (ms : Z) : R := (IZR ms / 1000)%R.
(** wpg04/common.h:83-186. The members: numbers of subsamples, sampling times in seconds. A zero subsampling time, a division by
    zero in the code, is counted as a rejection here (see C54). *)
Definition WalkMPCParameters : kclass :=
  derived [EScalar "preview_horizon_length" KInt; EScalar "sampling_time_ms" KInt; EScalar "subsampling_time_ms" KInt;
           EScalar "tds_sampling_time_ms" KInt]
    (fun vs => negb (integer_at vs 2 =? 0)%Z && (integer_at vs 1 mod integer_at vs 2 =? 0)%Z && (integer_at vs 3 mod integer_at vs 2 =? 0)%Z)
    (fun vs => (integer_at vs 1 / integer_at vs 2, integer_at vs 3 / integer_at vs 2,
                to_seconds (integer_at vs 1), to_seconds (integer_at vs 2), to_seconds (integer_at vs 3))%Z)
    [int 16; int 100; int 100; int 100].
(** wpg04/model_state.h:18-80: feet in an aligned double support (38-56), their angular velocities and accelerations are NaNs *)
Definition default_foot (nan y : R) : value :=
  VObject [VObject [VVector [0; y; 0]%R; vec0 3; vec0 3]; VObject [vec0 3; VVector [nan; nan; nan]; VVector [nan; nan; nan]]].
(** wpg04/model_state.h:18-80 *)
Definition WalkModelState (nan : R) : kclass :=
  plain [EEnum "stance_type"; EEnum "next_stance_type"; member "com_state" PointMassState; member "left_foot_state" RigidBodyState;
         member "right_foot_state" RigidBodyState]
    [VEnum 1; VEnum 0; VObject [VVector [0; 0; 0.814]%R; vec0 3; vec0 3]; default_foot nan (0.19 / 2); default_foot nan (- (0.19 / 2))].

(** ** pepper_mpc *)
(** pepper_mpc/common.h:26-118: a matrix among the entries; the members: five bounds *)
Definition PepperRobotParameters : kclass :=
  derived [EScalar "base_radius" KReal; EScalar "max_nominal_base_velocity" KReal; EScalar "max_nominal_base_acceleration" KReal;
           EScalar "max_base_velocity" KReal; EScalar "max_base_acceleration" KReal; EMatrix "body_bounds"]
    (fun _ => true) (fun vs => map (fun i => circle_bounds (number_at vs i)) [0; 1; 2; 3; 4])
    [real 0.7; real 0.5; real 1; real 1.4; real 1.7;
     VMatrix (mkMat 2 2 (fun i j => match i, j with 0, 0 => -0.06 | 0, _ => 0.06 | _, 0 => -0.03 | _, _ => 0.03 end)%R)].
(** pepper_mpc/common.h:176-237 *)
Definition PepperMotionParameters : kclass :=
  plain [EVector "base_velocity" (Some 2); EVector "base_position" (Some 2); EScalar "base_angular_velocity" KReal; EEnum "motion_mode";
         EScalar "duration_ms" KInt]
    [vec0 2; vec0 2; real 0; VEnum 2; int (-1)].
(** pepper_mpc/common.h:279-350 *)
Definition PepperMPCParameters : kclass :=
  derived [EScalar "preview_horizon_length" KInt; EScalar "sampling_time_ms" KInt; EScalar "subsampling_time_ms" KInt]
    (fun _ => true) (fun vs => (to_seconds (integer_at vs 1), to_seconds (integer_at vs 2)))
    [int 15; int 100; int 100].
(** pepper_mpc/model_state.h:21-80 *)
Definition PepperModelState : kclass :=
  plain [member "base_state" RigidBodyState; member "body_state" PointMassState; EScalar "base_mass" KReal; EScalar "body_mass" KReal]
    [VObject [VObject [VVector [0; 0; 0.125564931735602]%R; vec0 3; vec0 3]; default_object RotaryState];
     VObject [VVector [-0.00656061094036387; 0; 7.50001340031501e-01]%R; vec0 3; vec0 3]; real 16.34234; real 12.3389].

(** ** pepper_ik *)
(** pepper_ik/common.h:25-70: control_interval_ is computed by finalize(), which setDefaults() does not call *)
Definition WBCParameters : kclass :=
  let d := [int 10; real 0.01; real 0.001; int 3] in
  mkK (mkCls [EScalar "control_interval_ms" KInt; EScalar "joint_angle_error_tolerance" KReal; EScalar "motion_parameters_tolerance" KReal;
              EScalar "maximal_number_of_iterations" KInt] (fun _ => true) (fun _ => d))
    R (fun _ h => h) (fun vs _ => to_seconds (integer_at vs 0)) (d, to_seconds 10).
(** pepper_ik/common.h:76-118 *)
Definition IkMotionParameters : kclass :=
  plain [EVector "base_orientation_rpy" (Some 3); EVector "base_com_position" (Some 3); EVector "body_com_position" (Some 3)]
    [vec0 3; VVector [0.002531976618098; 0; 0.125564931735602]%R; VVector [-0.00402863432226587; 0; 0.75]%R].
(** generalized_coordinates.h:24-66: default coordinates of one of the models, model_description.h; finalize() checks the number of
    joints *)
Definition GeneralizedCoordinates (root joints : list R) : kclass :=
  derived [EVector "root_pose" (Some (length root)); EVector "joint_angles" (Some (length joints))]
    (fun vs => match vs with [_; VVector l] => length l =? length joints | _ => false end)%nat (fun _ => tt)
    [VVector root; VVector joints].

(** ** solvers *)
(** solver.h:19-43 *)
Definition SolverParametersBase : kclass :=
  plain [EScalar "crash_on_any_failure" KBool; EScalar "solve_two_levels_as_qp" KBool] [bool_ true; bool_ true].
(** The classes below do not call setDefaults() of this parent in their own setDefaults(), which overrides it: the first member
    of the previous values is kept (kktsolver.h:60-80, bridges/.../solver.h setDefaults() of the three bridges) *)
Definition keep_base (f : list value -> list value) (vs : list value) : list value :=
  match vs with b :: rest => b :: f rest | [] => [] end.
(** kktsolver.h:43-80: the method and the factor are not entries *)
Inductive kkt_method := M_UNDEFINED | M_LU | M_QR | M_CONSTRAINT_ELIMINATION_LLT.
(** kktsolver.h:43-80 *)
Definition KktSolverParameters : kclass :=
  mkK (mkCls [parent SolverParametersBase] (fun _ => true) (keep_base (fun _ => []))) (kkt_method * R)
    (fun _ _ => (M_LU, 1e-08%R)) (fun _ h => h) ([default_object SolverParametersBase], (M_LU, 1e-08%R)).
(** bridges/QuadProgpp/.../solver.h:20-47 *)
Definition QuadProgppSolverParameters : kclass :=
  mkK (mkCls [parent SolverParametersBase; EScalar "regularization_factor" KReal] (fun _ => true) (keep_base (fun _ => [real 0])))
    unit (fun _ h => h) (fun _ h => h) ([default_object SolverParametersBase; real 0], tt).
(** bridges/qpmad/.../solver.h:20-62; [d]: default parameters of qpmad. setDefaults() of the nested class does nothing. *)
Definition QpmadSolverParameters (d : list value) : kclass :=
  mkK (mkCls [parent SolverParametersBase; EScalar "regularization_factor" KReal;
              EMember "QPmadParameters" [EEnum "hessian_type"; EScalar "tolerance" KReal; EScalar "max_iter" KInt] (fun _ => true) (fun l => l)]
         (fun _ => true) (keep_base (fun rest => real 0 :: tl rest)))
    unit (fun _ h => h) (fun _ h => h) ([default_object SolverParametersBase; real 0; VObject d], tt).
(** bridges/qpOASES/.../solver.h:23-112 *)
Definition qpoases_entries : list entry :=
  [EEnum "enableRamping"; EEnum "enableFarBounds"; EEnum "enableFlippingBounds"; EEnum "enableRegularisation"; EEnum "enableFullLITests";
   EEnum "enableNZCTests"; EScalar "enableDriftCorrection" KInt; EScalar "enableCholeskyRefactorisation" KInt; EEnum "enableEqualities";
   EScalar "terminationTolerance" KReal; EScalar "boundTolerance" KReal; EScalar "boundRelaxation" KReal; EScalar "epsNum" KReal;
   EScalar "epsDen" KReal; EScalar "maxPrimalJump" KReal; EScalar "maxDualJump" KReal; EScalar "initialRamping" KReal;
   EScalar "finalRamping" KReal; EScalar "initialFarBounds" KReal; EScalar "growFarBounds" KReal; EEnum "initialStatusBounds";
   EScalar "epsFlipping" KReal; EScalar "numRegularisationSteps" KInt; EScalar "epsRegularisation" KReal;
   EScalar "numRefinementSteps" KInt; EScalar "epsIterRef" KReal; EScalar "epsLITests" KReal; EScalar "epsNZCTests" KReal;
   EScalar "rcondSMin" KReal; EEnum "enableInertiaCorrection"; EEnum "enableDropInfeasibles"; EScalar "dropBoundPriority" KInt;
   EScalar "dropEqConPriority" KInt; EScalar "dropIneqConPriority" KInt].
(** bridges/qpOASES/interface/qpoases/solver.h:23-112 *)
Definition QpoasesSolverParameters (d : list value) : kclass :=
  mkK (mkCls [parent SolverParametersBase; EScalar "max_number_of_iterations" KInt; EScalar "max_cpu_time" KReal;
              EMember "QPoasesParameters" qpoases_entries (fun _ => true) (fun _ => d)]
         (fun _ => true) (keep_base (fun rest => int 1000 :: real 0 :: tl (tl rest))))
    unit (fun _ h => h) (fun _ h => h) ([default_object SolverParametersBase; int 1000; real 0; VObject d], tt).
(** solution.h:178-206: the structure (names and sizes of the parts) and the status are not entries; no defaults *)
Definition SolutionClass : kclass :=
  mkK (mkCls [EVector "x" None] (fun _ => true) (fun l => l)) (list (string * nat) * Z) (fun _ h => h) (fun _ h => h)
    ([VVector []], ([], 0%Z)).
