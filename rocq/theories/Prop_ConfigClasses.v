(** * Property C95: the configurable classes of the library. Vocabulary in ConfigClassesSpec.v, ConfigMeaningSpec.v and ConfigSpec.v. *)
From Coq Require Import String List ZArith Arith Reals Bool Lia Lra.
From Verif Require Import Base RSum Matrix Mat2 FootParameters StanceFSM WalkPreview PepperTasks PepperRobot PepperIkLoop Config ConfigSpec ConfigFacts ConfigClasses ConfigClassesSpec ConfigClassesFacts ConfigClassesExact PepperTasksSpec ConfigMeaningSpec ConfigClassesMeaning ConfigDefaults.
Import ListNotations.
Local Open Scope nat_scope.
Open Scope list_scope.

(** Written and restored: all members, also those which are not in the file *)
Theorem C95_restored : forall (nan : R) (root joints : list R) (qpmad qpoases : list value) (K : kclass),
  qpoases_defaults qpoases ->
  In K (complete_classes nan root joints qpmad qpoases) -> restored_in_full K.
Proof. exact classes_restored. Qed.
Theorem C95_yaml : forall (nan : R) (root joints : list R) (qpmad qpoases : list value) (K : kclass),
  qpoases_defaults qpoases ->
  In K (PepperRobotParameters :: complete_classes nan root joints qpmad qpoases) -> restored_yaml K.
Proof. exact classes_yaml. Qed.
(** A relaxed read: without the section, and without some of the entries *)
Theorem C95_reset : forall (nan : R) (root joints : list R) (K : kclass),
  In K (reset_classes nan root joints) -> reset_if_missing K.
Proof. exact classes_reset. Qed.
Theorem C95_filled : forall (nan : R) (root joints : list R) (K : kclass),
  In K (flat_classes nan root joints) -> others_by_default K.
Proof. exact classes_others. Qed.
(** Examples: a foot with a modified length is restored with all of its computed members; a class in each list *)
Example C95_foot : let vs := [real 0.2; real 0.19; real 0.3; real 0.19; real 0.2; real 0.058] in
  let o := (vs, finalize (foot_primary vs)) : object RobotFootParameters in
  typed RobotFootParameters o /\ valid RobotFootParameters o /\ up_to_date RobotFootParameters o /\
  In RobotFootParameters (complete_classes 0 [] [] [] []) /\ In RobotFootParameters (flat_classes 0 [] []).
Proof.
  split; [cbn; intuition auto|]. split; [reflexivity|]. split; [reflexivity|]. split; do 4 right; left; reflexivity.
Qed.
Example C95_foot_back : let vs := [real 0.2; real 0.19; real 0.3; real 0.19; real 0.2; real 0.058] in
  let o := (vs, finalize (foot_primary vs)) : object RobotFootParameters in
  k_read RobotFootParameters "foot" true (k_new RobotFootParameters) (msgpack_file [("foot"%string, k_cls RobotFootParameters, vs)]) =
    (msgpack_file [("foot"%string, k_cls RobotFootParameters, vs)], Done o).
Proof. reflexivity. Qed.
Example C95_qpoases : qpoases_defaults (map (fun e => match e with EScalar _ KInt => int 1 | EScalar _ _ => real 1 | _ => VEnum 1 end) qpoases_entries).
Proof. cbn. intuition auto. Qed.
(** ** Classes which are not restored: what is read instead *)
Theorem C95_kkt_refuted : ~ restored_in_full KktSolverParameters.
Proof. exact kkt_not_restored. Qed.
Theorem C95_kkt_read : forall (objs : list (string * cls * list value)) (name : string) (o old : object KktSolverParameters) (crash : bool),
  NoDup (map section_name objs) -> In (name, k_cls KktSolverParameters, fst o) objs -> typed KktSolverParameters o ->
  typed KktSolverParameters old ->
  k_read KktSolverParameters name crash old (msgpack_file objs) = (msgpack_file objs, Done (fst o, (M_LU, 1e-08%R))).
Proof. exact kkt_lost. Qed.
Theorem C95_solution_refuted : ~ restored_in_full SolutionClass.
Proof. exact solution_not_restored. Qed.
Theorem C95_solution_read : forall (objs : list (string * cls * list value)) (name : string) (o old : object SolutionClass) (crash : bool),
  NoDup (map section_name objs) -> In (name, k_cls SolutionClass, fst o) objs -> typed SolutionClass o -> typed SolutionClass old ->
  k_read SolutionClass name crash old (msgpack_file objs) = (msgpack_file objs, Done (fst o, snd old)).
Proof. exact solution_kept. Qed.
Theorem C95_obstacle_refuted : ~ restored_in_full ObstacleBase.
Proof. exact obstacle_not_restored. Qed.
Theorem C95_obstacle_read : forall (objs : list (string * cls * list value)) (name : string) (o old : object ObstacleBase) (crash : bool),
  NoDup (map section_name objs) -> In (name, k_cls ObstacleBase, fst o) objs -> typed ObstacleBase o -> typed ObstacleBase old ->
  k_read ObstacleBase name crash old (msgpack_file objs) = (msgpack_file objs, Done (fst o, snd old)).
Proof. exact obstacle_kept. Qed.
Theorem C95_robot_parameters_refuted : ~ restored_in_full PepperRobotParameters.
Proof. exact robot_parameters_not_restored. Qed.
Theorem C95_robot_parameters_read : forall (objs : list (string * cls * list value)) (name : string) (o old : object PepperRobotParameters) (crash : bool) (f : nat -> nat -> R),
  NoDup (map section_name objs) -> In (name, k_cls PepperRobotParameters, fst o) objs -> typed PepperRobotParameters o ->
  typed PepperRobotParameters old -> bounds_of o = mkMat 2 2 f ->
  exists o2, k_read PepperRobotParameters name crash old (msgpack_file objs) = (msgpack_file objs, Done o2) /\
    meq (bounds_of o2) (mkMat 2 2 (fun i j => f j i)) /\ firstn 5 (fst o2) = firstn 5 (fst o).
Proof. exact robot_parameters_transposed. Qed.
(** ** Classes which are not reset *)
Theorem C95_solver_parameters_refuted : forall (d d2 : list value) (K : kclass),
  qpmad_defaults d -> qpoases_defaults d2 ->
  In K [KktSolverParameters; QuadProgppSolverParameters; QpmadSolverParameters d; QpoasesSolverParameters d2] -> ~ reset_if_missing K.
Proof. exact solver_parameters_not_reset. Qed.
Theorem C95_solver_parameters_kept : forall (d d2 : list value) (K : kclass) (name : string) (old : object K) (r : reader),
  In K [KktSolverParameters; QuadProgppSolverParameters; QpmadSolverParameters d; QpoasesSolverParameters d2] -> finds_nothing r name ->
  typed K old -> exists o2, k_read K name false old r = (r, Done o2) /\ base_of o2 = base_of old.
Proof. exact solver_parameters_kept. Qed.
Theorem C95_wbc_refuted : ~ reset_if_missing WBCParameters.
Proof. exact wbc_not_reset. Qed.
Theorem C95_wbc_stale : forall (name : string) (old : object WBCParameters) (r : reader),
  finds_nothing r name ->
  k_read WBCParameters name false old r = (r, Done (fst (k_new WBCParameters), snd old)).
Proof. exact wbc_stale. Qed.
Theorem C95_solution_unchanged : forall (name : string) (old : object SolutionClass) (r : reader),
  finds_nothing r name ->
  k_read SolutionClass name false old r = (r, Done old).
Proof. exact solution_unchanged. Qed.
(** ** A class whose missing entries are not those of the constructor *)
Theorem C95_walk_state_refuted : forall (nan : R),
  ~ others_by_default (WalkModelState nan).
Proof. exact walk_state_not_filled. Qed.
Theorem C95_walk_state_height : forall (nan : R) (fmt : R -> R) (name : string) (o old : object (WalkModelState nan)) (r : reader),
  typed (WalkModelState nan) o -> typed (WalkModelState nan) old ->
  finds r name (filter (fun p => without "com_state" (fst p)) (section_of fmt (k_cls (WalkModelState nan)) (fst o))) ->
  exists o2, k_read (WalkModelState nan) name false old r = (r, Done o2) /\ com_height (fst o2) = Some 0%R /\
             com_height (fst (k_new (WalkModelState nan))) = Some 0.814%R.
Proof. exact height_forgotten. Qed.
Local Open Scope R_scope.
(** ** Which values are accepted, and what the computed members are: this is the meaning of [valid] and [up_to_date] above *)
Theorem C95_walk_mpc_valid : forall (n T S D : Z) (h : k_hidden WalkMPCParameters),
  S <> 0%Z ->
  (valid WalkMPCParameters ([integer n; integer T; integer S; integer D], h) <-> exists a b, (T = a * S /\ D = b * S)%Z).
Proof. exact walk_mpc_valid. Qed.
Theorem C95_walk_mpc_zero : forall (n T D : Z) (h : k_hidden WalkMPCParameters),
  ~ valid WalkMPCParameters ([integer n; integer T; integer 0; integer D], h).
Proof. exact walk_mpc_refused. Qed.
Theorem C95_walk_mpc_derived : forall (n T S D a b : Z) (h : k_hidden WalkMPCParameters),
  S <> 0%Z -> (T = a * S)%Z -> (D = b * S)%Z ->
  (up_to_date WalkMPCParameters ([integer n; integer T; integer S; integer D], h) <-> h = (a, b, IZR T / 1000, IZR S / 1000, IZR D / 1000)).
Proof. exact walk_mpc_derived. Qed.
Theorem C95_pepper_mpc_derived : forall (n T S : Z) (h : k_hidden PepperMPCParameters),
  valid PepperMPCParameters ([integer n; integer T; integer S], h) /\ (up_to_date PepperMPCParameters ([integer n; integer T; integer S], h) <-> h = (IZR T / 1000, IZR S / 1000)).
Proof. exact pepper_mpc_derived. Qed.
Theorem C95_wbc_derived : forall (T k : Z) (a b : R) (h : k_hidden WBCParameters),
  valid WBCParameters ([integer T; number a; number b; integer k], h) /\ (up_to_date WBCParameters ([integer T; number a; number b; integer k], h) <-> h = IZR T / 1000).
Proof. exact wbc_derived. Qed.
Theorem C95_robot_derived : forall (radius nv na v a : R) (B : value) (h : k_hidden PepperRobotParameters),
  0 <= radius -> 0 <= nv -> 0 <= na -> 0 <= v -> 0 <= a ->
  let o := [number radius; number nv; number na; number v; number a; B] in
  valid PepperRobotParameters (o, h) /\ (up_to_date PepperRobotParameters (o, h) <-> exists cop nominal_velocity nominal_acceleration velocity acceleration,
    h = [cop; nominal_velocity; nominal_acceleration; velocity; acceleration] /\ square_in radius cop /\ square_in nv nominal_velocity /\ square_in na nominal_acceleration /\ square_in v velocity /\ square_in a acceleration).
Proof. exact robot_derived. Qed.
Theorem C95_feet_derived : forall (step near far dist long wide : R) (h : k_hidden RobotFootParameters),
  let o := [number step; number near; number far; number dist; number long; number wide] in
  valid RobotFootParameters (o, h) /\ (up_to_date RobotFootParameters (o, h) <->
    exists p, h = finalize p /\ max_step_len p = step /\ min_feet_dist p = near /\ max_feet_dist p = far /\ feet_dist_default p = dist /\ foot_length p = long /\ foot_width p = wide).
Proof. exact feet_derived. Qed.
Theorem C95_coordinates_valid : forall (root joints a b : list R) (h : k_hidden (GeneralizedCoordinates root joints)),
  valid (GeneralizedCoordinates root joints) ([VVector a; VVector b], h) <-> length b = length joints.
Proof. exact coordinates_valid. Qed.
(** ** The objects made by the constructors *)
Theorem C95_constructed : made WalkMPCParameters [integer 16; integer 100; integer 100; integer 100] (1%Z, 1%Z, 0.1, 0.1, 0.1) /\
  made PepperMPCParameters [integer 15; integer 100; integer 100] (0.1, 0.1) /\ made WBCParameters [integer 10; number 0.01; number 0.001; integer 3] 0.01 /\
  entries_are RobotFootParameters [number 0.2; number 0.19; number 0.3; number 0.19; number 0.1372; number 0.058] /\ up_to_date RobotFootParameters (k_new RobotFootParameters) /\
  (exists B, entries_are PepperRobotParameters [number 0.7; number 0.5; number 1; number 1.4; number 1.7; VMatrix B] /\ mrows B = 2%nat /\ mcols B = 2%nat /\
     mget B 0 0 = -0.06 /\ mget B 0 1 = 0.06 /\ mget B 1 0 = -0.03 /\ mget B 1 1 = 0.03) /\ up_to_date PepperRobotParameters (k_new PepperRobotParameters) /\
  entries_are StanceFSMParameters [integer 700; integer 100; integer 300; integer 2900; integer 7; VEnum 1; VEnum 3; VEnum 1] /\
  entries_are PepperMotionParameters [VVector [0; 0]; VVector [0; 0]; number 0; VEnum 2; integer (-1)] /\
  entries_are IkMotionParameters [VVector [0; 0; 0]; VVector [0.002531976618098; 0; 0.125564931735602]; VVector [-0.00402863432226587; 0; 0.75]] /\
  entries_are SolverParametersBase [VScalar (SBool true); VScalar (SBool true)] /\ made KktSolverParameters [VObject [VScalar (SBool true); VScalar (SBool true)]] (M_LU, 1e-8) /\
  entries_are WalkParameters [VVector [0.2; 0]; VVector [0.2; 0]; VVector [0; 0]; number 0.07; number 0; VObject [integer 700; integer 100; integer 300; integer 2900; integer 7; VEnum 1; VEnum 3; VEnum 1]] /\
  entries_are PepperModelState [VObject [VObject [VVector [0; 0; 0.125564931735602]; VVector [0; 0; 0]; VVector [0; 0; 0]]; VObject [VVector [0; 0; 0]; VVector [0; 0; 0]; VVector [0; 0; 0]]];
    VObject [VVector [-0.00656061094036387; 0; 7.50001340031501e-01]; VVector [0; 0; 0]; VVector [0; 0; 0]]; number 16.34234; number 12.3389].
Proof. exact constructed. Qed.
Theorem C95_constructed_states : forall (nan : R) (root joints : list R) (d : list value),
  let z := VVector [0; 0; 0] in let unset := VVector [nan; nan; nan] in
  entries_are PointMassState [z; z; z] /\ entries_are RotaryState [z; z; z] /\ entries_are RigidBodyState [VObject [z; z; z]; VObject [z; z; z]] /\ entries_are (RigidBodyPose nan) [unset; unset] /\
  entries_are (WalkModelState nan) [VEnum 1; VEnum 0; VObject [VVector [0; 0; 0.814]; z; z]; VObject [VObject [VVector [0; 0.095; 0]; z; z]; VObject [z; unset; unset]];
    VObject [VObject [VVector [0; -0.095; 0]; z; z]; VObject [z; unset; unset]]] /\
  entries_are (GeneralizedCoordinates root joints) [VVector root; VVector joints] /\
  (let base := VObject [VScalar (SBool true); VScalar (SBool true)] in entries_are QuadProgppSolverParameters [base; number 0] /\ entries_are (QpmadSolverParameters d) [base; number 0; VObject d] /\
     entries_are (QpoasesSolverParameters d) [base; integer 1000; number 0; VObject d]) /\ made SolutionClass [VVector []] ([], 0%Z).
Proof. exact constructed_states. Qed.
(** The models of walking and of Pepper use the same default parameters *)
Theorem C95_same_defaults : (let p := default_params in entries_are StanceFSMParameters [milliseconds (ss_duration p); milliseconds (tds_duration p); milliseconds (first_duration p); milliseconds (last_duration p);
     integer (Z.of_nat (num_steps p)); VEnum (stance_number (first_stance p)); VEnum (stance_number (first_ss_type p)); VEnum (stance_number (last_stance p))]) /\
  (let p := default_mpc in made WalkMPCParameters [integer (Z.of_nat (horizon_length p)); milliseconds (sampling_ms p); milliseconds (subsampling_ms p); milliseconds (tds_sampling_ms p)]
     (match mpc_finalize p with Ok d => (Z.of_nat (subsamples_num d), Z.of_nat (tds_subsamples_num d), INR (sampling_ms p) / 1000, INR (subsampling_ms p) / 1000, INR (tds_sampling_ms p) / 1000) | _ => (0%Z, 0%Z, 0, 0, 0) end)) /\
  (let p := prim default_feet in made RobotFootParameters (map number [max_step_len p; min_feet_dist p; max_feet_dist p; feet_dist_default p; foot_length p; foot_width p]) default_feet) /\
  (let p := rp_defaults in exists B, entries_are PepperRobotParameters (map number [rp_base_radius p; rp_max_nominal_base_velocity p; rp_max_nominal_base_acceleration p; rp_max_base_velocity p; rp_max_base_acceleration p] ++ [VMatrix B]) /\
     mrows B = 2%nat /\ mcols B = 2%nat /\ M2 (mget B 0 0) (mget B 0 1) (mget B 1 0) (mget B 1 1) = rp_body_bounds p) /\
  (let p := wbc_parameters_default in exists t, made WBCParameters [integer 10; number (wp_tolerance p); number t; integer (Z.of_nat (wp_iterations p))] (wp_interval p)).
Proof. exact same_defaults. Qed.

Print Assumptions C95_restored. Print Assumptions C95_yaml. Print Assumptions C95_reset. Print Assumptions C95_filled. Print Assumptions C95_kkt_refuted. Print Assumptions C95_kkt_read. Print Assumptions C95_solution_refuted. Print Assumptions C95_solution_read. Print Assumptions C95_obstacle_refuted. Print Assumptions C95_obstacle_read. Print Assumptions C95_robot_parameters_refuted. Print Assumptions C95_robot_parameters_read. Print Assumptions C95_solver_parameters_refuted. Print Assumptions C95_solver_parameters_kept. Print Assumptions C95_wbc_refuted. Print Assumptions C95_wbc_stale. Print Assumptions C95_solution_unchanged. Print Assumptions C95_walk_state_refuted. Print Assumptions C95_walk_state_height. Print Assumptions C95_walk_mpc_valid. Print Assumptions C95_walk_mpc_zero. Print Assumptions C95_walk_mpc_derived. Print Assumptions C95_pepper_mpc_derived. Print Assumptions C95_wbc_derived. Print Assumptions C95_robot_derived. Print Assumptions C95_feet_derived. Print Assumptions C95_coordinates_valid. Print Assumptions C95_constructed. Print Assumptions C95_constructed_states. Print Assumptions C95_same_defaults.
