(** * What the members computed by the configurable classes mean, which values are accepted, and the objects made by the constructors (C95) *)
From Coq Require Import String List ZArith Arith Reals Bool Lra Lia.
From Verif Require Import Base RSum Matrix Mat2 Config ConfigSpec FootParameters PepperTasks PepperTasksSpec ConfigClasses ConfigClassesSpec ConfigMeaningSpec.
Import ListNotations.
Open Scope list_scope.
Local Open Scope R_scope.

(** parameters of the MPC of the walk: both sampling times are whole numbers of subsampling times; these numbers and the times in seconds are kept *)
Theorem walk_mpc_valid (n T S D : Z) (h : k_hidden WalkMPCParameters) : S <> 0%Z ->
  (valid WalkMPCParameters ([integer n; integer T; integer S; integer D], h) <-> exists a b, (T = a * S /\ D = b * S)%Z).
Proof.
  intros HS. unfold valid. cbn. unfold integer_at. cbn [nth_error integer]. rewrite !andb_true_iff, negb_true_iff, Z.eqb_neq, !Z.eqb_eq. split.
  - intros ((_ & A) & B). exists (T / S)%Z, (D / S)%Z. split; [pose proof (Z_div_mod_eq_full T S)|pose proof (Z_div_mod_eq_full D S)]; lia.
  - intros (a & b & -> & ->). rewrite !Z_mod_mult. auto.
Qed.
Theorem walk_mpc_refused (n T D : Z) (h : k_hidden WalkMPCParameters) : ~ valid WalkMPCParameters ([integer n; integer T; integer 0; integer D], h).
Proof. unfold valid. cbn. discriminate. Qed.
Theorem walk_mpc_derived (n T S D a b : Z) (h : k_hidden WalkMPCParameters) : S <> 0%Z -> (T = a * S)%Z -> (D = b * S)%Z ->
  (up_to_date WalkMPCParameters ([integer n; integer T; integer S; integer D], h) <-> h = (a, b, IZR T / 1000, IZR S / 1000, IZR D / 1000)).
Proof.
  intros HS -> ->. unfold up_to_date. cbn. unfold integer_at. cbn [nth_error integer]. rewrite !Z_div_mult_full by exact HS. unfold to_seconds. split; intros E; symmetry; exact E.
Qed.
(** parameters of the MPC of Pepper *)
Theorem pepper_mpc_derived (n T S : Z) (h : k_hidden PepperMPCParameters) :
  valid PepperMPCParameters ([integer n; integer T; integer S], h) /\ (up_to_date PepperMPCParameters ([integer n; integer T; integer S], h) <-> h = (IZR T / 1000, IZR S / 1000)).
Proof. split; [reflexivity|]. unfold up_to_date. cbn. unfold integer_at, to_seconds. cbn [nth_error integer]. split; intros E; symmetry; exact E. Qed.
(** parameters of the inverse kinematics *)
Theorem wbc_derived (T k : Z) (a b : R) (h : k_hidden WBCParameters) :
  valid WBCParameters ([integer T; number a; number b; integer k], h) /\ (up_to_date WBCParameters ([integer T; number a; number b; integer k], h) <-> h = IZR T / 1000).
Proof. split; [reflexivity|]. unfold up_to_date. cbn. unfold integer_at, to_seconds. cbn [nth_error integer]. split; intros E; symmetry; exact E. Qed.
(** parameters of Pepper: each bound is the square inside of the circle whose radius is the entry: its corners are on the circle *)
Theorem robot_derived (radius nv na v a : R) (B : value) (h : k_hidden PepperRobotParameters) : 0 <= radius -> 0 <= nv -> 0 <= na -> 0 <= v -> 0 <= a ->
  let o := [number radius; number nv; number na; number v; number a; B] in
  valid PepperRobotParameters (o, h) /\ (up_to_date PepperRobotParameters (o, h) <-> exists cop nominal_velocity nominal_acceleration velocity acceleration,
    h = [cop; nominal_velocity; nominal_acceleration; velocity; acceleration] /\ square_in radius cop /\ square_in nv nominal_velocity /\ square_in na nominal_acceleration /\ square_in v velocity /\ square_in a acceleration).
Proof.
  intros H1 H2 H3 H4 H5 o. split; [reflexivity|]. assert (SQ : forall r m, 0 <= r -> (square_in r m <-> m = circle_bounds r)).
  { intros r m Hr. unfold square_in, circle_bounds, getEncircledSquareSide. assert (S2 : 0 < sqrt 2) by (apply sqrt_lt_R0; lra). assert (Q : sqrt 2 * sqrt 2 = 2) by (apply sqrt_sqrt; lra).
    set (c := 2 / sqrt 2 * r / 2). assert (C0 : 0 <= c) by (unfold c; apply Rmult_le_pos; [|lra]; apply Rmult_le_pos; [|exact Hr]; apply Rlt_le, Rdiv_lt_0_compat; lra).
    assert (CC : c * c + c * c = r * r) by (unfold c; replace (2 / sqrt 2) with (sqrt 2) by (rewrite <- Q at 2; field; lra); replace (sqrt 2 * r / 2 * (sqrt 2 * r / 2) + sqrt 2 * r / 2 * (sqrt 2 * r / 2)) with (sqrt 2 * sqrt 2 * (r * r) / 2) by field; rewrite Q; field).
    split.
    - intros (b & B0 & BB & ->). assert (b = c) as -> by (apply Rsqr_inj; [exact B0|exact C0|unfold Rsqr; lra]). reflexivity.
    - intros ->. exists c. auto. }
  unfold up_to_date. cbn. unfold number_at. cbn [nth_error number o]. split.
  - intros <-. do 5 eexists. split; [reflexivity|]. repeat split; apply SQ; auto.
  - intros (m1 & m2 & m3 & m4 & m5 & -> & E1 & E2 & E3 & E4 & E5). apply SQ in E1, E2, E3, E4, E5; auto. subst. reflexivity.
Qed.
(** parameters of feet *)
Theorem feet_derived (step near far dist long wide : R) (h : k_hidden RobotFootParameters) :
  let o := [number step; number near; number far; number dist; number long; number wide] in
  valid RobotFootParameters (o, h) /\ (up_to_date RobotFootParameters (o, h) <->
    exists p, h = finalize p /\ max_step_len p = step /\ min_feet_dist p = near /\ max_feet_dist p = far /\ feet_dist_default p = dist /\ foot_length p = long /\ foot_width p = wide).
Proof.
  intros o. split; [reflexivity|]. unfold up_to_date. cbn. unfold foot_primary, number_at. cbn [nth_error number o]. split.
  - intros <-. eexists. split; [reflexivity|]. repeat split.
  - intros (p & -> & E1 & E2 & E3 & E4 & E5 & E6). subst. destruct p; reflexivity.
Qed.
(** coordinates: the number of angles is that of the model *)
Theorem coordinates_valid (root joints a b : list R) (h : k_hidden (GeneralizedCoordinates root joints)) :
  valid (GeneralizedCoordinates root joints) ([VVector a; VVector b], h) <-> length b = length joints.
Proof. unfold valid. cbn. apply Nat.eqb_eq. Qed.
(** the objects made by the constructors *)
Theorem constructed : made WalkMPCParameters [integer 16; integer 100; integer 100; integer 100] (1%Z, 1%Z, 0.1, 0.1, 0.1) /\
  made PepperMPCParameters [integer 15; integer 100; integer 100] (0.1, 0.1) /\ made WBCParameters [integer 10; number 0.01; number 0.001; integer 3] 0.01 /\
  entries_are RobotFootParameters [number 0.2; number 0.19; number 0.3; number 0.19; number 0.1372; number 0.058] /\ up_to_date RobotFootParameters (k_new RobotFootParameters) /\
  (exists B, entries_are PepperRobotParameters [number 0.7; number 0.5; number 1; number 1.4; number 1.7; VMatrix B] /\ mrows B = 2%nat /\ mcols B = 2%nat /\
     mget B 0 0 = -0.06 /\ mget B 0 1 = 0.06 /\ mget B 1 0 = -0.03 /\ mget B 1 1 = 0.03) /\ up_to_date PepperRobotParameters (k_new PepperRobotParameters) /\
  entries_are StanceFSMParameters [integer 700; integer 100; integer 300; integer 2900; integer 7; VEnum 1; VEnum 3; VEnum 1] /\
  entries_are PepperMotionParameters [VVector [0; 0]; VVector [0; 0]; number 0; VEnum 2; integer (-1)] /\
  entries_are IkMotionParameters [VVector [0; 0; 0]; VVector [0.002531976618098; 0; 0.125564931735602]; VVector [-0.00402863432226587; 0; 0.75]] /\
  entries_are SolverParametersBase [VScalar (SBool true); VScalar (SBool true)] /\ made KktSolverParameters [VObject [VScalar (SBool true); VScalar (SBool true)]] (M_LU, 1e-8) /\
  entries_are WalkParameters [VVector [0.2; 0]; VVector [0.2; 0]; VVector [0; 0]; number 0.07; number 0; VObject [integer 700; integer 100; integer 300; integer 2900; integer 7; VEnum 1; VEnum 3; VEnum 1]] /\
  entries_are PepperModelState [VObject [VObject [VVector [0; 0; 0.125564931735602]; VVector [0; 0; 0]; VVector [0; 0; 0]]; VObject [VVector [0; 0; 0]; VVector [0; 0; 0]; VVector [0; 0; 0]]];
    VObject [VVector [-0.00656061094036387; 0; 7.50001340031501e-01]; VVector [0; 0; 0]; VVector [0; 0; 0]]; number 16.34234; number 12.3389].
Proof.
  assert (T : to_seconds 100 = 0.1) by (unfold to_seconds; lra). assert (T' : to_seconds 10 = 0.01) by (unfold to_seconds; lra).
  split; [split; [reflexivity|cbn; unfold integer_at; cbn [nth_error int]; rewrite T; reflexivity]|]. split; [split; [reflexivity|cbn; unfold integer_at; cbn [nth_error int]; rewrite T; reflexivity]|].
  split; [split; [reflexivity|cbn; exact T']|]. split; [reflexivity|]. split; [reflexivity|]. split; [eexists; split; [reflexivity|repeat split]|]. repeat split.
Qed.
Theorem constructed_states (nan : R) (root joints : list R) (d : list value) : let z := VVector [0; 0; 0] in let unset := VVector [nan; nan; nan] in
  entries_are PointMassState [z; z; z] /\ entries_are RotaryState [z; z; z] /\ entries_are RigidBodyState [VObject [z; z; z]; VObject [z; z; z]] /\ entries_are (RigidBodyPose nan) [unset; unset] /\
  entries_are (WalkModelState nan) [VEnum 1; VEnum 0; VObject [VVector [0; 0; 0.814]; z; z]; VObject [VObject [VVector [0; 0.095; 0]; z; z]; VObject [z; unset; unset]];
    VObject [VObject [VVector [0; -0.095; 0]; z; z]; VObject [z; unset; unset]]] /\
  entries_are (GeneralizedCoordinates root joints) [VVector root; VVector joints] /\
  (let base := VObject [VScalar (SBool true); VScalar (SBool true)] in entries_are QuadProgppSolverParameters [base; number 0] /\ entries_are (QpmadSolverParameters d) [base; number 0; VObject d] /\
     entries_are (QpoasesSolverParameters d) [base; integer 1000; number 0; VObject d]) /\ made SolutionClass [VVector []] ([], 0%Z).
Proof.
  intros z unset. assert (H1 : 0.19 / 2 = 0.095) by lra. assert (H2 : - (0.19 / 2) = -0.095) by lra. unfold entries_are, made. repeat split. cbn [WalkModelState plain k_new fst]. rewrite H2, H1. reflexivity.
Qed.
