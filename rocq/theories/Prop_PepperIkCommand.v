(** * Properties C92 and C93: commands for Pepper; Euler angles. Vocabulary in PepperIkTasksSpec.v and EulerSpec.v. *)
From Coq Require Import String List Arith Bool Reals Lra Lia ZArith.
From Verif Require Import Base Mat3 RSum Matrix ConstraintType Constraints ConstraintsSpec Solution SpatialTransform PepperTasksSpec RotarySpec Rotary
  Euler EulerSpec EulerFacts Rbdl RbdlSpec PepperIk PepperIkSpec PepperIkFacts PepperIkExample PepperIkTasks PepperIkTasksSpec PepperIkTasksFacts
  PepperIkMotion PepperIkCommandFacts PepperIkTasksExample PepperIkTasksWitness.
Import ListNotations.
Local Open Scope R_scope.

(** C92. Saved states *)
Theorem C92_unsaved : forall (dt : R) (m : ikmodel),
  ik_saved m = None -> getRobotCommand dt m = Throw.
Proof. exact command_unsaved. Qed.
Theorem C92_saved : forall (eig : m3 -> euler_type -> v3) (f : features) (fk : list R -> rb) (m : ikmodel),
  kinematics f fk -> reachable eig f fk m ->
  exists m' p o, saveCurrentState m = Ok m' /\ getBasePosition m = Ok p /\ getBaseOrientation m = Ok o /\
    ik_saved m' = Some (mkSaved p o (ik_gc m)) /\ ik_gc m' = ik_gc m /\ getBasePosition m' = Ok p /\ getBaseOrientation m' = Ok o.
Proof. exact state_saved. Qed.
Theorem C92_saved_pose : forall (eig : m3 -> euler_type -> v3) (f : features) (fk : list R -> rb) (m : ikmodel) (s : saved_state),
  kinematics f fk -> reachable eig f fk m -> ik_saved m = Some s ->
  sized f (sv_gc s) /\ frame (fk (asVector (sv_gc s))) (getLinkId (fk (asVector (sv_gc s))) "base_footprint") (sv_orientation s) (sv_position s).
Proof. exact saved_pose. Qed.
(** C92. Commands are given if and only if the limits are respected; what they contain *)
Theorem C92_command : forall (eig : m3 -> euler_type -> v3) (f : features) (fk : list R -> rb) (m : ikmodel) (s : saved_state) (dt : R),
  kinematics f fk -> reachable eig f fk m -> ik_saved m = Some s -> dt <> 0 ->
  exists p o e c, getBasePosition m = Ok p /\ getBaseOrientation m = Ok o /\ orientation_error (sv_orientation s) o e /\
    cmd_joints c = gc_joints (ik_gc m) /\ cmd_interval c = dt /\
    cmd_base c = V3 ((vx p - vx (sv_position s)) / dt) ((vy p - vy (sv_position s)) / dt) (vz e / dt) /\
    (forall a, o = Rz a ->
       wheel_speeds (cos a * vx (cmd_base c) + sin a * vy (cmd_base c)) (cos a * vy (cmd_base c) - sin a * vx (cmd_base c)) (vz (cmd_base c)) (cmd_wheels c)) /\
    let allowed := almost_within f 1e-7 (ik_gc m) /\ slow_enough f (sv_gc s) (ik_gc m) dt /\ wheels_slow (cmd_wheels c) in
    ((getRobotCommand dt m = Ok c /\ allowed) \/ (getRobotCommand dt m = Throw /\ ~ allowed)).
Proof. exact command_ok. Qed.
(** C92. The speeds of the wheels determine the motion of the base *)
Theorem C92_wheels : forall (u v w u' v' w' : R) (s : v3),
  wheel_speeds u v w s -> wheel_speeds u' v' w' s -> u = u' /\ v = v' /\ w = w'.
Proof. exact wheels_determine. Qed.
(** C92. Correction of the state by a part of a command *)
Theorem C92_correct : forall (eig : m3 -> euler_type -> v3) (f : features) (fk : list R -> rb) (m : ikmodel) (g : gcoord) (c : command) (t : R),
  kinematics f fk -> reachable eig f fk m -> sized f g ->
  (t <= 0 -> correct eig f fk c t m = Ok m /\ exists m', correct_state eig f fk g c t m = Ok m' /\ ik_gc m' = g /\ reachable eig f fk m') /\
  (0 < t -> f <> ROOT_PLANAR \/ length (cmd_joints c) <> JOINTS_DOF_NUMBER ->
     correct eig f fk c t m = Throw /\ correct_state eig f fk g c t m = Throw) /\
  (0 < t -> f = ROOT_PLANAR -> length (cmd_joints c) = JOINTS_DOF_NUMBER ->
     (exists m', correct eig f fk c t m = Ok m' /\ reachable eig f fk m' /\ moved c t (ik_gc m) (ik_gc m')) /\
     (exists m', correct_state eig f fk g c t m = Ok m' /\ reachable eig f fk m' /\ moved c t g (ik_gc m'))).
Proof. exact correct_ok. Qed.
(** C92. A command followed for its whole interval: everything but the yaw is as planned *)
Theorem C92_followed : forall (eig : m3 -> euler_type -> v3) (fk : list R -> rb) (m0 m1 m2 m3 : ikmodel) (g : gcoord) (dt : R) (c : command),
  kinematics ROOT_PLANAR fk -> base_is_root fk -> reachable eig ROOT_PLANAR fk m0 -> sized ROOT_PLANAR g -> 0 < dt ->
  saveCurrentState m0 = Ok m1 -> updateState fk g m1 = Ok m2 -> getRobotCommand dt m2 = Ok c ->
  correct_state eig ROOT_PLANAR fk (ik_gc m0) c dt m2 = Ok m3 ->
  root_at (ik_gc m3) 0 = root_at g 0 /\ root_at (ik_gc m3) 1 = root_at g 1 /\ (forall j, angle ROOT_PLANAR (ik_gc m3) j = angle ROOT_PLANAR g j) /\
  root_at (ik_gc m3) 2 = root_at (ik_gc m0) 2 + sin (root_at g 2 - root_at (ik_gc m0) 2).
Proof. exact command_followed. Qed.
Theorem C92_yaw_refuted : ~ forall eig fk m0 m1 m2 m3 g dt c,
  kinematics ROOT_PLANAR fk -> base_is_root fk -> reachable eig ROOT_PLANAR fk m0 -> sized ROOT_PLANAR g -> 0 < dt ->
  saveCurrentState m0 = Ok m1 -> updateState fk g m1 = Ok m2 -> getRobotCommand dt m2 = Ok c ->
  correct_state eig ROOT_PLANAR fk (ik_gc m0) c dt m2 = Ok m3 -> exists k : Z, root_at (ik_gc m3) 2 = root_at g 2 + 2 * PI * IZR k.
Proof. exact turn_lost. Qed.

(** C93. From matrices to angles and back *)
Theorem C93_matrix_to_euler : forall (eig : m3 -> euler_type -> v3) (r : m3),
  documented_eulerAngles eig -> rotation r ->
  (exists e, convertMatrixToEulerAngles eig r RPY = Ok e /\ rotation_zyx e = r /\ 0 <= vz e <= PI /\ - PI <= vy e <= PI /\ - PI <= vx e <= PI) /\
  (exists e, convertMatrixToEulerAngles eig r YPR = Ok e /\ rotation_xyz e = r /\ 0 <= vx e <= PI /\ - PI <= vy e <= PI /\ - PI <= vz e <= PI) /\
  convertMatrixToEulerAngles eig r EULER_UNDEFINED = Throw.
Proof. exact matrix_to_euler. Qed.
Theorem C93_converted : forall (eig : m3 -> euler_type -> v3) (e : v3) (from to : euler_type),
  documented_eulerAngles eig ->
  (from = EULER_UNDEFINED \/ to = EULER_UNDEFINED -> convertEulerAngles eig e from to = Throw) /\
  (from <> EULER_UNDEFINED -> to <> EULER_UNDEFINED -> exists e' r, convertEulerAngles eig e from to = Ok e' /\
    convertEulerAnglesToMatrix e from = Ok r /\ convertEulerAnglesToMatrix e' to = Ok r).
Proof. exact euler_converted. Qed.
(** C93. The pose of the root *)
Theorem C93_root_position : forall (f : features) (p : v3) (g : gcoord),
  sized f g ->
  (f = ROOT_PLANAR /\ vz p <> 0 -> setRootPosition f p g = Throw) /\
  (f <> ROOT_PLANAR \/ vz p = 0 -> exists g', setRootPosition f p g = Ok g' /\ sized f g' /\ getRootPosition f g' = p /\ gc_joints g' = gc_joints g /\
     forall eig, getRootOrientation eig f g' = getRootOrientation eig f g).
Proof. exact root_position. Qed.
Theorem C93_root_orientation : forall (eig : m3 -> euler_type -> v3) (f : features) (rpy : v3) (g : gcoord),
  documented_eulerAngles eig -> sized f g ->
  (f = ROOT_PLANAR /\ (vx rpy <> 0 \/ vy rpy <> 0) -> setRootOrientation eig f rpy g = Throw) /\
  (f <> ROOT_PLANAR \/ (vx rpy = 0 /\ vy rpy = 0) ->
     exists g' rpy', setRootOrientation eig f rpy g = Ok g' /\ sized f g' /\ gc_joints g' = gc_joints g /\ getRootPosition f g' = getRootPosition f g /\
       getRootOrientation eig f g' = Ok rpy' /\ rotation_zyx rpy' = rotation_zyx rpy /\ (f = ROOT_PLANAR -> rpy' = rpy)).
Proof. exact root_orientation. Qed.
(** C93. Poses of tags *)
Theorem C93_tag_poses : forall (eig : m3 -> euler_type -> v3) (l : rb) (r : rmodel) (id : nat) (p : v3) (O : m3) (o : v3),
  documented_eulerAngles eig ->
  tree l -> updated l r -> frame l id O o ->
  exists e, rotation_zyx e = O /\ getTagPose_link eig r id = Ok (o, e) /\ getTagPose_point eig r (id, p) = Ok (v3add o (m3app O p), e).
Proof. exact tag_poses. Qed.
(** C93. The yaw of an upright base *)
Theorem C93_base_yaw : forall (eig : m3 -> euler_type -> v3) (m : ikmodel) (a : R),
  documented_eulerAngles eig ->
  getBaseOrientation m = Ok (Rz a) -> 0 < a < PI -> getBaseYaw eig m = Ok a.
Proof. exact base_yaw. Qed.
Theorem C93_base_yaw_refuted : ~ forall eig fk m a, documented_eulerAngles eig -> kinematics ROOT_PLANAR fk -> reachable eig ROOT_PLANAR fk m ->
  getBaseOrientation m = Ok (Rz a) -> exists y (k : Z), getBaseYaw eig m = Ok y /\ y = a + 2 * PI * IZR k.
Proof. exact yaw_wrong. Qed.
Theorem C93_root_yaw_refuted : ~ forall eig f rpy g g' rpy', documented_eulerAngles eig -> sized f g ->
  setRootOrientation eig f rpy g = Ok g' -> getRootOrientation eig f g' = Ok rpy' -> exists k : Z, vz rpy' = vz rpy + 2 * PI * IZR k.
Proof. exact root_yaw_wrong. Qed.

(** the robot of the example moves by a centimetre and turns by half a radian; afterwards its yaw is sin(1/2) *)
Example C92_example : exists eig m0 m1 m2 m3 q c, kinematics ROOT_PLANAR ex_pepper /\ base_is_root ex_pepper /\ reachable eig ROOT_PLANAR ex_pepper m0 /\
  ik_gc m0 = mkGC [0; 0; 0] q /\ saveCurrentState m0 = Ok m1 /\ updateState ex_pepper (mkGC [1 / 100; 0; 1 / 2] q) m1 = Ok m2 /\ getRobotCommand 1 m2 = Ok c /\
  correct_state eig ROOT_PLANAR ex_pepper (ik_gc m0) c 1 m2 = Ok m3 /\ root_at (ik_gc m3) 0 = 1 / 100 /\ root_at (ik_gc m3) 2 = sin (1 / 2).
Proof.
  destruct (pepper_command (1 / 100) (1 / 2)) as (eig & m0 & m1 & m2 & m3 & q & c & _ & LQ & RC & G0 & E1 & E2 & _ & C & E3); [apply Rabs_le; lra|].
  assert (SZ : sized ROOT_PLANAR (mkGC [1 / 100; 0; 1 / 2] q)) by (split; [reflexivity|exact LQ]).
  destruct (command_followed eig _ m0 m1 m2 m3 _ 1 c pepper_kinematics pepper_base_root RC SZ ltac:(lra) E1 E2 C E3) as (X & _ & _ & Y).
  exists eig, m0, m1, m2, m3, q, c. split; [exact pepper_kinematics|]. split; [exact pepper_base_root|]. repeat (split; [assumption|]).
  rewrite Y, G0. cbn. rewrite Rplus_0_l, Rminus_0_r. reflexivity.
Qed.
(** the contract of eulerAngles can be met; a rotation with three different angles *)
Example C93_example : exists eig, documented_eulerAngles eig /\ rotation (rotation_zyx (V3 1 2 3)) /\ rotation_zyx (V3 0 0 1) = Rz 1.
Proof. exists ex_eig. split; [exact ex_eig_documented|]. split; [apply zyx_rotation|apply rz_zero]. Qed.

Print Assumptions C92_unsaved. Print Assumptions C92_saved. Print Assumptions C92_saved_pose. Print Assumptions C92_command. Print Assumptions C92_wheels. Print Assumptions C92_correct. Print Assumptions C92_followed. Print Assumptions C92_yaw_refuted. Print Assumptions C93_matrix_to_euler. Print Assumptions C93_converted. Print Assumptions C93_root_position. Print Assumptions C93_root_orientation. Print Assumptions C93_tag_poses. Print Assumptions C93_base_yaw. Print Assumptions C93_base_yaw_refuted. Print Assumptions C93_root_yaw_refuted.
