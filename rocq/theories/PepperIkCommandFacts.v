(** * Proofs for C91 (poses), C92, C93 *)
From Coq Require Import String List Reals Arith Lra Lia Bool ZArith.
From Verif Require Import Base BaseFacts RSum Matrix Mat3 ConstraintType Constraints ConstraintsSpec ConstraintsFacts Solution Condense SpatialTransform PepperMpc PepperTasksSpec
  RotarySpec Rotary RotaryFacts Euler EulerSpec EulerFacts Rbdl RbdlSpec RbdlFacts RbdlComFacts PepperIk PepperIkSpec PepperIkFacts PepperIkTasks PepperIkTasksSpec PepperIkTasksFacts.
Import ListNotations.
Local Open Scope R_scope.

(** ** C92 *)
Lemma wheels_check junk f v :
  (checkWheelVelocities (limits_new junk f) v = Ok tt /\ wheels_slow v) \/ (checkWheelVelocities (limits_new junk f) v = Throw /\ ~ wheels_slow v).
Proof.
  unfold checkWheelVelocities, limits_new, wheels_slow. cbn [il_wheels vx vy vz]. cbv zeta. set (k := 6.28319).
  assert (A : forall x, (if Rlt_dec x (- k) then true else if Rgt_dec x k then true else false) = if Rle_dec (Rabs x) k then false else true).
  { intros x. unfold Rabs. destruct (Rcase_abs x); repeat match goal with |- context [if ?d then _ else _] => destruct d end; reflexivity || (unfold k in *; lra). }
  rewrite !A. destruct (Rle_dec (Rabs (vx v)) k), (Rle_dec (Rabs (vy v)) k), (Rle_dec (Rabs (vz v)) k); cbn [orb]; first [left; split; [reflexivity|tauto]|right; split; [reflexivity|tauto]].
Qed.
Lemma wheel_rows W : getRootMotionToWheelsTransform = Ok W ->
  forall u v w, wheel_speeds u v w (m3app W (V3 u v w)).
Proof.
  intros E u v w. unfold getRootMotionToWheelsTransform, wheel_transform in E.
  assert (Z : forall a, rotation_zyx (V3 0 0 a) = Rz a).
  { intros a. unfold rotation_zyx, Rx, Ry, m3mul, Rz; cbn. rewrite cos_0, sin_0. f_equal; ring. }
  rewrite !(proj1 (euler_to_matrix _)), !Z in E. cbn [bind] in E. injection E as <-.
  unfold wheel_speeds, wheels, rolls, m3app; cbn [m00 m01 m02 m10 m11 m12 m20 m21 m22 vx vy vz].
  unfold Rz, m3col, v3opp, v3scale, v3dot, v3cross; cbn [m00 m01 m02 m10 m11 m12 m20 m21 m22 vx vy vz]. 
  replace (- g_pi) with (-3.14159265358979323846) by (unfold g_pi; lra).
  constructor; [|constructor; [|constructor; [|constructor]]].
  - generalize (sin 1.07519348146676) (cos 1.07519348146676). intros. lra.
  - generalize (sin (-1.07519348146676)) (cos (-1.07519348146676)). intros. lra.
  - generalize (sin (-3.14159265358979323846)) (cos (-3.14159265358979323846)). intros. lra.
Qed.

(** the motion of the base is determined by the speeds of the wheels *)
Theorem wheels_determine (u v w u' v' w' : R) (s : v3) : wheel_speeds u v w s -> wheel_speeds u' v' w' s -> u = u' /\ v = v' /\ w = w'.
Proof.
  intros A B. unfold wheel_speeds, wheels in *. inversion A as [|? ? ? ? A1 A']; subst. inversion A' as [|? ? ? ? A2 A'']; subst. inversion A'' as [|? ? ? ? A3 _]; subst.
  inversion B as [|? ? ? ? B1 B']; subst. inversion B' as [|? ? ? ? B2 B'']; subst. inversion B'' as [|? ? ? ? B3 _]; subst. clear A A' A'' B B' B''.
  unfold rolls in *.
  replace (-1.07519348146676) with (- (1.07519348146676)) in A2, B2 by lra. replace (-3.14159265358979323846) with (- (3.14159265358979323846)) in A3, B3 by lra.
  rewrite sin_neg, cos_neg in A2, B2, A3, B3.
  pose proof PI2_3_2 as P1. pose proof PI_4 as P2.
  assert (S1 : 0 < sin 1.07519348146676) by (apply sin_gt_0; lra).
  assert (C1 : 0 < cos 1.07519348146676) by (apply cos_gt_0; lra).
  assert (C3 : cos 3.14159265358979323846 < 0) by (apply cos_lt_0; lra).
  set (s1 := sin 1.07519348146676) in *. set (c1 := cos 1.07519348146676) in *. set (s3 := sin 3.14159265358979323846) in *. set (c3 := cos 3.14159265358979323846) in *.
  assert (U : u = u').
  { assert (H : s1 * (u - u') = 0) by lra. apply Rmult_integral in H. destruct H; lra. }
  subst u'.
  assert (V : v - v' = 0.17 * (w - w')).
  { assert (H : c3 * ((v - v') - 0.17 * (w - w')) = 0) by lra. apply Rmult_integral in H. destruct H; lra. }
  assert (W : w = w').
  { assert (H : (0.17 * c1 + (0.09 * c1 + 0.155 * s1)) * (w - w') = 0).
    { assert (c1 * (v - v') + (0.09 * c1 + 0.155 * s1) * (w - w') = 0) as H by lra. rewrite V in H. lra. }
    apply Rmult_integral in H. destruct H; lra. }
  subst w'. split; [reflexivity|]. split; lra.
Qed.

(** the state saved last *)
Theorem command_unsaved (dt : R) (m : ikmodel) : ik_saved m = None -> getRobotCommand dt m = Throw.
Proof. intros H. unfold getRobotCommand. rewrite H. reflexivity. Qed.
Theorem state_saved (eig : m3 -> euler_type -> v3) (f : features) (fk : list R -> rb) (m : ikmodel) : kinematics f fk -> reachable eig f fk m ->
  exists m' p o, saveCurrentState m = Ok m' /\ getBasePosition m = Ok p /\ getBaseOrientation m = Ok o /\
    ik_saved m' = Some (mkSaved p o (ik_gc m)) /\ ik_gc m' = ik_gc m /\ getBasePosition m' = Ok p /\ getBaseOrientation m' = Ok o.
Proof.
  intros K RC. destruct (reachable_good eig f fk m K RC) as (file & D & GD).
  destruct (good_save f fk file m K D GD) as (m' & E & _ & G & Rb & p & o & EP & EO & S). exists m', p, o. do 5 (split; [assumption|]).
  unfold saveCurrentState in E. rewrite EO, EP in E. cbn [bind] in E. injection E as <-. split; assumption.
Qed.
Theorem saved_pose (eig : m3 -> euler_type -> v3) (f : features) (fk : list R -> rb) (m : ikmodel) (s : saved_state) : kinematics f fk -> reachable eig f fk m -> ik_saved m = Some s ->
  sized f (sv_gc s) /\ frame (fk (asVector (sv_gc s))) (getLinkId (fk (asVector (sv_gc s))) "base_footprint") (sv_orientation s) (sv_position s).
Proof.
  intros K RC H. destruct (reachable_good eig f fk m K RC) as (file & D & GD). pose proof GD as (_ & _ & _ & _ & _ & _ & SV).
  destruct (SV s H) as (SZ & F). split; [exact SZ|]. destruct D as (_ & SR & _). rewrite (same_linkid _ _ "base_footprint"%string (SR _ (sized_vector _ _ SZ))). exact F.
Qed.
Lemma app_trans a u v w : m3app (m3trans (Rz a)) (V3 u v w) = V3 (cos a * u + sin a * v) (cos a * v - sin a * u) w.
Proof. unfold m3app, m3trans, Rz; cbn. f_equal; ring. Qed.
Lemma app_mul a b v : m3app (m3mul a b) v = m3app a (m3app b v).
Proof. unfold m3app, m3mul; cbn. f_equal; ring. Qed.
Theorem command_ok (eig : m3 -> euler_type -> v3) (f : features) (fk : list R -> rb) (m : ikmodel) (s : saved_state) (dt : R) :
  kinematics f fk -> reachable eig f fk m -> ik_saved m = Some s -> dt <> 0 ->
  exists p o e c, getBasePosition m = Ok p /\ getBaseOrientation m = Ok o /\ orientation_error (sv_orientation s) o e /\
    cmd_joints c = gc_joints (ik_gc m) /\ cmd_interval c = dt /\
    cmd_base c = V3 ((vx p - vx (sv_position s)) / dt) ((vy p - vy (sv_position s)) / dt) (vz e / dt) /\
    (forall a, o = Rz a ->
       wheel_speeds (cos a * vx (cmd_base c) + sin a * vy (cmd_base c)) (cos a * vy (cmd_base c) - sin a * vx (cmd_base c)) (vz (cmd_base c)) (cmd_wheels c)) /\
    let allowed := almost_within f 1e-7 (ik_gc m) /\ slow_enough f (sv_gc s) (ik_gc m) dt /\ wheels_slow (cmd_wheels c) in
    ((getRobotCommand dt m = Ok c /\ allowed) \/ (getRobotCommand dt m = Throw /\ ~ allowed)).
Proof.
  intros K RC H DT. destruct (reachable_good eig f fk m K RC) as (file & D & GD). destruct (good_base_link f fk file m K D GD) as (L1 & L2).
  destruct (link_pose _ _ _ (good_tree f fk file m K GD) (good_updated f fk file m GD) L1) as (_ & EO & _).
  destruct (link_pose _ _ _ (good_tree f fk file m K GD) (good_updated f fk file m GD) L2) as (EP & _).
  set (p := link_o _ _) in *. set (o := link_O _ _) in *. pose proof GD as ((SZ & _ & junk & LM) & _ & _ & _ & _ & EW & SV). destruct (SV s H) as (SZ2 & _).
  set (e := getRotationErrorAngleAxis (sv_orientation s) o).
  set (base := V3 ((vx p - vx (sv_position s)) / dt) ((vy p - vy (sv_position s)) / dt) (vz e / dt)).
  exists p, o, e, (mkCommand (gc_joints (ik_gc m)) (m3app (m3mul (ik_wheels m) (m3trans o)) base) base dt).
  split; [exact EP|]. split; [exact EO|]. split; [apply error_is|]. do 3 (split; [reflexivity|]). split.
  { intros a ->. cbn [cmd_base cmd_wheels]. rewrite app_mul. unfold base at 6. rewrite app_trans. apply wheel_rows. exact EW. }
  cbv zeta. cbn [cmd_wheels]. unfold getRobotCommand. rewrite H.
  destruct (positions_check junk f (gc_joints (ik_gc m)) (proj2 SZ)) as (P1 & P2).
  destruct (velocities_check junk f (gc_joints (sv_gc s)) (gc_joints (ik_gc m)) dt (proj2 SZ2) (proj2 SZ)) as (V1 & V2).
  rewrite <- LM in P1, P2, V1, V2. unfold almost_within, slow_enough, angle.
  assert (NB : V3 (vx (v3scale (/ dt) (v3sub p (sv_position s)))) (vy (v3scale (/ dt) (v3sub p (sv_position s)))) (vz (v3scale (/ dt) e)) = base).
  { unfold base, v3scale, v3sub; cbn [vx vy vz]. f_equal; field; exact DT. }
  destruct P1 as [P1|P1]; rewrite P1 in *; cbn [bind].
  2: { right. split; [reflexivity|]. intros (X & _). apply P2 in X. discriminate. }
  destruct V1 as [V1|V1]; rewrite V1 in *; cbn [bind].
  2: { right. split; [reflexivity|]. intros (_ & X & _). apply V2 in X. discriminate. }
  unfold getBaseOrientation, getBasePosition. rewrite EO, EP. cbn [bind]. fold e. rewrite NB.
  destruct (wheels_check junk f (m3app (m3mul (ik_wheels m) (m3trans o)) base)) as [(C & S)|(C & S)]; rewrite <- LM in C; rewrite C; cbn [bind].
  - left. split; [reflexivity|]. split; [apply P2; reflexivity|]. split; [apply V2; reflexivity|exact S].
  - right. split; [reflexivity|]. tauto.
Qed.
Lemma corrected_joint c t g i : length (cmd_joints c) = JOINTS_DOF_NUMBER -> length (gc_joints g) = JOINTS_DOF_NUMBER -> (i < JOINTS_DOF_NUMBER)%nat ->
  nth i (gc_joints (corrected c t g)) 0 = nth i (gc_joints g) 0 + (nth i (cmd_joints c) 0 - nth i (gc_joints g) 0) * t / cmd_interval c.
Proof.
  intros LC LG Hi. cbn [corrected gc_joints]. unfold lsub.
  assert (A : forall (F : R * R -> R) l k, (k < length l)%nat -> nth k (map F l) 0 = F (nth k l (0, 0))).
  { intros F l k Hk. rewrite (nth_indep _ 0 (F (0, 0))) by (rewrite map_length; exact Hk). apply map_nth. }
  rewrite A by (rewrite combine_length, !map_length, combine_length, LG, LC; cbn; exact Hi).
  rewrite combine_nth by (rewrite !map_length, combine_length, LG, LC; reflexivity). cbn [fst snd].
  rewrite map_map. rewrite (A (fun x => (fst x - snd x) * t / cmd_interval c)) by (rewrite combine_length, LG, LC; exact Hi).
  rewrite combine_nth by (rewrite LG, LC; reflexivity). reflexivity.
Qed.
Lemma corrected_moved c t g : length (cmd_joints c) = JOINTS_DOF_NUMBER -> sized ROOT_PLANAR g -> moved c t g (corrected c t g).
Proof.
  intros LC SZ. split; [apply corrected_sized; assumption|]. do 3 (split; [reflexivity|]). intros j. unfold angle, angle_in.
  apply corrected_joint; [exact LC|apply SZ|apply joint_id_lt].
Qed.
Theorem correct_ok (eig : m3 -> euler_type -> v3) (f : features) (fk : list R -> rb) (m : ikmodel) (g : gcoord) (c : command) (t : R) :
  kinematics f fk -> reachable eig f fk m -> sized f g ->
  (t <= 0 -> correct eig f fk c t m = Ok m /\ exists m', correct_state eig f fk g c t m = Ok m' /\ ik_gc m' = g /\ reachable eig f fk m') /\
  (0 < t -> f <> ROOT_PLANAR \/ length (cmd_joints c) <> JOINTS_DOF_NUMBER ->
     correct eig f fk c t m = Throw /\ correct_state eig f fk g c t m = Throw) /\
  (0 < t -> f = ROOT_PLANAR -> length (cmd_joints c) = JOINTS_DOF_NUMBER ->
     (exists m', correct eig f fk c t m = Ok m' /\ reachable eig f fk m' /\ moved c t (ik_gc m) (ik_gc m')) /\
     (exists m', correct_state eig f fk g c t m = Ok m' /\ reachable eig f fk m' /\ moved c t g (ik_gc m'))).
Proof.
  intros K RC SZ. destruct (reachable_good eig f fk m K RC) as (file & D & GD). pose proof GD as ((SM & _) & _).
  unfold correct_state. rewrite (correct_is eig f fk c t m SM), (correct_is eig f fk c t (ik_set_gc m g)) by exact SZ. cbn [ik_set_gc ik_gc].
  destruct (Rgt_dec t 0) as [T|T].
  - split; [lra|]. split.
    + intros _ [N|N]; [destruct f; (split; [reflexivity|reflexivity]) || congruence|]. apply Nat.eqb_neq in N. rewrite N. destruct f; split; reflexivity.
    + intros _ -> LC. rewrite LC, Nat.eqb_refl. split.
      * destruct (good_update ROOT_PLANAR fk file (corrected c t (ik_gc m)) m K GD) as (m2 & E2 & GD2 & G2 & _); [apply corrected_sized; [exact SM|exact LC]|].
        exists m2. split; [exact E2|]. rewrite G2. split; [|apply corrected_moved; assumption].
        eapply (rc_update eig ROOT_PLANAR fk (corrected c t (ik_gc m)) m m2); [exact RC|apply corrected_sized; assumption|exact E2].
      * destruct (good_update ROOT_PLANAR fk file (corrected c t g) m K GD) as (m2 & E2 & GD2 & G2 & _); [apply corrected_sized; [exact SZ|exact LC]|].
        exists m2. split; [exact E2|]. rewrite G2. split; [|apply corrected_moved; assumption].
        eapply (rc_update eig ROOT_PLANAR fk (corrected c t g) m m2); [exact RC|apply corrected_sized; assumption|exact E2].
  - split; [|split; lra]. intros _. split; [reflexivity|]. destruct (good_update f fk file g m K GD SZ) as (m2 & E2 & _ & G2 & _).
    exists m2. split; [exact E2|]. split; [exact G2|]. exact (rc_update eig f fk g m m2 RC SZ E2).
Qed.
(** a robot which follows a command for its interval, from the saved state *)
Lemma root_list g : sized ROOT_PLANAR g -> asVector g = [root_at g 0; root_at g 1; root_at g 2] ++ gc_joints g.
Proof. intros (L & _). destruct (list3 _ L) as (a & b & c & E). unfold asVector, root_at. rewrite E. reflexivity. Qed.
Lemma error_yaw a b : getRotationErrorAngleAxis (Rz a) (Rz b) = V3 0 0 (sin (b - a)).
Proof. unfold getRotationErrorAngleAxis, Rz, v3scale, v3add, v3cross, m3col; cbn. rewrite sin_minus. f_equal; field. Qed.
Lemma base_pose_root eig fk m : kinematics ROOT_PLANAR fk -> reachable eig ROOT_PLANAR fk m -> base_is_root fk ->
  exists z, getBasePosition m = Ok (V3 (root_at (ik_gc m) 0) (root_at (ik_gc m) 1) z) /\ getBaseOrientation m = Ok (Rz (root_at (ik_gc m) 2)).
Proof.
  intros K RC BR. destruct (reachable_good eig _ fk m K RC) as (file & D & GD). pose proof GD as ((SM & _) & _ & _ & B1 & B2 & _).
  destruct (BR (root_at (ik_gc m) 0) (root_at (ik_gc m) 1) (root_at (ik_gc m) 2) (gc_joints (ik_gc m)) (proj2 SM)) as (z & F). rewrite <- root_list in F by exact SM.
  rewrite (same_linkid _ _ _ (good_same _ fk file m D GD)) in F.
  destruct (tag_pose _ (ik_rbdl m) _ v3zero _ _ (good_tree _ fk file m K GD) (good_updated _ fk file m GD) F) as (A & B & _). exists z.
  unfold getBasePosition, getBaseOrientation. rewrite B1, B2. split; [exact A|exact B].
Qed.
Theorem command_followed (eig : m3 -> euler_type -> v3) (fk : list R -> rb) (m0 m1 m2 m3 : ikmodel) (g : gcoord) (dt : R) (c : command) :
  kinematics ROOT_PLANAR fk -> base_is_root fk -> reachable eig ROOT_PLANAR fk m0 -> sized ROOT_PLANAR g -> 0 < dt ->
  saveCurrentState m0 = Ok m1 -> updateState fk g m1 = Ok m2 -> getRobotCommand dt m2 = Ok c ->
  correct_state eig ROOT_PLANAR fk (ik_gc m0) c dt m2 = Ok m3 ->
  root_at (ik_gc m3) 0 = root_at g 0 /\ root_at (ik_gc m3) 1 = root_at g 1 /\ (forall j, angle ROOT_PLANAR (ik_gc m3) j = angle ROOT_PLANAR g j) /\
  root_at (ik_gc m3) 2 = root_at (ik_gc m0) 2 + sin (root_at g 2 - root_at (ik_gc m0) 2).
Proof.
  intros K BR RC SG DT E1 E2 E3 E4.
  destruct (base_pose_root eig fk m0 K RC BR) as (z0 & P0 & O0).
  destruct (reachable_good eig _ fk m0 K RC) as (file & D & GD). pose proof GD as ((SM & _) & _).
  destruct (good_save _ fk file m0 K D GD) as (m1' & E1' & GD1 & G1 & _ & p0 & o0 & EP0 & EO0 & S1). rewrite E1 in E1'. injection E1' as <-.
  rewrite P0 in EP0. injection EP0 as <-. rewrite O0 in EO0. injection EO0 as <-.
  destruct (good_update _ fk file g m1 K GD1 SG) as (m2' & E2' & GD2 & G2 & S2). rewrite E2 in E2'. injection E2' as <-. rewrite S1 in S2.
  assert (RC1 : reachable eig ROOT_PLANAR fk m1) by exact (rc_save _ _ _ m0 m1 RC E1).
  assert (RC2 : reachable eig ROOT_PLANAR fk m2) by exact (rc_update _ _ _ g m1 m2 RC1 SG E2).
  destruct (base_pose_root eig fk m2 K RC2 BR) as (z2 & P2 & O2).
  destruct (command_ok eig _ fk m2 _ dt K RC2 S2) as (p & o & e & c' & EP & EO & EE & CJ & CI & CB & _ & AL); [lra|].
  rewrite P2 in EP. injection EP as <-. rewrite O2 in EO. injection EO as <-. cbv zeta in AL. rewrite E3 in AL. destruct AL as [(AL & _)|(AL & _)]; [|discriminate]. injection AL as <-.
  cbn [sv_orientation sv_position] in EE, CB. pose proof (error_unique _ _ _ _ EE (error_is _ _)) as ->. rewrite error_yaw in CB. cbn [vx vy vz] in CB.
  rewrite G2 in *.
  destruct (correct_ok eig _ fk m2 (ik_gc m0) c dt K RC2 SM) as (_ & _ & CO).
  destruct (CO DT eq_refl) as (_ & m3' & E4' & _ & MVD); [rewrite CJ; apply SG|]. rewrite E4 in E4'. injection E4' as <-.
  destruct MVD as (_ & X & Y & A & J). rewrite X, Y, A. rewrite CB. cbn [vx vy vz].
  split; [field; lra|]. split; [field; lra|]. split; [|field; lra]. intros j. rewrite J, CJ, CI. unfold angle. field. lra.
Qed.

(** ** C93: the pose of the root, yaw *)
Theorem root_position (f : features) (p : v3) (g : gcoord) : sized f g ->
  (f = ROOT_PLANAR /\ vz p <> 0 -> setRootPosition f p g = Throw) /\
  (f <> ROOT_PLANAR \/ vz p = 0 -> exists g', setRootPosition f p g = Ok g' /\ sized f g' /\ getRootPosition f g' = p /\ gc_joints g' = gc_joints g /\
     forall eig, getRootOrientation eig f g' = getRootOrientation eig f g).
Proof.
  intros (L & LJ). destruct g as [root joints]. cbn [gc_root gc_joints] in *. destruct p as [x y z]. cbn [vz]. split.
  - intros (-> & N). cbn [setRootPosition vz]. destruct (Req_EM_T 0 z); [congruence|reflexivity].
  - intros C. assert (P : f = ROOT_PLANAR -> z = 0) by (destruct C; [contradiction|auto]). destruct f; cbn [ROOT_DOF_NUMBER] in L.
    1,2: do 7 (destruct root as [|? root]; try discriminate); eexists; split; [reflexivity|]; (split; [split; [reflexivity|exact LJ]|]); (split; [reflexivity|]); split; reflexivity.
    rewrite (P eq_refl). do 4 (destruct root as [|? root]; try discriminate). cbn [setRootPosition vz]. destruct (Req_EM_T 0 0); [|contradiction].
    eexists. split; [reflexivity|]. split; [split; [reflexivity|exact LJ]|]. split; [reflexivity|]. split; reflexivity.
Qed.
Theorem root_orientation (eig : m3 -> euler_type -> v3) (f : features) (rpy : v3) (g : gcoord) : documented_eulerAngles eig -> sized f g ->
  (f = ROOT_PLANAR /\ (vx rpy <> 0 \/ vy rpy <> 0) -> setRootOrientation eig f rpy g = Throw) /\
  (f <> ROOT_PLANAR \/ (vx rpy = 0 /\ vy rpy = 0) ->
     exists g' rpy', setRootOrientation eig f rpy g = Ok g' /\ sized f g' /\ gc_joints g' = gc_joints g /\ getRootPosition f g' = getRootPosition f g /\
       getRootOrientation eig f g' = Ok rpy' /\ rotation_zyx rpy' = rotation_zyx rpy /\ (f = ROOT_PLANAR -> rpy' = rpy)).
Proof.
  intros D (L & LJ). destruct g as [root joints]. cbn [gc_root gc_joints] in *. split.
  - intros (-> & N). cbn [setRootOrientation]. destruct (Req_EM_T 0 (vx rpy)); [|reflexivity]. destruct (Req_EM_T 0 (vy rpy)); [|reflexivity]. destruct N; congruence.
  - intros C.
    assert (NP : f <> ROOT_PLANAR -> exists e rpy', convertEulerAngles eig rpy RPY YPR = Ok e /\ convertEulerAngles eig e YPR RPY = Ok rpy' /\ rotation_zyx rpy' = rotation_zyx rpy).
    { intros _. destruct (euler_converted eig rpy RPY YPR D) as (_ & A). destruct A as (e & r & A1 & A2 & A3); [discriminate..|].
      destruct (euler_converted eig e YPR RPY D) as (_ & B). destruct B as (rpy' & r' & B1 & B2 & B3); [discriminate..|]. exists e, rpy'. split; [exact A1|]. split; [exact B1|].
      rewrite (proj1 (euler_to_matrix rpy)) in A2. rewrite A3 in B2. rewrite (proj1 (euler_to_matrix rpy')) in B3. congruence. }
    destruct f; cbn [ROOT_DOF_NUMBER] in L.
    1,2: do 7 (destruct root as [|? root]; try discriminate); destruct NP as ([ex ey ez] & rpy' & A & B & E); [discriminate|]; cbn [setRootOrientation]; rewrite A; cbn [bind];
      eexists; exists rpy'; (split; [reflexivity|]); (split; [split; [reflexivity|exact LJ]|]); (split; [reflexivity|]); (split; [reflexivity|]);
      (split; [exact B|]); split; [exact E|discriminate].
    destruct C as [C|(C1 & C2)]; [contradiction|]. do 4 (destruct root as [|? root]; try discriminate). cbn [setRootOrientation]. rewrite C1, C2. destruct (Req_EM_T 0 0); [|contradiction].
    eexists. exists rpy. split; [reflexivity|]. split; [split; [reflexivity|exact LJ]|]. split; [reflexivity|]. split; [reflexivity|].
    split; [|split; [reflexivity|reflexivity]]. cbn. unfold root_at; cbn. destruct rpy; cbn in *. congruence.
Qed.
(** angles returned by the library are never negative *)
Lemma no_negative_yaw y (k : Z) : 0 <= y <= PI -> y <> - (1 / 2) + 2 * PI * IZR k.
Proof.
  intros B H. pose proof PI2_3_2. pose proof PI_4. destruct (Z_le_gt_dec k 0) as [L|L].
  - assert (IZR k <= 0) by (apply IZR_le; exact L). nra.
  - assert (1 <= IZR k) by (apply IZR_le; lia). nra.
Qed.
Theorem root_yaw_changed (eig : m3 -> euler_type -> v3) (g : gcoord) : documented_eulerAngles eig -> sized ROOT_TIBIA g ->
  exists g' rpy, setRootOrientation eig ROOT_TIBIA (V3 0 0 (- (1 / 2))) g = Ok g' /\ getRootOrientation eig ROOT_TIBIA g' = Ok rpy /\
    forall k : Z, vz rpy <> - (1 / 2) + 2 * PI * IZR k.
Proof.
  intros D SZ. destruct (root_orientation eig ROOT_TIBIA (V3 0 0 (- (1 / 2))) g D SZ) as (_ & A). destruct A as (g' & rpy & A & _ & _ & _ & B & _); [left; discriminate|].
  exists g', rpy. split; [exact A|]. split; [exact B|]. intros k. apply no_negative_yaw. cbn [getRootOrientation] in B. unfold convertEulerAngles in B.
  rewrite (proj2 (euler_to_matrix _)) in B. cbn [bind] in B.
  destruct (matrix_to_euler eig _ D (xyz_rotation (V3 (root_at g' 3) (root_at g' 4) (root_at g' 5)))) as ((e & E & _ & R & _) & _). rewrite E in B. injection B as <-. exact R.
Qed.
Theorem base_yaw (eig : m3 -> euler_type -> v3) (m : ikmodel) (a : R) : documented_eulerAngles eig ->
  getBaseOrientation m = Ok (Rz a) -> 0 < a < PI -> getBaseYaw eig m = Ok a.
Proof.
  intros D E A. unfold getBaseYaw. rewrite E. cbn [bind].
  destruct (matrix_to_euler eig (Rz a) D (rotZ a)) as ((e & EE & EZ & R & _) & _). rewrite EE. cbn [bind]. f_equal. apply (zyx_upright e a EZ R A).
Qed.
Theorem base_yaw_negative (eig : m3 -> euler_type -> v3) (m : ikmodel) : documented_eulerAngles eig -> getBaseOrientation m = Ok (Rz (- (1 / 2))) ->
  exists y, getBaseYaw eig m = Ok y /\ forall k : Z, y <> - (1 / 2) + 2 * PI * IZR k.
Proof.
  intros D E. unfold getBaseYaw. rewrite E. cbn [bind]. destruct (matrix_to_euler eig (Rz (- (1 / 2))) D (rotZ _)) as ((e & EE & _ & R & _) & _).
  rewrite EE. cbn [bind]. eexists. split; [reflexivity|]. intros k. apply no_negative_yaw, R.
Qed.
Lemma frame_rotation l id O o : tree l -> frame l id O o -> rotation O.
Proof.
  intros (_ & _ & _ & _ & _ & RX & _ & _ & _ & _ & _ & RF) F. induction F as [id x M E|id p x O o (B & E) M F IH].
  - apply rotation_trans, (RX _ _ E).
  - apply rotation_mul; [exact IH|]. apply rotation_trans. apply (RF _ _ _ E).
Qed.
Theorem tag_poses (eig : m3 -> euler_type -> v3) (l : rb) (r : rmodel) (id : nat) (p : v3) (O : m3) (o : v3) : documented_eulerAngles eig ->
  tree l -> updated l r -> frame l id O o ->
  exists e, rotation_zyx e = O /\ getTagPose_link eig r id = Ok (o, e) /\ getTagPose_point eig r (id, p) = Ok (v3add o (m3app O p), e).
Proof.
  intros D T U F. destruct (tag_pose l r id p O o T U F) as (A & B & C & _).
  pose proof (frame_rotation l id O o T F) as RO.
  destruct (matrix_to_euler eig O D RO) as ((e & EE & EZ & _) & _). exists e. split; [exact EZ|].
  unfold position_link, orientation_link in A, B. unfold getTagPose_link, getTagPose_point. cbn [fst snd].
  destruct (getLinkTransform (rm_lib r) id) as [x| |]; cbn [bind] in A, B; [|discriminate|discriminate]. injection A as A. injection B as B. cbn [bind].
  rewrite B, EE. cbn [bind]. rewrite A. split; [reflexivity|]. f_equal. f_equal. unfold v3add; cbn. f_equal; ring.
Qed.

(** ** C91: desired poses *)
Lemma find_set name name' v l : tag_find name (tag_set name' v l) = if String.eqb name name' then Some v else tag_find name l.
Proof.
  induction l as [|(k, u) l IH]; cbn [tag_set tag_find].
  - destruct (String.eqb name name'); reflexivity.
  - destruct (String.eqb_spec name' k) as [->|N]; cbn [tag_find].
    + destruct (String.eqb name k); reflexivity.
    + rewrite IH. destruct (String.eqb_spec name k) as [->|N2]; [|reflexivity]. destruct (String.eqb_spec k name'); [congruence|reflexivity].
Qed.
Lemma find_in name v l : tag_find name l = Some v -> In name (map fst l).
Proof. induction l as [|(k, u) l IH]; cbn; [discriminate|]. destruct (String.eqb_spec name k) as [->|N]; auto. Qed.
Lemma in_find name l : In name (map fst l) -> tag_find name l <> None.
Proof. induction l as [|(k, u) l IH]; cbn; [tauto|]. intros [->|H]; [rewrite String.eqb_refl; discriminate|]. destruct (String.eqb name k); [discriminate|auto]. Qed.
Lemma integrate_zero O dt : integrateAngularVelocity O v3zero dt = O.
Proof. destruct O. unfold integrateAngularVelocity, cross_multiplyLeft, cross_eval, m3add, m3scale, m3mul, v3zero; cbn. f_equal; ring. Qed.
Lemma no_turn P O l : v3add (v3cross P (m3app O v3zero)) (m3app O l) = m3app O l.
Proof. unfold m3app, v3zero, v3cross, v3add; cbn. f_equal; ring. Qed.
Theorem desired_poses (eig : m3 -> euler_type -> v3) (f : features) (fk : list R -> rb) (m : ikmodel) (w : wbc) : documented_eulerAngles eig ->
  kinematics f fk -> reachable eig f fk m -> (forall name, In name (map fst (w_velocity w)) -> has_link fk m name) ->
  exists w', computeTagsDesiredPoseInGlobal eig m w = Ok w' /\ w_structure w' = w_structure w /\ w_motion w' = w_motion w /\ w_velocity w' = w_velocity w /\
    (forall name, tag_find name (w_velocity w) = None -> tag_find name (w_pose w') = tag_find name (w_pose w)) /\
    forall name l a, tag_find name (w_velocity w) = Some (l, a) ->
      exists P O rpy, getTagPosition m (ik_getLinkTag m name) = Ok P /\ getTagOrientation m (ik_getLinkTag m name) = Ok O /\
        tag_find name (w_pose w') = Some (rpy, v3add P (v3scale (w_dt w) (v3add (v3cross P (m3app O a)) (m3app O l)))) /\
        (a = v3zero -> rotation_zyx rpy = O /\ tag_find name (w_pose w') = Some (rpy, v3add P (v3scale (w_dt w) (m3app O l)))).
Proof.
  intros D K RC HL. destruct (reachable_good eig f fk m K RC) as (file & DS & GD).
  set (pose := fun name => let id := ik_getLinkTag m name in let O := link_O (fk (asVector (ik_gc m))) id in let P := link_o (fk (asVector (ik_gc m))) id in
    let v := getTagVelocityInLocal w name in
    (v3reverse (eig (integrateAngularVelocity O (snd v) (w_dt w)) RPY), v3add P (v3scale (w_dt w) (v3add (v3cross P (m3app O (snd v))) (m3app O (fst v)))))).
  assert (LP : forall name, In name (map fst (w_velocity w)) ->
    getTagPosition m (ik_getLinkTag m name) = Ok (link_o (fk (asVector (ik_gc m))) (ik_getLinkTag m name)) /\
    getTagOrientation m (ik_getLinkTag m name) = Ok (link_O (fk (asVector (ik_gc m))) (ik_getLinkTag m name))).
  { intros name I. specialize (HL name I). unfold has_link in HL. rewrite <- (tag_id f fk file m _ K GD) in HL.
    destruct (link_pose _ _ _ (good_tree f fk file m K GD) (good_updated f fk file m GD) HL) as (A & B & _). split; assumption. }
  assert (FO : forall (L : list (string * (v3 * v3))) (acc : list (string * (v3 * v3))), (forall n, In n (map fst L) -> In n (map fst (w_velocity w))) -> exists ps,
    fold_left (fun acc e => bind acc (fun poses =>
      let name := fst e in
      bind (getTagOrientation m (ik_getLinkTag m name)) (fun o =>
      bind (convertMatrixToEulerAngles eig (integrateAngularVelocity o (snd (getTagVelocityInLocal w name)) (w_dt w)) RPY) (fun rpy =>
      bind (getTagPosition m (ik_getLinkTag m name)) (fun p =>
      bind (getTagVelocityInGlobal_translation m name (getTagVelocityInLocal w name)) (fun v =>
        Ok (tag_set name (rpy, v3add p (v3scale (w_dt w) v)) poses)))))))
    L (Ok acc) = Ok ps /\ forall n, tag_find n ps = if in_dec String.string_dec n (map fst L) then Some (pose n) else tag_find n acc).
  { induction L as [|(name, v) L IH]; intros acc SUB; [exists acc; split; [reflexivity|intros n; destruct (in_dec _ n _) as [[]|]; reflexivity]|].
    destruct (LP name) as (EP & EO); [apply SUB; left; reflexivity|]. cbn [fold_left fst]. cbn [bind]. unfold getTagVelocityInGlobal_translation. rewrite EO, EP. cbn [bind convertMatrixToEulerAngles].
    destruct (IH (tag_set name (pose name) acc)) as (ps & E & F); [intros n Hn; apply SUB; right; exact Hn|]. exists ps. split; [exact E|].
    intros n. rewrite F, find_set. cbn [map fst]. destruct (in_dec String.string_dec n (map fst L)) as [I|I], (in_dec String.string_dec n (name :: map fst L)) as [J|J]; try reflexivity.
    - exfalso. apply J. right. exact I.
    - destruct (String.eqb_spec n name) as [->|N]; [reflexivity|]. destruct J as [J|J]; [congruence|contradiction].
    - destruct (String.eqb_spec n name) as [->|N]; [exfalso; apply J; left; reflexivity|reflexivity]. }
  destruct (FO (w_velocity w) (w_pose w)) as (ps & E & F); [auto|]. 
  exists (mkWbc (w_parsed w) (w_dt w) (w_motion w) (w_velocity w) ps (w_structure w)).
  assert (EQ : computeTagsDesiredPoseInGlobal eig m w = bind (Ok ps) (fun poses => Ok (mkWbc (w_parsed w) (w_dt w) (w_motion w) (w_velocity w) poses (w_structure w)))) by (rewrite <- E; reflexivity).
  split; [exact EQ|].
  cbn [w_structure w_motion w_velocity w_pose]. do 3 (split; [reflexivity|]). split.
  - intros name N. rewrite F. destruct (in_dec _ name _) as [I|I]; [|reflexivity]. exfalso. exact (in_find _ _ I N).
  - intros name l a N. pose proof (find_in _ _ _ N) as I. destruct (LP name I) as (EP & EO). rewrite F. destruct (in_dec _ name _) as [_|J]; [|contradiction].
    assert (V : getTagVelocityInLocal w name = (l, a)) by (unfold getTagVelocityInLocal; rewrite N; reflexivity).
    eexists. eexists. eexists. split; [exact EP|]. split; [exact EO|]. unfold pose. rewrite V. cbn [fst snd]. split; [reflexivity|]. intros ->.
    set (O := link_O _ _). set (P := link_o _ _).
    assert (RO : rotation O).
    { specialize (HL name I). unfold has_link in HL. rewrite <- (tag_id f fk file m _ K GD) in HL.
      apply (frame_rotation _ _ _ _ (good_tree f fk file m K GD) (link_frame _ (good_tree f fk file m K GD) _ HL)). }
    assert (IO : integrateAngularVelocity O v3zero (w_dt w) = O) by apply integrate_zero.
    rewrite IO. destruct (D O RO) as (A & _). split; [exact A|]. rewrite no_turn. reflexivity.
Qed.
(** the errors which are reported by getStateError() *)
Theorem state_error (eig : m3 -> euler_type -> v3) (f : features) (fk : list R -> rb) (mp : motion_parameters) (m : ikmodel) :
  kinematics f fk -> reachable eig f fk m ->
  exists b p o e, getBaseCoM m = Ok b /\ getBodyCoM m = Ok p /\ getBaseOrientation m = Ok o /\ orientation_error o (rotation_zyx (mp_base_rpy mp)) e /\
    getStateError mp m = Ok (mkMP (v3sub (mp_base_com mp) b) (v3sub (mp_body_com mp) p) e).
Proof.
  intros K RC. destruct (reachable_good eig f fk m K RC) as (file & D & GD). pose proof GD as (_ & EB & EC & _).
  destruct (base_names file f fk D) as (NE & FN). destruct (com_jacobians f fk file m K D GD _ (ik_base_com m) (mzero 0 0) NE FN EB) as (_ & b & _ & _ & _ & Eb & _).
  destruct (body_names file f fk D) as (NE' & FN'). destruct (com_jacobians f fk file m K D GD _ (ik_body_com m) (mzero 0 0) NE' FN' EC) as (_ & p & _ & _ & _ & Ep & _).
  destruct (good_save f fk file m K D GD) as (_ & _ & _ & _ & _ & _ & o & _ & EO & _).
  exists b, p, o, (getRotationErrorAngleAxis o (rotation_zyx (mp_base_rpy mp))). do 3 (split; [assumption|]). split; [apply error_is|].
  unfold getStateError. unfold getBaseCoM, getBodyCoM. rewrite Eb, Ep. cbn [bind]. rewrite EO. cbn [bind]. rewrite rpy_ok. reflexivity.
Qed.
