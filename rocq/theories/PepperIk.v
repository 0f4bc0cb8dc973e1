(** * The Pepper inverse kinematics module (/repo/modules/pepper_ik/include/pepper_ik): description of the robot, its state, the model,
    the controller and the tasks.

    Doubles are real numbers, so that the checks for NaN are not modelled. Vectors of a constant size are lists. [junk] are the
    contents of a vector before its elements are assigned. Forward kinematics is computed by RBDL: [fk] maps generalized coordinates to
    the model of the library after its update (see Rbdl.v). *)
From Coq Require Import String List Reals Arith Bool ZArith.
From Verif Require Import Base Mat3 RSum Matrix ConstraintType Constraints Solution Condense SpatialTransform Rotary Rbdl PepperMpc.
Import ListNotations.
Local Open Scope R_scope.

(** ** Description of the robot (model_description.h) *)

(** model_description.h:21-41: the three models, all with FIXED_WHEELS *)
Inductive features := ROOT_TORSO | ROOT_TIBIA | ROOT_PLANAR.
(** model_description.h:462-486, 647-671, 826-850: names of the joints *)
Inductive joint :=
| HeadYaw | HeadPitch | HipRoll | HipPitch | KneePitch
| LShoulderPitch | LShoulderRoll | LElbowYaw | LElbowRoll | LWristYaw
| RShoulderPitch | RShoulderRoll | RElbowYaw | RElbowRoll | RWristYaw.
(** model_description.h:462-481 (torso), 647-666, 826-845 (tibia, planar) *)
Definition joint_id (f : features) (j : joint) : nat :=
  match j with
  | LShoulderPitch => 5 | LShoulderRoll => 6 | LElbowYaw => 7 | LElbowRoll => 8 | LWristYaw => 9
  | RShoulderPitch => 10 | RShoulderRoll => 11 | RElbowYaw => 12 | RElbowRoll => 13 | RWristYaw => 14
  | _ =>
    match f, j with
    | ROOT_TORSO, HeadYaw => 0 | ROOT_TORSO, HeadPitch => 1 | ROOT_TORSO, HipRoll => 2 | ROOT_TORSO, HipPitch => 3 | ROOT_TORSO, _ => 4
    | _, KneePitch => 0 | _, HipPitch => 1 | _, HipRoll => 2 | _, HeadYaw => 3 | _, _ => 4
    end
  end%nat.
(** model_description.h:483-485, 668-670, 847-849 *)
Definition JOINTS_DOF_NUMBER : nat := 15.
(** model_description.h:455, 640, 819 *)
Definition ROOT_DOF_NUMBER (f : features) : nat := match f with ROOT_PLANAR => 3 | _ => 6 end%nat.
(** model_description.h:483-485, 668-670, 847-849 *)
Definition DOF_NUMBER (f : features) : nat := (ROOT_DOF_NUMBER f + JOINTS_DOF_NUMBER)%nat.

(** assignments [v(ModelDescription<t_features>::Joint) = value] one after another (model_description.h:312-326, 355-373, 497-504) *)
Definition assign (f : features) (l : list (joint * R)) (v : list R) : list R :=
  fold_left (fun v p => update v (joint_id f (fst p)) (snd p)) l v.
(** a vector of JOINTS_DOF_NUMBER elements which are not initialized (model_description.h:308-311, 355-373) *)
Definition unassigned (junk : nat -> R) : list R := map junk (seq 0 JOINTS_DOF_NUMBER).

(** model_description.h:312-326 *)
Definition min_bounds_table : list (joint * R) :=
  [(KneePitch, -0.514872); (HipPitch, -1.03847); (HipRoll, -0.514872); (HeadYaw, -2.08566999999999991); (HeadPitch, -0.70685799999999999);
   (LShoulderPitch, -2.08566999999999991); (LShoulderRoll, 0.00872665); (LElbowYaw, -2.08566999999999991); (LElbowRoll, -1.56207000000000007);
   (LWristYaw, -1.82387000000000010); (RShoulderPitch, -2.08566999999999991); (RShoulderRoll, -1.56207000000000007);
   (RElbowYaw, -2.08566999999999991); (RElbowRoll, 0.00872665); (RWristYaw, -1.82387000000000010)].
(** model_description.h:328-342 *)
Definition max_bounds_table : list (joint * R) :=
  [(KneePitch, 0.514872); (HipPitch, 1.03847); (HipRoll, 0.514872); (HeadYaw, 2.08566999999999991); (HeadPitch, 0.63704499999999997);
   (LShoulderPitch, 2.08566999999999991); (LShoulderRoll, 1.56207000000000007); (LElbowYaw, 2.08566999999999991); (LElbowRoll, -0.00872665);
   (LWristYaw, 1.82387000000000010); (RShoulderPitch, 2.08566999999999991); (RShoulderRoll, -0.00872665);
   (RElbowYaw, 2.08566999999999991); (RElbowRoll, 1.56207000000000007); (RWristYaw, 1.82387000000000010)].
(** model_description.h:308-343 *)
Definition getJointPositionBounds (junk : nat -> nat -> R) (f : features) : list R * list R :=
  (assign f min_bounds_table (unassigned (junk 0%nat)), assign f max_bounds_table (unassigned (junk 1%nat))).
(** model_description.h:355-373 *)
Definition velocity_bounds_table : list (joint * R) :=
  [(KneePitch, 2.93276); (HipPitch, 2.93276); (HipRoll, 2.27032); (HeadYaw, 7.33998); (HeadPitch, 9.22756);
   (LShoulderPitch, 7.33998); (LShoulderRoll, 9.22756); (LElbowYaw, 7.33998); (LElbowRoll, 9.22756); (LWristYaw, 17.3835);
   (RShoulderPitch, 7.33998); (RShoulderRoll, 9.22756); (RElbowYaw, 7.33998); (RElbowRoll, 9.22756); (RWristYaw, 17.3835)].
(** model_description.h:355-373 *)
Definition getJointVelocityBounds (junk : nat -> R) (f : features) : list R := assign f velocity_bounds_table (unassigned junk).
(** model_description.h:407-424 *)
Definition default_angles_table : list (joint * R) :=
  [(KneePitch, -0.1975011835036236); (HipPitch, 0.4160023626190753); (HipRoll, 0); (HeadYaw, 0); (HeadPitch, 0.06850114982656237);
   (LShoulderPitch, 1.639454123287812); (LShoulderRoll, 0.12); (LElbowYaw, -1.2217007); (LElbowRoll, -0.52345699); (LWristYaw, 0);
   (RShoulderPitch, 1.639454123287804); (RShoulderRoll, -0.12); (RElbowYaw, 1.2217007); (RElbowRoll, 0.52345699); (RWristYaw, 0)].
(** model_description.h:383-425 *)
Definition getDefaultJointAngles (junk : nat -> R) (f : features) : list R := assign f default_angles_table (unassigned junk).

(** model_description.h:252-280; [nan] is the value written by unsetMatrix(); col() asserts the index *)
Definition reorderJointsColumns (nan : R) (f_out f_in : features) (M : mat) : outcome mat :=
  fold_left (fun r j => bind r (fun r =>
      assert_then (ROOT_DOF_NUMBER f_in + joint_id f_in j <? mcols M)%nat
        (Ok (mkMat (mrows r) (mcols r) (fun i c =>
               if (c =? ROOT_DOF_NUMBER f_out + joint_id f_out j)%nat then mget M i (ROOT_DOF_NUMBER f_in + joint_id f_in j) else mget r i c)))))
    [KneePitch; HipPitch; HipRoll; HeadYaw; HeadPitch; LShoulderPitch; LShoulderRoll; LElbowYaw; LElbowRoll; LWristYaw;
     RShoulderPitch; RShoulderRoll; RElbowYaw; RElbowRoll; RWristYaw]
    (Ok (mkMat (mrows M) (DOF_NUMBER f_out) (fun _ _ => nan))).

(** ** State (generalized_coordinates.h) *)

(** generalized_coordinates.h:53-54 *)
Record gcoord := mkGC { gc_root : list R; gc_joints : list R }.
(** model_description.h:497-504, 683-688, 862-869; generalized_coordinates.h:61-64 *)
Definition gc_default (junk : nat -> R) (f : features) : gcoord :=
  mkGC match f with
       | ROOT_TORSO => [0.0135554392293566; 0; 0.819715156461154; 0; 0.05; 0]
       | ROOT_TIBIA => [0; 0; 0; 0; 0; 0]
       | ROOT_PLANAR => [0; 0; 0]
       end (getDefaultJointAngles junk f).
(** generalized_coordinates.h:118-124 *)
Definition asVector (g : gcoord) : list R := gc_root g ++ gc_joints g.

(** ** Bounds (model.h:126-259) *)
Record ik_limits := mkLimits { il_min : list R; il_max : list R; il_vel : list R; il_wheels : v3; il_tol : R }.
(** model.h:140-150; model_description.h:290-293 *)
Definition limits_new (junk : nat -> nat -> R) (f : features) : ik_limits :=
  mkLimits (fst (getJointPositionBounds junk f)) (snd (getJointPositionBounds junk f)) (getJointVelocityBounds (junk 2%nat) f)
           (V3 6.28319 6.28319 6.28319) 1e-7.
(** model.h:158-196 *)
Definition checkJointPositions (c : ik_limits) (q : list R) : outcome unit :=
  for_up (length q) 0 (fun i _ =>
    bind (read_at q i) (fun value => bind (read_at (il_min c) i) (fun lo => bind (read_at (il_max c) i) (fun hi =>
      if Rlt_dec value (lo - il_tol c) then Throw else if Rgt_dec value (hi + il_tol c) then Throw else Ok tt)))) tt.
(** model.h:206-223 *)
Definition checkJointVelocities (c : ik_limits) (from to : list R) (dt : R) : outcome unit :=
  for_up (length from) 0 (fun i _ =>
    bind (read_at to i) (fun b => bind (read_at from i) (fun a => bind (read_at (il_vel c) i) (fun bound =>
      if Rgt_dec (Rabs (b - a) / dt) bound then Throw else Ok tt)))) tt.
(** model.h:231-258 *)
Definition checkWheelVelocities (c : ik_limits) (v : v3) : outcome unit :=
  let bad x m := if Rlt_dec x (- m) then true else if Rgt_dec x m then true else false in
  if bad (vx v) (vx (il_wheels c)) || bad (vy v) (vy (il_wheels c)) || bad (vz v) (vz (il_wheels c)) then Throw else Ok tt.

(** ** Model (model.h) *)

(** model.h:60-75 *)
Record saved_state := mkSaved { sv_position : v3; sv_orientation : m3; sv_gc : gcoord }.
(** model.h:78-89, 262-264; [ik_saved] is None if the saved state is not initialized *)
Record ikmodel := mkIK {
  ik_base_com : tag_partial; ik_body_com : tag_partial; ik_base_orientation : tag_link; ik_base_position : tag_link;
  ik_wheels : m3; ik_saved : option saved_state; ik_gc : gcoord; ik_rbdl : rmodel; ik_constraints : ik_limits }.
(** generalized_coordinates_ = g; rbdl_model_ = r (model.h:126-259) *)
Definition ik_set_gc (m : ikmodel) (g : gcoord) : ikmodel :=
  mkIK (ik_base_com m) (ik_body_com m) (ik_base_orientation m) (ik_base_position m) (ik_wheels m) (ik_saved m) g (ik_rbdl m) (ik_constraints m).
(** rbdl_model_ = r, model.h:126-259 *)
Definition ik_set_rbdl (m : ikmodel) (r : rmodel) : ikmodel :=
  mkIK (ik_base_com m) (ik_body_com m) (ik_base_orientation m) (ik_base_position m) (ik_wheels m) (ik_saved m) (ik_gc m) r (ik_constraints m).
(** rbdl_model_.update(generalized_coordinates_.asVector()) (model.h:126-259) *)
Definition ik_refresh (fk : list R -> rb) (m : ikmodel) : outcome ikmodel :=
  bind (rm_update (fk (asVector (ik_gc m))) (ik_rbdl m)) (fun r => Ok (ik_set_rbdl m r)).
(** model_description.h:83-93, 100-157: links of the base and of the upper body *)
Definition getBaseLinksStringIds : list string := ["Tibia"%string].
(** model_description.h:100-157 *)
Definition getBodyLinksStringIds : list string :=
  ["Head"; "Hip"; "LBicep"; "LElbow"; "LForeArm"; "LShoulder"; "Neck"; "Pelvis"; "RBicep"; "RElbow"; "RForeArm"; "RShoulder";
   "l_wrist"; "r_wrist"; "torso"]%string.
(** model_description.h:165-179 *)
Definition getBaseOrientationLinkStringId : string := "base_footprint".
(** model_description.h:176-179 *)
Definition getBasePositionLinkStringId : string := "base_footprint".
(** model_description.h:188-241; [g_pi] is a literal (constants.h:18) *)
Definition g_pi : R := 3.14159265358979323846.
(** one of the three wheels, model_description.h:188-241 *)
Definition wheel_transform (position rpy : v3) : outcome v3 :=
  bind (convertEulerAnglesToMatrix rpy RPY) (fun o =>
    let tangent := v3opp (m3col o 1) in
    Ok (v3scale (/ 0.07) (V3 (vx tangent) (vy tangent) (- v3dot tangent (v3cross position (V3 0 0 1)))))).
(** model_description.h:188-241 *)
Definition getRootMotionToWheelsTransform : outcome m3 :=
  bind (wheel_transform (V3 0.09 0.155 0) (V3 0 0 1.07519348146676)) (fun fl =>
  bind (wheel_transform (V3 0.09 (-0.155) 0) (V3 0 0 (-1.07519348146676))) (fun fr =>
  bind (wheel_transform (V3 (-0.17) 0 0) (V3 0 0 (- g_pi))) (fun back =>
    Ok (M3 (vx fl) (vy fl) (vz fl) (vx fr) (vy fr) (vz fr) (vx back) (vy back) (vz back))))).
(** model.h:274-296 with 96-118; [lib] is what is read from the file, None if reading fails *)
Definition ik_load (junk : nat -> joint_data) (f : features) (lib : option rb) (fk : list R -> rb) (m : ikmodel) : outcome ikmodel :=
  bind (rm_load junk lib (ik_rbdl m)) (fun r =>
  assert_then (DOF_NUMBER f =? getDOFNumber r)%nat
    (let orientation := getLinkTag (rm_lib r) getBaseOrientationLinkStringId in
     let position := getLinkTag (rm_lib r) getBasePositionLinkStringId in
     bind (getCoMTag (rm_lib r) getBaseLinksStringIds) (fun base =>
     bind (getCoMTag (rm_lib r) getBodyLinksStringIds) (fun body =>
     bind getRootMotionToWheelsTransform (fun wheels =>
       ik_refresh fk (mkIK base body orientation position wheels (ik_saved m) (ik_gc m) r (ik_constraints m))))))).
(** model.h:717-725 *)
Definition updateState (fk : list R -> rb) (g : gcoord) (m : ikmodel) : outcome ikmodel := ik_refresh fk (ik_set_gc m g).
(** model.h:643-646 *)
Definition checkCurrentState (m : ikmodel) : outcome unit := checkJointPositions (ik_constraints m) (gc_joints (ik_gc m)).

(** ** Controller (whole_body_controller.h, common.h) *)

(** common.h:18-20 *)
Definition ROOT_VARIABLES_ID : string := "root_vel".
(** common.h:20 *)
Definition JOINTS_VARIABLES_ID : string := "joints_vel".
(** common.h:83-87 *)
Record motion_parameters := mkMP { mp_base_com : v3; mp_body_com : v3; mp_base_rpy : v3 }.
(** whole_body_controller.h:24-31, wbc_parameters_.control_interval_, sol_structure_; vectors of 6 elements are pairs (head, tail) *)
Record wbc := mkWbc {
  w_parsed : bool; w_dt : R; w_motion : motion_parameters; w_velocity : list (string * (v3 * v3)); w_pose : list (string * (v3 * v3));
  w_structure : structure }.
(** whole_body_controller.h:245-261 *)
Definition wbc_update (f : features) (mp : motion_parameters) (w : wbc) : wbc :=
  mkWbc false (w_dt w) mp (w_velocity w) (w_pose w)
    (addSolutionPart (addSolutionPart structure_reset ROOT_VARIABLES_ID (ROOT_DOF_NUMBER f)) JOINTS_VARIABLES_ID JOINTS_DOF_NUMBER).
(** [a += b] for vectors; Eigen asserts equal sizes (whole_body_controller.h:280-295) *)
Definition ladd_o (a b : list R) : outcome (list R) :=
  assert_then (length a =? length b)%nat (Ok (map (fun p => fst p + snd p) (combine a b))).
(** whole_body_controller.h:280-295, 265-268 *)
Definition getNextGeneralizedCoordinates (sol : solution) (m : ikmodel) (w : wbc) : outcome (gcoord * wbc) :=
  assert_then (negb (w_parsed w))
    (bind (getSolutionPart sol ROOT_VARIABLES_ID) (fun r =>
     bind (ladd_o (gc_root (ik_gc m)) r) (fun root =>
     bind (getSolutionPart sol JOINTS_VARIABLES_ID) (fun q =>
     bind (ladd_o (gc_joints (ik_gc m)) q) (fun joints =>
     Ok (mkGC root joints, mkWbc true (w_dt w) (w_motion w) (w_velocity w) (w_pose w) (w_structure w))))))).

(** ** Tasks of joints *)

(** [a - b] for vectors of the same size (task_jointsbounds.h:29-55) *)
Definition lsub (a b : list R) : list R := map (fun p => fst p - snd p) (combine a b).
(** [for (i = 0; i < n; ++i) I[i] = off + i], I of the size n *)
Definition consecutive (off n : nat) : list nat := map (fun i => (off + i)%nat) (seq 0 n).
(** task_jointsbounds.h:29-55 (class ILU) *)
Definition form_jointsBounds (st : structure) (m : ikmodel) : constr :=
  let loc := getSolutionPartLocation st JOINTS_VARIABLES_ID in
  mkConstr (Solution.getNumberOfVariables st) (BodyI (consecutive (offset loc) (len loc)))
    (BoundsLU (vec_of_list (lsub (il_min (ik_constraints m)) (gc_joints (ik_gc m))))
              (vec_of_list (lsub (il_max (ik_constraints m)) (gc_joints (ik_gc m))))).
(** task_jointsref.h:73-96 (class GIB); task_jointsref.h:64-69: the reference of a new task *)
Definition form_jointsReference (gain k : R) (reference : list R) (st : structure) (m : ikmodel) : constr :=
  let loc := getSolutionPartLocation st JOINTS_VARIABLES_ID in
  mkConstr (Solution.getNumberOfVariables st) (BodyGI (consecutive (offset loc) (len loc)) (vconst (len loc) gain))
    (BoundsB (vec_of_list (map (fun d => k * gain * d) (lsub reference (gc_joints (ik_gc m)))))).
(** task_fixarms.h:34-55 (class IB0) *)
Definition form_fixArms (f : features) (st : structure) : constr :=
  let loc := getSolutionPartLocation st JOINTS_VARIABLES_ID in
  mkConstr (Solution.getNumberOfVariables st)
    (BodyI (map (fun j => (offset loc + joint_id f j)%nat)
       [LShoulderPitch; LShoulderRoll; LElbowYaw; LElbowRoll; LWristYaw; RShoulderPitch; RShoulderRoll; RElbowYaw; RElbowRoll; RWristYaw]))
    BoundsB0.
(** task_fixhead.h:34-46 (class IB0) *)
Definition form_fixHead (f : features) (st : structure) : constr :=
  let loc := getSolutionPartLocation st JOINTS_VARIABLES_ID in
  mkConstr (Solution.getNumberOfVariables st) (BodyI (map (fun j => (offset loc + joint_id f j)%nat) [HeadYaw; HeadPitch])) BoundsB0.
