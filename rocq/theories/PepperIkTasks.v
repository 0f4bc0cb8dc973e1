(** * The Pepper inverse kinematics module (/repo/modules/pepper_ik/include/pepper_ik), continued: the pose of the root, the commands for
    the robot, the tasks which track motions.

    [eig] is MatrixBase::eulerAngles of Eigen (see Euler.v). [old] are the contents of the matrix of a task before it is formed. *)
From Coq Require Import String List Reals Arith Bool ZArith.
From Verif Require Import Base Mat3 RSum Matrix ConstraintType Constraints Solution Condense SpatialTransform Rotary Euler Rbdl PepperIk.
Import ListNotations.
Local Open Scope R_scope.

(** ** The pose of the root (model_description.h, generalized_coordinates.h:72-109) *)

(** root_pose(i), constant size (generalized_coordinates.h:72-109) *)
Definition root_at (g : gcoord) (i : nat) : R := nth i (gc_root g) 0.
(** model_description.h:546-550, 731-735, 913-920; generalized_coordinates.h:72-75 *)
Definition setRootPosition (f : features) (p : v3) (g : gcoord) : outcome gcoord :=
  match f with
  | ROOT_PLANAR => if Req_EM_T 0 (vz p) then Ok (mkGC (update (update (gc_root g) 0 (vx p)) 1 (vy p)) (gc_joints g)) else Throw
  | _ => Ok (mkGC ([vx p; vy p; vz p] ++ skipn 3 (gc_root g)) (gc_joints g))
  end.
(** model_description.h:559-566, 744-751, 929-935; generalized_coordinates.h:83-86 *)
Definition setRootOrientation (eig : m3 -> euler_type -> v3) (f : features) (rpy : v3) (g : gcoord) : outcome gcoord :=
  match f with
  | ROOT_PLANAR =>
      if Req_EM_T 0 (vx rpy) then if Req_EM_T 0 (vy rpy) then Ok (mkGC (update (gc_root g) 2 (vz rpy)) (gc_joints g)) else Throw else Throw
  | _ => bind (convertEulerAngles eig rpy RPY YPR) (fun e => Ok (mkGC (firstn 3 (gc_root g) ++ [vx e; vy e; vz e]) (gc_joints g)))
  end.
(** model_description.h:575-579, 760-764, 944-950; generalized_coordinates.h:94-97 *)
Definition getRootPosition (f : features) (g : gcoord) : v3 :=
  match f with ROOT_PLANAR => V3 (root_at g 0) (root_at g 1) 0 | _ => V3 (root_at g 0) (root_at g 1) (root_at g 2) end.
(** model_description.h:588-594, 787-793, 959-963; generalized_coordinates.h:105-108 *)
Definition getRootOrientation (eig : m3 -> euler_type -> v3) (f : features) (g : gcoord) : outcome v3 :=
  match f with
  | ROOT_PLANAR => Ok (V3 0 0 (root_at g 2))
  | _ => convertEulerAngles eig (V3 (root_at g 3) (root_at g 4) (root_at g 5)) YPR RPY
  end.

(** ** Model (model.h) *)

(** model.h:317-320, 339-342, 361-364 *)
Definition getBaseCoM (m : ikmodel) : outcome v3 := position_partial (ik_rbdl m) (ik_base_com m).
(** model.h:339-342 *)
Definition getBodyCoM (m : ikmodel) : outcome v3 := position_partial (ik_rbdl m) (ik_body_com m).
(** model.h:361-364 *)
Definition getCoM (m : ikmodel) : outcome v3 := position_com (ik_rbdl m).
(** model.h:328-331, 350-353, 372-375 *)
Definition getBaseMass (m : ikmodel) : R := mass_partial (ik_base_com m).
(** model.h:350-353 *)
Definition getBodyMass (m : ikmodel) : R := mass_partial (ik_body_com m).
(** model.h:372-375 *)
Definition getMass (m : ikmodel) : R := mass_com (ik_rbdl m).
(** model.h:383-386, 405-408, 416-419, 427-430, 438-441 *)
Definition getBaseCoMJacobian (old : mat) (m : ikmodel) : outcome mat := jacobian_partial old (ik_rbdl m) (ik_base_com m).
(** model.h:405-408 *)
Definition getBodyCoMJacobian (old : mat) (m : ikmodel) : outcome mat := jacobian_partial old (ik_rbdl m) (ik_body_com m).
(** model.h:416-419 *)
Definition getBaseOrientationJacobian (m : ikmodel) : outcome mat := jacobian_link ROTATION (ik_rbdl m) (ik_base_orientation m).
(** model.h:427-430 *)
Definition getBaseOrientation (m : ikmodel) : outcome m3 := orientation_link (ik_rbdl m) (ik_base_orientation m).
(** model.h:438-441 *)
Definition getBaseYaw (eig : m3 -> euler_type -> v3) (m : ikmodel) : outcome R :=
  bind (getBaseOrientation m) (fun r => bind (convertMatrixToEulerAngles eig r RPY) (fun e => Ok (vz e))).
(** model.h:451-454, 464-467, 477-480, 489-493, 502-506, 514-517 *)
Definition ik_getLinkTag (m : ikmodel) (id : string) : tag_link := getLinkTag (rm_lib (ik_rbdl m)) id.
(** model.h:464-467 *)
Definition getTagOrientation (m : ikmodel) (t : tag_link) : outcome m3 := orientation_link (ik_rbdl m) t.
(** model.h:477-480 *)
Definition getTagPosition (m : ikmodel) (t : tag_link) : outcome v3 := position_link (ik_rbdl m) t.
(** model.h:489-493 *)
Definition getTagOrientationJacobian (m : ikmodel) (t : tag_link) : outcome mat := jacobian_link ROTATION (ik_rbdl m) t.
(** model.h:502-506 *)
Definition getTagCompleteJacobian (m : ikmodel) (t : tag_link) : outcome mat := jacobian_link COMPLETE (ik_rbdl m) t.
(** model.h:514-517 *)
Definition getBasePosition (m : ikmodel) : outcome v3 := position_link (ik_rbdl m) (ik_base_position m).

(** model.h:303-309 *)
Definition saveCurrentState (m : ikmodel) : outcome ikmodel :=
  bind (getBaseOrientation m) (fun o => bind (getBasePosition m) (fun p =>
    Ok (mkIK (ik_base_com m) (ik_body_com m) (ik_base_orientation m) (ik_base_position m) (ik_wheels m) (Some (mkSaved p o (ik_gc m)))
             (ik_gc m) (ik_rbdl m) (ik_constraints m)))).
(** model.h:20-50 *)
Record command := mkCommand { cmd_joints : list R; cmd_wheels : v3; cmd_base : v3; cmd_interval : R }.
(** model.h:527-559 *)
Definition getRobotCommand (dt : R) (m : ikmodel) : outcome command :=
  match ik_saved m with
  | None => Throw
  | Some s =>
      bind (checkJointPositions (ik_constraints m) (gc_joints (ik_gc m))) (fun _ =>
      bind (checkJointVelocities (ik_constraints m) (gc_joints (sv_gc s)) (gc_joints (ik_gc m)) dt) (fun _ =>
      bind (getBaseOrientation m) (fun o =>
      bind (getBasePosition m) (fun p =>
      let translation := v3scale (/ dt) (v3sub p (sv_position s)) in
      let rotation := v3scale (/ dt) (getRotationErrorAngleAxis (sv_orientation s) o) in
      let base := V3 (vx translation) (vy translation) (vz rotation) in
      let wheels := m3app (m3mul (ik_wheels m) (m3trans o)) base in
      bind (checkWheelVelocities (ik_constraints m) wheels) (fun _ =>
        Ok (mkCommand (gc_joints (ik_gc m)) wheels base dt))))))
  end.
(** model.h:569-609 *)
Definition correct (eig : m3 -> euler_type -> v3) (f : features) (fk : list R -> rb) (c : command) (interval : R) (m : ikmodel) : outcome ikmodel :=
  if Rgt_dec interval 0 then
    match f with
    | ROOT_PLANAR =>
        bind (getRootOrientation eig f (ik_gc m)) (fun rpy =>
        let position := getRootPosition f (ik_gc m) in
        bind (setRootPosition f (V3 (vx position + interval * vx (cmd_base c)) (vy position + interval * vy (cmd_base c)) (vz position)) (ik_gc m)) (fun g1 =>
        bind (setRootOrientation eig f (V3 (vx rpy) (vy rpy) (vz rpy + interval * vz (cmd_base c))) g1) (fun g2 =>
        assert_then (length (cmd_joints c) =? length (gc_joints g2))%nat
        (bind (ladd_o (gc_joints g2) (map (fun d => d * interval / cmd_interval c) (lsub (cmd_joints c) (gc_joints g2)))) (fun q =>
          ik_refresh fk (ik_set_gc m (mkGC (gc_root g2) q)))))))
    | _ => Throw
    end
  else Ok m.
(** model.h:624-637 *)
Definition correct_state (eig : m3 -> euler_type -> v3) (f : features) (fk : list R -> rb) (g : gcoord) (c : command) (interval : R) (m : ikmodel)
  : outcome ikmodel :=
  if Rgt_dec interval 0 then correct eig f fk c interval (ik_set_gc m g) else updateState fk g m.
(** model.h:748-758 *)
Definition getStateError (mp : motion_parameters) (m : ikmodel) : outcome motion_parameters :=
  bind (getBaseCoM m) (fun b => bind (getBodyCoM m) (fun c => bind (getBaseOrientation m) (fun o =>
  bind (convertEulerAnglesToMatrix (mp_base_rpy mp) RPY) (fun r =>
    Ok (mkMP (v3sub (mp_base_com mp) b) (v3sub (mp_body_com mp) c) (getRotationErrorAngleAxis o r)))))).

(** ** Controller (whole_body_controller.h) *)

(** std::map with keys of type std::string (whole_body_controller.h:32-33, 162-188) *)
Fixpoint tag_find (name : string) (l : list (string * (v3 * v3))) : option (v3 * v3) :=
  match l with [] => None | (k, v) :: t => if String.eqb name k then Some v else tag_find name t end.
(** assignment to an element of a map, whole_body_controller.h:162-188 *)
Fixpoint tag_set (name : string) (v : v3 * v3) (l : list (string * (v3 * v3))) : list (string * (v3 * v3)) :=
  match l with
  | [] => [(name, v)]
  | (k, u) :: t => if String.eqb name k then (k, v) :: t else (k, u) :: tag_set name v t
  end.
(** whole_body_controller.h:44-58: the complete vector; segments of it (head, tail) are selected by the callers below *)
Definition getTagVelocityInLocal (w : wbc) (name : string) : v3 * v3 :=
  match tag_find name (w_velocity w) with Some v => v | None => (v3zero, v3zero) end.
(** whole_body_controller.h:80-83 *)
Definition setTagsVelocity (l : list (string * (v3 * v3))) (w : wbc) : wbc :=
  mkWbc (w_parsed w) (w_dt w) (w_motion w) l (w_pose w) (w_structure w).
(** whole_body_controller.h:110-154, case ROTATION *)
Definition getTagVelocityInGlobal_rotation (m : ikmodel) (name : string) (v : v3 * v3) : outcome v3 :=
  bind (getTagOrientation m (ik_getLinkTag m name)) (fun o => Ok (m3app o (snd v))).
(** whole_body_controller.h:110-154, case TRANSLATION *)
Definition getTagVelocityInGlobal_translation (m : ikmodel) (name : string) (v : v3 * v3) : outcome v3 :=
  bind (getTagPosition m (ik_getLinkTag m name)) (fun p => bind (getTagOrientation m (ik_getLinkTag m name)) (fun o =>
    Ok (v3add (v3cross p (m3app o (snd v))) (m3app o (fst v))))).
(** whole_body_controller.h:110-154, case COMPLETE *)
Definition getTagVelocityInGlobal_complete (m : ikmodel) (name : string) (v : v3 * v3) : outcome (v3 * v3) :=
  bind (getTagVelocityInGlobal_rotation m name v) (fun a => bind (getTagVelocityInGlobal_translation m name v) (fun b => Ok (a, b))).
(** whole_body_controller.h:162-188 *)
Definition computeTagsDesiredPoseInGlobal (eig : m3 -> euler_type -> v3) (m : ikmodel) (w : wbc) : outcome wbc :=
  bind (fold_left (fun acc e => bind acc (fun poses =>
      let name := fst e in
      bind (getTagOrientation m (ik_getLinkTag m name)) (fun o =>
      bind (convertMatrixToEulerAngles eig (integrateAngularVelocity o (snd (getTagVelocityInLocal w name)) (w_dt w)) RPY) (fun rpy =>
      bind (getTagPosition m (ik_getLinkTag m name)) (fun p =>
      bind (getTagVelocityInGlobal_translation m name (getTagVelocityInLocal w name)) (fun v =>
        Ok (tag_set name (rpy, v3add p (v3scale (w_dt w) v)) poses)))))))
    (w_velocity w) (Ok (w_pose w)))
  (fun poses => Ok (mkWbc (w_parsed w) (w_dt w) (w_motion w) (w_velocity w) poses (w_structure w))).
(** whole_body_controller.h:198-222 *)
Definition getTagPoseErrorInGlobal (m : ikmodel) (w : wbc) (name : string) : outcome (v3 * v3) :=
  match tag_find name (w_pose w) with
  | None => Ok (v3zero, v3zero)
  | Some (rpy, p) =>
      bind (getTagOrientation m (ik_getLinkTag m name)) (fun o =>
      bind (convertEulerAnglesToMatrix rpy RPY) (fun r =>
      bind (getTagPosition m (ik_getLinkTag m name)) (fun q =>
        Ok (getRotationErrorAngleAxis o r, v3sub p q))))
  end.

(** ** Tasks of class TaskAB *)

(** access to a component of a vector (used by the tasks, e.g. task_bodycom.h:130-148) *)
Definition v3_get (v : v3) (i : nat) : R := match i with 0%nat => vx v | 1%nat => vy v | _ => vz v end.
(** a vector of three numbers assigned to b of a task, e.g. task_basecom.h:79-101 *)
Definition vec3 (v : v3) : vec := mkVec 3 (v3_get v).
(** a vector of six numbers assigned to b of a task, e.g. task_tagpose.h:74-101 *)
Definition vec6 (a b : v3) : vec := mkVec 6 (fun i => if (i <? 3)%nat then v3_get a i else v3_get b (i - 3)).
(** core/include/humoto/utility.h:87-92, constants.h: g_generic_tolerance *)
Definition isApproximatelyEqual (a b : R) : bool := if Rlt_dec (Rabs (a - b)) 1e-12 then true else false.
(** the end of the functions form(), e.g. task_basecom.h:95-100 *)
Definition with_gain (gain : R) (st : structure) (A : mat) (b : vec) : constr :=
  if isApproximatelyEqual 1 gain then mkConstr (Solution.getNumberOfVariables st) (BodyA A) (BoundsB b)
  else mkConstr (Solution.getNumberOfVariables st) (BodyA (mscale gain A)) (BoundsB (mkVec (vlen b) (fun i => gain * vget b i))).
(** task_basecom.h:79-101, planar: 128-154; conservativeResize(2, cols) keeps two rows *)
Definition form_baseCoM (f : features) (gain k : R) (old : mat) (st : structure) (m : ikmodel) (w : wbc) : outcome constr :=
  bind (getBaseCoMJacobian old m) (fun A => bind (getBaseCoM m) (fun p =>
    let b := v3scale k (v3sub (mp_base_com (w_motion w)) p) in
    Ok (match f with
        | ROOT_PLANAR => with_gain gain st (mkMat 2 (mcols A) (mget A)) (mkVec 2 (v3_get b))
        | _ => with_gain gain st A (vec3 b)
        end))).
(** task_baseorient.h:79-107, planar: 132-164 *)
Definition form_baseOrientation (f : features) (gain k : R) (st : structure) (m : ikmodel) (w : wbc) : outcome constr :=
  bind (getBaseOrientationJacobian m) (fun A => bind (getBaseOrientation m) (fun o =>
  bind (convertEulerAnglesToMatrix (mp_base_rpy (w_motion w)) RPY) (fun r =>
    let b := v3scale k (getRotationErrorAngleAxis o r) in
    Ok (match f with
        | ROOT_PLANAR => with_gain gain st (mkMat 1 (mcols A) (fun _ j => mget A (mrows A - 1) j)) (mkVec 1 (fun _ => vz b))
        | _ => with_gain gain st A (vec3 b)
        end)))).
(** utility.h:48-56: flags; the rows selected by task_bodycom.h:130-148, in this order *)
Definition flag_rows (flag : Z) : list nat :=
  (if Z.eqb (Z.land 1 flag) 0 then [] else [0%nat]) ++ (if Z.eqb (Z.land 2 flag) 0 then [] else [1%nat]) ++ (if Z.eqb (Z.land 4 flag) 0 then [] else [2%nat]).
(** task_bodycom.h:73-157; int is modelled by an integer *)
Definition form_bodyCoM (gain k : R) (flag : Z) (old : mat) (st : structure) (m : ikmodel) (w : wbc) : outcome constr :=
  bind (getBodyCoM m) (fun p =>
    if Z.eqb 7 flag then
      bind (getBodyCoMJacobian old m) (fun A => Ok (with_gain gain st A (vec3 (v3scale k (v3sub (mp_body_com (w_motion w)) p)))))
    else if ((length (flag_rows flag) =? 0)%nat || negb (Z.eqb (Z.lor 7 flag) 7))%bool then Throw
    else
      bind (getBodyCoMJacobian (mzero 0 0) m) (fun A =>
        let b := v3scale k (v3sub (mp_body_com (w_motion w)) p) in
        let rows := flag_rows flag in
        Ok (with_gain gain st (mkMat (length rows) (mcols A) (fun i j => mget A (nth i rows 0%nat) j))
                      (mkVec (length rows) (fun i => v3_get b (nth i rows 0%nat)))))).

(** tasks of tags: tag_string_id_, tag_ (None if the pointer is null), the gain k_..., the gain of the task (task_tagpose.h:62-69, task_tagorient.h:66-74) *)
Record tag_task := mkTT { tt_id : string; tt_tag : option tag_link; tt_k : R; tt_gain : R }.
(** constructors, e.g. task_tagpose.h:62-69 *)
Definition tag_task_new (id : string) (gain k : R) : tag_task := mkTT id None k gain.
(** readConfig() with the entries of the task, e.g. task_tagpose.h:22-26: tag_ is not an entry *)
Definition tag_task_readConfig (id : string) (gain k : R) (t : tag_task) : tag_task := mkTT id (tt_tag t) k gain.
(** if(!tag_) tag_ = model.getLinkTag(tag_string_id_), e.g. task_tagpose.h:84-87 *)
Definition tag_task_tag (m : ikmodel) (t : tag_task) : tag_link := match tt_tag t with Some g => g | None => ik_getLinkTag m (tt_id t) end.
(** the member tag_ after form(), task_tagpose.h:84-87 *)
Definition tag_task_keep (m : ikmodel) (t : tag_task) : tag_task := mkTT (tt_id t) (Some (tag_task_tag m t)) (tt_k t) (tt_gain t).
(** task_tagorient.h:79-109 *)
Definition form_tagOrientation (t : tag_task) (rpy : v3) (st : structure) (m : ikmodel) : outcome (tag_task * constr) :=
  bind (getTagOrientationJacobian m (tag_task_tag m t)) (fun A => bind (getTagOrientation m (tag_task_tag m t)) (fun o =>
  bind (convertEulerAnglesToMatrix rpy RPY) (fun r =>
    Ok (tag_task_keep m t, with_gain (tt_gain t) st A (vec3 (v3scale (tt_k t) (getRotationErrorAngleAxis o r))))))).
(** task_tagangularvel.h:74-104 *)
Definition form_tagAngularVelocity (t : tag_task) (st : structure) (m : ikmodel) (w : wbc) : outcome (tag_task * constr) :=
  bind (getTagOrientationJacobian m (tag_task_tag m t)) (fun A =>
  bind (getTagVelocityInGlobal_rotation m (tt_id t) (getTagVelocityInLocal w (tt_id t))) (fun v =>
    Ok (tag_task_keep m t, with_gain (tt_gain t) st A (vec3 (v3scale (tt_k t) v))))).
(** task_tagcompletevel.h:74-104 *)
Definition form_tagCompleteVelocity (t : tag_task) (st : structure) (m : ikmodel) (w : wbc) : outcome (tag_task * constr) :=
  bind (getTagCompleteJacobian m (tag_task_tag m t)) (fun A =>
  bind (getTagVelocityInGlobal_complete m (tt_id t) (getTagVelocityInLocal w (tt_id t))) (fun v =>
    Ok (tag_task_keep m t, with_gain (tt_gain t) st A (vec6 (v3scale (tt_k t) (fst v)) (v3scale (tt_k t) (snd v)))))).
(** task_tagpose.h:74-101 *)
Definition form_tagPose (t : tag_task) (st : structure) (m : ikmodel) (w : wbc) : outcome (tag_task * constr) :=
  bind (getTagCompleteJacobian m (tag_task_tag m t)) (fun A =>
  bind (getTagPoseErrorInGlobal m w (tt_id t)) (fun e =>
    Ok (tag_task_keep m t, with_gain (tt_gain t) st A (vec6 (v3scale (tt_k t) (fst e)) (v3scale (tt_k t) (snd e)))))).
(** task_tagpose3dof.h:76-104: the elements 2, 3, 4 of the error are multiplied by zero *)
Definition form_tagPose3Dof (t : tag_task) (st : structure) (m : ikmodel) (w : wbc) : outcome (tag_task * constr) :=
  bind (getTagCompleteJacobian m (tag_task_tag m t)) (fun A =>
  bind (getTagPoseErrorInGlobal m w (tt_id t)) (fun e =>
    let b := vec6 (v3scale (tt_k t) (fst e)) (v3scale (tt_k t) (snd e)) in
    Ok (tag_task_keep m t, with_gain (tt_gain t) st A
          (mkVec 6 (fun i => if ((2 <=? i) && (i <? 5))%nat then vget b i * 0 else vget b i))))).

(** ** Poses of tags (/repo/bridges/rbdl/interface/rbdl/model.h) *)
(** model.h:358-370: position and roll, pitch, yaw *)
Definition getTagPose_link (eig : m3 -> euler_type -> v3) (r : rmodel) (t : tag_link) : outcome (v3 * v3) :=
  bind (getLinkTransform (rm_lib r) t) (fun x => bind (convertMatrixToEulerAngles eig (m3trans (sx_E x)) RPY) (fun e => Ok (sx_r x, e))).
(** model.h:380-391 *)
Definition getTagPose_point (eig : m3 -> euler_type -> v3) (r : rmodel) (t : tag_point) : outcome (v3 * v3) :=
  bind (getLinkTransform (rm_lib r) (fst t)) (fun x =>
    bind (convertMatrixToEulerAngles eig (m3trans (sx_E x)) RPY) (fun e => Ok (v3add (m3app (m3trans (sx_E x)) (snd t)) (sx_r x), e))).
