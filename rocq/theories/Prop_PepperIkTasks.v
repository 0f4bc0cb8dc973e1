(** * Properties C90 and C91: motions tracked by the inverse kinematics of Pepper. Vocabulary in PepperIkTasksSpec.v. *)
From Coq Require Import String List Arith Bool Reals Lra Lia ZArith.
From Verif Require Import Base Mat3 RSum Matrix ConstraintType Constraints ConstraintsSpec Solution SpatialTransform PepperTasksSpec RotarySpec Rotary
  Euler EulerSpec EulerFacts Rbdl RbdlSpec PepperIk PepperIkSpec PepperIkFacts PepperIkExample PepperIkTasks PepperIkTasksSpec PepperIkTasksFacts
  PepperIkMotion PepperIkCommandFacts PepperIkTasksExample PepperIkTasksWitness.
Import ListNotations.
Local Open Scope R_scope.

(** C90. The centre of mass of the base *)
Theorem C90_base_com : forall (eig : m3 -> euler_type -> v3) (f : features) (fk : list R -> rb) (gain k : R) (old : mat) (m : ikmodel) (w : wbc),
  kinematics f fk -> reachable eig f fk m -> prepared f w ->
  exists c, form_baseCoM f gain k old (w_structure w) m w = Ok c /\ usable (DOF_NUMBER f) c /\ getType c = AB /\
    forall M MS x, moving f fk m M MS x ->
      exists P v, (forall s, getBaseCoM (at_time m MS s) = Ok (P s)) /\ v3_derivative P 0 v /\
        drives c x (match f with ROOT_PLANAR => 2 | _ => 3 end)%nat gain
          (fun i => component i v - k * (component i (mp_base_com (w_motion w)) - component i (P 0))).
Proof. exact baseCoM_tracks. Qed.
(** C90. The orientation of the base *)
Theorem C90_base_orientation : forall (eig : m3 -> euler_type -> v3) (f : features) (fk : list R -> rb) (gain k : R) (m : ikmodel) (w : wbc),
  kinematics f fk -> reachable eig f fk m -> prepared f w ->
  exists c, form_baseOrientation f gain k (w_structure w) m w = Ok c /\ usable (DOF_NUMBER f) c /\ getType c = AB /\
    forall M MS x, moving f fk m M MS x ->
      exists O v e, (forall s, getBaseOrientation (at_time m MS s) = Ok (O s)) /\ turns_with O v /\
        orientation_error (O 0) (rotation_zyx (mp_base_rpy (w_motion w))) e /\
        match f with
        | ROOT_PLANAR => drives c x 1 gain (fun _ => vz v - k * vz e)
        | _ => drives c x 3 gain (fun i => component i v - k * component i e)
        end.
Proof. exact baseOrientation_tracks. Qed.
(** C90. The centre of mass of the body, along the selected axes *)
Theorem C90_body_com : forall (eig : m3 -> euler_type -> v3) (f : features) (fk : list R -> rb) (gain k : R) (flag : Z) (old : mat) (m : ikmodel) (w : wbc),
  kinematics f fk -> reachable eig f fk m -> prepared f w -> (1 <= flag <= 7)%Z ->
  exists c, form_bodyCoM gain k flag old (w_structure w) m w = Ok c /\ usable (DOF_NUMBER f) c /\ getType c = AB /\
    forall M MS x, moving f fk m M MS x ->
      exists P v, (forall s, getBodyCoM (at_time m MS s) = Ok (P s)) /\ v3_derivative P 0 v /\
        drives c x (length (selected_axes flag)) gain (fun j => let i := nth j (selected_axes flag) 0%nat in
          component i v - k * (component i (mp_body_com (w_motion w)) - component i (P 0))).
Proof. exact bodyCoM_tracks. Qed.
Theorem C90_body_com_refused : forall (eig : m3 -> euler_type -> v3) (f : features) (fk : list R -> rb) (gain k : R) (flag : Z) (old : mat) (st : structure) (m : ikmodel) (w : wbc),
  kinematics f fk -> reachable eig f fk m -> ~ (1 <= flag <= 7)%Z -> form_bodyCoM gain k flag old st m w = Throw.
Proof. exact bodyCoM_refused. Qed.
(** C90. Tasks of tags keep following their links *)
Theorem C90_tag_followed : forall (eig : m3 -> euler_type -> v3) (f : features) (fk : list R -> rb) (m m' : ikmodel) (t : tag_task),
  kinematics f fk -> reachable eig f fk m -> reachable eig f fk m' -> follows m t ->
  tt_id (tag_task_keep m t) = tt_id t /\ tt_k (tag_task_keep m t) = tt_k t /\ tt_gain (tag_task_keep m t) = tt_gain t /\ follows m' (tag_task_keep m t).
Proof. exact tag_followed. Qed.
Theorem C90_tag_orientation : forall (eig : m3 -> euler_type -> v3) (f : features) (fk : list R -> rb) (t : tag_task) (rpy : v3) (m : ikmodel) (w : wbc),
  kinematics f fk -> reachable eig f fk m -> prepared f w -> has_link fk m (tt_id t) -> follows m t ->
  exists c, form_tagOrientation t rpy (w_structure w) m = Ok (tag_task_keep m t, c) /\ usable (DOF_NUMBER f) c /\ getType c = AB /\
    forall M MS x, moving f fk m M MS x ->
      exists O v e, (forall s, getTagOrientation (at_time m MS s) (ik_getLinkTag m (tt_id t)) = Ok (O s)) /\ turns_with O v /\
        orientation_error (O 0) (rotation_zyx rpy) e /\ drives c x 3 (tt_gain t) (fun i => component i v - tt_k t * component i e).
Proof. exact tagOrientation_tracks. Qed.
Theorem C90_tag_pose : forall (eig : m3 -> euler_type -> v3) (f : features) (fk : list R -> rb) (t : tag_task) (rpy p : v3) (m : ikmodel) (w : wbc),
  kinematics f fk -> reachable eig f fk m -> prepared f w -> has_link fk m (tt_id t) -> follows m t ->
  tag_find (tt_id t) (w_pose w) = Some (rpy, p) ->
  exists c c3, form_tagPose t (w_structure w) m w = Ok (tag_task_keep m t, c) /\ usable (DOF_NUMBER f) c /\ getType c = AB /\
    form_tagPose3Dof t (w_structure w) m w = Ok (tag_task_keep m t, c3) /\ usable (DOF_NUMBER f) c3 /\ getType c3 = AB /\
    forall M MS x, moving f fk m M MS x ->
      exists P O v u e, (forall s, getTagPosition (at_time m MS s) (ik_getLinkTag m (tt_id t)) = Ok (P s) /\
                                   getTagOrientation (at_time m MS s) (ik_getLinkTag m (tt_id t)) = Ok (O s)) /\
        turns_with O v /\ v3_derivative P 0 u /\ orientation_error (O 0) (rotation_zyx rpy) e /\
        drives c x 6 (tt_gain t) (fun i => component6 i v u - tt_k t * component6 i e (v3sub p (P 0))) /\
        drives c3 x 6 (tt_gain t) (fun i => if ((2 <=? i) && (i <? 5))%nat then component6 i v u
                                            else component6 i v u - tt_k t * component6 i e (v3sub p (P 0))).
Proof. exact tagPose_tracks. Qed.
Theorem C90_tag_pose_unset : forall (eig : m3 -> euler_type -> v3) (f : features) (fk : list R -> rb) (t : tag_task) (m : ikmodel) (w : wbc),
  kinematics f fk -> reachable eig f fk m -> prepared f w -> has_link fk m (tt_id t) -> follows m t ->
  tag_find (tt_id t) (w_pose w) = None ->
  exists c, form_tagPose t (w_structure w) m w = Ok (tag_task_keep m t, c) /\ usable (DOF_NUMBER f) c /\ getType c = AB /\
    forall M MS x, moving f fk m M MS x ->
      exists P O v u, (forall s, getTagPosition (at_time m MS s) (ik_getLinkTag m (tt_id t)) = Ok (P s) /\
                                 getTagOrientation (at_time m MS s) (ik_getLinkTag m (tt_id t)) = Ok (O s)) /\
        turns_with O v /\ v3_derivative P 0 u /\ drives c x 6 (tt_gain t) (fun i => component6 i v u).
Proof. exact tagPose_unset. Qed.
(** C90. Errors of the state *)
Theorem C90_state_error : forall (eig : m3 -> euler_type -> v3) (f : features) (fk : list R -> rb) (mp : motion_parameters) (m : ikmodel),
  kinematics f fk -> reachable eig f fk m ->
  exists b p o e, getBaseCoM m = Ok b /\ getBodyCoM m = Ok p /\ getBaseOrientation m = Ok o /\ orientation_error o (rotation_zyx (mp_base_rpy mp)) e /\
    getStateError mp m = Ok (mkMP (v3sub (mp_base_com mp) b) (v3sub (mp_body_com mp) p) e).
Proof. exact state_error. Qed.
(** C90. A task configured with another name goes on with the link of the old name *)
Theorem C90_other_tag_refuted : ~ forall eig f fk t t1 t2 id gain k m w c c' M MS x O v,
  kinematics f fk -> reachable eig f fk m -> prepared f w -> has_link fk m (tt_id t) -> has_link fk m id -> gain <> 0 ->
  form_tagAngularVelocity t (w_structure w) m w = Ok (t1, c) ->
  form_tagAngularVelocity (tag_task_readConfig id gain k t1) (w_structure w) m w = Ok (t2, c') ->
  moving f fk m M MS x -> (forall s, getTagOrientation (at_time m MS s) (ik_getLinkTag m id) = Ok (O s)) -> turns_with O v ->
  satisfies c' x -> forall i, (i < 3)%nat -> component i v = k * component i (m3app (O 0) (snd (getTagVelocityInLocal w id))).
Proof. exact other_tag_ignored. Qed.
(** C90. The pose with 3 degrees of freedom holds the others *)
Theorem C90_pose_3dof_refuted : ~ forall eig f fk t rpy p m w c M MS x P O v u e,
  kinematics f fk -> reachable eig f fk m -> prepared f w -> has_link fk m (tt_id t) -> tt_tag t = None -> tt_gain t <> 0 ->
  tag_find (tt_id t) (w_pose w) = Some (rpy, p) -> form_tagPose3Dof t (w_structure w) m w = Ok (tag_task_keep m t, c) -> moving f fk m M MS x ->
  (forall s, getTagPosition (at_time m MS s) (ik_getLinkTag m (tt_id t)) = Ok (P s) /\
             getTagOrientation (at_time m MS s) (ik_getLinkTag m (tt_id t)) = Ok (O s)) ->
  turns_with O v -> v3_derivative P 0 u -> orientation_error (O 0) (rotation_zyx rpy) e ->
  vx v = tt_k t * vx e -> vy v = tt_k t * vy e -> vz u = tt_k t * vz (v3sub p (P 0)) -> satisfies c x.
Proof. exact pose3dof_holds_others. Qed.

(** C91. Angular velocities of tags *)
Theorem C91_angular_velocity : forall (eig : m3 -> euler_type -> v3) (f : features) (fk : list R -> rb) (t : tag_task) (m : ikmodel) (w : wbc),
  kinematics f fk -> reachable eig f fk m -> prepared f w -> has_link fk m (tt_id t) -> follows m t ->
  exists c, form_tagAngularVelocity t (w_structure w) m w = Ok (tag_task_keep m t, c) /\ usable (DOF_NUMBER f) c /\ getType c = AB /\
    forall M MS x, moving f fk m M MS x ->
      exists O v, (forall s, getTagOrientation (at_time m MS s) (ik_getLinkTag m (tt_id t)) = Ok (O s)) /\ turns_with O v /\
        drives c x 3 (tt_gain t) (fun i => component i v - tt_k t * component i (m3app (O 0) (snd (getTagVelocityInLocal w (tt_id t))))).
Proof. exact tagAngularVelocity_tracks. Qed.
(** C91. What the task of the complete velocity does: P is the position of the tag in the world *)
Theorem C91_complete_velocity : forall (eig : m3 -> euler_type -> v3) (f : features) (fk : list R -> rb) (t : tag_task) (m : ikmodel) (w : wbc),
  kinematics f fk -> reachable eig f fk m -> prepared f w -> has_link fk m (tt_id t) -> follows m t ->
  exists c, form_tagCompleteVelocity t (w_structure w) m w = Ok (tag_task_keep m t, c) /\ usable (DOF_NUMBER f) c /\ getType c = AB /\
    forall M MS x, moving f fk m M MS x ->
      exists P O v u, (forall s, getTagPosition (at_time m MS s) (ik_getLinkTag m (tt_id t)) = Ok (P s) /\
                                 getTagOrientation (at_time m MS s) (ik_getLinkTag m (tt_id t)) = Ok (O s)) /\
        turns_with O v /\ v3_derivative P 0 u /\
        let a := m3app (O 0) (snd (getTagVelocityInLocal w (tt_id t))) in
        let l := m3app (O 0) (fst (getTagVelocityInLocal w (tt_id t))) in
        drives c x 6 (tt_gain t) (fun i => component6 i v u - tt_k t * component6 i a (v3add (v3cross (P 0) a) l)).
Proof. exact tagCompleteVelocity_does. Qed.
(** C91. Poses computed from velocities *)
Theorem C91_desired_poses : forall (eig : m3 -> euler_type -> v3) (f : features) (fk : list R -> rb) (m : ikmodel) (w : wbc),
  documented_eulerAngles eig ->
  kinematics f fk -> reachable eig f fk m -> (forall name, In name (map fst (w_velocity w)) -> has_link fk m name) ->
  exists w', computeTagsDesiredPoseInGlobal eig m w = Ok w' /\ w_structure w' = w_structure w /\ w_motion w' = w_motion w /\ w_velocity w' = w_velocity w /\
    (forall name, tag_find name (w_velocity w) = None -> tag_find name (w_pose w') = tag_find name (w_pose w)) /\
    forall name l a, tag_find name (w_velocity w) = Some (l, a) ->
      exists P O rpy, getTagPosition m (ik_getLinkTag m name) = Ok P /\ getTagOrientation m (ik_getLinkTag m name) = Ok O /\
        tag_find name (w_pose w') = Some (rpy, v3add P (v3scale (w_dt w) (v3add (v3cross P (m3app O a)) (m3app O l)))) /\
        (a = v3zero -> rotation_zyx rpy = O /\ tag_find name (w_pose w') = Some (rpy, v3add P (v3scale (w_dt w) (m3app O l)))).
Proof. exact desired_poses. Qed.
(** C91. The velocity is that of the tag only if it does not turn, or the line through it along its angular velocity meets the origin *)
Theorem C91_complete_velocity_refuted : ~ forall eig f fk t m w c M MS x P O v u,
  kinematics f fk -> reachable eig f fk m -> prepared f w -> has_link fk m (tt_id t) -> tt_tag t = None -> tt_gain t <> 0 ->
  form_tagCompleteVelocity t (w_structure w) m w = Ok (tag_task_keep m t, c) -> moving f fk m M MS x ->
  (forall s, getTagPosition (at_time m MS s) (ik_getLinkTag m (tt_id t)) = Ok (P s) /\
             getTagOrientation (at_time m MS s) (ik_getLinkTag m (tt_id t)) = Ok (O s)) ->
  turns_with O v -> v3_derivative P 0 u -> satisfies c x ->
  u = v3scale (tt_k t) (m3app (O 0) (fst (getTagVelocityInLocal w (tt_id t)))).
Proof. exact velocity_wrong. Qed.
Theorem C91_desired_poses_refuted : ~ forall eig f fk m w w' name a P,
  documented_eulerAngles eig -> kinematics f fk -> reachable eig f fk m -> (forall name, In name (map fst (w_velocity w)) -> has_link fk m name) ->
  computeTagsDesiredPoseInGlobal eig m w = Ok w' -> tag_find name (w_velocity w) = Some (v3zero, a) ->
  getTagPosition m (ik_getLinkTag m name) = Ok P -> exists rpy, tag_find name (w_pose w') = Some (rpy, P).
Proof. exact desired_position_wrong. Qed.

(** hypotheses are met: any configuration, any velocities, poses and velocities of tags *)
Example C90_robot (x y a : R) (v : nat -> R) velocity pose :
  exists eig m MS, documented_eulerAngles eig /\ kinematics ROOT_PLANAR ex_pepper /\ reachable eig ROOT_PLANAR ex_pepper m /\
    prepared ROOT_PLANAR (ex_controller velocity pose) /\ has_link ex_pepper m "Tibia" /\ has_link ex_pepper m "Head" /\
    (forall gain k, follows m (tag_task_new "Head" gain k)) /\ root_at (ik_gc m) 0 = x /\ root_at (ik_gc m) 1 = y /\ root_at (ik_gc m) 2 = a /\
    moving ROOT_PLANAR ex_pepper m (fun s => ex_pepper (ex_move (asVector (ik_gc m)) v s)) MS v.
Proof.
  destruct (pepper_at ex_eig (ex_pose x y a) (ex_pose_sized x y a)) as (m & RC & G). destruct (pepper_moving ex_eig m v RC) as (MS & MV).
  destruct (pepper_tags ex_eig m RC) as (_ & _ & LT & LH). exists ex_eig, m, MS. rewrite G in *.
  repeat (split; [first [exact ex_eig_documented|exact pepper_kinematics|exact RC|apply ex_prepared|exact LT|exact LH|intros; left; reflexivity|reflexivity]|]). exact MV.
Qed.
(** the task of the orientation of the head is satisfied by turning the head, not by standing still *)
Example C90_head := head_turns.

Print Assumptions C90_base_com. Print Assumptions C90_base_orientation. Print Assumptions C90_body_com. Print Assumptions C90_body_com_refused. Print Assumptions C90_tag_followed. Print Assumptions C90_tag_orientation. Print Assumptions C90_tag_pose. Print Assumptions C90_tag_pose_unset. Print Assumptions C90_state_error. Print Assumptions C90_other_tag_refuted. Print Assumptions C90_pose_3dof_refuted. Print Assumptions C91_angular_velocity. Print Assumptions C91_complete_velocity. Print Assumptions C91_desired_poses. Print Assumptions C91_complete_velocity_refuted. Print Assumptions C91_desired_poses_refuted.
