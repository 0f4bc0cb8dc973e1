(** * Entries of the tasks of all modules, their values in new tasks and if they are missing (C94) *)
From Coq Require Import String List ZArith Arith Reals Bool.
From Verif Require Import Base Matrix Config ConfigProblem ConfigTaskSpec.
Import ListNotations.
Open Scope list_scope.
Local Open Scope string_scope.
Local Open Scope R_scope.

Ltac entry_row := eexists; split; [reflexivity|split; [reflexivity|split; reflexivity]].
Theorem core_entries (get : factory) : In get [core_tasks; wpg04_tasks; mpc_tasks] ->
  gained get "TaskInfeasibleInequality" "Infeasible_Inequality_Task" 2 0 [] [] /\
  gained get "TaskZeroVariables" "Minimize_All_Variables" 2 0 [("variables_id", text "")] [("variables_id", text "")] /\
  gained get "TaskZeroSelectedVariables" "Minimize_Selected_Variables" 2 0 [("variables_indices", VList [])] [("variables_indices", VList [])].
Proof. intros [<-|[<-|[<-|[]]]]; (split; [entry_row|split; entry_row]). Qed.
Theorem walk_entries : gained wpg04_tasks "TaskCoMVelocity" "TaskCoMVelocity" 0.707106781186548 0.707106781186548 [] [] /\
  gained wpg04_tasks "TaskCoPPosition" "TaskCoPPosition" 12.2474487139159 12.2474487139159 [("variables_id", text "CoP")] [("variables_id", text "CoP")] /\
  gained wpg04_tasks "TaskCoPVelocity" "TaskCoPVelocity" 0.223606797749979 0.223606797749979 [] [] /\
  task_is wpg04_tasks "TaskFootstepBounds" "TaskFootstepBounds" [("fix_footsteps", VScalar (SBool false))] [("fix_footsteps", VScalar (SBool false))] /\
  task_is wpg04_tasks "TaskCoPBounds" "TaskCoPBounds" [] [] /\
  gained wpg04_tasks "TaskTerminalConstraint" "TaskTerminalConstraint" 1 1 [] [].
Proof. repeat (split; [entry_row|]). entry_row. Qed.
Theorem pepper_mpc_entries : gained mpc_tasks "TaskBaseAccelerationBounds" "TaskBaseAccelerationBounds" 0 0 [] [] /\
  gained mpc_tasks "TaskBaseJerkMinimization" "TaskBaseJerkMinimization" 0.707106781186548 0 [] [] /\
  gained mpc_tasks "TaskBasePositionReference" "TaskBasePositionReference" 0.707106781186548 0 [] [] /\
  task_is mpc_tasks "TaskBaseVelocityBounds" "TaskBaseVelocityBounds" [] [] /\
  gained mpc_tasks "TaskBaseVelocityReference" "TaskBaseVelocityReference" 1 0 [] [] /\
  gained mpc_tasks "TaskBodyJerkMinimization" "TaskBodyJerkMinimization" 0.707106781186548 0 [("variables_id", text "body_pos")] [("variables_id", text "body_pos")] /\
  gained mpc_tasks "TaskBodyPositionBounds" "TaskBodyPositionBounds" 0 0 [] [] /\
  gained mpc_tasks "TaskBodyPositionReference" "TaskBodyPositionReference" 0.707106781186548 0 [] [] /\
  gained mpc_tasks "TaskCoPCentering" "TaskCoPCentering" 0.707106781186548 0 [] [] /\
  gained mpc_tasks "TaskCoPPositionBounds" "TaskCoPPositionBounds" 0 0 [] [].
Proof. repeat (split; [entry_row|]). entry_row. Qed.
Theorem pepper_ik_entries (n : nat) (angles : list R) (axes : Z) : let get := ik_tasks n angles axes in
  gained get "TaskBaseCoMTracking" "TaskBaseCoMTracking" 1 0 [("k_position_gain", number_ 1)] [("k_position_gain", number_ 0)] /\
  gained get "TaskBaseOrientation" "TaskBaseOrientation" 1 0 [("k_orientation_gain", number_ 1)] [("k_orientation_gain", number_ 0)] /\
  gained get "TaskBodyCoMTracking" "TaskBodyCoMTracking" 1 0 [("k_position_gain", number_ 1); ("axis_flag", VScalar (SInt axes))] [("k_position_gain", number_ 0); ("axis_flag", VScalar (SInt axes))] /\
  task_is get "TaskFixArms" "TaskFixArms" [] [] /\ task_is get "TaskFixHead" "TaskFixHead" [] [] /\ task_is get "TaskJointsBounds" "TaskJointsBounds" [] [] /\
  gained get "TaskJointsReference" "TaskJointsReference" 1 0 [("k_position_gain", number_ 1); ("joint_angles_reference", VVector angles)] [("k_position_gain", number_ 0); ("joint_angles_reference", VVector angles)] /\
  gained get "TaskTagOrientation" "TaskTagOrientation_" 1 0 [("k_orientation_gain", number_ 1); ("tag_string_id", text ""); ("reference_rpy", VVector [0; 0; 0])]
    [("k_orientation_gain", number_ 0); ("tag_string_id", text ""); ("reference_rpy", VVector [0; 0; 0])] /\
  gained get "TaskTagAngularVelocity" "TaskTagAngularVelocity_" 1 0 [("k_angular_velocity_gain", number_ 1); ("tag_string_id", text "")] [("k_angular_velocity_gain", number_ 0); ("tag_string_id", text "")] /\
  gained get "TaskTagCompleteVelocity" "TaskTagCompleteVelocity_" 1 0 [("k_complete_velocity_gain", number_ 1); ("tag_string_id", text "")] [("k_complete_velocity_gain", number_ 0); ("tag_string_id", text "")] /\
  gained get "TaskTagPose" "TaskTagPose_" 1 0 [("k_pose_gain", number_ 1); ("tag_string_id", text "")] [("k_pose_gain", number_ 0); ("tag_string_id", text "")] /\
  gained get "TaskTagPose3Dof" "TaskTagPose3Dof_" 1 0 [("k_pose_gain", number_ 1); ("tag_string_id", text "")] [("k_pose_gain", number_ 0); ("tag_string_id", text "")] /\
  gained get "TaskInfeasibleInequality" "Infeasible_Inequality_Task" 2 0 [] [] /\ gained get "TaskZeroVariables" "Minimize_All_Variables" 2 0 [("variables_id", text "")] [("variables_id", text "")].
Proof. intros get. repeat (split; [entry_row|]). entry_row. Qed.
