(** * Property C94: optimization problems in configuration files. Vocabulary in ConfigProblemSpec.v and ConfigSpec.v. *)
From Coq Require Import String List ZArith Arith Reals Bool Lia Lra.
From Verif Require Import Base Config ConfigSpec ConfigFacts ConfigNumber ConfigProblem ConfigProblemSpec ConfigProblemFacts ConfigProblemTables ConfigProblemWitness ConfigTaskSpec ConfigTaskTables.
Import ListNotations.
Open Scope list_scope.

(** Building a problem: the tasks are where they were pushed, and the lists for the file describe them *)
Theorem C94_built : forall (cs : list call),
  match run cp_new cs with
  | Ok p => consistent p /\ length (cp_levels p) = fst (pushed cs (0%nat, [])) /\
            forall i, (i < length (cp_levels p))%nat ->
              nth_error (cp_levels p) i = Some (map (fun x => snd (fst x)) (on_level i (snd (pushed cs (0%nat, []))))) /\
              nth_error (cp_names p) i = Some (map snd (on_level i (snd (pushed cs (0%nat, [])))))
  | Throw => exists pre t i name post, cs = pre ++ Push t i name :: post /\ (fst (pushed pre (0%nat, [])) <= i)%nat
  | UB => False
  end.
Proof. exact problem_built. Qed.
(** Writing: only a problem without levels is refused; the announced number of entries is that of the section *)
Theorem C94_written : forall (fmt : R -> R) (p : cproblem),
  consistent p ->
  match cp_write fmt p with
  | Ok sec => cp_levels p <> [] /\ length sec = cp_getNumberOfEntries p
  | Throw => cp_levels p = []
  | UB => False
  end.
Proof. exact problem_written. Qed.
(** Reading back, wherever the section is found *)
Theorem C94_round_trip : forall (get : factory) (fmt : R -> R) (p : cproblem) (sec : list (string * node)) (p0 : cproblem) (name : string) (crash : bool) (r : reader),
  storable get fmt p -> cp_write fmt p = Ok sec -> finds r name sec ->
  cp_readConfig get name crash p0 r = (r, kept fmt p, Ok tt).
Proof. exact problem_round_trip. Qed.
(** The tables of all modules are fit for this *)
Theorem C94_tables : forall (n : nat) (angles : list R) (axes : Z),
  length angles = n ->
  fit core_tasks /\ fit wpg04_tasks /\ fit mpc_tasks /\ fit (ik_tasks n angles axes).
Proof. exact tables_fit. Qed.
Theorem C94_names : forall (n : nat) (angles : list R) (axes : Z) (s : string),
  (core_tasks s <> None <-> In s core_names) /\ (wpg04_tasks s <> None <-> In s (wpg04_names ++ core_names)) /\
  (mpc_tasks s <> None <-> In s (mpc_names ++ core_names)) /\ (ik_tasks n angles axes s <> None <-> In s (ik_names ++ core_names)).
Proof. exact tables_known. Qed.
Theorem C94_msgpack : forall (get : factory) (p : cproblem) (p0 : cproblem) (name : string) (crash : bool),
  fit get -> consistent p -> cp_levels p <> [] -> distinct_sections p -> made_from get p ->
  exists sec, cp_write (fun x => x) p = Ok sec /\
    cp_readConfig get name crash p0 (problem_msgpack name sec) = (problem_msgpack name sec, p, Ok tt).
Proof. exact problem_msgpack_back. Qed.
Theorem C94_yaml : forall (get : factory) (fmt : R -> R) (p : cproblem) (p0 : cproblem) (name : string) (crash : bool),
  fit get -> consistent p -> cp_levels p <> [] -> distinct_sections p -> made_from get p ->
  exists sec, cp_write fmt p = Ok sec /\
    cp_readConfig get name crash p0 (problem_yaml name sec) = (problem_yaml name sec, kept fmt p, Ok tt).
Proof. exact problem_yaml_back. Qed.
(** What a successful read gives, for any file *)
Theorem C94_read : forall (get : factory) (name : string) (crash : bool) (p0 : cproblem) (r r' : reader) (p : cproblem) (r1 : reader),
  descend name r = Some r1 -> cp_readConfig get name crash p0 r = (r', p, Ok tt) ->
  r' = r /\ consistent p /\ cp_levels p <> [] /\
  read_rows "task_class_names" crash [] r1 = (r1, Done (cp_names p)) /\
  read_rows "task_ids" crash (cp_ids p0) r1 = (r1, Done (cp_ids p)) /\
  forall i j names ids ts n d, nth_error (cp_names p) i = Some names -> nth_error (cp_ids p) i = Some ids -> nth_error (cp_levels p) i = Some ts ->
    nth_error names j = Some n -> nth_error ids j = Some d ->
    exists t t0, nth_error ts j = Some t /\ get n = Some t0 /\ t_class t = t_class t0 /\ t_desc t = d /\
      readConfig (t_class t0) d crash (t_values t0) r1 = (r1, Done (t_values t)).
Proof. exact problem_read. Qed.
(** A strict read without the section is refused *)
Theorem C94_missing_section : forall (get : factory) (name : string) (p : cproblem) (r : reader),
  finds_nothing r name -> exists p', cp_readConfig get name true p r = (r, p', Throw) /\ cp_levels p' = cp_levels p.
Proof. exact missing_problem_strict. Qed.
(** Undefined behaviour only if a name is unknown *)
Theorem C94_undefined : forall (get : factory) (name : string) (crash : bool) (p0 : cproblem) (r r' : reader) (p : cproblem),
  cp_readConfig get name crash p0 r = (r', p, UB) -> exists n, In n (concat (cp_names p)) /\ get n = None.
Proof. exact problem_read_ub. Qed.
Theorem C94_unknown_name_refuted : exists (p : cproblem) (sec : list (string * node)) (r' : reader) (p' : cproblem),
  run cp_new [Reset 1; Push (infeasible "task") 0 "InfeasibleInequality"] = Ok p /\ cp_write (fun x => x) p = Ok sec /\
  core_tasks "InfeasibleInequality"%string = None /\
  cp_readConfig core_tasks "OptimizationProblem" true cp_new (problem_msgpack "OptimizationProblem" sec) = (r', p', UB).
Proof. exact unknown_name. Qed.
Theorem C94_same_description_refuted : exists (p : cproblem) (sec : list (string * node)) (p' : cproblem),
  run cp_new [Reset 2; Push (minimize 1 "CoP") 0 "TaskZeroVariables"; Push (minimize 5 "footsteps") 1 "TaskZeroVariables"] = Ok p /\
  made_from core_tasks p /\ cp_write (fun x => x) p = Ok sec /\
  cp_readConfig core_tasks "OptimizationProblem" true cp_new (problem_msgpack "OptimizationProblem" sec) =
    (problem_msgpack "OptimizationProblem" sec, p', Ok tt) /\
  cp_levels p = [[minimize 1 "CoP"]; [minimize 5 "footsteps"]] /\ cp_levels p' = [[minimize 1 "CoP"]; [minimize 1 "CoP"]].
Proof. exact same_description. Qed.
Theorem C94_renamed_refuted : exists (p : cproblem) (sec : list (string * node)) (r' : reader) (p' : cproblem),
  run cp_new [Reset 1; Push (infeasible "a") 0 "TaskInfeasibleInequality"] = Ok p /\ cp_write (fun x => x) (cp_setDescription p 0 0 "b") = Ok sec /\
  cp_readConfig core_tasks "OptimizationProblem" true cp_new (problem_msgpack "OptimizationProblem" sec) = (r', p', Throw).
Proof. exact renamed_task. Qed.
Theorem C94_refused_file_refuted : exists (p : cproblem) (r r' : reader) (p' : cproblem),
  run cp_new [Reset 2; Push (infeasible "a") 0 "TaskInfeasibleInequality"] = Ok p /\
  r = problem_msgpack "OptimizationProblem" [("task_class_names", rows_node [["TaskInfeasibleInequality"]]); ("task_ids", rows_node [["x"]; []])]%string /\
  cp_readConfig core_tasks "OptimizationProblem" true p r = (r', p', Throw) /\ cp_levels p' = cp_levels p /\
  cp_pushTask p (infeasible "b") 1 "TaskInfeasibleInequality" <> UB /\ cp_pushTask p' (infeasible "b") 1 "TaskInfeasibleInequality" = UB.
Proof. exact refused_file. Qed.
Theorem C94_relaxed_missing_section_refuted : forall (get : factory) (name : string) (p : cproblem) (r : reader) (t : ctask) (i : nat) (n : string) (fmt : R -> R),
  finds_nothing r name -> consistent p -> (i < length (cp_levels p))%nat ->
  exists p', cp_readConfig get name false p r = (r, p', Ok tt) /\ cp_levels p' = cp_levels p /\ cp_pushTask p' t i n = UB /\ cp_write fmt p' = Throw.
Proof. exact missing_problem. Qed.
Theorem C94_relaxed_missing_task_refuted : exists (p' : cproblem) (r : reader),
  r = problem_msgpack "OptimizationProblem" [("task_class_names", rows_node [["TaskZeroVariables"]]); ("task_ids", rows_node [["x"]])]%string /\
  cp_readConfig core_tasks "OptimizationProblem" false cp_new r = (r, p', Ok tt) /\ cp_levels p' = [[zero_variables 0 "x" ""]] /\
  exists t, core_tasks "TaskZeroVariables"%string = Some t /\ t = zero_variables 2 "Minimize_All_Variables" "".
Proof. exact missing_task. Qed.
(** Entries of the tasks of all modules: values in new tasks, and values which they get if they are missing in a file and this is tolerated. Vocabulary in ConfigTaskSpec.v. *)
Local Open Scope string_scope.
Local Open Scope R_scope.
Theorem C94_core_entries : forall (get : factory),
  In get [core_tasks; wpg04_tasks; mpc_tasks] ->
  gained get "TaskInfeasibleInequality" "Infeasible_Inequality_Task" 2 0 [] [] /\
  gained get "TaskZeroVariables" "Minimize_All_Variables" 2 0 [("variables_id", text "")] [("variables_id", text "")] /\
  gained get "TaskZeroSelectedVariables" "Minimize_Selected_Variables" 2 0 [("variables_indices", VList [])] [("variables_indices", VList [])].
Proof. exact core_entries. Qed.
Theorem C94_walk_entries : gained wpg04_tasks "TaskCoMVelocity" "TaskCoMVelocity" 0.707106781186548 0.707106781186548 [] [] /\
  gained wpg04_tasks "TaskCoPPosition" "TaskCoPPosition" 12.2474487139159 12.2474487139159 [("variables_id", text "CoP")] [("variables_id", text "CoP")] /\
  gained wpg04_tasks "TaskCoPVelocity" "TaskCoPVelocity" 0.223606797749979 0.223606797749979 [] [] /\
  task_is wpg04_tasks "TaskFootstepBounds" "TaskFootstepBounds" [("fix_footsteps", VScalar (SBool false))] [("fix_footsteps", VScalar (SBool false))] /\
  task_is wpg04_tasks "TaskCoPBounds" "TaskCoPBounds" [] [] /\
  gained wpg04_tasks "TaskTerminalConstraint" "TaskTerminalConstraint" 1 1 [] [].
Proof. exact walk_entries. Qed.
Theorem C94_pepper_mpc_entries : gained mpc_tasks "TaskBaseAccelerationBounds" "TaskBaseAccelerationBounds" 0 0 [] [] /\
  gained mpc_tasks "TaskBaseJerkMinimization" "TaskBaseJerkMinimization" 0.707106781186548 0 [] [] /\
  gained mpc_tasks "TaskBasePositionReference" "TaskBasePositionReference" 0.707106781186548 0 [] [] /\
  task_is mpc_tasks "TaskBaseVelocityBounds" "TaskBaseVelocityBounds" [] [] /\
  gained mpc_tasks "TaskBaseVelocityReference" "TaskBaseVelocityReference" 1 0 [] [] /\
  gained mpc_tasks "TaskBodyJerkMinimization" "TaskBodyJerkMinimization" 0.707106781186548 0 [("variables_id", text "body_pos")] [("variables_id", text "body_pos")] /\
  gained mpc_tasks "TaskBodyPositionBounds" "TaskBodyPositionBounds" 0 0 [] [] /\
  gained mpc_tasks "TaskBodyPositionReference" "TaskBodyPositionReference" 0.707106781186548 0 [] [] /\
  gained mpc_tasks "TaskCoPCentering" "TaskCoPCentering" 0.707106781186548 0 [] [] /\
  gained mpc_tasks "TaskCoPPositionBounds" "TaskCoPPositionBounds" 0 0 [] [].
Proof. exact pepper_mpc_entries. Qed.
Theorem C94_pepper_ik_entries : forall (n : nat) (angles : list R) (axes : Z),
  let get := ik_tasks n angles axes in
  gained get "TaskBaseCoMTracking" "TaskBaseCoMTracking" 1 0 [("k_position_gain", number_ 1)] [("k_position_gain", number_ 0)] /\
  gained get "TaskBaseOrientation" "TaskBaseOrientation" 1 0 [("k_orientation_gain", number_ 1)] [("k_orientation_gain", number_ 0)] /\
  gained get "TaskBodyCoMTracking" "TaskBodyCoMTracking" 1 0 [("k_position_gain", number_ 1); ("axis_flag", VScalar (SInt axes))] [("k_position_gain", number_ 0); ("axis_flag", VScalar (SInt axes))] /\
  task_is get "TaskFixArms" "TaskFixArms" [] [] /\ task_is get "TaskFixHead" "TaskFixHead" [] [] /\ task_is get "TaskJointsBounds" "TaskJointsBounds" [] [] /\
  gained get "TaskJointsReference" "TaskJointsReference" 1 0 [("k_position_gain", number_ 1); ("joint_angles_reference", VVector angles)] [("k_position_gain", number_ 0); ("joint_angles_reference", VVector angles)] /\
  gained get "TaskTagOrientation" "TaskTagOrientation_" 1 0 [("k_orientation_gain", number_ 1); ("tag_string_id", text ""); ("reference_rpy", VVector [0; 0; 0])]
    [("k_orientation_gain", number_ 0); ("tag_string_id", text ""); ("reference_rpy", VVector [0; 0; 0])] /\
  gained get "TaskTagAngularVelocity" "TaskTagAngularVelocity_" 1 0 [("k_angular_velocity_gain", number_ 1); ("tag_string_id", text "")] [("k_angular_velocity_gain", number_ 0); ("tag_string_id", text "")] /\
  gained get "TaskTagCompleteVelocity" "TaskTagCompleteVelocity_" 1 0 [("k_complete_velocity_gain", number_ 1); ("tag_string_id", text "")] [("k_complete_velocity_gain", number_ 0); ("tag_string_id", text "")] /\
  gained get "TaskTagPose" "TaskTagPose_" 1 0 [("k_pose_gain", number_ 1); ("tag_string_id", text "")] [("k_pose_gain", number_ 0); ("tag_string_id", text "")] /\
  gained get "TaskTagPose3Dof" "TaskTagPose3Dof_" 1 0 [("k_pose_gain", number_ 1); ("tag_string_id", text "")] [("k_pose_gain", number_ 0); ("tag_string_id", text "")] /\
  gained get "TaskInfeasibleInequality" "Infeasible_Inequality_Task" 2 0 [] [] /\ gained get "TaskZeroVariables" "Minimize_All_Variables" 2 0 [("variables_id", text "")] [("variables_id", text "")].
Proof. exact pepper_ik_entries. Qed.
Local Close Scope R_scope.

(** *** The hypotheses can be met: the problem of the regression test *)
Example C94_built_example : run cp_new test_calls = Ok test_problem.
Proof. exact test_built. Qed.
Example C94_round_trip_example : storable core_tasks yaml_number test_problem.
Proof. destruct test_fits as (A & B & C & D). exact (fit_storable core_tasks yaml_number _ fit_core A B C D). Qed.
Example C94_msgpack_example : consistent test_problem /\ cp_levels test_problem <> [] /\ distinct_sections test_problem /\ made_from core_tasks test_problem.
Proof. exact test_fits. Qed.
Example C94_relaxed_example : finds_nothing (problem_yaml "Other" []) "OptimizationProblem" /\ consistent test_problem /\ (1 < length (cp_levels test_problem))%nat.
Proof. split; [cbn; intuition discriminate|]. split; [exact (proj1 test_fits)|]. cbn. lia. Qed.
Example C94_read_example : exists sec r1, cp_write (fun x => x) test_problem = Ok sec /\ descend "OptimizationProblem" (problem_msgpack "OptimizationProblem" sec) = Some r1 /\
  cp_readConfig core_tasks "OptimizationProblem" true cp_new (problem_msgpack "OptimizationProblem" sec) = (problem_msgpack "OptimizationProblem" sec, test_problem, Ok tt).
Proof. do 2 eexists. split; [reflexivity|]. split; reflexivity. Qed.

Print Assumptions C94_built. Print Assumptions C94_written. Print Assumptions C94_round_trip. Print Assumptions C94_tables. Print Assumptions C94_names. Print Assumptions C94_msgpack. Print Assumptions C94_yaml. Print Assumptions C94_read. Print Assumptions C94_missing_section. Print Assumptions C94_undefined. Print Assumptions C94_unknown_name_refuted. Print Assumptions C94_same_description_refuted. Print Assumptions C94_renamed_refuted. Print Assumptions C94_refused_file_refuted. Print Assumptions C94_relaxed_missing_section_refuted. Print Assumptions C94_relaxed_missing_task_refuted. Print Assumptions C94_core_entries. Print Assumptions C94_walk_entries. Print Assumptions C94_pepper_mpc_entries. Print Assumptions C94_pepper_ik_entries.
