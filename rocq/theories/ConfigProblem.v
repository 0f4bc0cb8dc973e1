(** * Optimization problems in configuration files
    (/repo/core/include/humoto/configurable_optimization_problem.h and the classes derived from it in the modules).

    Of a task the description, the class and the configurable members are modelled; of the hierarchy the tasks on each level (the rest of
    humoto::OptimizationProblem is in Problem.v). *)
From Coq Require Import String List ZArith Arith Reals Bool.
From Verif Require Import Base Mixins RSum Matrix Config.
Import ListNotations.
Open Scope list_scope.

(** a task (task.h:31, 122-125: the description is also the name of its section), its class, its configurable members *)
Record ctask := mkTask { t_class : cls; t_desc : string; t_values : list value }.
(** hierarchy_ (hierarchy.h:23), task_class_names_, task_ids_ (configurable_optimization_problem.h:73-74) *)
Record cproblem := mkCP { cp_levels : list (list ctask); cp_names : list (list string); cp_ids : list (list string) }.

(** 31-34 (and hierarchy.h:77-80) *)
Definition cp_new : cproblem := mkCP [] [] [].
(** 60-69 *)
Definition cp_reset (n : nat) (p : cproblem) : cproblem := mkCP (repeat [] n) (repeat [] n) (repeat [] n).
(** hierarchy.h:91-96 *)
Definition base_pushTask (p : cproblem) (t : ctask) (i : nat) : outcome cproblem :=
  match nth_error (cp_levels p) i with
  | Some l => Ok (mkCP (update (cp_levels p) i (l ++ [t])) (cp_names p) (cp_ids p))
  | None => Throw
  end.
(** v[i].push_back(x), unchecked (configurable_optimization_problem.h:50-51) *)
Definition append_at {A} (v : list (list A)) (i : nat) (x : A) : outcome (list (list A)) :=
  match nth_error v i with Some l => Ok (update v i (l ++ [x])) | None => UB end.
(** 44-52 *)
Definition cp_pushTask (p : cproblem) (t : ctask) (i : nat) (name : string) : outcome cproblem :=
  bind (base_pushTask p t i) (fun p1 =>
  bind (append_at (cp_names p1) i name) (fun names =>
  bind (append_at (cp_ids p1) i (t_desc t)) (fun ids =>
  Ok (mkCP (cp_levels p1) names ids)))).
(** task.h:260-263 setDescription() of a task which the user still holds (tasks are shared pointers) *)
Definition cp_setDescription (p : cproblem) (i j : nat) (d : string) : cproblem :=
  match nth_error (cp_levels p) i with
  | Some l => match nth_error l j with
              | Some t => mkCP (update (cp_levels p) i (update l j (mkTask (t_class t) d (t_values t)))) (cp_names p) (cp_ids p)
              | None => p
              end
  | None => p
  end.

(** ** writing *)
(** a vector of vectors of strings. For a writer that is not const (config.h:273-330: it never is) overload resolution prefers the
    function for vectors (config_yaml/writer.h:220-233, config_msgpack/writer.h:183-188) to the one for vectors of vectors, which
    is const; the elements are written by the libraries as sequences *)
Definition rows_node (l : list (list string)) : node := NRows (map (map SStr) l).
(** config.h:267-271, 284-291 writeNestedConfig() of a task, task.h:122-125 *)
Definition task_section (fmt : R -> R) (t : ctask) : string * node :=
  (t_desc t, NMap (write_list fmt (c_entries (t_class t)) (t_values t))).
(** 177-198 writeConfigEntries() *)
Definition cp_write (fmt : R -> R) (p : cproblem) : outcome (list (string * node)) :=
  match cp_names p with
  | [] => Throw
  | _ => Ok ([("task_class_names"%string, rows_node (cp_names p)); ("task_ids"%string, rows_node (cp_ids p))] ++
             flat_map (map (task_section fmt)) (cp_levels p))
  end.
(** 206-216 *)
Definition cp_getNumberOfEntries (p : cproblem) : nat := 2 + list_sum (map (@length ctask) (cp_levels p)).
(** files with this object only: writeConfig(), config.h:314-321 (see Config.v) *)
Definition problem_yaml (name : string) (sec : list (string * node)) : reader := mkReader [] [NMap [(name, NMap sec)]].
(** a msgpack file with this object only, config.h:314-321 *)
Definition problem_msgpack (name : string) (sec : list (string * node)) : reader := mkReader [NMap [(name, NMap sec)]] [].

(** ** reading *)
(** the string in a converted scalar, configurable_optimization_problem.h:141-168 *)
Definition string_of (s : scalar) : string := match s with SStr x => x | _ => ""%string end.
(** a vector of vectors of strings, config_yaml/reader.h:243-269, config_msgpack/reader.h:280-306 *)
Fixpoint convert_rows (l : list (list scalar)) : option (list (list string)) :=
  match l with
  | [] => Some []
  | r :: t => match convert_all KStr r, convert_rows t with Some a, Some b => Some (map string_of a :: b) | _, _ => None end
  end.
(** readCompound (std::vector of std::vector<std::string>): config_yaml/reader.h:243-269, config_msgpack/reader.h:280-306. An element that
    is not a sequence is an error (in msgpack; in YAML it depends on the library). After a failed conversion the member is taken to
    be unchanged: it is not used before it is cleared. *)
Definition read_rows (name : string) (crash : bool) (keep : list (list string)) (r : reader) : reader * res (list (list string)) :=
  within name crash keep r (fun r1 =>
    (r1, match current r1 with
         | NRows l => match convert_rows l with Some x => Done x | None => Thrown end
         | NSeq [] => Done []
         | _ => Thrown
         end)).

(** getTask() of the most derived class: a new task, or a null pointer (configurable_optimization_problem.h:93-110) *)
Definition factory := string -> option ctask.

(** the body of the loop over tasks (152-167). A null pointer is dereferenced before it is checked. *)
Definition read_task (get : factory) (crash : bool) (i : nat) (name id : string) (p : cproblem) (r : reader) : reader * cproblem * outcome unit :=
  match get name with
  | None => (r, p, UB)
  | Some t =>
      match readConfig (t_class t) id crash (t_values t) r with
      | (r1, Done vs) => match base_pushTask p (mkTask (t_class t) id vs) i with
                         | Ok p1 => (r1, p1, Ok tt)
                         | Throw => (r1, p, Throw)
                         | UB => (r1, p, UB)
                         end
      | (r1, Thrown) => (r1, p, Throw)
      end
  end.
(** 150-168; the two lists have the same length *)
Fixpoint read_tasks (get : factory) (crash : bool) (i : nat) (names ids : list string) (p : cproblem) (r : reader) : reader * cproblem * outcome unit :=
  match names, ids with
  | n :: ns, d :: ds =>
      match read_task get crash i n d p r with
      | (r1, p1, Ok _) => read_tasks get crash i ns ds p1 r1
      | x => x
      end
  | _, _ => (r, p, Ok tt)
  end.
(** 143-169: level [i] and the following *)
Fixpoint read_levels (get : factory) (crash : bool) (i : nat) (names ids : list (list string)) (p : cproblem) (r : reader) : reader * cproblem * outcome unit :=
  match names, ids with
  | n :: ns, d :: ds =>
      if length n =? length d
      then match read_tasks get crash i n d p r with
           | (r1, p1, Ok _) => read_levels get crash (S i) ns ds p1 r1
           | x => x
           end
      else (r, p, Throw)
  | _, _ => (r, p, Ok tt)
  end.
(** 121-170 readConfigEntries(); finalize() does nothing *)
Definition cp_read (get : factory) (crash : bool) (p : cproblem) (r : reader) : reader * cproblem * outcome unit :=
  match read_rows "task_class_names" crash (cp_names p) r with
  | (r1, Thrown) => (r1, p, Throw)
  | (r1, Done names) =>
    let p1 := mkCP (cp_levels p) names (cp_ids p) in
    match read_rows "task_ids" crash (cp_ids p) r1 with
    | (r2, Thrown) => (r2, p1, Throw)
    | (r2, Done ids) =>
      let p2 := mkCP (cp_levels p) names ids in
      match names with
      | [] => (r2, p2, Throw)
      | _ => if length names =? length ids
             then read_levels get crash 0 names ids (mkCP (repeat [] (length names)) names ids) r2
             else (r2, p2, Throw)
      end
    end
  end.
(** config.h:131-156 readConfig(); setDefaults() (83-86) clears only the names of the classes *)
Definition cp_readConfig (get : factory) (name : string) (crash : bool) (p : cproblem) (r : reader) : reader * cproblem * outcome unit :=
  let p0 := mkCP (cp_levels p) [] (cp_ids p) in
  match descend name r with
  | Some r1 => match cp_read get crash p0 r1 with
               | (r2, p2, Ok _) => (ascend r2, p2, Ok tt)
               | x => x
               end
  | None => (r, p0, if crash then Throw else Ok tt)
  end.

(** ** the tasks of the modules *)
(** setGain(), task.h: the members of a class derived from GeneralTaskBaseMixin / WeightedSimpleTaskBaseMixin (297-348, 378-429): the parent TaskBase
    (22: no entries) and the gain; of a class derived from SimpleTaskBaseMixin (465-516) the entries are those of TaskBase *)
Definition gain_entries : list entry := [EParent []; EScalar "gain" KReal].
(** the members of GeneralTaskBaseMixin, task.h:297-348 *)
Definition gain_values (g : R) : value := VObject [VObject []; VScalar (SReal g)].
(** finalize() of the tasks does nothing, task.h:128-132 *)
Definition always (l : list value) : bool := true.
(** a class [name] with the parent TaskAB, TaskASB, TaskGIB, ..., own entries [es], and setDefaults() (task.h:297-348, 378-429) *)
Definition gain_class (es : list entry) (dflt : list value -> list value) : cls := mkCls (EParent gain_entries :: es) always (fun l => gain_values 0 :: dflt (tl l)).
(** a new task of such a class, task.h:297-348, 378-429 *)
Definition gain_task (es : list entry) (dflt : list value -> list value) (desc : string) (g : R) (vs : list value) : ctask :=
  mkTask (gain_class es dflt) desc (gain_values g :: vs).
(** a class without own entries: those of GeneralTaskBaseMixin (task.h:297-348) *)
Definition plain_gain_task (desc : string) (g : R) : ctask :=
  mkTask (mkCls gain_entries always (fun _ => [VObject []; VScalar (SReal 0)])) desc [VObject []; VScalar (SReal g)].
(** the same without gain: TaskBase::setDefaults() (task.h:128-132) does nothing *)
Definition base_task (desc : string) : ctask := mkTask (mkCls [] always (fun l => l)) desc [].
(** a new task of a class derived from SimpleTaskBaseMixin, task.h:465-516 *)
Definition simple_task (es : list entry) (dflt : list value -> list value) (desc : string) (vs : list value) : ctask :=
  mkTask (mkCls (EParent [] :: es) always (fun l => VObject [] :: dflt (tl l))) desc (VObject [] :: vs).
(** the value of an entry of type std::string, config.h:20-30 *)
Definition str (s : string) : value := VScalar (SStr s).
(** the value of an entry of type double, config.h:20-30 *)
Definition num (x : R) : value := VScalar (SReal x).

(** configurable_optimization_problem.h:93-110, task_generic.h:26-67, 124-153, 171-190. Indices of variables are modelled as a list of integers. *)
Definition zero_variables (g : R) (desc id : string) : ctask := gain_task [EScalar "variables_id" KStr] (fun l => l) desc g [str id].
(** configurable_optimization_problem.h:93-110 *)
Definition core_tasks : factory := fun s =>
  if String.eqb s "TaskInfeasibleInequality" then Some (plain_gain_task "Infeasible_Inequality_Task" 2)
  else if String.eqb s "TaskZeroVariables" then Some (zero_variables 2 "Minimize_All_Variables" "")
  else if String.eqb s "TaskZeroSelectedVariables"
  then Some (gain_task [EList "variables_indices" KInt] (fun l => l) "Minimize_Selected_Variables" 2 [VList []])
  else None.

(** a class with a single parent and the defaults of the gain [g] (wpg04) *)
Definition regained_task (g : R) (desc : string) : ctask :=
  mkTask (mkCls [EParent gain_entries] always (fun _ => [gain_values g])) desc [gain_values g].
(** wpg04/configurable_optimization_problem.h:26-56; task_comvelocity.h:22-45, task_copposition.h:22-48, task_copvelocity.h:22-46, task_footstepbounds.h:22-49,
    task_copbounds.h:22-39, task_terminalconstraint.h:21-45; COP_VARIABLES_ID: common.h:17 *)
Definition wpg04_tasks : factory := fun s =>
  if String.eqb s "TaskCoMVelocity" then Some (regained_task 0.707106781186548 "TaskCoMVelocity")
  else if String.eqb s "TaskCoPPosition"
  then Some (mkTask (mkCls [EParent (EParent gain_entries :: [EScalar "variables_id" KStr])] always
                           (fun _ => [VObject [gain_values 12.2474487139159; str "CoP"]]))
                    "TaskCoPPosition" [VObject [gain_values 12.2474487139159; str "CoP"]])
  else if String.eqb s "TaskCoPVelocity" then Some (regained_task 0.223606797749979 "TaskCoPVelocity")
  else if String.eqb s "TaskFootstepBounds"
  then Some (simple_task [EScalar "fix_footsteps" KBool] (fun _ => [VScalar (SBool false)]) "TaskFootstepBounds" [VScalar (SBool false)])
  else if String.eqb s "TaskCoPBounds" then Some (simple_task [] (fun _ => []) "TaskCoPBounds" [])
  else if String.eqb s "TaskTerminalConstraint" then Some (regained_task 1 "TaskTerminalConstraint")
  else core_tasks s.

(** pepper_mpc/configurable_optimization_problem.h:25-71 and the constructors in task_*.h; no task defines entries of its own; common.h:18 *)
Definition mpc_tasks : factory := fun s =>
  if String.eqb s "TaskBaseAccelerationBounds" then Some (plain_gain_task s 0)
  else if String.eqb s "TaskBaseJerkMinimization" then Some (plain_gain_task s 0.707106781186548)
  else if String.eqb s "TaskBasePositionReference" then Some (plain_gain_task s 0.707106781186548)
  else if String.eqb s "TaskBaseVelocityBounds" then Some (base_task s)
  else if String.eqb s "TaskBaseVelocityReference" then Some (plain_gain_task s 1)
  else if String.eqb s "TaskBodyJerkMinimization" then Some (zero_variables 0.707106781186548 s "body_pos")
  else if String.eqb s "TaskBodyPositionBounds" then Some (plain_gain_task s 0)
  else if String.eqb s "TaskBodyPositionReference" then Some (plain_gain_task s 0.707106781186548)
  else if String.eqb s "TaskCoPCentering" then Some (plain_gain_task s 0.707106781186548)
  else if String.eqb s "TaskCoPPositionBounds" then Some (plain_gain_task s 0)
  else core_tasks s.

(** replaces the first of the own members (the functions setDefaults() of the tasks with own entries, e.g. task_tagpose.h:62-69) *)
Definition zero_first (l : list value) : list value := num 0 :: tl l.
(** a task for a tag: task_tagangularvel.h, task_tagcompletevel.h, task_tagpose.h, task_tagpose3dof.h (22-66): the gain [k], the name of the tag *)
Definition tag_class_task (k desc : string) : ctask := gain_task [EScalar k KReal; EScalar "tag_string_id" KStr] zero_first desc 1 [num 1; str ""].
(** pepper_ik/configurable_optimization_problem.h:27-80 and task_*.h. [n] joints, [angles] their default angles, [axes] the flags of the axes. *)
Definition ik_tasks (n : nat) (angles : list R) (axes : Z) : factory := fun s =>
  if String.eqb s "TaskBaseCoMTracking" then Some (gain_task [EScalar "k_position_gain" KReal] zero_first s 1 [num 1])
  else if String.eqb s "TaskBaseOrientation" then Some (gain_task [EScalar "k_orientation_gain" KReal] zero_first s 1 [num 1])
  else if String.eqb s "TaskBodyCoMTracking"
  then Some (gain_task [EScalar "k_position_gain" KReal; EScalar "axis_flag" KInt] zero_first s 1 [num 1; VScalar (SInt axes)])
  else if String.eqb s "TaskFixArms" then Some (simple_task [] (fun l => l) s [])
  else if String.eqb s "TaskFixHead" then Some (simple_task [] (fun l => l) s [])
  else if String.eqb s "TaskJointsBounds" then Some (base_task s)
  else if String.eqb s "TaskJointsReference"
  then Some (gain_task [EScalar "k_position_gain" KReal; EVector "joint_angles_reference" (Some n)] (fun _ => [num 0; VVector angles]) s 1
               [num 1; VVector angles])
  else if String.eqb s "TaskTagOrientation"
  then Some (gain_task [EScalar "k_orientation_gain" KReal; EScalar "tag_string_id" KStr; EVector "reference_rpy" (Some 3%nat)] zero_first
               "TaskTagOrientation_" 1 [num 1; str ""; VVector [0; 0; 0]%R])
  else if String.eqb s "TaskTagAngularVelocity" then Some (tag_class_task "k_angular_velocity_gain" "TaskTagAngularVelocity_")
  else if String.eqb s "TaskTagCompleteVelocity" then Some (tag_class_task "k_complete_velocity_gain" "TaskTagCompleteVelocity_")
  else if String.eqb s "TaskTagPose" then Some (tag_class_task "k_pose_gain" "TaskTagPose_")
  else if String.eqb s "TaskTagPose3Dof" then Some (tag_class_task "k_pose_gain" "TaskTagPose3Dof_")
  else core_tasks s.
