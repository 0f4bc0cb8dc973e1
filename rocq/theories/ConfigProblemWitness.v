(** * Optimization problems in configuration files: examples and counterexamples *)
From Coq Require Import String List ZArith Arith Reals Bool Lia Lra.
From Verif Require Import Base BaseFacts Config ConfigSpec ConfigFacts ConfigProblem ConfigProblemSpec ConfigProblemFacts ConfigProblemTables.
Import ListNotations.
Open Scope list_scope.

(** the problem of core/tests/regression_test_000.cpp:147-161 *)
Definition infeasible (d : string) : ctask := plain_gain_task d 1.
Definition test_calls : list call :=
  [Reset 3; Push (infeasible "task1") 0 "TaskInfeasibleInequality"; Push (infeasible "task2") 0 "TaskInfeasibleInequality";
   Push (zero_variables 1 "task3" "") 1 "TaskZeroVariables"; Push (infeasible "task4") 2 "TaskInfeasibleInequality"].
Definition test_problem : cproblem :=
  mkCP [[infeasible "task1"; infeasible "task2"]; [zero_variables 1 "task3" ""]; [infeasible "task4"]]
       [["TaskInfeasibleInequality"; "TaskInfeasibleInequality"]; ["TaskZeroVariables"]; ["TaskInfeasibleInequality"]]%string
       [["task1"; "task2"]; ["task3"]; ["task4"]]%string.
Lemma test_built : run cp_new test_calls = Ok test_problem.
Proof. reflexivity. Qed.
Lemma test_fits : consistent test_problem /\ cp_levels test_problem <> [] /\ distinct_sections test_problem /\ made_from core_tasks test_problem.
Proof.
  split; [split; [reflexivity|repeat constructor]|]. split; [discriminate|]. split; [distinct|].
  intros name t [E|[E|[E|[E|[]]]]]; injection E as <- <-; eexists; (split; [reflexivity|]; split; [reflexivity|]); cbn; auto.
Qed.

(** a problem with a class name that is not in the table is written, but cannot be read: undefined behaviour instead of an error *)
Lemma unknown_name : exists (p : cproblem) (sec : list (string * node)) (r' : reader) (p' : cproblem),
  run cp_new [Reset 1; Push (infeasible "task") 0 "InfeasibleInequality"] = Ok p /\ cp_write (fun x => x) p = Ok sec /\
  core_tasks "InfeasibleInequality"%string = None /\
  cp_readConfig core_tasks "OptimizationProblem" true cp_new (problem_msgpack "OptimizationProblem" sec) = (r', p', UB).
Proof. do 4 eexists. split; [reflexivity|]. split; [reflexivity|]. split; reflexivity. Qed.

(** two tasks with the default description: the second one is read with the parameters of the first *)
Definition minimize (g : R) (id : string) : ctask := zero_variables g "Minimize_All_Variables" id.
Lemma same_description : exists (p : cproblem) (sec : list (string * node)) (p' : cproblem),
  run cp_new [Reset 2; Push (minimize 1 "CoP") 0 "TaskZeroVariables"; Push (minimize 5 "footsteps") 1 "TaskZeroVariables"] = Ok p /\
  made_from core_tasks p /\ cp_write (fun x => x) p = Ok sec /\
  cp_readConfig core_tasks "OptimizationProblem" true cp_new (problem_msgpack "OptimizationProblem" sec) =
    (problem_msgpack "OptimizationProblem" sec, p', Ok tt) /\
  cp_levels p = [[minimize 1 "CoP"]; [minimize 5 "footsteps"]] /\ cp_levels p' = [[minimize 1 "CoP"]; [minimize 1 "CoP"]].
Proof.
  do 3 eexists. split; [reflexivity|]. split.
  - intros name t [E|[E|[]]]; injection E as <- <-; eexists; (split; [reflexivity|]; split; [reflexivity|]); cbn; auto.
  - split; [reflexivity|]. split; [reflexivity|]. split; reflexivity.
Qed.

(** a task is renamed after it was pushed: the file is inconsistent *)
Lemma renamed_task : exists (p : cproblem) (sec : list (string * node)) (r' : reader) (p' : cproblem),
  run cp_new [Reset 1; Push (infeasible "a") 0 "TaskInfeasibleInequality"] = Ok p /\ cp_write (fun x => x) (cp_setDescription p 0 0 "b") = Ok sec /\
  cp_readConfig core_tasks "OptimizationProblem" true cp_new (problem_msgpack "OptimizationProblem" sec) = (r', p', Throw).
Proof. do 4 eexists. split; [reflexivity|]. split; reflexivity. Qed.

(** a file with one list of names and two lists of ids is refused; the problem that should have been replaced still has its two levels, but it is
    not possible to push a task to the second of them any more *)
Lemma refused_file : exists (p : cproblem) (r r' : reader) (p' : cproblem),
  run cp_new [Reset 2; Push (infeasible "a") 0 "TaskInfeasibleInequality"] = Ok p /\
  r = problem_msgpack "OptimizationProblem" [("task_class_names", rows_node [["TaskInfeasibleInequality"]]); ("task_ids", rows_node [["x"]; []])]%string /\
  cp_readConfig core_tasks "OptimizationProblem" true p r = (r', p', Throw) /\ cp_levels p' = cp_levels p /\
  cp_pushTask p (infeasible "b") 1 "TaskInfeasibleInequality" <> UB /\ cp_pushTask p' (infeasible "b") 1 "TaskInfeasibleInequality" = UB.
Proof. do 4 eexists. split; [reflexivity|]. split; [reflexivity|]. split; [reflexivity|]. split; [reflexivity|]. split; [discriminate|reflexivity]. Qed.

(** relaxed reading, no section: the tasks are kept, but the problem can neither be written nor extended *)
Lemma missing_problem (get : factory) (name : string) (p : cproblem) (r : reader) (t : ctask) (i : nat) (n : string) (fmt : R -> R) :
  finds_nothing r name -> consistent p -> (i < length (cp_levels p))%nat ->
  exists p', cp_readConfig get name false p r = (r, p', Ok tt) /\ cp_levels p' = cp_levels p /\ cp_pushTask p' t i n = UB /\ cp_write fmt p' = Throw.
Proof.
  intros N [C1 C2] L. apply finds_nothing_descend in N. unfold cp_readConfig. rewrite N. eexists. split; [reflexivity|]. split; [reflexivity|].
  split; [|reflexivity]. unfold cp_pushTask, base_pushTask. cbn [cp_levels cp_names cp_ids].
  destruct (nth_error (cp_levels p) i) as [l|] eqn:E; [|apply nth_error_None in E; lia]. cbn. destruct i; reflexivity.
Qed.
(** a strict read without the section is refused *)
Lemma missing_problem_strict (get : factory) (name : string) (p : cproblem) (r : reader) :
  finds_nothing r name -> exists p', cp_readConfig get name true p r = (r, p', Throw) /\ cp_levels p' = cp_levels p.
Proof. intros N. apply finds_nothing_descend in N. unfold cp_readConfig. rewrite N. eexists. split; reflexivity. Qed.
(** relaxed reading, a task without section: the gain is not that of a new task, but zero *)
Lemma missing_task : exists (p' : cproblem) (r : reader),
  r = problem_msgpack "OptimizationProblem" [("task_class_names", rows_node [["TaskZeroVariables"]]); ("task_ids", rows_node [["x"]])]%string /\
  cp_readConfig core_tasks "OptimizationProblem" false cp_new r = (r, p', Ok tt) /\ cp_levels p' = [[zero_variables 0 "x" ""]] /\
  exists t, core_tasks "TaskZeroVariables"%string = Some t /\ t = zero_variables 2 "Minimize_All_Variables" "".
Proof. do 2 eexists. split; [reflexivity|]. split; [reflexivity|]. split; [reflexivity|]. eexists. split; reflexivity. Qed.
