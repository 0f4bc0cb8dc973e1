(** * Vocabulary for optimization problems in configuration files *)
From Coq Require Import String List ZArith Arith Reals Bool.
From Verif Require Import Base Config ConfigSpec ConfigProblem.
Import ListNotations.
Open Scope list_scope.

(** the lists which are written to the file describe the hierarchy: one list of names and ids per level, one name and one id per task, and the id
    of a task is its description *)
Definition consistent (p : cproblem) : Prop :=
  cp_ids p = map (map t_desc) (cp_levels p) /\
  Forall2 (fun names tasks => length names = length tasks) (cp_names p) (cp_levels p).

(** the calls of a user who builds a problem *)
Inductive call := Reset (n : nat) | Push (t : ctask) (level : nat) (name : string).
Definition run1 (p : cproblem) (c : call) : outcome cproblem :=
  match c with Reset n => Ok (cp_reset n p) | Push t i name => cp_pushTask p t i name end.
Fixpoint run (p : cproblem) (cs : list call) : outcome cproblem :=
  match cs with [] => Ok p | c :: rest => bind (run1 p c) (fun p' => run p' rest) end.
(** the tasks pushed since the last reset: level, task, name *)
Fixpoint pushed (cs : list call) (acc : nat * list (nat * ctask * string)) : nat * list (nat * ctask * string) :=
  match cs with
  | [] => acc
  | Reset n :: rest => pushed rest (n, [])
  | Push t i name :: rest => pushed rest (fst acc, snd acc ++ [(i, t, name)])
  end.
Definition on_level (i : nat) (l : list (nat * ctask * string)) : list (nat * ctask * string) := filter (fun x => fst (fst x) =? i) l.

(** all tasks of a problem, with the names of their classes *)
Definition all_tasks (p : cproblem) : list ctask := concat (cp_levels p).
Definition named_tasks (p : cproblem) : list (string * ctask) := combine (concat (cp_names p)) (all_tasks p).

(** the tables of the problem create the task which was written: the same class, with members of the right types *)
Definition creates (get : factory) (name : string) (t : ctask) : Prop :=
  exists t0, get name = Some t0 /\ t_class t0 = t_class t /\ have_types (c_entries (t_class t)) (t_values t0).
(** names of sections do not clash *)
Definition distinct_sections (p : cproblem) : Prop :=
  NoDup ("task_class_names"%string :: "task_ids"%string :: map t_desc (all_tasks p)).
(** a problem which can be stored *)
Definition storable (get : factory) (fmt : R -> R) (p : cproblem) : Prop :=
  consistent p /\ cp_levels p <> [] /\ distinct_sections p /\
  forall name t, In (name, t) (named_tasks p) -> creates get name t /\ wf_class (t_class t) /\ readable fmt (t_class t) (t_values t).

(** what the file keeps of a task, and of a problem: doubles as they are printed *)
Definition kept_task (fmt : R -> R) (t : ctask) : ctask := mkTask (t_class t) (t_desc t) (map (stored fmt) (t_values t)).
Definition kept (fmt : R -> R) (p : cproblem) : cproblem := mkCP (map (map (kept_task fmt)) (cp_levels p)) (cp_names p) (cp_ids p).

(** the table is fit for storing: every class is well formed, its new objects have the right types, and every object can be read back *)
Definition fit (get : factory) : Prop :=
  forall name t, get name = Some t ->
    wf_class (t_class t) /\ have_types (c_entries (t_class t)) (t_values t) /\
    forall vs, have_types (c_entries (t_class t)) vs -> (forall fmt, readable fmt (t_class t) vs) /\ forall v, In v vs -> matrix_free v.
(** every task of the problem is of the class which its name stands for *)
Definition made_from (get : factory) (p : cproblem) : Prop :=
  forall name t, In (name, t) (named_tasks p) ->
    exists t0, get name = Some t0 /\ t_class t0 = t_class t /\ have_types (c_entries (t_class t)) (t_values t).
