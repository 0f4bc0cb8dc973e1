(** * Vocabulary for the entries of tasks in configuration files (C94) *)
From Coq Require Import String List ZArith Arith Reals Bool.
From Verif Require Import Base Matrix Config ConfigProblem.
Import ListNotations.
Open Scope list_scope.
Local Open Scope string_scope.
Local Open Scope R_scope.

(** the entries of a section with their values; those of parents are in the same section *)
Fixpoint pair_of (e : entry) (v : value) {struct e} : list (string * value) :=
  match e, v with
  | EScalar n _, _ | EEnum n, _ | EVector n _, _ | EList n _, _ | EMatrix n, _ | EMember n _ _ _, _ => [(n, v)]
  | EParent es, VObject vs => (fix go (es : list entry) (vs : list value) {struct es} : list (string * value) :=
      match es, vs with e :: es', v :: vs' => (pair_of e v ++ go es' vs')%list | _, _ => [] end) es vs
  | EParent _, _ => []
  end.
Fixpoint pairs (es : list entry) (vs : list value) : list (string * value) :=
  match es, vs with e :: es', v :: vs' => (pair_of e v ++ pairs es' vs')%list | _, _ => [] end.
(** a new task of the class [name]: its description, the entries of its section with their values, and the values which entries have if they are missing in a file and
    this is tolerated *)
Definition task_is (get : factory) (name desc : string) (new missing : list (string * value)) : Prop := exists t, get name = Some t /\ t_desc t = desc /\
  pairs (c_entries (t_class t)) (t_values t) = new /\ pairs (c_entries (t_class t)) (c_defaults (t_class t) (t_values t)) = missing.
Definition number_ (x : R) : value := VScalar (SReal x).
Definition text (s : string) : value := VScalar (SStr s).
(** a task with a gain: [g] in a new task, [g'] if it is missing *)
Definition gained (get : factory) (name desc : string) (g g' : R) (new missing : list (string * value)) : Prop :=
  task_is get name desc (("gain", number_ g) :: new) (("gain", number_ g') :: missing).
