(** * Specification vocabulary for C17 and C63 *)
From Coq Require Import String List Arith Reals Bool.
From Verif Require Import Base RSum Matrix Solution SolutionSpec Constraints ConstraintsSpec Task.
Import ListNotations.
Open Scope R_scope.

(** what users do with a task *)
Inductive top := SetGain (g : R) | SetId (id : string) | Form (s : structure).
Definition zero_op (t : zero_task) (o : top) : zero_task :=
  match o with SetGain g => zero_setGain g t | SetId id => zero_setVariablesID id t | Form s => zero_form s t end.
Definition selected_op (t : selected_task) (o : top) : selected_task :=
  match o with SetGain g => selected_setGain g t | SetId _ => t | Form s => selected_form s t end.
Definition infeasible_op (t : infeasible_task) (o : top) : infeasible_task :=
  match o with Form s => infeasible_form s t | _ => t end.

(** the gain which was set last *)
Fixpoint last_gain (g : R) (os : list top) : R :=
  match os with [] => g | SetGain g' :: t => last_gain g' t | _ :: t => last_gain g t end.

(** the object demands  g * x_v = 0  for the listed variables [vs] (and nothing else) *)
Definition demands (c : constr) (g : R) (vs : list nat) : Prop :=
  getNumberOfConstraints c = length vs /\
  forall r x, (r < length vs)%nat -> row_value c r x = g * x (nth r vs 0%nat) /\ lower c r = Some 0 /\ upper c r = Some 0.
(** consecutive variables *)
Definition variables (l : Location) : list nat := map (fun i => (offset l + i)%nat) (seq 0 (len l)).
