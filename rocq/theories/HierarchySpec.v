(** * Specification vocabulary for C08, C09, C62 *)
From Coq Require Import List Arith Bool.
From Verif Require Import Base ActiveSet ConstraintType HierarchyLevel.
Import ListNotations.

(** the level obtained by pushing tasks one after another *)
Definition pushed (ts : list task) : level := fold_left level_pushTask ts level_new.

Definition simple_task (t : task) : bool := ct_isSimple (tk_type t).
Definition general_task (t : task) : bool := negb (simple_task t).

(** total number of constraints produced by the tasks satisfying [p] *)
Definition rows (fo : nat -> formed) (p : task -> bool) (ts : list task) : nat :=
  list_sum (map (fun t => f_n (fo (tk_id t))) (filter p ts)).

(** row [r] of the level belongs to the [k]-th task of the level *)
Definition owns (l : level) (k r : nat) : Prop :=
  exists i, nth_error (lv_tasks l) k = Some i /\
            offset (ti_loc i) <= r < offset (ti_loc i) + len (ti_loc i).

(** task [t] (before) can be formed: its new constraints are consistent, a guess
    kept from earlier has a matching size if guessing is disabled, a task
    which claims to be unmodified keeps its size, and the guess of a task with its own
    function for this is empty or has a matching size *)
Definition formable (fo : nat -> formed) (guessing : bool) (t : task) : Prop :=
  let f := fo (tk_id t) in
  f_consistent f = true /\
  (guessing = false -> length (tk_guess t) = 0 \/ length (tk_guess t) = f_n f) /\
  (guessing = true -> match f_guess f with
                      | None => f_unmodified f = true -> length (tk_actual t) = 0 \/ length (tk_actual t) = f_n f
                      | Some g => exists a, g (userForm f (preForm t)) = Ok a /\ (length a = 0 \/ length a = f_n f)
                      end).

(** the guess of a task with its own function has one entry for each constraint *)
Definition full_guess (f : formed) : Prop := forall g t a, f_guess f = Some g -> g t = Ok a -> length a = tk_n t.

(** tasks [ts] of two levels are the same tasks *)
Definition same_tasks (l1 l2 : level) : Prop :=
  map (fun i => (tk_id (ti_task i), tk_type (ti_task i))) (lv_tasks l1) =
  map (fun i => (tk_id (ti_task i), tk_type (ti_task i))) (lv_tasks l2).

(** any history of pushing tasks, forming (with or without guessing, with any behaviour
    of the user's form() functions) and distributing active sets *)
Inductive lreach : level -> Prop :=
| lr_new : lreach level_new
| lr_push l t : lreach l -> lreach (level_pushTask l t)
| lr_form l fo gu l' : lreach l -> level_form fo gu l = Ok l' -> lreach l'
| lr_process l s l' : lreach l -> level_processActiveSet l s = Ok l' -> lreach l'.
