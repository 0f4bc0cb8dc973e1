(** * Tasks and hierarchy levels: bookkeeping
    (/repo/core/include/humoto/task.h, hierarchy_level.h, hierarchy.h).

    Constraint matrices are in Constraints.v; here only sizes, locations and active
    sets are modelled. A task which is pushed more than once is not modelled
    (the C++ code holds shared pointers). *)
From Coq Require Import List Arith Bool.
From Verif Require Import Base ActiveSet ConstraintType.
Import ListNotations.

(** task.h:20-35, 98-100: description (identity), type, number of constraints produced by
    the last form(), is_modified_, active_set_guess_, active_set_actual_ *)
Record task := mkTask {
  tk_id : nat;
  tk_type : ctype;
  tk_n : nat;
  tk_modified : bool;
  tk_guess : aset;
  tk_actual : aset
}.

(** What the user-defined form() of a task does: number of constraints it produces,
    whether they are consistent (checkConsistency() does not throw) and whether
    it calls markAsUnmodified(). (task.h:178-180, 191-194)
    The virtual function guessActiveSet() (task.h:140-170): [None] if it is not overridden, otherwise the guess which
    the override computes; it is assumed to change nothing else in the task. *)
Record formed := mkFormed { f_n : nat; f_consistent : bool; f_unmodified : bool; f_guess : option (task -> outcome aset) }.

(** task.h:44-49 preForm *)
Definition preForm (t : task) : task :=
  mkTask (tk_id t) (tk_type t) (tk_n t) true (tk_guess t) (tk_actual t).

(** task.h:178-180 form (virtual), task.h:191-194 markAsUnmodified *)
Definition userForm (f : formed) (t : task) : task :=
  mkTask (tk_id t) (tk_type t) (f_n f) (if f_unmodified f then false else tk_modified t) (tk_guess t) (tk_actual t).

(** assignment to active_set_guess_, task.h:140-170 *)
Definition set_guess (t : task) (g : aset) : task :=
  mkTask (tk_id t) (tk_type t) (tk_n t) (tk_modified t) g (tk_actual t).
(** assignment to active_set_actual_, task.h:82-86 *)
Definition set_actual (t : task) (a : aset) : task :=
  mkTask (tk_id t) (tk_type t) (tk_n t) (tk_modified t) (tk_guess t) a.

(** task.h:140-170 guessActiveSet (default implementation) *)
Definition guessActiveSet (t : task) : outcome task :=
  let num_ctr := tk_n t in
  if tk_modified t || (0 =? length (tk_actual t))
  then Ok (set_guess t (if ct_isEquality (tk_type t)
                        then as_initialize_type num_ctr EQUALITY
                        else as_initialize_type num_ctr INACTIVE))
  else assert_then (num_ctr =? length (tk_actual t)) (Ok (set_guess t (tk_actual t))).

(** hierarchy_level.h:66-69: the call of the virtual function *)
Definition virtual_guess (f : formed) (t : task) : outcome task :=
  match f_guess f with
  | None => guessActiveSet t
  | Some g => bind (g t) (fun a => Ok (set_guess t a))
  end.

(** task.h:57-72 postForm *)
Definition postForm (f : formed) (t : task) : outcome task :=
  assert_then (f_consistent f)
    (assert_then ((length (tk_guess t) =? 0) || (length (tk_guess t) =? tk_n t)) (Ok t)).

(** hierarchy_level.h:207-233 TaskInfo *)
Record tinfo := mkTInfo { ti_task : task; ti_loc : Location }.

(** hierarchy_level.h:23-27, 242 *)
Record level := mkLevel {
  n_general : nat; n_simple : nat; n_equality : nat; n_twosided : nat;
  lv_tasks : list tinfo
}.

(** hierarchy_level.h:250-253, 33-40 *)
Definition level_new : level := mkLevel 0 0 0 0 [].

(** hierarchy_level.h:188-198 *)
Definition level_pushTask (l : level) (t : task) : level :=
  let i := mkTInfo t (mkLoc 0 0) in
  mkLevel (n_general l) (n_simple l) (n_equality l) (n_twosided l)
    (if ct_isSimple (tk_type t) then lv_tasks l ++ [i] else i :: lv_tasks l).

(** hierarchy_level.h:255-258, 268-271 ... 312-315 *)
Definition level_getNumberOfConstraints (l : level) : nat := n_general l + n_simple l.
(** hierarchy_level.h:301-304 *)
Definition level_getNumberOfInequalityConstraints (l : level) : nat :=
  level_getNumberOfConstraints l - n_equality l.
(** hierarchy_level.h:312-315 *)
Definition level_getNumberOfInequalityConstraintsOneSided (l : level) : nat :=
  level_getNumberOfInequalityConstraints l + n_twosided l.
(** hierarchy_level.h:323-326, 334-337 *)
Definition level_isSimple (l : level) : bool := level_getNumberOfConstraints l =? n_simple l.
(** hierarchy_level.h:334-337 *)
Definition level_isEquality (l : level) : bool := level_getNumberOfConstraints l =? n_equality l.

(** hierarchy_level.h:63-73: preForm, form, guessActiveSet, postForm of one task *)
Definition form_task (fo : nat -> formed) (guessing : bool) (t : task) : outcome task :=
  let f := fo (tk_id t) in
  let t1 := userForm f (preForm t) in
  bind (if guessing then virtual_guess f t1 else Ok t1) (postForm f).

(** hierarchy_level.h:60-102: the loop over tasks; the counters are those of [l], the
    tasks already processed are returned in front *)
Fixpoint form_loop (fo : nat -> formed) (guessing : bool) (g s e two : nat) (ts : list tinfo)
  : outcome level :=
  match ts with
  | [] => Ok (mkLevel g s e two [])
  | i :: rest =>
      bind (form_task fo guessing (ti_task i)) (fun t =>
        let num_ctr := tk_n t in
        let e' := if ct_isEquality (tk_type t) then e + num_ctr else e in
        let two' := if ct_isTwoSided (tk_type t) then two + num_ctr else two in
        if ct_isSimple (tk_type t)
        then bind (form_loop fo guessing g (s + num_ctr) e' two' rest) (fun l =>
               Ok (mkLevel (n_general l) (n_simple l) (n_equality l) (n_twosided l)
                           (mkTInfo t (mkLoc (s + g) num_ctr) :: lv_tasks l)))
        else bind (form_loop fo guessing (g + num_ctr) s e' two' rest) (fun l =>
               Ok (mkLevel (n_general l) (n_simple l) (n_equality l) (n_twosided l)
                           (mkTInfo t (mkLoc g num_ctr) :: lv_tasks l))))
  end.

(** hierarchy_level.h:52-105 *)
Definition level_form (fo : nat -> formed) (guessing : bool) (l : level) : outcome level :=
  assert_then (negb (length (lv_tasks l) =? 0))
    (bind (form_loop fo guessing 0 0 0 0 (lv_tasks l)) (fun r =>
       assert_then (0 <? level_getNumberOfConstraints r) (Ok r))).

(** hierarchy_level.h:114-122: tasks copy their guesses (task.h:94-99) *)
Fixpoint guess_loop (ts : list tinfo) (s : aset) : outcome aset :=
  match ts with
  | [] => Ok s
  | i :: rest => bind (as_copyTo s (ti_loc i) (tk_guess (ti_task i))) (guess_loop rest)
  end.
(** hierarchy_level.h:114-122 *)
Definition level_guessActiveSet (l : level) (s : aset) : outcome aset := guess_loop (lv_tasks l) s.

(** hierarchy_level.h:131-139: tasks copy their parts (task.h:82-86) *)
Fixpoint process_loop (ts : list tinfo) (s : aset) : outcome (list tinfo) :=
  match ts with
  | [] => Ok []
  | i :: rest =>
      bind (as_initialize_from (tk_actual (ti_task i)) s (ti_loc i)) (fun a =>
      bind (process_loop rest s) (fun rest' =>
        Ok (mkTInfo (set_actual (ti_task i) a) (ti_loc i) :: rest')))
  end.
(** hierarchy_level.h:131-139 *)
Definition level_processActiveSet (l : level) (s : aset) : outcome level :=
  bind (process_loop (lv_tasks l) s) (fun ts =>
    Ok (mkLevel (n_general l) (n_simple l) (n_equality l) (n_twosided l) ts)).
