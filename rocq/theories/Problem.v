(** * The whole hierarchy: humoto::OptimizationProblem
    (/repo/core/include/humoto/hierarchy.h).

    The levels are those of HierarchyLevel.v. number_of_levels_ is the length of hierarchy_ (both are changed
    only by reset()). initSolutionStructure() and guessSolution() of the control problem are outside of this file
    (see Solution.v and Solver.v). If a call throws, the state of the object is not used afterwards. *)
From Coq Require Import List Arith Bool Reals.
From Verif Require Import Base ActiveSet Mixins ConstraintType HierarchyLevel Matrix Constraints.
Import ListNotations.
Local Open Scope nat_scope.

(** hierarchy.h:23-26: hierarchy_, number_of_constraints_ *)
Record problem := mkProblem { pb_levels : list level; pb_counts : list nat }.

(** std::vector<std::size_t>::resize(n): elements are kept, the new ones are zeros (hierarchy.h:245) *)
Definition resize_counts (n : nat) (c : list nat) : list nat := firstn n c ++ repeat 0 (n - length c).

(** hierarchy.h:238-246 reset(number_of_levels): the number of constraints of the old levels is kept *)
Definition pb_reset (n : nat) (p : problem) : problem :=
  mkProblem (repeat level_new n) (resize_counts n (pb_counts p)).

(** hierarchy.h:77-80 *)
Definition pb_new : problem := pb_reset 0 (mkProblem [] []).

(** hierarchy.h:280-283 *)
Definition pb_getNumberOfLevels (p : problem) : nat := length (pb_levels p).

(** hierarchy.h:91-96 pushTask(task_pointer, level_index) *)
Definition pb_pushTask (p : problem) (t : task) (i : nat) : outcome problem :=
  match nth_error (pb_levels p) i with
  | Some l => Ok (mkProblem (update (pb_levels p) i (level_pushTask l t)) (pb_counts p))
  | None => Throw
  end.

(** hierarchy.h:51-52: one level; both vectors are accessed without checks *)
Definition form_level (fo : nat -> formed) (guessing : bool) (i : nat) (p : problem) : outcome problem :=
  match nth_error (pb_levels p) i with
  | Some l =>
      bind (level_form fo guessing l) (fun l' =>
        if i <? length (pb_counts p)
        then Ok (mkProblem (update (pb_levels p) i l') (update (pb_counts p) i (level_getNumberOfConstraints l')))
        else UB)
  | None => UB
  end.

(** hierarchy.h:39-54 formHierarchy *)
Definition pb_formHierarchy (fo : nat -> formed) (guessing : bool) (p : problem) : outcome problem :=
  assert_then (0 <? pb_getNumberOfLevels p)
    (for_up (pb_getNumberOfLevels p) 0 (form_level fo guessing) p).

(** hierarchy.h:312-315 *)
Definition pb_initializeActiveSet (p : problem) : outcome asets := ass_initialize (pb_getNumberOfLevels p) (pb_counts p).

(** A loop over the levels which lets each of them work on its own part [s[i]] of a vector: the vector is accessed with an
    assertion (active_set.h:292-310, violations.h:249-267), the levels without. *)
Definition over_levels {S : Type} (f : level -> S -> outcome S) (p : problem) (s : list S) : outcome (list S) :=
  for_up (pb_getNumberOfLevels p) 0
    (fun i s => match nth_error (pb_levels p) i with
                | Some l => bind (read_at s i) (fun a => bind (f l a) (fun a' => write_at s i a'))
                | None => UB
                end) s.

(** hierarchy.h:62-70 guessActiveSet *)
Definition pb_guessActiveSet (p : problem) : outcome asets :=
  bind (pb_initializeActiveSet p) (over_levels level_guessActiveSet p).

(** hierarchy.h:106-111, 164-172 form() without active set guessing *)
Definition pb_form (fo : nat -> formed) (p : problem) : outcome problem := pb_formHierarchy fo false p.

(** hierarchy.h:122-129, 142-152 form() with active set guessing *)
Definition pb_form_guess (fo : nat -> formed) (p : problem) : outcome (problem * asets) :=
  bind (pb_formHierarchy fo true p) (fun p' => bind (pb_guessActiveSet p') (fun s => Ok (p', s))).

(** hierarchy.h:181-190 processActiveSet *)
Definition pb_processActiveSet (p : problem) (s : asets) : outcome problem :=
  assert_then (length s =? pb_getNumberOfLevels p)
    (for_up (pb_getNumberOfLevels p) 0
       (fun i p => match nth_error (pb_levels p) i with
                   | Some l => bind (read_at s i) (fun a => bind (level_processActiveSet l a) (fun l' =>
                                 Ok (mkProblem (update (pb_levels p) i l') (pb_counts p))))
                   | None => UB
                   end) p).

(** ** Evaluation of a solution.
    The constraints of the task with identity [k] are [cs k], [x] is the vector of the solution. *)

(** The ranges and sizes which Eigen asserts in getProduct (constraints_mixins.h:564-568, 728-732, 873-877, 1010-1014) *)
Definition product_defined (c : constr) (x : vec) : bool :=
  match c_body c with
  | BodyA A => mcols A =? vlen x
  | BodyAS A off => off + mcols A <=? vlen x
  | BodyI ix | BodyGI ix _ => forallb (fun j => j <? vlen x) ix
  end.

(** constraints.h: the class of constraints selects the mixin (e.g. 22, 69, 114, 159, 221); equalities do not read the
    solution *)
Definition task_determineActiveSet (c : constr) (x : vec) (s : aset) (l : Location) : outcome aset :=
  let n := getNumberOfConstraints c in
  let product := fun i => getProduct c i x in
  match c_bounds c with
  | BoundsLU lb ub => assert_then ((n =? 0) || product_defined c x) (determineActiveSetLU n (vget lb) (vget ub) product s l)
  | BoundsL lb => assert_then ((n =? 0) || product_defined c x) (determineActiveSetL n (vget lb) product s l)
  | BoundsU ub => assert_then ((n =? 0) || product_defined c x) (determineActiveSetU n (vget ub) product s l)
  | BoundsB _ | BoundsB0 => determineActiveSetB s l
  end.

(** constraints.h, the same lines (constraints_mixins.h:564-568, 728-732, 873-877, 1010-1014) *)
Definition task_computeViolations (c : constr) (x : vec) (v : viol) (l : Location) : outcome viol :=
  let n := getNumberOfConstraints c in
  let product := fun i => getProduct c i x in
  assert_then ((n =? 0) || product_defined c x)
    match c_bounds c with
    | BoundsLU lb ub => computeViolationsLU n (vget lb) (vget ub) product v l
    | BoundsL lb => computeViolationsL n (vget lb) product v l
    | BoundsU ub => computeViolationsU n (vget ub) product v l
    | BoundsB b => computeViolationsB n (vget b) product v l
    | BoundsB0 => computeViolationsB0 n product v l
    end.

(** hierarchy_level.h:149-158, 169-178: the loop over tasks *)
Fixpoint tasks_loop {S : Type} (f : constr -> S -> Location -> outcome S) (cs : nat -> constr) (ts : list tinfo) (s : S)
  : outcome S :=
  match ts with
  | [] => Ok s
  | i :: rest => bind (f (cs (tk_id (ti_task i))) s (ti_loc i)) (tasks_loop f cs rest)
  end.

(** hierarchy_level.h:149-158 *)
Definition level_determineActiveSet (cs : nat -> constr) (x : vec) (l : level) (s : aset) : outcome aset :=
  tasks_loop (fun c s loc => task_determineActiveSet c x s loc) cs (lv_tasks l) s.
(** hierarchy_level.h:169-178 *)
Definition level_computeViolations (cs : nat -> constr) (x : vec) (l : level) (v : viol) : outcome viol :=
  tasks_loop (fun c v loc => task_computeViolations c x v loc) cs (lv_tasks l) v.

(** hierarchy.h:202-211 *)
Definition pb_determineActiveSet (cs : nat -> constr) (x : vec) (p : problem) : outcome asets :=
  bind (pb_initializeActiveSet p) (over_levels (level_determineActiveSet cs x) p).

(** violations.h:308-318 Violations::initialize; the values are not initialised ([junk]) *)
Definition viols_initialize (junk : nat -> R) (nlevels : nat) (nctr : list nat) : outcome (list viol) :=
  for_up nlevels 0
    (fun i s => match nth_error nctr i with
                | Some n => bind (read_at s i) (fun v => write_at s i (viol_initialize junk v n))
                | None => UB
                end)
    (repeat (mkViol [] [] []) nlevels).

(** hierarchy.h:221-230 *)
Definition pb_computeViolations (junk : nat -> R) (cs : nat -> constr) (x : vec) (p : problem) : outcome (list viol) :=
  bind (viols_initialize junk (pb_getNumberOfLevels p) (pb_counts p)) (over_levels (level_computeViolations cs x) p).
