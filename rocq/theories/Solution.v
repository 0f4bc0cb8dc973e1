(** * Solution structure and solution vector (/repo/core/include/humoto/solution.h) *)
From Coq Require Import String List Arith Bool Reals.
From Verif Require Import Base.
Import ListNotations.
Open Scope nat_scope.

(** std::map<std::string, Location>: association list ordered by key.
    std::string ordering is by unsigned characters, as [String.compare]. (solution.h:37) *)
Definition lmap := list (string * Location).

(** std::map::find(), solution.h:122-136 *)
Fixpoint lmap_find (id : string) (m : lmap) : option Location :=
  match m with
  | [] => None
  | (k, l) :: t => if String.eqb id k then Some l else lmap_find id t
  end.

(** std::map::insert: an existing entry is not overwritten (solution.h:59-63) *)
Fixpoint lmap_insert (id : string) (l : Location) (m : lmap) : lmap :=
  match m with
  | [] => [(id, l)]
  | (k, lk) :: t =>
      match String.compare id k with
      | Lt => (id, l) :: m
      | Eq => m
      | Gt => (k, lk) :: lmap_insert id l t
      end
  end.

(** solution.h:35-39: [number_of_variables_], [variable_map_] *)
Record structure := mkStructure { nvars : nat; vmap : lmap }.

(** solution.h:59-63 *)
Definition structure_reset : structure := mkStructure 0 [].

(** solution.h:72-80 *)
Definition addSolutionPart (s : structure) (id : string) (length : nat) : structure :=
  let location := mkLoc (nvars s) length in
  mkStructure (nvars s + length) (lmap_insert id location (vmap s)).

(** solution.h:88-98 *)
Definition isNonEmpty (s : structure) : bool := negb (List.length (vmap s) =? 0).

(** solution.h:109-112 *)
Definition getNumberOfVariables (s : structure) : nat := nvars s.

(** solution.h:122-136 *)
Definition getSolutionPartLocation (s : structure) (id : string) : Location :=
  match lmap_find id (vmap s) with
  | None => mkLoc 0 0
  | Some l => l
  end.

(** solution.h:175-190: a solution is a structure with the vector [x_]
    ([return_status_] is not touched by the functions below) *)
Record solution := mkSolution { sol_structure : structure; sol_x : list R }.

(** solution.h:214-219. Eigen's resize leaves the values unspecified when the size
    changes: they are given by [junk]. *)
Definition sol_initialize (st : structure) (junk : nat -> R) : solution :=
  mkSolution st (map junk (seq 0 (getNumberOfVariables st))).

(** solution.h:229-242 (both branches fill with the value) *)
Definition sol_initialize_value (st : structure) (value : R) : solution :=
  mkSolution st (repeat value (getNumberOfVariables st)).

(** solution.h:294-299 and 323-328, reading *)
Definition getData (s : solution) (l : Location) : outcome (list R) :=
  assert_then (checkLength l (length (sol_x s))) (Ok (segment (sol_x s) (offset l) (len l))).

(** solution.h:294-299, writing [getData(l) = d] (the assignment of Eigen blocks
    asserts equal sizes) *)
Definition setData (s : solution) (l : Location) (d : list R) : outcome solution :=
  assert_then (checkLength l (length (sol_x s)))
    (assert_then (len l =? length d)
      (bind (copy_into (sol_x s) (offset l) d) (fun x => Ok (mkSolution (sol_structure s) x)))).

(** solution.h:281-284 and 309-312 *)
Definition getSolutionPart (s : solution) (id : string) : outcome (list R) :=
  getData s (getSolutionPartLocation (sol_structure s) id).

(** solution.h:257-269, the loop over [variable_map_] *)
Fixpoint copy_parts (m : lmap) (old : solution) (s : solution) : outcome solution :=
  match m with
  | [] => Ok s
  | (id, guess_part) :: t =>
      let old_part := getSolutionPartLocation (sol_structure old) id in
      if len old_part =? len guess_part
      then bind (getData old old_part) (fun d =>
           bind (setData s guess_part d) (copy_parts t old))
      else copy_parts t old s
  end.

(** solution.h:251-270; [old_solution] is a different object than [this] *)
Definition sol_initialize_old (st : structure) (old : solution) : outcome solution :=
  let s := sol_initialize_value st 0%R in
  copy_parts (vmap (sol_structure s)) old s.

(** solution.h:251-270 when [old_solution] is [this] itself: by the time the parts
    are copied the object has already been zeroed (line 254), and every
    assignment copies from the object itself. *)
Fixpoint copy_parts_self (m : lmap) (s : solution) : outcome solution :=
  match m with
  | [] => Ok s
  | (id, guess_part) :: t =>
      let old_part := getSolutionPartLocation (sol_structure s) id in
      if len old_part =? len guess_part
      then bind (getData s old_part) (fun d =>
           bind (setData s guess_part d) (copy_parts_self t))
      else copy_parts_self t s
  end.
(** solution.h:251-270 with old_solution == *this *)
Definition sol_initialize_old_self (st : structure) : outcome solution :=
  let s := sol_initialize_value st 0%R in copy_parts_self (vmap (sol_structure s)) s.
