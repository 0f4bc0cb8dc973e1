(** * Specification vocabulary for C06, C07 *)
From Coq Require Import String List Arith Reals.
From Verif Require Import Base Solution.
Import ListNotations.

(** the structure obtained by a sequence of additions to an empty one *)
Definition added (ps : list (string * nat)) : structure :=
  fold_left (fun s p => addSolutionPart s (fst p) (snd p)) ps structure_reset.

(** total length of a sequence of additions *)
Definition total (ps : list (string * nat)) : nat := list_sum (map snd ps).

(** variable [v] belongs to the part [id] *)
Definition belongs (s : structure) (id : string) (v : nat) : Prop :=
  let l := getSolutionPartLocation s id in offset l <= v < offset l + len l.

(** a solution object whose vector has the size demanded by its structure *)
Definition consistent_solution (s : solution) : Prop :=
  (exists ps, sol_structure s = added ps) /\ length (sol_x s) = getNumberOfVariables (sol_structure s).

(** part [id] of the new structure is kept by a warm start *)
Definition kept (st : structure) (old : solution) (id : string) : Prop :=
  len (getSolutionPartLocation st id) = len (getSolutionPartLocation (sol_structure old) id).
