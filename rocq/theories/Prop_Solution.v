(** * Properties C06 and C07. Vocabulary in SolutionSpec.v. *)
From Coq Require Import String List Arith Reals Lra.
From Verif Require Import Base Solution SolutionSpec SolutionFacts.
Import ListNotations.
Open Scope nat_scope.

(** C06. With distinct identifiers every part starts where the previous ones end and
    has the requested length ... *)
Theorem C06_layout :
  forall (a : list (string * nat)) (id : string) (n : nat) (b : list (string * nat)),
  NoDup (map fst (a ++ (id, n) :: b)) ->
  getSolutionPartLocation (added (a ++ (id, n) :: b)) id = mkLoc (total a) n.
Proof. exact layout_distinct. Qed.
Print Assumptions C06_layout.

(** C06. ... the total is the sum of the lengths ... *)
Theorem C06_number_of_variables :
  forall ps, getNumberOfVariables (added ps) = total ps.
Proof. exact layout_number. Qed.
Print Assumptions C06_number_of_variables.

(** C06. ... every variable belongs to exactly one part ... *)
Theorem C06_partition :
  forall ps, NoDup (map fst ps) -> forall v, v < getNumberOfVariables (added ps) ->
  exists! id, In id (map fst ps) /\ belongs (added ps) id v.
Proof. exact layout_partition. Qed.
Print Assumptions C06_partition.

(** C06. ... and all parts are inside, disjoint (even when identifiers are repeated) *)
Theorem C06_inside :
  forall ps id v, belongs (added ps) id v -> v < getNumberOfVariables (added ps).
Proof. exact layout_inside. Qed.
Print Assumptions C06_inside.

Theorem C06_disjoint :
  forall ps id1 id2 v, belongs (added ps) id1 v -> belongs (added ps) id2 v -> id1 = id2.
Proof. exact layout_disjoint. Qed.
Print Assumptions C06_disjoint.

(** C06. Unknown identifiers have the empty location *)
Theorem C06_unknown :
  forall ps id, ~ In id (map fst ps) -> getSolutionPartLocation (added ps) id = mkLoc 0 0.
Proof. exact layout_unknown. Qed.
Print Assumptions C06_unknown.

(** C06. Re-adding an identifier changes no location, but adds variables which belong to no part *)
Theorem C06_readding :
  forall ps id n, In id (map fst ps) ->
  let s := added ps in let s' := addSolutionPart s id n in
  (forall k, getSolutionPartLocation s' k = getSolutionPartLocation s k) /\
  getNumberOfVariables s' = getNumberOfVariables s + n /\
  (forall v k, getNumberOfVariables s <= v -> ~ belongs s' k v).
Proof. exact readd. Qed.
Print Assumptions C06_readding.

Example C06_case :
  let ps := [("z"%string, 2); ("a"%string, 3); ("m"%string, 1)] in
  NoDup (map fst ps) /\ getSolutionPartLocation (added ps) "a" = mkLoc 2 3 /\ getNumberOfVariables (added ps) = 6.
Proof.
  split; [|split; reflexivity].
  simpl; repeat constructor; simpl; intuition discriminate.
Qed.

(** C07. Warm start (the new solution and the old one are different objects) *)
Theorem C07_warm_start :
  forall ps old, consistent_solution old ->
  exists r, sol_initialize_old (added ps) old = Ok r /\
    sol_structure r = added ps /\
    length (sol_x r) = getNumberOfVariables (added ps) /\
    (forall id, In id (map fst ps) -> kept (added ps) old id ->
        exists d, getSolutionPart r id = Ok d /\ getSolutionPart old id = Ok d) /\
    (forall v, v < getNumberOfVariables (added ps) ->
        (forall id, belongs (added ps) id v -> ~ kept (added ps) old id) ->
        nth_error (sol_x r) v = Some 0%R).
Proof. exact warm_start. Qed.
Print Assumptions C07_warm_start.

(** C07. An old solution whose vector is too short for a part that has to be copied is rejected *)
Theorem C07_short_old_solution_rejected :
  forall ps old id,
  In id (map fst ps) -> kept (added ps) old id ->
  length (sol_x old) < offset (getSolutionPartLocation (sol_structure old) id)
       + len (getSolutionPartLocation (sol_structure old) id) ->
  sol_initialize_old (added ps) old = Throw.
Proof. exact warm_start_rejected. Qed.
Print Assumptions C07_short_old_solution_rejected.

(** C07. Passing the object itself as the old solution gives zeros: its data is lost. *)
Theorem C07_self_warm_start_is_zero :
  forall ps, sol_initialize_old_self (added ps) = Ok (sol_initialize_value (added ps) 0%R).
Proof. exact warm_start_self. Qed.
Print Assumptions C07_self_warm_start_is_zero.

Example C07_case :
  let old := mkSolution (added [("a"%string, 1); ("b"%string, 2)]) [1%R; 2%R; 3%R] in
  consistent_solution old /\
  sol_initialize_old (added [("b"%string, 2); ("a"%string, 2); ("c"%string, 1)]) old
    = Ok (mkSolution (added [("b"%string, 2); ("a"%string, 2); ("c"%string, 1)]) [2; 3; 0; 0; 0]%R).
Proof. split; [split; [eexists; reflexivity|reflexivity]|reflexivity]. Qed.
