(** * Property C103: the program which walks tells the solver what it knows from the previous iteration. Vocabulary in WalkProgramHotSpec.v, WalkProgramSpec.v, SolverLifeSpec.v, QpoasesBridgeSpec.v. *)
From Coq Require Import String List Reals Arith Bool ZArith Lra Lia.
From Verif Require Import Base BaseFacts RSum Matrix Mat2 Mat3 ActiveSet ConstraintType HierarchyLevel HierarchySpec Constraints ConstraintsSpec QP QPSpec Problem ProblemSpec LeftRight FootParameters FootTrajectory
  PointMass6z PointMass6zSpec Solution Task MpcGuess PepperTasksSpec StanceFSM StanceSpec WalkPreview WalkPreviewSpec WalkMpc WalkModel WalkModelSpec WalkProfiles WalkProfilesSpec WalkTasks WalkTasksSpec
  QpoasesBridge QpoasesBridgeSpec Backends BackendsSpec Solver SolverLife SolverLifeSpec WalkLoop WalkLoopSpec WalkLoopFacts9 WalkProgram WalkProgramSpec WalkProgramHotSpec WalkProgramFacts7 WalkProgramFacts8 WalkProgramHot WalkProgramHot2.
Import ListNotations.
Local Open Scope nat_scope.

(** Nothing is guessed if it was not asked for *)
Theorem C103_nothing : forall p s0, exists F, forall fuel junk nan se pr par centering details w s es, F <= fuel -> launched p s0 pr se par centering details w s -> understood fuel junk nan se es s ->
  forall n k, asked fuel junk nan se es s n k -> (hs_solution (se_start se) = false -> lc_guess k = None) /\ (hs_active (se_start se) = false -> lc_active k = None).
Proof. exact hot_nothing. Qed.
(** The guess of the solution is the previous solution one interval later *)
Theorem C103_solution : forall p s0, exists F, forall fuel junk nan se pr par centering details w s es, F <= fuel -> launched p s0 pr se par centering details w s -> understood fuel junk nan se es s ->
  hs_solution (se_start se) = true -> let N := horizon_length (wg_par (wl_wpg s0)) in
  (forall k, asked fuel junk nan se es s 0 k -> exists m g, qa_nV (lc_problem k) = 2 * N + 2 * m /\ lc_guess k = Some g /\ vlen g = 2 * N + 2 * m /\ forall i, i < 2 * N + 2 * m -> vget g i = 0%R) /\
  (forall n x x' k k', steps_to fuel junk nan se es s n x x' -> asked fuel junk nan se es s n k -> asked fuel junk nan se es s (S n) k' ->
    exists m m' g, qa_nV (lc_problem k) = 2 * N + 2 * m /\ qa_nV (lc_problem k') = 2 * N + 2 * m' /\ lc_guess k' = Some g /\ moved_solution N m m' (point (last_solution x')) g /\
      forall y, an_primal (en_library (es n) k) = Some y -> forall i, i < 2 * N + 2 * m -> point (last_solution x') i = y i).
Proof. exact hot_solution. Qed.
(** The guess of the active set is the previous working set one interval later *)
Theorem C103_active : forall p s0, exists F, forall fuel junk nan se pr par centering details w s es, F <= fuel -> launched p s0 pr se par centering details w s -> understood fuel junk nan se es s ->
  hs_active (se_start se) = true -> let N := horizon_length (wg_par (wl_wpg s0)) in
  (forall n k, n = 0 \/ hs_report (se_start se) = false -> asked fuel junk nan se es s n k ->
    exists m g, qa_nV (lc_problem k) = 2 * N + 2 * m /\ option_map fst (lc_active k) = Some g /\ no_statuses (se_fixed se) N m g) /\
  (hs_report (se_start se) = true -> forall n k k', asked fuel junk nan se es s n k -> asked fuel junk nan se es s (S n) k' ->
    exists m m' g, qa_nV (lc_problem k) = 2 * N + 2 * m /\ qa_nV (lc_problem k') = 2 * N + 2 * m' /\ option_map fst (lc_active k') = Some g /\
      moved_statuses (se_fixed se) N m m' (an_wsb (en_library (es n) k)) g).
Proof. exact hot_active. Qed.
(** The walk is the same, whatever is used of the previous iteration *)
Theorem C103_same : forall p s0, exists F, forall fuel junk nan se hs pr par par' centering details details' w w' s s' es es', F <= fuel ->
  launched p s0 pr se par centering details w s -> launched p s0 pr (with_start se hs) par' centering details' w' s' -> pr_crash par = true -> pr_crash par' = true ->
  library_is right_answer fuel junk nan se es s -> library_is sensible_answer fuel junk nan se es s ->
  library_is right_answer fuel junk nan (with_start se hs) es' s' -> library_is sensible_answer fuel junk nan (with_start se hs) es' s' -> se_copvel se <> 0%R -> centering <> 0%R ->
  forall n, (pg_after fuel junk nan se es s n = Finished (Ok None) /\ pg_after fuel junk nan (with_start se hs) es' s' n = Finished (Ok None)) \/
    exists x y, pg_after fuel junk nan se es s n = Finished (Ok (Some x)) /\ pg_after fuel junk nan (with_start se hs) es' s' n = Finished (Ok (Some y)) /\
      pg_loop x = pg_loop y /\ (0 < n -> last_solution x = last_solution y).
Proof. exact hot_same. Qed.

(** a case which meets the hypotheses: the walk with default parameters, guesses of all kinds, calls in all of its 74 iterations *)
Theorem C103_case : exists F, forall fuel junk nan fixed hs es, F <= fuel -> exists s lib,
  let se := ex_settings fixed hs in let es' := fun n => with_library (es n) (lib n) in
  launched default_params (ex_loop default_mpc 0) (prim default_feet) se (ex_par true) ex_centering None ex_world s /\
  library_is right_answer fuel junk nan se es' s /\ library_is sensible_answer fuel junk nan se es' s /\
  forall n, n < 74 -> exists x x' k, steps_to fuel junk nan se es' s n x x' /\ asked fuel junk nan se es' s n k.
Proof. exact hot_case. Qed.

Print Assumptions C103_nothing. Print Assumptions C103_solution. Print Assumptions C103_active. Print Assumptions C103_same. Print Assumptions C103_case.
