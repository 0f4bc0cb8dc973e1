(** * Property C101: the program which walks: controller, hierarchy of tasks and solver together. Vocabulary in WalkProgramSpec.v, WalkLoopSpec.v, WalkTasksSpec.v, SolverLifeSpec.v. *)
From Coq Require Import String List Reals Arith Bool ZArith Lra Lia.
From Verif Require Import Base BaseFacts RSum Matrix Mat2 Mat3 ActiveSet ConstraintType HierarchyLevel HierarchySpec Constraints ConstraintsSpec QP QPSpec Problem ProblemSpec LeftRight FootParameters FootTrajectory
  PointMass6z PointMass6zSpec Solution Task MpcGuess PepperTasksSpec StanceFSM StanceSpec WalkPreview WalkPreviewSpec WalkMpc WalkModel WalkModelSpec WalkProfiles WalkProfilesSpec WalkTasks WalkTasksSpec
  QpoasesBridge QpoasesBridgeSpec Backends BackendsSpec Solver SolverLife SolverLifeSpec WalkLoop WalkLoopSpec WalkLoopFacts9 WalkProgram WalkProgramSpec WalkProgramFacts7 WalkProgramFacts8 WalkProgramUnique.
Import ListNotations.
Local Open Scope nat_scope.

(** The program makes all iterations, unless the library fails and the solver is told to throw *)
Theorem C101_total : forall p s0, exists F, forall fuel junk nan se pr par centering details w s es, F <= fuel -> launched p s0 pr se par centering details w s -> understood fuel junk nan se es s -> forall n,
  (exists o, pg_after fuel junk nan se es s n = Finished (Ok o) /\
    (o <> None <-> n = 0 \/ (horizon_length (wg_par (wl_wpg s0)) + (n - 1)) * sampling_ms (wg_par (wl_wpg s0)) <= total_ms p)) \/
  (pg_after fuel junk nan se es s n = Finished Throw /\ pr_crash par = true /\ exists m k, m < n /\ asked fuel junk nan se es s m k /\ an_code (en_library (es m) k) <> CODE_SUCCESS).
Proof. exact program_total. Qed.
Theorem C101_complete : forall p s0, exists F, forall fuel junk nan se pr par centering details w s es, F <= fuel -> launched p s0 pr se par centering details w s -> understood fuel junk nan se es s ->
  library_is right_answer fuel junk nan se es s -> forall n,
  exists o, pg_after fuel junk nan se es s n = Finished (Ok o) /\
    (o <> None <-> n = 0 \/ (horizon_length (wg_par (wl_wpg s0)) + (n - 1)) * sampling_ms (wg_par (wl_wpg s0)) <= total_ms p).
Proof. exact program_complete. Qed.
(** There is a library with the right answers: each problem which is posed has a minimum *)
Theorem C101_solvable : forall p s0, exists F, forall fuel junk nan se pr par centering details w s es, F <= fuel -> launched p s0 pr se par centering details w s ->
  exists lib : nat -> libcall -> answer, library_is right_answer fuel junk nan se (fun n => with_library (es n) (lib n)) s /\
    library_is sensible_answer fuel junk nan se (fun n => with_library (es n) (lib n)) s.
Proof. exact program_solvable. Qed.
(** The motion is one of those of C99, made by the solutions of the program *)
Theorem C101_refines : forall p s0, exists F, forall fuel junk nan se pr par centering details w s es, F <= fuel -> launched p s0 pr se par centering details w s -> understood fuel junk nan se es s ->
  exists sols, walking p s0 fuel junk nan (se_inc se) pr sols /\
    (forall n x, pg_after fuel junk nan se es s n = Finished (Ok (Some x)) -> after fuel junk nan (se_inc se) (finalize pr) sols s0 n = Finished (Ok (Some (pg_loop x)))) /\
    (forall n x x', steps_to fuel junk nan se es s n x x' -> sols n = last_solution x') /\
    (forall n x, stops fuel junk nan se es s n x -> ended fuel junk nan (se_inc se) (finalize pr) sols s0 n (pg_loop x)).
Proof. exact program_refines. Qed.
(** The CoP is above the feet, the feet are placed within the limits, they end side by side *)
Theorem C101_cop : forall p s0, exists F, forall fuel junk nan se pr par centering details w s es, F <= fuel -> launched p s0 pr se par centering details w s -> understood fuel junk nan se es s ->
  pr_crash par = true -> library_is honest_answer fuel junk nan se es s -> forall n x x', steps_to fuel junk nan se es s n x x' ->
  exists q, supported pr (md_state (wl_model (pg_loop x))) q /\
    (subsampling_ms (wg_par (wl_wpg s0)) = sampling_ms (wg_par (wl_wpg s0)) -> forall a, is_cop (height_of (wl_model s0)) (ms_com (md_state (wl_model (pg_loop x')))) a (q a)) /\
    forall q0 t, (forall a, is_cop (height_of (wl_model s0)) (ms_com (md_state (wl_model (pg_loop x)))) a (q0 a)) -> t <= sampling_ms (wg_par (wl_wpg s0)) ->
      let l := (INR t / INR (sampling_ms (wg_par (wl_wpg s0))))%R in
      exists com, wg_com (wl_model (pg_loop x)) t (wl_wpg (pg_loop x')) = Ok com /\ forall a, is_cop (height_of (wl_model s0)) com a ((1 - l) * q0 a + l * q a)%R.
Proof. exact program_cop. Qed.
Theorem C101_feet : forall p s0, exists F, forall fuel junk nan se pr par centering details w s es, F <= fuel -> launched p s0 pr se par centering details w s -> understood fuel junk nan se es s ->
  pr_crash par = true -> library_is honest_answer fuel junk nan se es s -> forall n x x', steps_to fuel junk nan se es s n x x' ->
  let y := md_state (wl_model (pg_loop x)) in let y' := md_state (wl_model (pg_loop x')) in
  (lands y y' = false -> forall side, foot_of (ms_feet y') side = foot_of (ms_feet y) side) /\
  (lands y y' = true -> exists b b', foot_of (ms_feet y) (stance_foot (ms_stance y)) = Some b /\ foot_of (ms_feet y') (stance_foot (ms_stance y)) = Some b /\
     foot_of (ms_feet y') (swing (ms_stance y)) = Some b' /\ vz (b_position b') = vz (b_position b) /\ b_velocity b' = V3 0 0 0 /\
     (ms_next y' = DS -> side_by_side pr (swing (ms_stance y)) b b') /\
     (ms_next y' <> DS -> ms_next y' = opp (ms_stance y) /\ heading b' = (heading b + se_inc se)%R /\ reachable pr (swing (ms_stance y)) b b')).
Proof. exact program_feet. Qed.
Theorem C101_end : forall p s0, first_stance p <> DS \/ 0 < num_steps p -> exists F, forall fuel junk nan se pr par centering details w s es, F <= fuel -> launched p s0 pr se par centering details w s -> understood fuel junk nan se es s ->
  pr_crash par = true -> library_is honest_answer fuel junk nan se es s -> forall n x, stops fuel junk nan se es s n x ->
  exists b0 l r, foot_of (ms_feet (md_state (wl_model s0))) (first_foot p) = Some b0 /\ foot_of (ms_feet (md_state (wl_model (pg_loop x)))) LEFT = Some l /\ foot_of (ms_feet (md_state (wl_model (pg_loop x)))) RIGHT = Some r /\
    heading l = (heading b0 + INR (turns p) * se_inc se)%R /\ heading r = (heading b0 + INR (turns p) * se_inc se)%R /\ side_by_side pr LEFT r l.
Proof. exact program_end. Qed.
(** The solution is optimal in terms of the predicted motion *)
Theorem C101_optimal : forall p s0, exists F, forall fuel junk nan se pr par centering details w s es, F <= fuel -> launched p s0 pr se par centering details w s -> understood fuel junk nan se es s ->
  pr_crash par = true -> library_is sound_answer fuel junk nan se es s -> forall n x x', steps_to fuel junk nan se es s n x x' ->
  let g := wl_wpg (pg_loop x') in let sol := last_solution x' in
  fits_walk g sol /\ admissible nan se (horizon_length (wg_par (wl_wpg s0))) (wg_horizon g) sol /\ predicted junk nan (pg_loop x) (pg_loop x') sol (wg_profiles g) /\
  forall sol', fits_walk g sol' -> admissible nan se (horizon_length (wg_par (wl_wpg s0))) (wg_horizon g) sol' ->
    (exists pf', predicted junk nan (pg_loop x) (pg_loop x') sol' pf') /\
    forall pf', predicted junk nan (pg_loop x) (pg_loop x') sol' pf' ->
      (walk_cost se centering (pg_loop x) (pg_loop x') sol (wg_profiles g) <= walk_cost se centering (pg_loop x) (pg_loop x') sol' pf')%R.
Proof. exact program_optimal. Qed.
(** The walk does not depend on the library, on its memory and on the values of uninitialised objects: it is determined by the settings *)
Theorem C101_determined : forall p s0, exists F, forall fuel junk nan se hs pr par par' centering details details' w w' s s' es es', (F <= fuel)%nat ->
  launched p s0 pr se par centering details w s -> launched p s0 pr (with_start se hs) par' centering details' w' s' -> understood fuel junk nan se es s -> understood fuel junk nan (with_start se hs) es' s' -> pr_crash par = true -> pr_crash par' = true ->
  library_is sound_answer fuel junk nan se es s -> library_is sound_answer fuel junk nan (with_start se hs) es' s' -> se_copvel se <> 0%R -> centering <> 0%R ->
  forall n x y, pg_after fuel junk nan se es s n = Finished (Ok (Some x)) -> pg_after fuel junk nan (with_start se hs) es' s' n = Finished (Ok (Some y)) ->
  pg_loop x = pg_loop y /\ ((0 < n)%nat -> last_solution x = last_solution y).
Proof. exact program_determined. Qed.
(** One call of the library in each iteration, one object of the library at most *)
Theorem C101_memory : forall p s0, exists F, forall fuel junk nan se pr par centering details w s es, F <= fuel -> launched p s0 pr se par centering details w s -> understood fuel junk nan se es s ->
  forall n x, pg_after fuel junk nan se es s n = Finished (Ok (Some x)) ->
  length (wd_calls (pg_world x)) = length (wd_calls w) + n /\ tidy (pg_world x) /\
  (wd_live (pg_world x) = wd_live w \/ exists a, ~ In a (wd_live w) /\ wd_live (pg_world x) = a :: wd_live w).
Proof. exact program_memory. Qed.

(** a case which meets the hypotheses: the walk with default parameters, 74 iterations *)
Theorem C101_case : exists F, forall fuel junk nan fixed hs es, F <= fuel -> exists s lib x,
  launched default_params (ex_loop default_mpc 0) (prim default_feet) (ex_settings fixed hs) (ex_par true) ex_centering None ex_world s /\
  library_is right_answer fuel junk nan (ex_settings fixed hs) (fun n => with_library (es n) (lib n)) s /\
  library_is sensible_answer fuel junk nan (ex_settings fixed hs) (fun n => with_library (es n) (lib n)) s /\
  stops fuel junk nan (ex_settings fixed hs) (fun n => with_library (es n) (lib n)) s 74 x.
Proof. exact program_case. Qed.

(** If the solver is told not to throw, a failure of the library is not noticed, and the CoP leaves the support *)
Theorem C101_ignored_refuted : ~ forall p s0, exists F, forall fuel junk nan se pr par centering details w s es, F <= fuel -> launched p s0 pr se par centering details w s ->
  library_is honest_answer fuel junk nan se es s -> forall n x x', steps_to fuel junk nan se es s n x x' ->
  exists q, supported pr (md_state (wl_model (pg_loop x))) q /\
    (subsampling_ms (wg_par (wl_wpg s0)) = sampling_ms (wg_par (wl_wpg s0)) -> forall a, is_cop (height_of (wl_model s0)) (ms_com (md_state (wl_model (pg_loop x')))) a (q a)).
Proof. exact not_noticed. Qed.
Theorem C101_ignored_case : exists F, forall fuel junk nan hs, F <= fuel -> exists s x,
  launched default_params (ex_loop default_mpc 0) (prim default_feet) (ex_settings false hs) (ex_par false) ex_centering None ex_world s /\
  steps_to fuel junk nan (ex_settings false hs) (fun _ => failing) s 0 s x /\ so_status (pg_solution x) = STATUS_OTHER /\
  forall q, (forall a, is_cop (height_of (wl_model (ex_loop default_mpc 0))) (ms_com (md_state (wl_model (pg_loop x)))) a (q a)) -> ~ supported (prim default_feet) (md_state (wl_model (pg_loop s))) q.
Proof. exact program_ignored. Qed.

Print Assumptions C101_total. Print Assumptions C101_complete. Print Assumptions C101_solvable. Print Assumptions C101_refines. Print Assumptions C101_cop. Print Assumptions C101_feet. Print Assumptions C101_end. Print Assumptions C101_optimal. Print Assumptions C101_determined. Print Assumptions C101_memory. Print Assumptions C101_case. Print Assumptions C101_ignored_refuted. Print Assumptions C101_ignored_case.
