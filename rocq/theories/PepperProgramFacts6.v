(** * The Pepper program: theorems *)
From Coq Require Import String List Reals Arith Bool ZArith Lra Lia.
From Verif Require Import Base BaseFacts RSum Matrix Mat2 Mat3 ActiveSet Mixins ConstraintType HierarchyLevel HierarchySpec Constraints ConstraintsSpec QP QPSpec Problem ProblemSpec
  PointMass6z PointMass6zSpec TripleIntegratorSpec Solution Task MpcGuess MpcGuessSpec MpcGuessFacts
  QpoasesBridge QpoasesBridgeSpec Backends BackendsSpec Solver SolverLife SolverLifeSpec SolverLifeFacts WalkProgram WalkProgramSpec WalkProgramFacts WalkProgramFacts2
  PepperPreview PepperPreviewSpec PepperFormFacts PepperModel PepperMpc PepperMpcSpec PepperMpcFacts2 PepperTasks PepperTasksSpec PepperTasksFacts PepperTasksFacts2 PepperLoop PepperLoopSpec PepperLoopFacts PepperLoopFacts2
  PepperProgram PepperProgramSpec PepperProgramFacts PepperProgramFacts2 PepperProgramFacts3 PepperProgramFacts4 PepperProgramFacts5 PepperProgramUnique.
Import ListNotations.
Local Open Scope R_scope.


(** for any library the program makes the iterations of C98, or it is left by the exception which is thrown for a failure of the library *)
Theorem kp_total : forall junk se par gain details w s0 s es, ready se par gain details w s0 s -> movable (ks_bounds se) -> kp_understood junk se es s -> forall n,
  let p := mg_par (lp_mg s0) in let q := as_queue (lp_motions s0) in
  (exists o, kp_after junk se es s n = Ok o /\
    (o <> None <-> n = 0%nat \/ endless q \/ (Z.of_nat (horizon_length p) * sampling_ms p + Z.of_nat (n - 1) * ks_shift se <= total q)%Z)) \/
  (kp_after junk se es s n = Throw /\ pr_crash par = true /\ exists m k, (m < n)%nat /\ kp_asked junk se es s m k /\ an_code (en_library (es m) k) <> CODE_SUCCESS).
Proof.
  intros junk se par gain details w s0 s es Re Mv Un n p q. pose proof (kruns junk se par gain details w s0 s Re es Un n) as R1. destruct (kp_after junk se es s n) as [[x|]| |] eqn:A; try contradiction.
  - left. exists (Some x). split; [reflexivity|]. split; [intros _|discriminate]. destruct R1 as (_ & [->|[En _]] & _); [left; reflexivity|right; exact En].
  - left. exists None. split; [reflexivity|]. destruct R1 as [L Ne]. split; [intros X; destruct (X eq_refl)|]. intros [X|X]; [lia|]. contradiction.
  - right. split; [reflexivity|]. exact (proj2 (proj2 R1) Mv).
Qed.
(** bounds on the velocity of the base which contradict each other: the first iteration throws, the library is never called *)
Theorem kp_contradiction : forall junk se par gain details w s0 s es, ready se par gain details w s0 s -> ~ movable (ks_bounds se) ->
  let p := mg_par (lp_mg s0) in let q := as_queue (lp_motions s0) in
  (forall n k, ~ kp_asked junk se es s n k) /\
  forall n, (endless q \/ (Z.of_nat (horizon_length p) * sampling_ms p <= total q)%Z -> kp_after junk se es s (S n) = Throw) /\
    (~ (endless q \/ (Z.of_nat (horizon_length p) * sampling_ms p <= total q)%Z) -> kp_after junk se es s (S n) = Ok None).
Proof.
  intros junk se par gain details w s0 s es Re Nm p q. destruct (kp_contradictory junk se par gain details w s0 s Re es Nm) as [A B]. split; [exact A|]. intros n. specialize (B n). fold p q in B.
  replace (Z.of_nat (horizon_length p) * sampling_ms p + Z.of_nat 0 * ks_shift se)%Z with (Z.of_nat (horizon_length p) * sampling_ms p)%Z in B by lia. tauto.
Qed.
(** the calls in each iteration, one object of the library at most *)
Theorem kp_memory : forall junk se par gain details w s0 s es, ready se par gain details w s0 s -> kp_understood junk se es s -> forall n x, kp_after junk se es s n = Ok (Some x) ->
  length (wd_calls (kp_world x)) = (length (wd_calls w) + n)%nat /\ tidy (kp_world x) /\
  (wd_live (kp_world x) = wd_live w \/ exists a, ~ In a (wd_live w) /\ wd_live (kp_world x) = a :: wd_live w).
Proof.
  intros junk se par gain details w s0 s es Re Un n x A. pose proof (kruns junk se par gain details w s0 s Re es Un n) as R1. rewrite A in R1. destruct R1 as (G & _ & LC). split; [exact LC|].
  destruct (kg_solver _ _ _ _ _ _ _ G) as [[Ti Ho] _]. split; [exact Ti|]. destruct (sv_object (kp_solver x)) as [a|]; [right; exists a; split; apply Ho|left; exact Ho].
Qed.
(** each run of the program is a run of the loop of C98 with the solutions of the program *)
Theorem kp_refines : forall junk se par gain details w s0 s es, ready se par gain details w s0 s -> kp_understood junk se es s ->
  exists sols, well_posed (ks_advance se) (ks_shift se) sols s0 /\
    (forall n x, kp_after junk se es s n = Ok (Some x) -> after junk (ks_bounds se) (ks_advance se) (ks_shift se) sols s0 n = Ok (Some (kp_loop x))) /\
    (forall n x x', kp_steps junk se es s n x x' -> sols n = kp_last x') /\
    (forall n x, kp_stops junk se es s n x -> after junk (ks_bounds se) (ks_advance se) (ks_shift se) sols s0 (S n) = Ok None).
Proof.
  intros junk se par gain details w s0 s es Re Un. exists (kp_sols junk se s0 s es). split; [exact (kp_sols_posed junk se par gain details w s0 s Re es Un)|].
  split; [exact (kp_sols_after junk se par gain details w s0 s Re es Un)|]. split; [exact (kp_sols_step junk se s0 s es)|]. exact (kp_sols_stop junk se par gain details w s0 s Re es Un).
Qed.
(** the solution is the best one within the bounds of the robot *)
Theorem kp_optimal : forall junk se par gain details w s0 s es, ready se par gain details w s0 s -> kp_understood junk se es s -> pr_crash par = true -> kp_library_is sound_answer junk se es s ->
  forall n x x', kp_steps junk se es s n x x' -> let N := horizon_length (mg_par (lp_mg s0)) in let q := as_queue (lp_motions s0) in
  fits_problem N (kp_last x') /\ finite N (kp_last x') /\ exists P, planned (kp_loop x) (kp_last x') P /\ respects (ks_bounds se) q (ks_shift se) n (kp_loop x) P /\
  forall sol', fits_problem N sol' -> (exists P', planned (kp_loop x) sol' P') /\
    forall P', planned (kp_loop x) sol' P' -> finite N sol' -> respects (ks_bounds se) q (ks_shift se) n (kp_loop x) P' ->
      plan_cost se gain q n (kp_loop x) (kp_last x') P <= plan_cost se gain q n (kp_loop x) sol' P'.
Proof. intros junk se par gain details w s0 s es Re Un Cr Li n x x' St. exact (kp_sound junk se par gain details w s0 s Re es Un n x x' Cr Li St). Qed.
(** the plan of a solution is the only one *)
Theorem kp_plan_unique : forall l sol P P', PepperPreviewSpec.proper (mg_par (lp_mg l)) -> ps_base_mass (lp_model l) + ps_body_mass (lp_model l) <> 0 -> planned l sol P -> planned l sol P' ->
  (forall k a, (k <= horizon_length (mg_par (lp_mg l)))%nat -> pl_base P k a = pl_base P' k a /\ pl_body P k a = pl_body P' k a) /\
  (forall k a, (k < horizon_length (mg_par (lp_mg l)))%nat -> pl_jerk P k a = pl_jerk P' k a /\ pl_cop P k a = pl_cop P' k a).
Proof. intros l sol P P' Pp Hm A B. exact (planned_unique l sol (T_positive _ Pp) Hm P P' A B). Qed.
(** the program goes on if and only if some plan keeps the bounds *)
Theorem kp_feasible : forall junk se par gain details w s0 s es, ready se par gain details w s0 s -> kp_understood junk se es s -> pr_crash par = true ->
  forall n x, kp_after junk se es s n = Ok (Some x) -> let N := horizon_length (mg_par (lp_mg s0)) in let q := as_queue (lp_motions s0) in
  endless q \/ (Z.of_nat N * sampling_ms (mg_par (lp_mg s0)) + Z.of_nat n * ks_shift se <= total q)%Z ->
  (kp_library_is honest_answer junk se es s -> (forall sol P, fits_problem N sol -> finite N sol -> planned (kp_loop x) sol P -> ~ respects (ks_bounds se) q (ks_shift se) n (kp_loop x) P) ->
     kp_after junk se es s (S n) = Throw) /\
  (kp_library_is capable_answer junk se es s -> forall sol P, fits_problem N sol -> finite N sol -> planned (kp_loop x) sol P -> respects (ks_bounds se) q (ks_shift se) n (kp_loop x) P ->
     exists x', kp_steps junk se es s n x x').
Proof.
  intros junk se par gain details w s0 s es Re Un Cr n x A N q En. split.
  - intros Li No. exact (kp_fails junk se par gain details w s0 s Re es Un n x Cr Li A En No).
  - intros Li sol P F1 F2 F3 F4. apply (kp_succeeds junk se par gain details w s0 s Re es Un n x Li A En). exists sol, P. auto.
Qed.
(** the robot keeps its bounds if each iteration advances it by a whole interval *)
Theorem kp_bounds : forall junk junk' se par gain details w s0 s es, ready se par gain details w s0 s -> kp_understood junk se es s -> pr_crash par = true -> kp_library_is honest_answer junk se es s ->
  ks_advance se = Whole -> forall n x x', kp_steps junk se es s n x x' -> let r := ks_bounds se in let s' := kp_loop x' in
  (forall a, within (rb_velocity r) a (vy (base_of s' a)) /\ within (rb_acceleration r) a (vz (base_of s' a)) /\ within (rb_body r) a (base_offset s' a)) /\
  ((0 < n)%nat \/ default_masses s0 -> exists c, getCoP junk' (lp_model s') = Ok c /\ forall a, within (rb_cop r) a (vget c (axis_index a))).
Proof.
  intros junk junk' se par gain details w s0 s es Re Un Cr Li Wh n x x' St r s'. pose proof (kp_sols_posed junk se par gain details w s0 s Re es Un) as WP. rewrite Wh in WP.
  pose proof (kp_consecutive junk se par gain details w s0 s Re es Un n x x' St) as C. rewrite Wh in C.
  destruct (loop_bounds junk junk' _ _ _ _ n (kp_loop x) (kp_loop x') WP C) as (B1 & B2 & B3 & B4). rewrite (kp_sols_step junk se s0 s es n x x' St) in B1, B2, B3, B4.
  destruct (honest_obeys junk se par gain details w s0 s Re es Un n x x' Cr Li St) as (O1 & O2 & O3 & O4). split; [|exact (B4 O3)].
  intros a. split; [exact (B1 O1 a)|]. split; [exact (B2 O2 a)|exact (B3 O4 a)].
Qed.
(** accelerations and velocities if an iteration advances the robot by a part of an interval *)
Theorem kp_gentle : forall junk se par gain details w s0 s es, ready se par gain details w s0 s -> kp_understood junk se es s -> pr_crash par = true -> kp_library_is honest_answer junk se es s ->
  gentle (ks_bounds se) s0 -> forall n x, kp_after junk se es s n = Ok (Some x) -> gentle (ks_bounds se) (kp_loop x) /\
  let p := mg_par (lp_mg s0) in let e a := acceleration_range (ks_bounds se) a * (seconds (sampling_ms p) - seconds (step_ms (sampling_ms p) (ks_advance se))) in
  (slow (ks_bounds se) e s0 -> slow (ks_bounds se) e (kp_loop x)).
Proof.
  intros junk se par gain details w s0 s es Re Un Cr Li Ge n x A. pose proof (kp_sols_posed junk se par gain details w s0 s Re es Un) as WP. pose proof (kp_sols_after junk se par gain details w s0 s Re es Un n x A) as B.
  destruct (kp_obeyed junk se par gain details w s0 s Re es Un n x Cr Li A) as [O1 O2]. split; [exact (loop_gentle _ _ _ _ _ _ _ _ WP B Ge O2)|]. intros p e Sl. exact (loop_slow _ _ _ _ _ _ _ _ WP B Ge O2 O1 Sl).
Qed.
(** the result depends on the library in no other way *)
Theorem kp_result_determined : forall junk se hs par par' gain details details' w w' s0 s s' es es', ready se par gain details w s0 s -> ready (kp_with_start se hs) par' gain details' w' s0 s' ->
  kp_understood junk se es s -> kp_understood junk (kp_with_start se hs) es' s' -> pr_crash par = true -> pr_crash par' = true ->
  kp_library_is sound_answer junk se es s -> kp_library_is sound_answer junk (kp_with_start se hs) es' s' -> gain <> 0 -> ks_base_jerk se <> 0 \/ ks_reference se <> 0 ->
  forall n x y, kp_after junk se es s n = Ok (Some x) -> kp_after junk (kp_with_start se hs) es' s' n = Ok (Some y) -> kp_loop x = kp_loop y /\ ((0 < n)%nat -> kp_last x = kp_last y).
Proof.
  intros junk se hs par par' gain details details' w w' s0 s s' es es' Re Re' Un Un' Cr Cr' So So' Gn Wt n x y A B.
  exact (kp_determined junk se hs par par' gain details details' w w' s0 s s' Re Re' es es' Un Un' Cr Cr' So So' Gn Wt n x y A B).
Qed.
Theorem kp_result_same : forall junk se hs par par' gain details details' w w' s0 s s' es es', ready se par gain details w s0 s -> ready (kp_with_start se hs) par' gain details' w' s0 s' ->
  kp_understood junk se es s -> kp_understood junk (kp_with_start se hs) es' s' -> pr_crash par = true -> pr_crash par' = true ->
  kp_library_is sound_answer junk se es s -> kp_library_is sound_answer junk (kp_with_start se hs) es' s' -> kp_library_is capable_answer junk se es s -> kp_library_is capable_answer junk (kp_with_start se hs) es' s' ->
  gain <> 0 -> ks_base_jerk se <> 0 \/ ks_reference se <> 0 -> forall n,
  (kp_after junk se es s n = Ok None /\ kp_after junk (kp_with_start se hs) es' s' n = Ok None) \/ (kp_after junk se es s n = Throw /\ kp_after junk (kp_with_start se hs) es' s' n = Throw) \/
  exists x y, kp_after junk se es s n = Ok (Some x) /\ kp_after junk (kp_with_start se hs) es' s' n = Ok (Some y) /\ kp_loop x = kp_loop y /\ ((0 < n)%nat -> kp_last x = kp_last y).
Proof.
  intros junk se hs par par' gain details details' w w' s0 s s' es es' Re Re' Un Un' Cr Cr' So So' Ca Ca' Gn Wt n.
  exact (kp_same junk se hs par par' gain details details' w w' s0 s s' Re Re' es es' Un Un' Cr Cr' So So' Gn Wt Ca Ca' n).
Qed.
