(** * The walking program: theorems *)
From Coq Require Import String List Reals Arith Bool ZArith Lra Lia.
From Verif Require Import Base BaseFacts RSum BoxMinimum Matrix Mat2 Mat3 ActiveSet Mixins ConstraintType HierarchyLevel HierarchySpec Constraints ConstraintsSpec QP QPSpec Problem ProblemSpec LeftRight FootParameters FootTrajectory
  PointMass6z PointMass6zSpec PointMass6zFacts Solution Task MpcGuess MpcGuessFacts PepperTasksSpec StanceFSM StanceSpec StanceFSMFacts StanceFSMFacts2 StanceTimeFacts WalkPreview WalkPreviewSpec WalkPreviewFacts WalkMpc WalkModel WalkModelSpec WalkProfiles WalkProfilesSpec WalkTasks WalkTasksSpec WalkTasksFacts2
  QpoasesBridge QpoasesBridgeSpec Backends BackendsSpec Solver SolverLife SolverLifeSpec SolverLifeFacts WalkLoop WalkLoopSpec WalkLoopFacts WalkLoopFacts2 WalkLoopFacts3 WalkLoopFacts4 WalkLoopFacts5 WalkLoopFacts6 WalkLoopFacts7 WalkLoopFacts8 WalkLoopFacts9
  WalkProgram WalkProgramSpec WalkProgramFacts WalkProgramFacts2 WalkProgramFacts3 WalkProgramFacts4 WalkProgramFacts5 WalkProgramFacts6.
Import ListNotations.
Local Open Scope nat_scope.

Lemma solution_point st so i : i < vlen (so_x so) -> point (solution_of st so) i = vget (so_x so) i.
Proof.
  intros L. unfold point, solution_of. cbn [sol_x]. rewrite nth_indep with (d' := vget (so_x so) 0) by (rewrite map_length, seq_length; exact L). rewrite map_nth, seq_nth by exact L. reflexivity.
Qed.
Lemma admissible_obeys fuel mp ly ry inc fs h nan se pr sol x' : form fuel mp ly ry inc fs = Finished (Ok (Some h)) -> WalkLoopSpec.sensible pr -> se_feet se = finalize pr ->
  wg_par (wl_wpg x') = mp -> wg_horizon (wl_wpg x') = h -> admissible nan se (horizon_length mp) h sol -> obeys_cop nan (finalize pr) x' sol /\ obeys_steps nan (finalize pr) x' sol.
Proof.
  intros F Sen Fe G1 G2 [A B]. rewrite Fe in A, B. assert (Ix : indexed (horizon_length mp) (indices_of h) (bounds_of nan (finalize pr) h)) by (eapply form_indexed; exact F).
  pose proof (steps_below _ _ _ _ _ _ _ F) as Fo. split.
  - destruct (task_cop_bounds_walk (horizon_length mp) (h_steps h) sol (fun _ _ => 0%R) [] _ _ Ix) as (c & C1 & _ & C2).
    exists (fun _ _ => 0%R), [], c. rewrite G1, G2. split; [exact C1|]. apply C2. intros k w a S L. exact (A k w a L S).
  - destruct (task_footsteps (horizon_length mp) (h_steps h) sol (fun _ _ => 0%R) [] _ _ Ix Fo) as (c & C1 & _ & C2).
    exists (fun _ _ => 0%R), [], c. rewrite G1, G2. split; [exact C1|]. apply C2. intros j k w a Hj S. specialize (B j k w a Hj S). destruct (se_fixed se); [|exact B].
    rewrite B. apply fixed_step_within. apply (bounds_ordered nan pr h w a Sen (state_bounds_in _ _ _ _ S)).
Qed.

Lemma walk_cost_is se centering s s' sol pf : walk_cost se centering s s' sol pf =
  cost_of se centering (horizon_length (wg_par (wl_wpg s'))) (wg_horizon (wl_wpg s')) (height_of (wl_model s)) (cstate_of (wl_model s)) sol pf.
Proof.
  unfold walk_cost, cost_of. cbv zeta. apply Rsum_ext. intros k _. set (h := wg_horizon (wl_wpg s')).
  unfold intervals_of, references_of, reference_velocity. rewrite !nth_error_map. destruct (nth_error (h_intervals h) k) as [o|]; [|reflexivity]. cbn [option_map].
  destruct o as [iv|]; [|reflexivity]. destruct (nth_error (h_states h) (iv_velocity iv)) as [w|]; [|reflexivity].
  unfold state_reference, velocity_of, m2app, rot2. cbn [component ux uy a00 a01 a10 a11].
  replace (- sin (ws_theta w) * uy (match ws_vel w with VelWalk => wv_walk (se_velocities se) | VelFirst => wv_first (se_velocities se) | VelLast => wv_last (se_velocities se) end))%R
    with (- (sin (ws_theta w) * uy (match ws_vel w with VelWalk => wv_walk (se_velocities se) | VelFirst => wv_first (se_velocities se) | VelLast => wv_last (se_velocities se) end)))%R by ring.
  destruct (ws_vel w); reflexivity.
Qed.

Section Answers.
Variables (p : params) (s0 : wloop) (fuel : nat) (junk : nat -> nat -> nat -> R) (nan : R) (se : settings) (pr : primary) (par : qparams) (centering : R) (details : option (backend_code * Z)) (w : world) (s : program) (es : nat -> environment).
Hypothesis (FU : stances_left (wl_fsm s0) + 1 <= fuel) (La : launched p s0 pr se par centering details w s) (Un : understood fuel junk nan se es s).
Notation mp := (wg_par (wl_wpg s0)).
Notation N := (horizon_length mp).
Notation H := (height_of (wl_model s0)).

(** the point which is written to the solution *)
Lemma written_point e f q so w0 l0 l1 t k h x st : effect par (pg_call se e f q so) w0 l0 l1 (Returned t) t k -> so_nv (rq_solution so) = 2 * N + 2 * length (h_steps h) -> vlen (so_x (rq_solution so)) = so_nv (rq_solution so) ->
  an_primal (en_library e k) = Some x -> forall i, i < 2 * N + 2 * length (h_steps h) -> x i = point (solution_of st (cs_solution t)) i.
Proof.
  intros Ef NV VL Pr i L. pose proof (ef_written _ _ _ _ _ _ _ _ Ef) as Wr. cbn [pg_call cl_library cl_solution] in Wr.
  rewrite solution_point by (rewrite (wr_size _ _ _ Wr), VL, NV; exact L). symmetry. apply (wr_x _ _ _ Wr x Pr). rewrite NV. exact L.
Qed.
Lemma honest_admissible n x x' : pr_crash par = true -> library_is honest_answer fuel junk nan se es s -> steps_to fuel junk nan se es s n x x' ->
  let h := wg_horizon (wl_wpg (pg_loop x')) in admissible nan se N h (last_solution x') /\ obeys_cop nan (finalize pr) (pg_loop x') (last_solution x') /\ obeys_steps nan (finalize pr) (pg_loop x') (last_solution x').
Proof.
  intros Cr Li St. pose proof La as (Reg & Sta & H53 & Sen & Mo & Fe & TL & Ti & _).
  destruct (stepped p s0 fuel junk nan se pr par centering details w s FU La es Un n x x' St) as (_ & _ & g & f & q & so & h & rs & M & l0 & l1 & t & k & pf & P & As & Ho & Ef & Sc & C & Fi & Gw & _ & _ & Ws & Ls & _).
  destruct P as (U & G1 & G2 & G3 & F & Ro & So & Pp & WF & _ & Sh & NV & VL & _ & Sz & HI & Fc & _). rewrite Gw. cbn [wg_horizon]. cbv zeta.
  assert (A : admissible nan se N h (last_solution x')).
  { apply (point_admissible junk nan se centering mp h H rs _ _ M f (pg_problem x) l0 l1 WF Sh); [exact Fi|].
    destruct (Li n k As (Sc Cr)) as (y & Py & Fy). destruct (ef_gets _ _ _ _ _ _ _ _ Ef) as [_ _ _ _ _ _ _ _ _ _ [GP _]]. cbn [pg_call cl_cs] in GP. specialize (GP y Fy).
    apply (level_ext junk nan se centering mp h H rs _ _ M f (pg_problem x) l0 l1 WF Sh y); [|exact GP]. rewrite Ls. eapply written_point; eassumption. }
  split; [exact A|]. eapply admissible_obeys; [exact F|exact Sen|exact Fe|rewrite Gw; reflexivity|rewrite Gw; reflexivity|exact A].
Qed.
Lemma sound_optimal n x x' : pr_crash par = true -> library_is sound_answer fuel junk nan se es s -> steps_to fuel junk nan se es s n x x' ->
  let g := wl_wpg (pg_loop x') in let sol := last_solution x' in
  fits_walk g sol /\ admissible nan se N (wg_horizon g) sol /\ predicted junk nan (pg_loop x) (pg_loop x') sol (wg_profiles g) /\
  forall sol', fits_walk g sol' -> admissible nan se N (wg_horizon g) sol' ->
    (exists pf', predicted junk nan (pg_loop x) (pg_loop x') sol' pf') /\
    forall pf', predicted junk nan (pg_loop x) (pg_loop x') sol' pf' ->
      (walk_cost se centering (pg_loop x) (pg_loop x') sol (wg_profiles g) <= walk_cost se centering (pg_loop x) (pg_loop x') sol' pf')%R.
Proof.
  intros Cr Li St. pose proof La as (Reg & Sta & H53 & Sen & Mo & Fe & TL & Ti & _).
  destruct (stepped p s0 fuel junk nan se pr par centering details w s FU La es Un n x x' St) as (Gx & _ & g & f & q & so & h & rs & M & l0 & l1 & t & k & pf & P & As & Ho & Ef & Sc & C & Fi & Gw & _ & _ & Ws & Ls & _).
  destruct P as (U & G1 & G2 & G3 & F & Ro & So & Pp & WF & _ & Sh & NV & VL & _ & Sz & HI & Fc & _).
  pose proof (i_height _ _ _ _ _ _ _ (go_loop _ _ _ _ _ _ _ _ _ _ _ Gx)) as EH.
  cbv zeta. rewrite Gw. cbn [wg_horizon wg_profiles]. unfold fits_walk. cbn [wg_par wg_horizon]. split; [exact Fi|].
  destruct (Li n k As (Sc Cr)) as (y & Py & My). destruct (ef_gets _ _ _ _ _ _ _ _ Ef) as [_ _ _ _ _ _ _ _ _ (_ & GM & _) [GP _]]. cbn [pg_call cl_cs cl_solution] in GP, GM.
  destruct (GM y My) as (My1 & My2).
  assert (E : forall i, i < 2 * N + 2 * length (h_steps h) -> y i = point (last_solution x') i) by (rewrite Ls; eapply written_point; eassumption).
  assert (PR : forall sol pf', predicted junk nan (pg_loop x) (pg_loop x') sol pf' <-> walk_solved junk N (intervals_of h H) (interval_rotations h) (h_steps h) (step_rotations h rs) (support_of nan (wl_model (pg_loop x))) (cstate_of (wl_model (pg_loop x))) sol M pf').
  { intros sol pf'. unfold predicted. rewrite Gw. cbn [wg_horizon wg_par wg_matrices]. rewrite EH. split.
    - intros (rs' & Ro' & K). rewrite Ro in Ro'. injection Ro' as <-. exact K.
    - intros K. exists rs. split; assumption. }
  assert (CO : forall sol pf', walk_solved junk N (intervals_of h H) (interval_rotations h) (h_steps h) (step_rotations h rs) (support_of nan (wl_model (pg_loop x))) (cstate_of (wl_model (pg_loop x))) sol M pf' ->
    walk_cost se centering (pg_loop x) (pg_loop x') sol pf' = level_cost (constraints_of f) l1 (point sol)).
  { intros sol pf' K. rewrite (cost_three f (pg_problem x) l0 l1 _ Sh), (wf_cost _ _ _ _ _ _ _ _ _ _ _ _ WF sol pf' K). rewrite walk_cost_is, Gw. cbn [wg_horizon wg_par]. rewrite EH. reflexivity. }
  split. { apply (point_admissible junk nan se centering mp h H rs _ _ M f (pg_problem x) l0 l1 WF Sh); [exact Fi|]. exact (level_ext junk nan se centering mp h H rs _ _ M f (pg_problem x) l0 l1 WF Sh y _ E My1). }
  split; [apply PR; exact Ws|]. intros sol' Fi' Ad. split.
  - destruct (So sol' Fi') as (pf' & K). exists pf'. apply PR. exact K.
  - intros pf' K. apply PR in K. rewrite (CO _ _ Ws), (CO _ _ K).
    apply (point_admissible junk nan se centering mp h H rs _ _ M f (pg_problem x) l0 l1 WF Sh sol' Fi') in Ad.
    rewrite <- (cost_ext junk nan se centering mp h H rs _ _ M f (pg_problem x) l0 l1 WF Sh y _ E). apply My2; [|exact Ad]. rewrite NV.
    exact (satisfying_reasonable fuel junk nan se centering mp _ _ _ _ pr h H rs _ _ M f (pg_problem x) l0 l1 F WF Sh Sen Mo Fe _ Ad).
Qed.
Lemma right_success n k : library_is right_answer fuel junk nan se es s -> asked fuel junk nan se es s n k -> an_code (en_library (es n) k) = CODE_SUCCESS /\
  exists y, an_primal (en_library (es n) k) = Some y /\ minimum (qpoases_cost (lc_problem k)) (qpoases_feasible (lc_problem k)) y.
Proof.
  intros Li As. pose proof As as (x & g & f & q & so & t & A & P & R1 & C). pose proof (good_at p s0 fuel junk nan se pr par centering details w s FU La es Un n x A) as G.
  destruct (takes p s0 fuel junk nan se pr par centering details w s FU La es Un n x A G) as [(_ & _ & _ & No)|(g' & f' & q' & so' & h & rs & M & l0 & l1 & t' & k' & T)]; [destruct (No k As)|].
  destruct T as (P' & _ & As' & _ & Ef & _). destruct P' as (_ & _ & _ & _ & _ & _ & _ & Pp & WF & _ & Sh & NV & VL & _ & Sz & HI & Fc & (y & Y1 & Y2)).
  rewrite P in Pp. injection Pp as <- <- <- <-.
  assert (k' = k). { eapply asked_effect; [exact A|exact P|exact R1|exact C|exact As']. } subst k'.
  apply (Li n k As). exists y. destruct (ef_gets _ _ _ _ _ _ _ _ Ef) as [_ _ _ _ _ _ _ _ _ (_ & _ & GM) _]. apply GM; assumption.
Qed.
Lemma right_sound : library_is right_answer fuel junk nan se es s -> library_is sound_answer fuel junk nan se es s.
Proof. intros Li n k As _. apply (right_success n k Li As). Qed.
Lemma sound_honest : library_is sound_answer fuel junk nan se es s -> library_is honest_answer fuel junk nan se es s.
Proof. intros Li n k As Co. destruct (Li n k As Co) as (y & Y1 & Y2 & _). exists y. split; assumption. Qed.
End Answers.

(** ** theorems *)
(** for any library the program makes its iterations, or it is left by the exception which is thrown for a failure of the library *)
Theorem program_total : forall p s0, exists F, forall fuel junk nan se pr par centering details w s es, F <= fuel -> launched p s0 pr se par centering details w s -> understood fuel junk nan se es s -> forall n,
  (exists o, pg_after fuel junk nan se es s n = Finished (Ok o) /\
    (o <> None <-> n = 0 \/ (horizon_length (wg_par (wl_wpg s0)) + (n - 1)) * sampling_ms (wg_par (wl_wpg s0)) <= total_ms p)) \/
  (pg_after fuel junk nan se es s n = Finished Throw /\ pr_crash par = true /\ exists m k, m < n /\ asked fuel junk nan se es s m k /\ an_code (en_library (es m) k) <> CODE_SUCCESS).
Proof.
  intros p s0. exists (stances_left (wl_fsm s0) + 1). intros fuel junk nan se pr par centering details w s es FU La Un n.
  pose proof (runs p s0 fuel junk nan se pr par centering details w s FU La es Un n) as R1. destruct (pg_after fuel junk nan se es s n) as [[[x|]| |]|] eqn:A; try contradiction.
  - left. exists (Some x). split; [reflexivity|]. destruct R1 as (_ & _ & R1 & _). split; [intros _; exact R1|discriminate].
  - left. exists None. split; [reflexivity|]. split; [intros X; destruct (X eq_refl)|]. intros [X|X]; lia.
  - right. split; [reflexivity|exact R1].
Qed.
(** the library solves the problems which have a solution: all iterations are made *)
Theorem program_complete : forall p s0, exists F, forall fuel junk nan se pr par centering details w s es, F <= fuel -> launched p s0 pr se par centering details w s -> understood fuel junk nan se es s ->
  library_is right_answer fuel junk nan se es s -> forall n,
  exists o, pg_after fuel junk nan se es s n = Finished (Ok o) /\
    (o <> None <-> n = 0 \/ (horizon_length (wg_par (wl_wpg s0)) + (n - 1)) * sampling_ms (wg_par (wl_wpg s0)) <= total_ms p).
Proof.
  intros p s0. destruct (program_total p s0) as [F0 K]. exists (F0 + (stances_left (wl_fsm s0) + 1)). intros fuel junk nan se pr par centering details w s es FU La Un Li n.
  destruct (K fuel junk nan se pr par centering details w s es ltac:(lia) La Un n) as [X|(_ & _ & m & k & _ & As & Co)]; [exact X|exfalso]. apply Co.
  apply (right_success p s0 fuel junk nan se pr par centering details w s es ltac:(lia) La Un m k Li As).
Qed.
(** each run of the program is a run of the loop of C99 with the solutions of the program *)
Theorem program_refines : forall p s0, exists F, forall fuel junk nan se pr par centering details w s es, F <= fuel -> launched p s0 pr se par centering details w s -> understood fuel junk nan se es s ->
  exists sols, walking p s0 fuel junk nan (se_inc se) pr sols /\
    (forall n x, pg_after fuel junk nan se es s n = Finished (Ok (Some x)) -> after fuel junk nan (se_inc se) (finalize pr) sols s0 n = Finished (Ok (Some (pg_loop x)))) /\
    (forall n x x', steps_to fuel junk nan se es s n x x' -> sols n = last_solution x') /\
    (forall n x, stops fuel junk nan se es s n x -> ended fuel junk nan (se_inc se) (finalize pr) sols s0 n (pg_loop x)).
Proof.
  intros p s0. exists (stances_left (wl_fsm s0) + 1). intros fuel junk nan se pr par centering details w s es FU La Un. exists (mixed_sols s0 fuel junk nan se pr s es).
  split; [exact (mixed_walking p s0 fuel junk nan se pr par centering details w s FU La es Un)|]. split.
  - intros n x A. rewrite mixed_after. exact (mixed_follows p s0 fuel junk nan se pr par centering details w s FU La es Un n x A).
  - split; [intros n x x' St; apply (mixed_solution p s0 fuel junk nan se pr par centering details w s FU La es Un n x x' St)|].
    intros n x St. exact (mixed_end p s0 fuel junk nan se pr par centering details w s FU La es Un n x St).
Qed.
Theorem program_cop : forall p s0, exists F, forall fuel junk nan se pr par centering details w s es, F <= fuel -> launched p s0 pr se par centering details w s -> understood fuel junk nan se es s ->
  pr_crash par = true -> library_is honest_answer fuel junk nan se es s -> forall n x x', steps_to fuel junk nan se es s n x x' ->
  exists q, supported pr (md_state (wl_model (pg_loop x))) q /\
    (subsampling_ms (wg_par (wl_wpg s0)) = sampling_ms (wg_par (wl_wpg s0)) -> forall a, is_cop (height_of (wl_model s0)) (ms_com (md_state (wl_model (pg_loop x')))) a (q a)) /\
    forall q0 t, (forall a, is_cop (height_of (wl_model s0)) (ms_com (md_state (wl_model (pg_loop x)))) a (q0 a)) -> t <= sampling_ms (wg_par (wl_wpg s0)) ->
      let l := (INR t / INR (sampling_ms (wg_par (wl_wpg s0))))%R in
      exists com, wg_com (wl_model (pg_loop x)) t (wl_wpg (pg_loop x')) = Ok com /\ forall a, is_cop (height_of (wl_model s0)) com a ((1 - l) * q0 a + l * q a)%R.
Proof.
  intros p s0. destruct (cop p s0) as [F0 K]. exists (F0 + (stances_left (wl_fsm s0) + 1)). intros fuel junk nan se pr par centering details w s es FU La Un Cr Li n x x' St.
  assert (FU' : stances_left (wl_fsm s0) + 1 <= fuel) by lia.
  destruct (mixed_solution p s0 fuel junk nan se pr par centering details w s FU' La es Un n x x' St) as (C & E).
  destruct (honest_admissible p s0 fuel junk nan se pr par centering details w s es FU' La Un n x x' Cr Li St) as (_ & O & _). rewrite <- E in O.
  exact (K fuel junk nan (se_inc se) pr _ ltac:(lia) (mixed_walking p s0 fuel junk nan se pr par centering details w s FU' La es Un) n _ _ C O).
Qed.
Theorem program_feet : forall p s0, exists F, forall fuel junk nan se pr par centering details w s es, F <= fuel -> launched p s0 pr se par centering details w s -> understood fuel junk nan se es s ->
  pr_crash par = true -> library_is honest_answer fuel junk nan se es s -> forall n x x', steps_to fuel junk nan se es s n x x' ->
  let y := md_state (wl_model (pg_loop x)) in let y' := md_state (wl_model (pg_loop x')) in
  (lands y y' = false -> forall side, foot_of (ms_feet y') side = foot_of (ms_feet y) side) /\
  (lands y y' = true -> exists b b', foot_of (ms_feet y) (stance_foot (ms_stance y)) = Some b /\ foot_of (ms_feet y') (stance_foot (ms_stance y)) = Some b /\
     foot_of (ms_feet y') (swing (ms_stance y)) = Some b' /\ vz (b_position b') = vz (b_position b) /\ b_velocity b' = V3 0 0 0 /\
     (ms_next y' = DS -> side_by_side pr (swing (ms_stance y)) b b') /\
     (ms_next y' <> DS -> ms_next y' = opp (ms_stance y) /\ heading b' = (heading b + se_inc se)%R /\ reachable pr (swing (ms_stance y)) b b')).
Proof.
  intros p s0. destruct (feet p s0) as [F0 K]. exists (F0 + (stances_left (wl_fsm s0) + 1)). intros fuel junk nan se pr par centering details w s es FU La Un Cr Li n x x' St.
  assert (FU' : stances_left (wl_fsm s0) + 1 <= fuel) by lia.
  destruct (mixed_solution p s0 fuel junk nan se pr par centering details w s FU' La es Un n x x' St) as (C & E).
  destruct (honest_admissible p s0 fuel junk nan se pr par centering details w s es FU' La Un n x x' Cr Li St) as (_ & _ & O). rewrite <- E in O. intros y y'.
  destruct (K fuel junk nan (se_inc se) pr _ ltac:(lia) (mixed_walking p s0 fuel junk nan se pr par centering details w s FU' La es Un) n _ _ C) as (K1 & K2). split; [exact K1|].
  intros Ld. destruct (K2 Ld) as (b & b' & B1 & B2 & B3 & B4 & B5 & B6 & B7 & B8). exists b, b'. do 5 (split; [assumption|]). destruct (B8 O) as [B9 B10]. split; [exact B9|]. intros Ne. destruct (B7 Ne) as [B11 B12]. split; [exact B11|]. split; [exact B12|exact (B10 Ne)].
Qed.
Theorem program_end : forall p s0, first_stance p <> DS \/ 0 < num_steps p -> exists F, forall fuel junk nan se pr par centering details w s es, F <= fuel -> launched p s0 pr se par centering details w s -> understood fuel junk nan se es s ->
  pr_crash par = true -> library_is honest_answer fuel junk nan se es s -> forall n x, stops fuel junk nan se es s n x ->
  exists b0 l r, foot_of (ms_feet (md_state (wl_model s0))) (first_foot p) = Some b0 /\ foot_of (ms_feet (md_state (wl_model (pg_loop x)))) LEFT = Some l /\ foot_of (ms_feet (md_state (wl_model (pg_loop x)))) RIGHT = Some r /\
    heading l = (heading b0 + INR (turns p) * se_inc se)%R /\ heading r = (heading b0 + INR (turns p) * se_inc se)%R /\ side_by_side pr LEFT r l.
Proof.
  intros p s0 Hs. destruct (finish p s0 Hs) as [F0 K]. exists (F0 + (stances_left (wl_fsm s0) + 1)). intros fuel junk nan se pr par centering details w s es FU La Un Cr Li n x St.
  assert (FU' : stances_left (wl_fsm s0) + 1 <= fuel) by lia.
  destruct (K fuel junk nan (se_inc se) pr _ ltac:(lia) (mixed_walking p s0 fuel junk nan se pr par centering details w s FU' La es Un) n _ (mixed_end p s0 fuel junk nan se pr par centering details w s FU' La es Un n x St)) as (b0 & l & r & B1 & B2 & B3 & B4 & B5 & B6).
  exists b0, l, r. do 5 (split; [assumption|]). apply B6. intros k y' L A.
  assert (X : exists m, n = S k + m) by (exists (n - S k); lia). destruct X as [m ->]. destruct St as [St _].
  assert (Y : forall m, pg_after fuel junk nan se es s (S k + m) <> Finished (Ok None) -> (exists z, pg_after fuel junk nan se es s (S k + m) = Finished (Ok (Some z))) -> exists z, pg_after fuel junk nan se es s (S k) = Finished (Ok (Some z))).
  { clear. induction m as [|m IH]; intros Hn [z Hz]; [rewrite Nat.add_0_r in Hz; eauto|]. rewrite Nat.add_succ_r in Hz. cbn [pg_after] in Hz. apply rbind_ok in Hz. destruct Hz as ([u|] & U & Hz); [|discriminate].
    apply IH; [change (S k + m) with (S (k + m)) in *; rewrite U; discriminate|exists u; exact U]. }
  destruct (Y m) as [z Z]; [rewrite St; discriminate|eauto|]. pose proof Z as Z'. cbn [pg_after] in Z'. apply rbind_ok in Z'. destruct Z' as ([u|] & U & Z'); [|discriminate].
  destruct (mixed_solution p s0 fuel junk nan se pr par centering details w s FU' La es Un k u z (conj U Z)) as ([_ C] & E). rewrite A in C. injection C as ->. rewrite E.
  apply (honest_admissible p s0 fuel junk nan se pr par centering details w s es FU' La Un k u z Cr Li (conj U Z)).
Qed.
Theorem program_optimal : forall p s0, exists F, forall fuel junk nan se pr par centering details w s es, F <= fuel -> launched p s0 pr se par centering details w s -> understood fuel junk nan se es s ->
  pr_crash par = true -> library_is sound_answer fuel junk nan se es s -> forall n x x', steps_to fuel junk nan se es s n x x' ->
  let g := wl_wpg (pg_loop x') in let sol := last_solution x' in
  fits_walk g sol /\ admissible nan se (horizon_length (wg_par (wl_wpg s0))) (wg_horizon g) sol /\ predicted junk nan (pg_loop x) (pg_loop x') sol (wg_profiles g) /\
  forall sol', fits_walk g sol' -> admissible nan se (horizon_length (wg_par (wl_wpg s0))) (wg_horizon g) sol' ->
    (exists pf', predicted junk nan (pg_loop x) (pg_loop x') sol' pf') /\
    forall pf', predicted junk nan (pg_loop x) (pg_loop x') sol' pf' ->
      (walk_cost se centering (pg_loop x) (pg_loop x') sol (wg_profiles g) <= walk_cost se centering (pg_loop x) (pg_loop x') sol' pf')%R.
Proof.
  intros p s0. exists (stances_left (wl_fsm s0) + 1). intros fuel junk nan se pr par centering details w s es FU La Un Cr Li n x x' St.
  exact (sound_optimal p s0 fuel junk nan se pr par centering details w s es FU La Un n x x' Cr Li St).
Qed.
Theorem program_memory : forall p s0, exists F, forall fuel junk nan se pr par centering details w s es, F <= fuel -> launched p s0 pr se par centering details w s -> understood fuel junk nan se es s ->
  forall n x, pg_after fuel junk nan se es s n = Finished (Ok (Some x)) ->
  length (wd_calls (pg_world x)) = length (wd_calls w) + n /\ tidy (pg_world x) /\
  (wd_live (pg_world x) = wd_live w \/ exists a, ~ In a (wd_live w) /\ wd_live (pg_world x) = a :: wd_live w).
Proof.
  intros p s0. exists (stances_left (wl_fsm s0) + 1). intros fuel junk nan se pr par centering details w s es FU La Un n x A.
  pose proof (runs p s0 fuel junk nan se pr par centering details w s FU La es Un n) as R1. rewrite A in R1. destruct R1 as ([_ _ _ [[Ti Ho] _] _ _] & _ & _ & Lc).
  split; [exact Lc|]. split; [exact Ti|]. destruct (sv_object (pg_solver x)) as [a|]; [|left; exact Ho]. right. exists a. destruct Ho as [H1 H2]. split; assumption.
Qed.

(** ** a library which solves the problems exists *)
Definition with_library (e : environment) (l : libcall -> answer) : environment := mkEnv (en_junk e) (en_x e) l (en_broken e) (en_broken_guess e).
Lemma after_agree fuel junk nan se es es' s : forall n, (forall k, k < n -> es' k = es k) -> pg_after fuel junk nan se es' s n = pg_after fuel junk nan se es s n.
Proof. induction n as [|n IH]; intros E; [reflexivity|]. cbn [pg_after]. rewrite IH by (intros k L; apply E; lia). rewrite (E n) by lia. reflexivity. Qed.
Lemma asked_agree fuel junk nan se es es' s n k : (forall k, k <= n -> es' k = es k) -> asked fuel junk nan se es' s n k -> asked fuel junk nan se es s n k.
Proof.
  intros E (x & g & f & q & so & t & A & P & R1 & C). rewrite (after_agree fuel junk nan se es es' s n) in A by (intros m L; apply E; lia). rewrite (E n) in * by lia.
  exists x, g, f, q, so, t. split; [exact A|]. split; [exact P|]. split; [exact R1|exact C].
Qed.
Lemma prepare_library fuel junk nan se e l s : pg_prepare fuel junk nan se (with_library e l) s = pg_prepare fuel junk nan se e s.
Proof. reflexivity. Qed.
Theorem program_solvable : forall p s0, exists F, forall fuel junk nan se pr par centering details w s es, F <= fuel -> launched p s0 pr se par centering details w s ->
  exists lib : nat -> libcall -> answer, library_is right_answer fuel junk nan se (fun n => with_library (es n) (lib n)) s /\
    library_is sensible_answer fuel junk nan se (fun n => with_library (es n) (lib n)) s.
Proof.
  intros p s0. exists (stances_left (wl_fsm s0) + 1). intros fuel junk nan se pr par centering details w s es FU La.
  set (E := fun (lib : nat -> libcall -> answer) n => with_library (es n) (lib n)).
  assert (W : forall n, working n (fun _ => 0%R)) by (intros m i L; right; left; reflexivity).
  assert (Us : forall lib, (forall n k a, sensible_answer a (lib n k)) -> understood fuel junk nan se (E lib) s) by (intros lib Sl _ n k _; apply Sl).
  assert (B : forall m, exists lib, (forall n k a, sensible_answer a (lib n k)) /\ forall n k, n < m -> asked fuel junk nan se (E lib) s n k -> right_answer (lc_problem k) (lib n k)).
  { induction m as [|m (lib & Sl & IH)]; [exists (fun _ _ => mkAnswer CODE_SUCCESS 0 None (fun _ => 0%R) (fun _ => 0%R)); split; [intros; split; apply W|intros n k L; lia]|].
    assert (X : exists an : libcall -> answer, (forall k a, sensible_answer a (an k)) /\ forall k, asked fuel junk nan se (E (fun j => if j =? m then an else lib j)) s m k -> right_answer (lc_problem k) (an k)).
    { pose proof (runs p s0 fuel junk nan se pr par centering details w s FU La (E lib) (Us lib Sl) m) as R1.
      destruct (pg_after fuel junk nan se (E lib) s m) as [[[x|]| |]|] eqn:A.
      2-5: exists (fun _ => mkAnswer CODE_SUCCESS 0 None (fun _ => 0%R) (fun _ => 0%R)); (split; [intros; split; apply W|]); intros k (x & g & f & q & so & t & A' & _); exfalso;
           rewrite (after_agree fuel junk nan se (E lib) _ s m) in A' by (intros j L; unfold E; destruct (Nat.eqb_spec j m); [lia|reflexivity]); rewrite A in A'; discriminate A'.
      destruct R1 as (G & _). pose proof La as (Reg & Sta & H53 & Sen & Mo & Fe & TL & Ti & _). pose proof Sta as (Ini & _ & _ & _ & HH).
      destruct (poses fuel junk p _ _ nan _ _ centering par (wd_live w) se pr (es m) x Reg Ini HH FU H53 Sen Mo Fe G) as [(_ & _ & Cy)|(Ge & g & f & q & so & h & rs & M & l0 & l1 & P)].
      - exists (fun _ => mkAnswer CODE_SUCCESS 0 None (fun _ => 0%R) (fun _ => 0%R)). split; [intros; split; apply W|]. intros k (x' & g & f & q & so & t & A' & P & _). exfalso.
        rewrite (after_agree fuel junk nan se (E lib) _ s m) in A' by (intros j L; unfold E; destruct (Nat.eqb_spec j m); [lia|reflexivity]). rewrite A in A'. injection A' as <-.
        specialize (Cy (as_solution 0 0 (fun _ => 0%R))). apply stopped_update in Cy. destruct Cy as (g' & U). unfold pg_prepare in P. rewrite U in P. discriminate P.
      - assert (Pm := P). destruct P as (_ & _ & _ & _ & _ & _ & _ & Pp & _ & _ & _ & _ & _ & _ & _ & _ & _ & (y & Y1 & Y2)).
        exists (fun _ => mkAnswer CODE_SUCCESS 0 (Some y) (fun _ => 0%R) (fun _ => 0%R)). set (an := fun _ : libcall => _). assert (Sa : forall k a, sensible_answer a (an k)) by (intros; split; apply W). split; [exact Sa|]. intros k As _. split; [reflexivity|]. exists y. split; [reflexivity|].
        set (lib' := fun j => if j =? m then an else lib j) in *.
        assert (Sl' : forall n k a, sensible_answer a (lib' n k)) by (intros n' k' a; unfold lib'; destruct (n' =? m); [apply Sa|apply Sl]).
        assert (A' : pg_after fuel junk nan se (E lib') s m = Finished (Ok (Some x))).
        { rewrite (after_agree fuel junk nan se (E lib) _ s m) by (intros j L; unfold E, lib'; destruct (Nat.eqb_spec j m); [lia|reflexivity]). exact A. }
        destruct (takes p s0 fuel junk nan se pr par centering details w s FU La (E lib') (Us lib' Sl') m x A' G) as [(_ & _ & _ & No)|(g' & f' & q' & so' & h' & rs' & M' & l0' & l1' & t' & k' & T)]; [destruct (No k As)|].
        destruct T as (P' & _ & As' & _ & Ef & R2). destruct P' as (_ & _ & _ & _ & _ & _ & _ & Pp' & _ & _ & Sh' & _).
        pose proof Pp' as Pq. unfold E in Pq. rewrite prepare_library, Pp in Pq. injection Pq as <- <- <- <-.
        assert (k = k'). { eapply (asked_effect fuel junk nan se s (E lib') m x k' k f q so t' g); [exact A'|exact Pp'|destruct R2 as [(R2 & _)|(R2 & _)]; [right|left]; exact R2|exact (ef_calls _ _ _ _ _ _ _ _ Ef)|exact As]. } subst k'.
        destruct (ef_gets _ _ _ _ _ _ _ _ Ef) as [_ _ _ _ _ _ _ _ _ (_ & _ & GM) _]. cbn [pg_call cl_cs cl_solution] in GM.
        assert (l0' = l0 /\ l1' = l1). { destruct Pm as (_ & _ & _ & _ & _ & _ & _ & _ & _ & _ & (S1 & _) & _). destruct Sh' as (S2 & _). rewrite S1 in S2. injection S2 as <- <-. split; reflexivity. }
        destruct H as [-> ->]. apply GM; assumption. }
    destruct X as (an & Sa & X). set (lib' := fun j => if j =? m then an else lib j) in *. exists lib'. split; [intros n' k' a; unfold lib'; destruct (n' =? m); [apply Sa|apply Sl]|]. intros n k L As. destruct (Nat.eq_dec n m) as [->|Ne].
    - replace (lib' m) with an by (unfold lib'; rewrite Nat.eqb_refl; reflexivity). exact (X k As).
    - replace (lib' n) with (lib n) by (unfold lib'; destruct (Nat.eqb_spec n m); [lia|reflexivity]). apply (IH n k); [lia|].
      apply (asked_agree fuel junk nan se (E lib) (E lib')); [|exact As]. intros j Lj. unfold E, lib'. destruct (Nat.eqb_spec j m); [lia|reflexivity]. }
  destruct (B (S (total_ms p) + 1)) as (lib & Sl & K). exists lib. split; [|intros n k _; apply Sl]. intros n k As. cbn [en_library with_library]. apply (K n k); [|exact As].
  destruct As as (x & g & f & q & so & t & A & _). pose proof (runs p s0 fuel junk nan se pr par centering details w s FU La (E lib) (Us lib Sl) n) as R1.
  change (fun n : nat => with_library (es n) (lib n)) with (E lib) in A. rewrite A in R1. destruct R1 as (_ & _ & R1 & _). destruct La as (Reg & _). destruct Reg as (_ & _ & N2 & TP & _). destruct R1 as [->|R1]; [lia|]. nia.
Qed.
