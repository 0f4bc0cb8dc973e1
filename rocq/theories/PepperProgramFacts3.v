(** * The Pepper program: one iteration *)
From Coq Require Import String List Reals Arith Bool ZArith Lra Lia.
From Verif Require Import Base BaseFacts RSum Matrix Mat2 Mat3 ActiveSet Mixins ConstraintType HierarchyLevel HierarchySpec Constraints ConstraintsSpec QP QPSpec Problem ProblemSpec
  PointMass6z PointMass6zSpec TripleIntegratorSpec Solution Task MpcGuess MpcGuessSpec MpcGuessFacts
  QpoasesBridge QpoasesBridgeSpec Backends BackendsSpec Solver SolverLife SolverLifeSpec SolverLifeFacts WalkProgram WalkProgramFacts WalkProgramFacts2
  PepperPreview PepperPreviewSpec PepperFormFacts PepperPreviewFacts PepperModel PepperMpc PepperMpcSpec PepperMpcFacts2 PepperTasks PepperTasksSpec PepperTasksFacts PepperTasksFacts2 PepperLoop PepperLoopSpec PepperLoopFacts
  PepperProgram PepperProgramSpec PepperProgramFacts PepperProgramFacts2.
Import ListNotations.
Local Open Scope R_scope.

(** ** guesses of the solution *)
Lemma old_fits_pepper N old : (0 < N)%nat -> old = mkSolution structure_reset [] \/ fits_problem N old ->
  exists v, guessSolution_pepper (structure_pepper N) old = Ok v /\ length (sol_x v) = (4 * N)%nat /\
    sol_x v = (if Nat.eqb (length (sol_x old)) 0 then zeros (4 * N) else shifted (firstn (2 * N) (sol_x old)) ++ shifted (skipn (2 * N) (sol_x old))).
Proof.
  intros HN [-> | [S L]].
  - rewrite guess_pepper_first. eexists. split; [reflexivity|]. cbn [sol_x length Nat.eqb]. replace (4 * N)%nat with (N * 2 + N * 2)%nat by lia. split; [|reflexivity]. unfold zeros. rewrite repeat_length. reflexivity.
  - destruct old as [st x]. cbn [sol_structure sol_x] in *. subst st.
    assert (L1 : length (firstn (2 * N) x) = (N * 2)%nat) by (rewrite firstn_length; lia). assert (L2 : length (skipn (2 * N) x) = (N * 2)%nat) by (rewrite skipn_length; lia).
    pose proof (MpcGuessFacts.guess_pepper N _ _ HN L1 L2) as E. rewrite firstn_skipn in E. rewrite E. eexists. split; [reflexivity|]. cbn [sol_x]. replace (length x =? 0)%nat with false by lia. split; [|reflexivity].
    unfold shifted. rewrite !app_length, (skipn_length 2 (firstn _ _)), (skipn_length 2 (skipn _ _)), L1, L2. cbn [length]. lia.
Qed.

(** ** the bounds on single variables *)
Lemma ids_satisfied cs l x : satisfies_level cs l x <-> forall k, In k (task_ids l) -> satisfies (cs (fst k)) x.
Proof. apply satisfies_ids. Qed.
Lemma nv_pepper N : Solution.getNumberOfVariables (structure_pepper N) = (4 * N)%nat.
Proof. destruct (loc_pepper N) as (_ & _ & -> & _). lia. Qed.

(** the tasks of the hierarchy at the point of a solution *)
Section Levels.
Variables (se : pepper_settings) (gain : R) (q : list motion) (n : nat) (l : loop) (f : pepper_tasks) (p : problem) (l0 l1 : level).
Notation N := (horizon_length (mg_par (lp_mg l))).
Hypothesis (KF : kformed se gain q n l f) (Sh : kshape (ks_position se) p l0 l1).

Lemma kp_nvars k : In k (kids0 ++ kids1 (ks_position se)) -> c_nvars (kp_constraints f (fst k)) = (4 * N)%nat.
Proof. intros I. destruct (kf_objects _ _ _ _ _ _ KF k I) as (_ & U & _). apply U. Qed.
Lemma klevel_ext x y : (forall i, (i < 4 * N)%nat -> x i = y i) -> satisfies_level (kp_constraints f) l0 x -> satisfies_level (kp_constraints f) l0 y.
Proof.
  intros E S. rewrite satisfies_ids in *. intros k I. apply (satisfies_ext _ x y); [|apply S; exact I]. intros j J. apply E.
  rewrite kp_nvars in J by (apply in_or_app; left; destruct Sh as (_ & I0 & _); rewrite <- I0; exact I). exact J.
Qed.
Lemma kcost_ext x y : (forall i, (i < 4 * N)%nat -> x i = y i) -> level_cost (kp_constraints f) l1 x = level_cost (kp_constraints f) l1 y.
Proof.
  intros E. rewrite !cost_ids. f_equal. apply map_ext_in. intros k I. apply squared_ext. intros j J. apply E.
  rewrite kp_nvars in J by (apply in_or_app; right; destruct Sh as (_ & _ & I1); rewrite <- I1; exact I). exact J.
Qed.
Lemma level_respects sol P : fits_problem N sol -> planned l sol P -> (satisfies_level (kp_constraints f) l0 (point sol) <-> respects (ks_bounds se) q (ks_shift se) n l P).
Proof.
  intros Fi Pl. rewrite <- (kf_respects _ _ _ _ _ _ KF sol P Fi Pl). rewrite satisfies_ids. destruct Sh as (_ & I0 & _). rewrite I0. split.
  - intros H. split; [apply (H (ACCELERATION, ASLU)); cbn; auto|]. split; [apply (H (PRESSURE, ALU)); cbn; auto|]. split; [apply (H (BODY, ALU)); cbn; auto|apply (H (VELOCITY, ILU)); cbn; auto].
  - intros (A & B & C & D) k I. cbn in I. destruct I as [<-|[<-|[<-|[<-|[]]]]]; assumption.
Qed.
Lemma level_plan_cost sol P : fits_problem N sol -> planned l sol P -> level_cost (kp_constraints f) l1 (point sol) = plan_cost se gain q n l sol P.
Proof. intros Fi Pl. rewrite <- (kf_cost _ _ _ _ _ _ KF sol P Fi Pl). rewrite cost_ids. destruct Sh as (_ & _ & ->). reflexivity. Qed.
Lemma level_reasonable x : reasonable (kp_constraints f) l0 (4 * N) x <-> forall v, (v < 4 * N)%nat -> - g_infinity <= x v <= g_infinity.
Proof.
  split; [intros [_ H]; exact H|]. intros H. split; [|exact H]. intros i I r _ B. exfalso. apply in_ids in I. destruct Sh as (_ & I0 & _). rewrite I0 in I.
  pose proof (kf_objects _ _ _ _ _ _ KF _ (in_or_app _ _ _ (or_introl I))) as (Ty & _). cbn [fst snd] in Ty.
  destruct (two_bounds (kp_constraints f (tk_id (ti_task i))) r) as [B1 B2]; [|destruct B; contradiction].
  cbn in I. destruct I as [I|[I|[I|[I|[]]]]]; injection I as _ Et; rewrite Ty, <- Et; auto.
Qed.
(** some velocities of the base are within the bounds of the task *)
Lemma level_movable : (0 < N)%nat ->
  ((exists x, (forall i, In i (lv_tasks l0) -> simple_task (ti_task i) = true -> satisfies (kp_constraints f (tk_id (ti_task i))) x) /\ forall v, (v < 4 * N)%nat -> - g_infinity <= x v <= g_infinity) <->
   movable (ks_bounds se)).
Proof.
  intros HN. destruct Sh as (_ & I0 & _).
  assert (Only : forall x, (forall i, In i (lv_tasks l0) -> simple_task (ti_task i) = true -> satisfies (kp_constraints f (tk_id (ti_task i))) x) <-> satisfies (kt_velocity f) x).
  { intros x. split.
    - intros H. destruct (four_tasks l0 _ _ _ _ I0) as (i & j & k & m & E & _ & _ & _ & X). injection X as X1 X2. specialize (H m). rewrite X1 in H. cbn [kp_constraints VELOCITY] in H. apply H; [rewrite E; cbn; auto|].
      unfold simple_task. rewrite X2. reflexivity.
    - intros H i I Si. apply in_ids in I. rewrite I0 in I. unfold simple_task in Si. cbn in I. destruct I as [I|[I|[I|[I|[]]]]]; injection I as X1 X2; rewrite <- X2 in Si; try discriminate Si. rewrite <- X1. exact H. }
  assert (Nv : c_nvars (kt_velocity f) = (4 * N)%nat) by (apply (kp_nvars (VELOCITY, ILU)); cbn; auto 6).
  assert (Ve : forall x, satisfies (kt_velocity f) x <-> forall k a, (k < N)%nat -> within (rb_velocity (ks_bounds se)) a (x (2 * k + axis_index a)%nat)).
  { intros x. transitivity (satisfies (kt_velocity f) (point (as_pepper N x))).
    - split; apply satisfies_ext; rewrite Nv; intros i Hi; rewrite as_pepper_point by exact Hi; reflexivity.
    - rewrite (kf_velocity _ _ _ _ _ _ KF _ (as_pepper_fits N x)). assert (B : forall k a, (k < N)%nat -> base_command (as_pepper N x) k a = x (2 * k + axis_index a)%nat).
      { intros k a K. change (base_command (as_pepper N x) k a) with (point (as_pepper N x) (2 * k + axis_index a)). apply as_pepper_point. destruct a; cbn [axis_index]; lia. }
      split; intros H k a K; specialize (H k a K); rewrite B in * by exact K; exact H. }
  split.
  - intros (x & H1 & H2) a. rewrite Only, Ve in H1. exists (x (axis_index a)). split; [exact (H1 0%nat a HN)|]. apply H2. destruct a; cbn [axis_index]; lia.
  - intros M. destruct (M AxisX) as (qx & X1 & X2). destruct (M AxisY) as (qy & Y1 & Y2). exists (fun v => if Nat.even v then qx else qy). rewrite Only, Ve. split.
    + intros k a K. destruct a; cbn [axis_index].
      * replace (Nat.even (2 * k + 0)) with true by (rewrite Nat.add_0_r; symmetry; apply Nat.even_spec; exists k; reflexivity). exact X1.
      * replace (Nat.even (2 * k + 1)) with false by (symmetry; rewrite Nat.add_1_r, Nat.even_succ, <- Nat.negb_even; apply negb_false_iff, Nat.even_spec; exists k; reflexivity). exact Y1.
    + intros v _. destruct (Nat.even v); assumption.
Qed.
End Levels.

(** ** the invariant of the program *)
Record kgood (se : pepper_settings) (s0 : loop) (gain : R) (par : qparams) (L : list nat) (n : nat) (s : pepper_program) : Prop := mkKG {
  kg_loop : in_progress (ks_shift se) s0 n (kp_loop s);
  kg_masses : ps_base_mass (lp_model (kp_loop s)) + ps_body_mass (lp_model (kp_loop s)) <> 0;
  kg_problem : preach (kp_problem s) /\ exists l0 l1, kshape (ks_position se) (kp_problem s) l0 l1 /\ kkeeps (ks_start se) (2 * horizon_length (mg_par (lp_mg s0))) l0 l1;
  kg_jerked : jerked (horizon_length (mg_par (lp_mg s0))) gain (kp_body_jerk s);
  kg_solver : holds L (kp_solver s) (kp_world s) /\ sv_par (kp_solver s) = par;
  kg_old : kp_old s = mkSolution structure_reset [] \/ (hs_solution (ks_start se) = true /\ fits_problem (horizon_length (mg_par (lp_mg s0))) (kp_old s)) }.

(** what is known of the problem of an iteration *)
Record kposed (junk : nat -> nat -> nat -> R) (se : pepper_settings) (e : environment) (s0 : loop) (gain : R) (n : nat) (s : pepper_program)
    (g : mg) (x : motions) (f : pepper_tasks) (p : problem) (r : request) (l0 l1 k0 k1 : level) : Prop := mkKP' {
  ko_update : mg_updateAndShift junk (ks_bounds se) (lp_motions (kp_loop s)) (lp_model (kp_loop s)) (ks_shift se) (lp_mg (kp_loop s)) = Ok (true, g, x);
  ko_size : mg_size g = horizon_length (mg_par (lp_mg s0)) /\ mg_par g = mg_par (lp_mg s0);
  ko_prepare : kp_prepare junk se e s = Ok (Some (g, x, f, p, r));
  ko_tasks : kp_form_tasks se e g s = Ok f;
  ko_formed : kformed se gain (as_queue (lp_motions s0)) n (kp_loop s) f;
  ko_plans : forall sol, fits_problem (horizon_length (mg_par (lp_mg s0))) sol -> exists P, planned (kp_loop s) sol P;
  ko_reached : preach p;
  ko_shape : kshape (ks_position se) p k0 k1;
  ko_keeps : kkeeps (ks_start se) (2 * horizon_length (mg_par (lp_mg s0))) k0 k1;
  ko_places : map ti_loc (lv_tasks k0) = map (fun j => mkLoc (j * (2 * horizon_length (mg_par (lp_mg s0)))) (2 * horizon_length (mg_par (lp_mg s0)))) (seq 0 4) /\
    map ti_loc (lv_tasks k1) = map (fun j => mkLoc (j * (2 * horizon_length (mg_par (lp_mg s0)))) (2 * horizon_length (mg_par (lp_mg s0)))) (seq 0 4);
  ko_counts : level_getNumberOfConstraints k0 = (4 * (2 * horizon_length (mg_par (lp_mg s0))))%nat /\ level_getNumberOfConstraints k1 = (4 * (2 * horizon_length (mg_par (lp_mg s0))))%nat;
  ko_before : kshape (ks_position se) (kp_problem s) l0 l1;
  ko_nv : so_nv (rq_solution r) = (4 * horizon_length (mg_par (lp_mg s0)))%nat;
  ko_x : so_x (rq_solution r) = mkVec (so_nv (rq_solution r)) (en_x e);
  ko_sized : sized (kp_call se e f p r);
  ko_hierarchy : hierarchy_of (kp_call se e f p r) (kp_formed se g f) (hs_active (ks_start se)) (kp_problem s) l0 l1;
  ko_acceptable : acceptable_call (kp_call se e f p r) l0 <-> movable (ks_bounds se);
  ko_guess : if hs_solution (ks_start se)
    then exists v, rq_guess r = Some (vector_of v) /\ v = (if Nat.eqb (length (sol_x (kp_old s))) 0 then zeros (4 * horizon_length (mg_par (lp_mg s0)))
      else shifted (firstn (2 * horizon_length (mg_par (lp_mg s0))) (sol_x (kp_old s))) ++ shifted (skipn (2 * horizon_length (mg_par (lp_mg s0))) (sol_x (kp_old s))))
    else rq_guess r = None;
  ko_active : if hs_active (ks_start se)
    then exists a1, rq_active r = Some [concat (map (guessed_bounds (sampling_ms (mg_par (lp_mg s0))) (ks_subsampling se) (horizon_length (mg_par (lp_mg s0)))) (actuals l0)); a1]
    else rq_active r = None }.

Section Step.
Variables (junk : nat -> nat -> nat -> R) (se : pepper_settings) (gain : R) (par : qparams) (L : list nat) (s0 : loop).
Notation P := (mg_par (lp_mg s0)).
Notation N := (horizon_length P).
Notation Q := (as_queue (lp_motions s0)).
Hypothesis (Pp : PepperPreviewSpec.proper P) (HV : valid_queue Q) (Hs : (0 <= ks_shift se)%Z) (Ha : (0 <= step_ms (sampling_ms P) (ks_advance se) <= sampling_ms P)%Z).
Hypothesis (Two : hs_active (ks_start se) = true -> hs_report (ks_start se) = true -> (sampling_ms P <= ks_subsampling se)%Z -> (1 < N)%nat).
Hypothesis (TL : pr_two_levels par = true).

Lemma poses_pepper e n s : kgood se s0 gain par L n s ->
  (lasts P (as_queue (lp_motions (kp_loop s))) /\ exists g x f p r l0 l1 k0 k1, kposed junk se e s0 gain n s g x f p r l0 l1 k0 k1) \/
  (~ lasts P (as_queue (lp_motions (kp_loop s))) /\ kp_prepare junk se e s = Ok None).
Proof.
  intros [(I1 & I2 & I3 & _) Ms (Pr & l0 & l1 & Sh & Ke) Je [Ho Pa] Old].
  destruct (form_motions_defined P (view_of (ks_bounds se) (lp_model (kp_loop s))) (lp_motions (kp_loop s)) (mg_horizon (lp_mg (kp_loop s))) Pp I2) as (b & l & E & Hb).
  destruct b; [left|right; split; [intros C; apply Hb in C; discriminate|]].
  2:{ unfold kp_prepare, mg_updateAndShift, mg_update. rewrite I1, E. reflexivity. }
  split; [apply Hb; reflexivity|]. pose proof (proj1 Pp) as HN.
  destruct (form_motions_horizon _ _ _ _ _ Pp I2 E) as (FH & _).
  destruct (solved_exists junk N l (lp_model (kp_loop s)) (as_pepper N (fun _ => 0)) HN FH (proj1 (as_pepper_fits _ _)) (proj2 (as_pepper_fits _ _))) as (M & pf & So & _).
  pose proof So as (_ & _ & _ & _ & EM & _).
  set (g := mkMg P false l N M (mg_profiles (lp_mg (kp_loop s)))). set (x := shift_motions (sampling_ms P) (ks_shift se) (lp_motions (kp_loop s))).
  assert (U : mg_updateAndShift junk (ks_bounds se) (lp_motions (kp_loop s)) (lp_model (kp_loop s)) (ks_shift se) (lp_mg (kp_loop s)) = Ok (true, g, x)).
  { unfold mg_updateAndShift, mg_update. rewrite I1, E. cbn [bind fst snd]. rewrite EM. reflexivity. }
  assert (E' : form_motions (mg_par (lp_mg (kp_loop s))) (view_of (ks_bounds se) (lp_model (kp_loop s))) (lp_motions (kp_loop s)) (mg_horizon (lp_mg (kp_loop s))) = Ok (true, l)) by (rewrite I1; exact E).
  assert (EM' : updateMatrices junk (horizon_length (mg_par (lp_mg (kp_loop s)))) l (lp_model (kp_loop s)) = Ok M) by (rewrite I1; exact EM).
  assert (Pp' : PepperPreviewSpec.proper (mg_par (lp_mg (kp_loop s)))) by (rewrite I1; exact Pp).
  assert (Je' : jerked (horizon_length (mg_par (lp_mg (kp_loop s)))) gain (kp_body_jerk s)) by (rewrite I1; exact Je).
  destruct (kformed_tasks junk se gain Q n (kp_loop s) _ l M Pp' I2 I3 E' EM' Ms e g s) as (f & Ef & KF); [cbn [g mg_size]; rewrite I1; reflexivity|reflexivity|reflexivity|exact Je'|].
  assert (Ob : forall k, In k (kids0 ++ kids1 (ks_position se)) -> task_object (snd k) N (kp_constraints f (fst k))) by (intros k Ik; pose proof (kf_objects _ _ _ _ _ _ KF k Ik) as X; rewrite I1 in X; exact X).
  set (G := guessed_bounds (sampling_ms P) (ks_subsampling se) N).
  assert (Sz : forall a, In a (actuals l0) -> hs_active (ks_start se) = true -> a = [] \/ (length a = (2 * N)%nat /\ ((ks_subsampling se < sampling_ms P)%Z \/ (1 < N)%nat))).
  { intros a Ia Hact. destruct (hs_report (ks_start se)) eqn:Hr; [|left; exact (kk_report _ _ _ _ Ke Hr a Ia)].
    destruct (kk_sizes _ _ _ _ Ke a (in_or_app _ _ _ (or_introl Ia))) as [X|X]; [left; exact X|right]. split; [exact X|]. destruct (Z.lt_ge_cases (ks_subsampling se) (sampling_ms P)); [left; assumption|right; apply Two; auto]. }
  assert (Len : length l = N). { destruct (intervals_are _ _ _ _ _ _ Pp' I2 I3 E') as [X _]. rewrite I1 in X. exact X. }
  assert (HF : exists p k0 k1, pb_formHierarchy (kp_formed se g f) (hs_active (ks_start se)) (kp_problem s) = Ok p /\ preach p /\ kshape (ks_position se) p k0 k1 /\ kkeeps (ks_start se) (2 * N) k0 k1 /\ actuals k0 = actuals l0 /\
     map ti_loc (lv_tasks k0) = map (fun j => mkLoc (j * (2 * N)) (2 * N)) (seq 0 4) /\ map ti_loc (lv_tasks k1) = map (fun j => mkLoc (j * (2 * N)) (2 * N)) (seq 0 4) /\
     level_getNumberOfConstraints k0 = (4 * (2 * N))%nat /\ level_getNumberOfConstraints k1 = (4 * (2 * N))%nat /\
     (hs_active (ks_start se) = true -> exists a1, pb_guessActiveSet p = Ok [concat (map G (actuals l0)); a1] /\ length a1 = (4 * (2 * N))%nat /\ length (concat (map G (actuals l0))) = (4 * (2 * N))%nat)).
  { assert (C : forall k, In k (kids0 ++ kids1 (ks_position se)) -> f_consistent (kp_formed se g f (fst k)) = true /\ f_n (kp_formed se g f (fst k)) = (2 * N)%nat).
    { intros k Ik. destruct (Ob k Ik) as (_ & (_ & X & _) & Y). split; assumption. }
    set (G' := fun a => if hs_active (ks_start se) then G a else repeat INACTIVE (2 * N)).
    assert (HG : forall a, In a (actuals l0) -> length (G' a) = (2 * N)%nat).
    { intros a Ia. unfold G'. destruct (hs_active (ks_start se)) eqn:Hact; [apply guessed_bounds_length; apply Sz; auto|apply repeat_length]. }
    destruct (kform_shape (ks_position se) (kp_formed se g f) (ks_start se) (2 * N) G' (kp_problem s) l0 l1 Pr Sh Ke ltac:(lia) C) as (p & k0 & k1 & X1 & X2 & X3 & X4 & X5 & X6 & X7 & X8 & X9 & X10).
    - intros k Ik. assert (Km : (fst k <? REFERENCE)%nat = true /\ (fst k =? BODYJERK)%nat = false) by (cbn in Ik; destruct Ik as [<-|[<-|[<-|[<-|[]]]]]; split; reflexivity). destruct Km as [Km1 Km2].
      unfold kp_formed. rewrite Km1, Km2. cbn [f_unmodified f_guess]. split; [reflexivity|]. eexists. split; [reflexivity|]. intros Hact t T1 T2 T3 T4. cbv beta. unfold G'. rewrite Hact. apply bounds_value; try assumption. apply Sz; assumption.
    - intros k Ik. assert (Km : (fst k <? REFERENCE)%nat = false) by (cbn in Ik; destruct Ik as [<-|[<-|[<-|[<-|[]]]]]; reflexivity). unfold kp_formed. rewrite Km. reflexivity.
    - exact HG.
    - exists p, k0, k1. do 9 (split; [assumption|]). intros Hact. destruct (X10 Hact) as (a1 & A1 & A2). exists a1.
      assert (EG : map G' (actuals l0) = map G (actuals l0)) by (apply map_ext; intros a; unfold G'; rewrite Hact; reflexivity). rewrite <- EG. split; [exact A1|]. split; [exact A2|].
      destruct Sh as (_ & I0 & _). destruct (four_tasks l0 _ _ _ _ I0) as (i & j & k & m & T & _). unfold actuals in HG |- *. rewrite T in HG |- *. cbn [map concat] in HG |- *. rewrite !app_length, !HG by (cbn; auto). cbn [length]. lia. }
  destruct HF as (p & k0 & k1 & X1 & X2 & X3 & X4 & X5 & X6 & X7 & X8 & X9 & X10).
  set (so := mkQSol (4 * N) (mkVec (4 * N) (en_x e)) (so_status (kp_solution s)) (so_details (kp_solution s))).
  assert (XV : exists v, (if hs_solution (ks_start se) then bind (guessSolution_pepper (structure_pepper N) (kp_old s)) (fun v => Ok (Some (vector_of (sol_x v)))) else Ok None) = Ok v /\
    (forall y, v = Some y -> (4 * N <= vlen y)%nat) /\ if hs_solution (ks_start se)
    then exists y, v = Some (vector_of y) /\ y = (if Nat.eqb (length (sol_x (kp_old s))) 0 then zeros (4 * N) else shifted (firstn (2 * N) (sol_x (kp_old s))) ++ shifted (skipn (2 * N) (sol_x (kp_old s))))
    else v = None).
  { destruct (hs_solution (ks_start se)) eqn:Hso; [|exists None; split; [reflexivity|split; [discriminate|reflexivity]]].
    destruct (old_fits_pepper N (kp_old s) HN) as (v & V1 & V2 & V3). { destruct Old as [Old|[_ Old]]; auto. }
    rewrite V1. cbn [bind]. eexists. split; [reflexivity|]. split; [intros y Y; injection Y as <-; cbn [vector_of vlen]; lia|]. exists (sol_x v). split; [reflexivity|exact V3]. }
  destruct XV as (v & V1 & V2 & V3).
  assert (XA : exists a, (if hs_active (ks_start se) then bind (pb_guessActiveSet p) (fun a => Ok (Some a)) else Ok None) = Ok a /\
    (forall y, a = Some y -> fits y p /\ forall z, nth_error y 0 = Some z -> ~ In UNDEFINED z) /\
    if hs_active (ks_start se) then exists a1, a = Some [concat (map G (actuals l0)); a1] else a = None).
  { destruct (hs_active (ks_start se)) eqn:Hact; [|exists None; split; [reflexivity|split; [discriminate|reflexivity]]].
    destruct (X10 eq_refl) as (a1 & A1 & A2 & A3). rewrite A1. eexists. split; [reflexivity|]. split; [|exists a1; reflexivity]. intros y Y. injection Y as <-. destruct X3 as (Eq & _). split.
    - split; [unfold pb_getNumberOfLevels; rewrite Eq; reflexivity|]. intros i lv a. rewrite Eq. destruct i as [|[|i]]; cbn [nth_error]; intros L1 L2; try (destruct i; discriminate L1); injection L1 as <-; injection L2 as <-; congruence.
    - intros z Z. cbn [nth_error] in Z. injection Z as <-. intros X. apply in_concat in X. destruct X as (a & Ia & Iu). apply in_map_iff in Ia. destruct Ia as (b & <- & Ib).
      exact (guessed_bounds_defined _ _ _ _ (kk_defined _ _ _ _ Ke b Ib) Iu). }
  destruct XA as (a & A1 & A2 & A3). set (r := mkRequest so v a).
  assert (HI : hierarchy_of (kp_call se e f p r) (kp_formed se g f) (hs_active (ks_start se)) (kp_problem s) l0 l1).
  { split; [exact Pr|]. split; [exact X1|]. split; [|apply (kshape_qp (ks_position se)); exact Sh]. cbn [kp_call cl_cs cl_solution so_nv so r rq_solution]. apply (kshape_described (ks_position se) _ _ _ _ l0 l1 Sh).
    intros k Ik. destruct (Ob k Ik) as (Y1 & Y2 & Y3). split; [exact Y1|]. split; [reflexivity|]. exact Y2. }
  exists g, x, f, p, r, l0, l1, k0, k1. split; try assumption.
  - split; reflexivity.
  - unfold kp_prepare. rewrite U. cbn [bind fst snd]. unfold kp_form. cbn [g mg_size]. rewrite nv_pepper. fold so. destruct (loc_pepper N) as (_ & _ & _ & X). rewrite X. cbn [assert_then].
    rewrite Ef. cbn [bind]. rewrite X1. cbn [bind]. rewrite V1. cbn [bind]. rewrite A1. reflexivity.
  - intros sol Fi. apply (plan_exists junk se Q n (kp_loop s) _ l M Pp' I2 I3 E' EM' Ms). rewrite I1. exact Fi.
  - split; assumption.
  - split; assumption.
  - reflexivity.
  - reflexivity.
  - split; [|split; [reflexivity|]].
    + cbn [kp_call cl_guess cl_memory cl_solution r rq_guess rq_solution so so_nv]. intros y Y. destruct v as [z|]; [|discriminate Y]. exists z. split; [reflexivity|exact (V2 z eq_refl)].
    + cbn [kp_call cl_active cl_problem r rq_active]. intros y Y. apply (A2 y Y).
  - pose proof (level_movable se gain Q n (kp_loop s) f (kp_problem s) l0 l1 KF Sh) as Mv. rewrite I1 in Mv. specialize (Mv HN).
    unfold acceptable_call. cbn [kp_call cl_active cl_cs cl_solution so_nv so r rq_active rq_solution]. rewrite <- Mv. split; [intros [X _]; exact X|]. intros X. split; [exact X|]. intros y z Y. exact (proj2 (A2 y Y) z).
Qed.

(** the answer of the solver in an iteration *)
Lemma solves_pepper e n s g x f p r l0 l1 k0 k1 : kgood se s0 gain par L n s -> kposed junk se e s0 gain n s g x f p r l0 l1 k0 k1 ->
  exists t, (sv_solve (kp_call se e f p r) (kp_solver s) (kp_world s) = Returned t \/ sv_solve (kp_call se e f p r) (kp_solver s) (kp_world s) = Thrown t) /\
    holds L (cs_solver t) (cs_world t) /\ sv_par (cs_solver t) = par /\
    ((~ movable (ks_bounds se) /\ sv_solve (kp_call se e f p r) (kp_solver s) (kp_world s) = Thrown t /\ wd_calls (cs_world t) = wd_calls (kp_world s)) \/
     (movable (ks_bounds se) /\ exists k, effect par (kp_call se e f p r) (kp_world s) l0 l1 (sv_solve (kp_call se e f p r) (kp_solver s) (kp_world s)) t k)).
Proof.
  intros G K. destruct (kg_solver _ _ _ _ _ _ _ G) as [Ho Pa].
  destruct (call_effect L (kp_call se e f p r) (kp_solver s) (kp_world s) _ _ (kp_problem s) l0 l1 Ho (ko_sized _ _ _ _ _ _ _ _ _ _ _ _ _ _ _ _ K) (ko_hierarchy _ _ _ _ _ _ _ _ _ _ _ _ _ _ _ _ K)) as (t & R & Ht & Pt & X).
  { cbn [params_of kp_call cl_params]. rewrite Pa. exact TL. }
  cbn [params_of kp_call cl_params] in Pt, X. rewrite Pa in Pt, X. exists t. split; [exact R|]. split; [exact Ht|]. split; [exact Pt|].
  pose proof (ko_acceptable _ _ _ _ _ _ _ _ _ _ _ _ _ _ _ _ K) as Ac. destruct X as [(X1 & X2 & _ & _ & X3)|(X1 & X2)]; [left|right].
  - split; [rewrite <- Ac; exact X3|]. split; assumption.
  - split; [apply Ac; exact X1|exact X2].
Qed.

(** what the next iteration gets from this one *)
Definition kcarried (e : environment) (f : pepper_tasks) (k0 : level) (k : libcall) (s s' : pepper_program) : Prop :=
  kp_old s' = (if hs_solution (ks_start se) then kp_last s' else kp_old s) /\
  (hs_report (ks_start se) = true -> exists j0 j1 v0, kshape (ks_position se) (kp_problem s') j0 j1 /\ actuals j0 = parts (2 * N) v0 /\ length v0 = (4 * (2 * N))%nat /\
     forall i j, In i (lv_tasks k0) -> (j < len (ti_loc i))%nat ->
       exists u, nth_error v0 (Base.offset (ti_loc i) + j) = Some u /\ reports (kp_constraints f) k0 (an_wsb (en_library e k)) (an_wsc (en_library e k)) i j u).

Lemma advances_pepper e n s g x f p r l0 l1 k0 k1 t k : kgood se s0 gain par L n s -> lasts P (as_queue (lp_motions (kp_loop s))) -> kposed junk se e s0 gain n s g x f p r l0 l1 k0 k1 ->
  sv_solve (kp_call se e f p r) (kp_solver s) (kp_world s) = Returned t -> holds L (cs_solver t) (cs_world t) -> sv_par (cs_solver t) = par ->
  effect par (kp_call se e f p r) (kp_world s) l0 l1 (Returned t) t k -> (hs_report (ks_start se) = true -> SolverLifeSpec.sensible (en_library e k) k) ->
  exists s', kp_iterate junk se e s = Ok (Some s') /\ kgood se s0 gain par L (S n) s' /\
    cycle junk (ks_bounds se) (ks_advance se) (ks_shift se) (kp_last s') (kp_loop s) = Ok (Some (kp_loop s')) /\ fits_problem N (kp_last s') /\
    mg_size (lp_mg (kp_loop s')) = mg_size g /\ mg_horizon (lp_mg (kp_loop s')) = mg_horizon g /\ mg_matrices (lp_mg (kp_loop s')) = mg_matrices g /\
    kp_solution s' = cs_solution t /\ kp_world s' = cs_world t /\ kp_last s' = solution_of (structure_pepper N) (cs_solution t) /\ kcarried e f k0 k s s'.
Proof.
  intros G La K E Ht Pt Ef Se. pose proof G as [I Ms (Pr & z0 & z1 & Sh & Ke) Je [Ho Pa] Old]. pose proof K as [U [Gs Gp] Pre Ta KF Pl Pq Sq Kq [Lo0 Lo1] [Co0 Co1] Bf NV VX Sz HI Ac _ _].
  set (sol := solution_of (structure_pepper N) (cs_solution t)).
  assert (Fi : fits_problem N sol).
  { split; [reflexivity|]. unfold sol, solution_of. cbn [sol_x]. rewrite map_length, seq_length, (wr_size _ _ _ (ef_written _ _ _ _ _ _ _ _ Ef)). cbn [kp_call cl_solution]. rewrite VX. exact NV. }
  pose proof I as (I1 & I2 & I3 & _).
  destruct (cycle_cases junk (ks_bounds se) (ks_advance se) (ks_shift se) sol (kp_loop s)) as [(_ & l' & C & Ad)|(C & _)]; try (rewrite I1); try assumption; [|rewrite I1 in C; contradiction].
  assert (PC : exists q', kp_process se p t = Ok q' /\ preach q' /\ exists j0 j1, kshape (ks_position se) q' j0 j1 /\ kkeeps (ks_start se) (2 * N) j0 j1 /\
    (hs_report (ks_start se) = true -> exists v0, actuals j0 = parts (2 * N) v0 /\ length v0 = (4 * (2 * N))%nat /\ forall i j, In i (lv_tasks k0) -> (j < len (ti_loc i))%nat ->
       exists u, nth_error v0 (Base.offset (ti_loc i) + j) = Some u /\ reports (kp_constraints f) k0 (an_wsb (en_library e k)) (an_wsc (en_library e k)) i j u)).
  { unfold kp_process. destruct (hs_report (ks_start se)) eqn:Hr.
    - destruct (ef_report _ _ _ _ _ _ _ _ Ef) as [_ Rp]; [exact Hr|exact (Se eq_refl)|]. destruct (Rp eq_refl) as (v0 & v1 & R1 & R2 & _ & R4). rewrite R1.
      pose proof Sq as (Eq & I0' & _). cbn [kp_call cl_problem cl_cs cl_library] in R2, R4. specialize (R4 k0).
      assert (R5 : forall i j, In i (lv_tasks k0) -> (j < len (ti_loc i))%nat -> exists u, nth_error v0 (Base.offset (ti_loc i) + j) = Some u /\ reports (kp_constraints f) k0 (an_wsb (en_library e k)) (an_wsc (en_library e k)) i j u).
      { intros. apply R4; [rewrite Eq; reflexivity|assumption|assumption]. }
      assert (Lv : length v0 = (4 * (2 * N))%nat) by (rewrite <- Co0; apply (proj2 R2 0%nat); [rewrite Eq|]; reflexivity).
      assert (Un : ~ In UNDEFINED v0).
      { intros X. apply In_nth_error in X. destruct X as (y & Y). assert (Ly : (y < length v0)%nat) by (apply nth_error_Some; congruence). rewrite Lv in Ly.
        assert (Re : forall i j u, reports (kp_constraints f) k0 (an_wsb (en_library e k)) (an_wsc (en_library e k)) i j u -> u <> UNDEFINED) by (intros i' j' u ([-> | [-> | ->]] & _); discriminate).
        pose proof (proj1 Pp) as HN. assert (D : (y / (2 * N) < 4)%nat) by (apply Nat.div_lt_upper_bound; lia). pose proof (Nat.div_mod y (2 * N) ltac:(lia)) as DM. pose proof (Nat.mod_upper_bound y (2 * N) ltac:(lia)) as MB.
        set (d := (y / (2 * N))%nat) in *. set (m := (y mod (2 * N))%nat) in *.
        assert (Ei : exists i, nth_error (lv_tasks k0) d = Some i /\ ti_loc i = mkLoc (d * (2 * N)) (2 * N)).
        { assert (X : nth_error (map ti_loc (lv_tasks k0)) d = Some (mkLoc (d * (2 * N)) (2 * N))) by (rewrite Lo0; destruct d as [|[|[|[|d]]]]; [reflexivity|reflexivity|reflexivity|reflexivity|lia]).
          rewrite nth_error_map in X. destruct (nth_error (lv_tasks k0) d) as [i|]; [|discriminate X]. exists i. split; [reflexivity|]. injection X as X. exact X. }
        destruct Ei as (i & Ei & El). destruct (R5 i m (nth_error_In _ _ Ei)) as (u & U1 & U2); [rewrite El; exact MB|]. rewrite El in U1. cbn [Base.offset] in U1.
        replace (d * (2 * N) + m)%nat with y in U1 by lia. apply (Re _ _ _ U2). congruence. }
      destruct HI as (_ & HF & _).
      destruct (process_kshape (ks_position se) _ _ (ks_start se) (2 * N) (kp_problem s) p k0 k1 v0 v1 Pr HF Sq Kq Hr Lo0 Lo1 Co0 Co1 R2 Un) as (q' & j0 & j1 & W1 & W2 & W3 & W4 & W5).
      exists q'. split; [exact W1|]. split; [exact W2|]. exists j0, j1. split; [exact W3|]. split; [exact W4|]. intros _. exists v0. split; [exact W5|]. split; [exact Lv|exact R5].
    - exists p. split; [reflexivity|]. split; [exact Pq|]. exists k0, k1. split; [exact Sq|]. split; [exact Kq|discriminate]. }
  destruct PC as (q' & PC & Pq' & j0 & j1 & Sj & Kj & Rj).
  set (s' := mkKP l' q' (kp_indices (kt_velocity f)) (if ks_position se then kp_reference_ix s else kp_indices (kt_reference f)) (kt_body_jerk f) (cs_solution t) (cs_solver t) (cs_world t)
    (if hs_solution (ks_start se) then sol else kp_old s)).
  pose proof Ad as (D1 & D2 & D3 & v & m & M & pf & D4 & D5 & D6 & D7 & D8 & D9 & D10 & D11 & D12 & D13 & Dm & _). rewrite I1 in D1, D2, D3.
  assert (LS : kp_last s' = sol) by (unfold kp_last, s'; cbn [kp_loop kp_solution]; rewrite D1; reflexivity).
  assert (C' : exists m' g', l' = mkLoop m' x g' /\ mg_size g' = mg_size g /\ mg_horizon g' = mg_horizon g /\ mg_matrices g' = mg_matrices g /\
    match ks_advance se with Whole => mg_next_of sol (lp_model (kp_loop s)) g | Part ms => bind (mg_parse sol g) (fun g => bind (mg_state_ms (lp_model (kp_loop s)) ms g) (fun m => Ok (m, g))) end = Ok (m', g')).
  { unfold cycle in C. rewrite U in C. cbn [bind fst snd] in C.
    assert (Ps : forall g', mg_parse sol g = Ok g' -> mg_size g' = mg_size g /\ mg_horizon g' = mg_horizon g /\ mg_matrices g' = mg_matrices g).
    { intros g' Y. unfold mg_parse in Y. apply bind_ok in Y. destruct Y as (y & _ & Y). injection Y as <-. auto. }
    destruct (ks_advance se) as [|ms].
    - apply bind_ok in C. destruct C as ([m' g'] & Y & C). injection C as <-. exists m', g'. split; [reflexivity|].
      assert (Z : mg_parse sol g = Ok g').
      { unfold mg_next_of in Y. destruct (negb (mg_parsed g)); [|discriminate Y]. cbn [assert_then] in Y. apply bind_ok in Y. destruct Y as (g2 & Y1 & Y). apply bind_ok in Y. destruct Y as (st & _ & Y). injection Y as <- <-. exact Y1. }
      destruct (Ps g' Z) as (Z1 & Z2 & Z3). auto.
    - apply bind_ok in C. destruct C as (g' & Y & C). apply bind_ok in C. destruct C as (m' & Y' & C). injection C as <-. exists m', g'. split; [reflexivity|]. destruct (Ps g' Y) as (Z1 & Z2 & Z3).
      rewrite Y. cbn [bind]. rewrite Y'. auto. }
  destruct C' as (m' & g' & El & Es & Eh & EM & EA).
  exists s'. split.
  { unfold kp_iterate. rewrite Pre. cbn [bind]. rewrite E. unfold kp_finish. rewrite Gs. fold sol. rewrite PC. cbn [bind]. rewrite EA. cbn [bind fst snd]. unfold s'. rewrite El. reflexivity. }
  split.
  { split; cbn [s' kp_loop kp_problem kp_body_jerk kp_solver kp_world kp_old].
    - destruct I as (_ & _ & _ & I4 & I5). split; [exact D1|]. rewrite D3. split; [apply shift_motions_valid; assumption|]. split; [|split].
      + intros u Hu. rewrite shift_motions_commanded by assumption. rewrite I3 by lia. f_equal. lia.
      + rewrite <- (shift_motions_endless (sampling_ms P) (ks_shift se) (lp_motions (kp_loop s)) I2 Hs). exact I4.
      + intros D. rewrite shift_motions_total; [|assumption|assumption|rewrite I4; exact D]. rewrite (I5 D). pose proof (total_nonneg Q HV D). nia.
    - destruct Dm as [-> ->]. unfold default_base_mass, default_body_mass. lra.
    - split; [exact Pq'|]. exists j0, j1. split; assumption.
    - pose proof (kf_jerked _ _ _ _ _ _ KF) as X. rewrite I1 in X. exact X.
    - split; assumption.
    - destruct (hs_solution (ks_start se)) eqn:Hh; [right; split; [reflexivity|exact Fi]|]. left. destruct Old as [Old|[Old _]]; [exact Old|discriminate Old]. }
  rewrite LS. split; [exact C|]. split; [exact Fi|]. cbn [s' kp_loop kp_solution kp_world]. rewrite El. cbn [lp_mg]. do 3 (split; [assumption|]). do 3 (split; [reflexivity|]). split; [rewrite LS; reflexivity|].
  intros Hr. destruct (Rj Hr) as (v0 & R1 & R2 & R3). exists j0, j1, v0. auto.
Qed.
End Step.
