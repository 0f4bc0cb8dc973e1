(** * The walking program: the tasks of an iteration *)
From Coq Require Import String List Reals Arith Bool ZArith Lra Lia.
From Verif Require Import Base BaseFacts RSum BoxMinimum Matrix Mat2 Mat3 ActiveSet Mixins ConstraintType HierarchyLevel HierarchySpec Constraints ConstraintsSpec QP QPSpec Problem ProblemSpec LeftRight FootParameters FootTrajectory
  PointMass6z PointMass6zSpec Solution Task MpcGuess MpcGuessFacts PepperTasks PepperTasksSpec PepperTasksFacts StanceFSM StanceSpec WalkPreview WalkPreviewSpec WalkPreviewFacts WalkMpc WalkModel WalkModelSpec WalkProfiles WalkProfilesSpec WalkTasks WalkTasksSpec WalkTasksFacts2
  QpoasesBridge QpoasesBridgeSpec Backends BackendsSpec Solver SolverLife SolverLifeSpec WalkLoop WalkLoopSpec WalkLoopFacts WalkLoopFacts6 WalkLoopFacts8 WalkProgram WalkProgramSpec WalkProgramFacts WalkProgramFacts2.
Import ListNotations.
Local Open Scope R_scope.

(** ** the bounds are below the infinity *)
Lemma preview_states_fd inc : forall l h ws, preview_states inc h l = Ok ws -> forall w, In w ws -> is_tds (st_type (ws_stance w)) = false -> ws_fd w <> FdUnset.
Proof.
  assert (FD : forall s fd, fd_of s = Ok fd -> fd <> FdUnset).
  { intros s fd. unfold fd_of. destruct (subtype s), (st_type s), (prev_nontds s); intros E; try discriminate E; injection E as <-; discriminate. }
  assert (P1 : forall h s n h1 w, preview_state inc h s n = Ok (h1, w) -> is_tds (st_type (ws_stance w)) = false -> ws_fd w <> FdUnset).
  { intros h s n h1 w H T. pose proof (preview_state_stance _ _ _ _ _ _ H) as E. rewrite E in T. unfold preview_state in H.
    destruct (st_type s) eqn:Ts; try discriminate T; try discriminate H; [destruct (subtype s); try discriminate H| |];
      apply bind_ok in H; destruct H as (fd & K & H); injection H as <- <-; cbn [ws_fd]; exact (FD _ _ K). }
  induction l as [|s r IH]; intros h ws H; cbn [preview_states] in H; [injection H as <-; intros w []|].
  apply bind_ok in H. destruct H as ([h1 w1] & H1 & H). apply bind_ok in H. destruct H as (ws1 & H2 & H). injection H as <-.
  intros w [<-|I] T; [eapply P1; eassumption|eapply IH; eassumption].
Qed.
Lemma form_below fuel mp ly ry inc f h nan pr k w : form fuel mp ly ry inc f = Finished (Ok (Some h)) -> WalkLoopSpec.sensible pr -> moderate pr ->
  (k < horizon_length mp)%nat -> state_bounds (indices_of h) (bounds_of nan (finalize pr) h) k = Some w -> below (wb_cop w) /\ below (wb_fd w).
Proof.
  intros F (S1 & S2 & S3 & S4 & S5) (M1 & M2 & M3 & M4 & M5) Hk S. destruct (form_filled _ _ _ _ _ _ _ F) as ((_ & Fi & _) & _). destruct (Fi k Hk) as (iv & I1 & t & (ws & W1 & W2) & W3).
  rewrite (state_bounds_at nan (finalize pr) h k iv ws I1 W1) in S. injection S as <-. cbn [wb_cop wb_fd].
  assert (T : is_tds (st_type (ws_stance ws)) = false) by (rewrite W2; destruct t; try reflexivity; contradiction).
  destruct (form_inv _ _ _ _ _ _ _ F) as (l & b & _ & HS & _). pose proof (nth_error_In _ _ W1) as Iw.
  pose proof (preview_states_cop inc _ _ _ HS ws Iw T) as C. pose proof (preview_states_fd inc _ _ _ HS ws Iw T) as D.
  assert (G : 0 < g_infinity) by (unfold g_infinity; apply pow_lt; lra). unfold below. generalize dependent g_infinity. intros G M1 M2 M3 M4 M5 HG.
  split.
  - intros a. destruct (ws_cop ws); [| |exfalso; rewrite W2 in C; destruct t; discriminate C]; destruct a; cbn; lra.
  - intros a. destruct (ws_fd ws) as [|l' kd|]; [destruct a; cbn; lra| |contradiction].
    assert (- G <= min_feet_dist pr <= G) by (unfold Rabs in M4; destruct (Rcase_abs (min_feet_dist pr)); lra).
    assert (- G <= max_feet_dist pr <= G) by (unfold Rabs in M5; destruct (Rcase_abs (max_feet_dist pr)); lra).
    destruct l', kd, a; cbn; lra.
Qed.

(** ** the task which keeps its constraints *)
Definition centered (N : nat) (g : R) (z : zero_task) : Prop := z = new_copPosition g \/
  exists m nv, z = mkZT g m (mkLoc 0 (N * 2)) COP (mkConstr nv (BodyGI (map (fun i => (0 + i)%nat) (seq 0 (N * 2))) (vconst (N * 2) g)) BoundsB0).
Lemma centered_form N n g z : (0 < N)%nat -> centered N g z ->
  centered N g (zero_form (structure_wpg N n) z) /\ zt_constr (zero_form (structure_wpg N n) z) = zt_constr (zero_form (structure_wpg N n) (new_copPosition g)).
Proof.
  intros HN C. assert (L : forall z', zt_id z' = COP -> zero_location (structure_wpg N n) z' = mkLoc 0 (N * 2)).
  { intros z' E. unfold zero_location. rewrite E. replace (String.eqb COP "") with false by reflexivity. apply (loc_wpg N n). }
  assert (E0 : zero_form (structure_wpg N n) (new_copPosition g) =
    mkZT g true (mkLoc 0 (N * 2)) COP (mkConstr (Solution.getNumberOfVariables (structure_wpg N n)) (BodyGI (map (fun i => (0 + i)%nat) (seq 0 (N * 2))) (vconst (N * 2) g)) BoundsB0)).
  { unfold zero_form. rewrite L by reflexivity. unfold new_copPosition, zero_new, loc_eqb. cbn [zt_location zt_gain zt_id Base.offset len]. replace ((0 =? 0)%nat && (N * 2 =? 0)%nat) with false by lia. reflexivity. }
  destruct C as [-> | (m & nv & ->)].
  - split; [|reflexivity]. right. rewrite E0. eexists _, _. reflexivity.
  - rewrite E0. unfold zero_form. rewrite L by reflexivity. unfold loc_eqb. cbn [zt_location zt_gain zt_id Base.offset len zt_constr c_body c_bounds]. rewrite !Nat.eqb_refl. cbn [andb zt_constr].
    split; [right; eexists _, _; reflexivity|reflexivity].
Qed.

(** ** the tasks *)
Definition cost_of (se : settings) (centering : R) (N : nat) (h : horizon) (H : R) (cstate : vec) (sol : solution) (pf : walk_profiles) : R :=
  Rsum N (fun k =>
    match nth_error (intervals_of h H) k, nth_error (references_of (se_velocities se) h) k with
    | Some v, Some r =>
        let e a := se_comvel se * (com_velocity cstate pf k v a - component r a) in
        let d a := se_copvel se * vget (wp_dcop pf) (2 * k + axis_index a) in
        let c a := centering * cop_local sol k a in
        (Rsqr (e AxisX) + Rsqr (e AxisY)) + (Rsqr (d AxisX) + Rsqr (d AxisY)) + (Rsqr (c AxisX) + Rsqr (c AxisY))
    | _, _ => 0
    end).
Definition fitting (N n : nat) (sol : solution) : Prop := sol_structure sol = structure_wpg N n /\ length (sol_x sol) = (2 * N + 2 * n)%nat.
Lemma as_fitting N n x : fitting N n (as_solution N n x).
Proof. split; [reflexivity|apply as_length]. Qed.
Record well_formed (junk : nat -> nat -> nat -> R) (nan : R) (se : settings) (centering : R) (N : nat) (h : horizon) (H : R) (rs : list nat) (support cstate : vec) (M : walk_matrices) (f : formed_tasks) : Prop := mkWF {
  wf_objects : forall k, In k (ids0 ++ ids1) -> getType (constraints_of f (fst k)) = snd k /\ usable (2 * N + 2 * length (h_steps h)) (constraints_of f (fst k));
  wf_rows : getNumberOfConstraints (ft_cop f) = (2 * N)%nat /\ getNumberOfConstraints (zt_constr (ft_centering f)) = (2 * N)%nat /\ getNumberOfConstraints (ft_steps f) = (2 * length (h_steps h))%nat;
  wf_indices : (forall j y, bounds_variable (ft_steps f) j y <-> (j < 2 * length (h_steps h))%nat /\ y = (2 * N + j)%nat) /\ (forall j y, bounds_variable (ft_cop f) j y <-> (j < 2 * N)%nat /\ y = j);
  wf_two : (forall i, lower (ft_steps f) i <> None /\ upper (ft_steps f) i <> None) /\ (forall i, lower (ft_cop f) i <> None /\ upper (ft_cop f) i <> None);
  wf_admissible : forall sol, fitting N (length (h_steps h)) sol -> (satisfies (ft_steps f) (point sol) /\ satisfies (ft_cop f) (point sol)) <-> admissible nan se N h sol;
  wf_cost : forall sol pf, walk_solved junk N (intervals_of h H) (interval_rotations h) (h_steps h) (step_rotations h rs) support cstate sol M pf ->
    squared_residuals (ft_copvel f) (point sol) + (squared_residuals (ft_comvel f) (point sol) + (squared_residuals (zt_constr (ft_centering f)) (point sol) + 0)) =
    cost_of se centering N h H cstate sol pf;
  wf_centered : centered N centering (ft_centering f) }.

Lemma two_sided t N n m c i : walk_object t N n m c -> t = ILU -> lower c i <> None /\ upper c i <> None.
Proof.
  intros (T & _) ->. unfold getType in T. unfold lower, upper. destruct (c_body c), (c_bounds c); try discriminate T; split; discriminate.
Qed.
Lemma body_indices c off k : c_body c = BodyI (map (fun i => (off + i)%nat) (seq 0 k)) -> forall j y, bounds_variable c j y <-> (j < k)%nat /\ y = (off + j)%nat.
Proof.
  intros E j y. unfold bounds_variable. rewrite E, nth_error_map. split.
  - destruct (nth_error (seq 0 k) j) as [x|] eqn:X; [|discriminate]. cbn [option_map]. intros Y. injection Y as <-. assert (J : (j < k)%nat) by (rewrite <- (seq_length k 0); apply nth_error_Some; congruence).
    rewrite (nth_error_nth' _ 0%nat) in X by (rewrite seq_length; exact J). rewrite seq_nth in X by exact J. injection X as <-. split; [exact J|reflexivity].
  - intros [J ->]. rewrite (nth_error_nth' _ 0%nat) by (rewrite seq_length; exact J). rewrite seq_nth by exact J. reflexivity.
Qed.
Section Tasks.
Variables (fuel : nat) (junk : nat -> nat -> nat -> R) (nan : R) (se : settings) (centering : R) (mp : mpc_params) (ly ry inc : R) (fs : fsm).
Variables (h : horizon) (H : R) (rs : list nat) (support cstate : vec) (M : walk_matrices).
Notation N := (horizon_length mp).
Notation n := (length (h_steps h)).
Hypothesis (F : form fuel mp ly ry inc fs = Finished (Ok (Some h))) (HN : (0 < N)%nat) (H53 : (Z.of_nat (6 * N) < 2 ^ 53)%Z).
Hypothesis (So : forall sol, fitting N n sol -> exists pf, walk_solved junk N (intervals_of h H) (interval_rotations h) (h_steps h) (step_rotations h rs) support cstate sol M pf).

Lemma intervals_length : length (h_intervals h) = N.
Proof. destruct (form_filled _ _ _ _ _ _ _ F) as ((L & _) & _). exact L. Qed.
Lemma steps_below s : In s (h_steps h) -> (s < N)%nat.
Proof. destruct (form_filled _ _ _ _ _ _ _ F) as ((_ & _ & _ & Fo & _) & _). rewrite Forall_forall in Fo. exact (Fo s). Qed.

Lemma tasks_formed e g s : wg_par g = mp -> wg_horizon g = h -> wg_matrices g = M -> centered N centering (pg_centering s) ->
  exists f, form_tasks nan se e g s = Ok f /\ well_formed junk nan se centering N h H rs support cstate M f.
Proof.
  intros G1 G2 G3 Ce. unfold form_tasks. rewrite G1, G2, G3. set (z := as_solution N n (fun _ => 0)). assert (Fz : fitting N n z) by apply as_fitting.
  set (index := indices_of h). set (states := bounds_of nan (se_feet se) h). assert (Ix : indexed N index states) by (eapply form_indexed; exact F).
  pose proof steps_below as Fo.
  assert (T0 : exists c, form_footstepBounds (en_junk e STEPS) (pg_steps_ix s) (se_fixed se) (structure_wpg N n) (h_steps h) index states = Ok c /\ walk_object ILU N n (2 * n) c /\
    forall sol, satisfies c (point sol) <-> forall j k w a, nth_error (h_steps h) j = Some k -> state_bounds index states k = Some w ->
      if se_fixed se then step_local N sol j a = fixed_step w a else within (wb_fd w) a (step_local N sol j a)).
  { destruct (se_fixed se) eqn:Fx.
    - destruct (task_fixed_footsteps N (h_steps h) z (en_junk e STEPS) (pg_steps_ix s) index states Ix Fo) as (c & C1 & C2 & _). exists c. split; [exact C1|]. split; [exact C2|]. intros sol.
      destruct (task_fixed_footsteps N (h_steps h) sol (en_junk e STEPS) (pg_steps_ix s) index states Ix Fo) as (c' & D1 & _ & D3). rewrite C1 in D1. injection D1 as <-. exact D3.
    - destruct (task_footsteps N (h_steps h) z (en_junk e STEPS) (pg_steps_ix s) index states Ix Fo) as (c & C1 & C2 & _). exists c. split; [exact C1|]. split; [exact C2|]. intros sol.
      destruct (task_footsteps N (h_steps h) sol (en_junk e STEPS) (pg_steps_ix s) index states Ix Fo) as (c' & D1 & _ & D3). rewrite C1 in D1. injection D1 as <-. exact D3. }
  destruct T0 as (c0 & C0 & O0 & S0).
  destruct (task_cop_bounds_walk N (h_steps h) z (en_junk e COPS) (pg_cop_ix s) index states Ix) as (c1 & C1 & O1 & _).
  assert (S1 : forall sol, satisfies c1 (point sol) <-> forall k w a, state_bounds index states k = Some w -> (k < N)%nat -> within (wb_cop w) a (cop_local sol k a)).
  { intros sol. destruct (task_cop_bounds_walk N (h_steps h) sol (en_junk e COPS) (pg_cop_ix s) index states Ix) as (c' & D1 & _ & D3). rewrite C1 in D1. injection D1 as <-. exact D3. }
  destruct (So z Fz) as (pz & Sz).
  assert (LR : length (references_of (se_velocities se) h) = N) by (unfold references_of; rewrite map_length; exact intervals_length).
  assert (LI : length (intervals_of h H) = N) by (unfold intervals_of; rewrite map_length; exact intervals_length).
  destruct (task_com_velocity _ _ _ _ _ _ _ _ _ _ _ (en_junk e COMVEL) (se_comvel se) (references_of (se_velocities se) h) Sz H53 LR) as (c2 & C2 & O2 & _).
  destruct (task_cop_velocity _ _ _ _ _ _ _ _ _ _ _ (en_junk e COPVEL) (se_copvel se) Sz) as (c3 & C3 & O3 & _).
  destruct (task_cop_position _ _ _ _ _ _ _ _ _ _ _ centering Sz) as (O4 & _).
  destruct (centered_form N n centering _ HN Ce) as (Ce' & E4).
  rewrite C0. cbn [bind]. rewrite C1. cbn [bind]. rewrite C2. cbn [bind]. rewrite C3. cbn [bind].
  eexists. split; [reflexivity|]. split; cbn [ft_steps ft_cop ft_comvel ft_copvel ft_centering].
  - intros k Hk. cbn in Hk. assert (X : forall t m c, walk_object t N n m c -> getType c = t /\ usable (2 * N + 2 * n) c) by (intros t m c (A & B & _); split; assumption).
    destruct Hk as [<-|[<-|[<-|[<-|[<-|[]]]]]]; cbn [fst snd constraints_of ft_steps ft_cop ft_comvel ft_copvel ft_centering STEPS COPS COMVEL COPVEL CENTERING].
    + exact (X _ _ _ O0).
    + exact (X _ _ _ O1).
    + exact (X _ _ _ O3).
    + exact (X _ _ _ O2).
    + rewrite E4. exact (X _ _ _ O4).
  - split; [apply O1|]. split; [rewrite E4; apply O4|apply O0].
  - split.
    + unfold form_footstepBounds in C0. destruct (loc_wpg N n) as (_ & L & _). rewrite L in C0. cbn [Base.offset len] in C0. rewrite fill_indices_ok in C0. cbn [bind] in C0. apply bind_ok in C0. destruct C0 as (b & _ & C0). injection C0 as <-.
      intros j y. rewrite (body_indices _ (N * 2) (n * 2)) by reflexivity. rewrite !(Nat.mul_comm _ 2). reflexivity.
    + unfold form_copBounds in C1. destruct (loc_wpg N n) as (L & _). rewrite L in C1. cbn [Base.offset len] in C1. rewrite Nat.div_mul in C1 by lia. rewrite fill_indices_ok in C1. cbn [bind] in C1. apply bind_ok in C1. destruct C1 as (b & _ & C1). injection C1 as <-.
      intros j y. rewrite (body_indices _ 0 (N * 2)) by reflexivity. rewrite !(Nat.mul_comm _ 2). reflexivity.
  - split; intros i; [exact (two_sided _ _ _ _ _ i O0 eq_refl)|exact (two_sided _ _ _ _ _ i O1 eq_refl)].
  - intros sol _. rewrite S0, S1. unfold admissible. fold index states. split; intros [A B]; (split; [|]); intros.
    + apply (B k w a); assumption.
    + apply (A j k w a); assumption.
    + apply (B j k w a); assumption.
    + apply (A k w a); assumption.
  - intros sol pf Ss.
    destruct (task_com_velocity _ _ _ _ _ _ _ _ _ _ _ (en_junk e COMVEL) (se_comvel se) (references_of (se_velocities se) h) Ss H53 LR) as (c2' & D2 & _ & R2). rewrite C2 in D2. injection D2 as <-.
    destruct (task_cop_velocity _ _ _ _ _ _ _ _ _ _ _ (en_junk e COPVEL) (se_copvel se) Ss) as (c3' & D3 & _ & R3). rewrite C3 in D3. injection D3 as <-.
    destruct (task_cop_position _ _ _ _ _ _ _ _ _ _ _ centering Ss) as (_ & R4). rewrite E4.
    rewrite (squared_pairs N c3 (point sol) (fun k a => se_copvel se * vget (wp_dcop pf) (2 * k + axis_index a))) by solve [exact (proj2 (proj2 O3)) | intros k a Hk; exact (R3 k a Hk)].
    rewrite (squared_pairs N (zt_constr (zero_form (structure_wpg N n) (new_copPosition centering))) (point sol) (fun k a => centering * cop_local sol k a)) by solve [exact (proj2 (proj2 O4)) | intros k a Hk; exact (R4 k a Hk)].
    rewrite (squared_pairs N c2 (point sol) (fun k a => match nth_error (intervals_of h H) k, nth_error (references_of (se_velocities se) h) k with
       | Some v, Some r => se_comvel se * (com_velocity cstate pf k v a - component r a) | _, _ => 0 end)).
    + rewrite Rplus_0_r, <- !Rsum_plus. unfold cost_of. apply Rsum_ext. intros k Hk.
      destruct (nth_error (intervals_of h H) k) as [v|] eqn:Ev; [|apply nth_error_None in Ev; lia].
      destruct (nth_error (references_of (se_velocities se) h) k) as [r|] eqn:Er; [|apply nth_error_None in Er; lia]. cbv zeta. ring.
    + apply O2.
    + intros k a Hk. destruct (nth_error (intervals_of h H) k) as [v|] eqn:Ev; [|apply nth_error_None in Ev; lia].
      destruct (nth_error (references_of (se_velocities se) h) k) as [r|] eqn:Er; [|apply nth_error_None in Er; lia]. exact (R2 k v r a Ev Er).
  - exact Ce'.
Qed.
End Tasks.
