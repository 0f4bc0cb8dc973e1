(** * Properties C80 (objectives) and C81 (bounds) of the walking MPC, C78 (its guesses of active sets) *)
From Coq Require Import String List Arith ZArith Lia Reals Lra Bool.
From Verif Require Import Base Matrix Mat2 Mat3 ActiveSet ConstraintType HierarchyLevel Constraints ConstraintsSpec PointMass6z PointMass6zSpec Solution Task StanceFSM MpcGuess
  PepperMpcSpec PepperTasks PepperTasksSpec WalkProfiles WalkProfilesSpec WalkProfilesFacts WalkProfilesFacts2 WalkTasks WalkTasksSpec WalkTasksFacts WalkTasksFacts2.
Import ListNotations.
Local Open Scope R_scope.

(** ** C80: the residuals of the objectives are the gains times the deviations of the predicted motion; of the terminal one, the rate of the capture point at the end of the horizon *)
Theorem C80_com_velocity : forall junk N iv Rhs steps Rs support cstate sol M p jk g refs,
  walk_solved junk N iv Rhs steps Rs support cstate sol M p ->
  (Z.of_nat (6 * N) < 2 ^ 53)%Z -> length refs = N ->
  exists c, form_comVelocity jk g (structure_wpg N (length steps)) N refs M = Ok c /\ walk_object AB N (length steps) (2 * N) c /\
  forall k v r a, nth_error iv k = Some v -> nth_error refs k = Some r -> residual c (2 * k + axis_index a) (point sol) (g * (com_velocity cstate p k v a - component r a)).
Proof. exact task_com_velocity. Qed.
Theorem C80_cop_velocity : forall junk N iv Rhs steps Rs support cstate sol M p jk g,
  walk_solved junk N iv Rhs steps Rs support cstate sol M p ->
  exists c, form_copVelocity jk g (structure_wpg N (length steps)) M = Ok c /\ walk_object AB N (length steps) (2 * N) c /\
  minimizes N c (point sol) g (fun k a => vget (wp_dcop p) (2 * k + axis_index a)).
Proof. exact task_cop_velocity. Qed.
Theorem C80_cop_position : forall junk N iv Rhs steps Rs support cstate sol M p g,
  walk_solved junk N iv Rhs steps Rs support cstate sol M p ->
  let c := zt_constr (zero_form (structure_wpg N (length steps)) (new_copPosition g)) in
  walk_object GIB0 N (length steps) (2 * N) c /\ minimizes N c (point sol) g (fun k a => cop_local sol k a).
Proof. exact task_cop_position. Qed.
Theorem C80_terminal : forall junk N iv Rhs steps Rs support cstate sol M p g,
  walk_solved junk N iv Rhs steps Rs support cstate sol M p ->
  exists c, form_terminal g (structure_wpg N (length steps)) N iv M = Ok c /\ walk_object AB N (length steps) 2 c /\
  forall v a, nth_error iv (N - 1) = Some v -> exists d,
    derivable_pt_lim (fun t => capture_point (wi_height v) (com_motion N steps Rs Rhs support cstate sol p (N - 1) v t) a) (wi_T v) d /\
    residual c (axis_index a) (point sol) (g * d).
Proof. exact task_terminal. Qed.
(** the objectives of a problem with two intervals and one step; the CoP of the solution is 1 from the ankle *)
Example C80_example : exists M p c, walk_solved (fun _ _ _ => 0) 2 walk_example_iv [m2id; m2id] [1%nat] [m2id] (mkVec 2 (fun i => INR i)) (mkVec 6 (fun i => INR i)) walk_example_sol M p /\
  form_terminal 1 (structure_wpg 2 1) 2 walk_example_iv M = Ok c /\ walk_object AB 2 1 2 c /\
  residual (zt_constr (zero_form (structure_wpg 2 1) (new_copPosition 3))) 2 (point walk_example_sol) 9.
Proof.
  destruct walk_example as (HF & HS & HL & _). destruct (walk_total (fun _ _ _ => 0) _ _ _ _ _ _ _ _ HF HS HL) as (M & p & W & _).
  destruct (C80_terminal _ _ _ _ _ _ _ _ _ _ _ 1 W) as (c & F & O & _). exists M, p, c. split; [exact W|]. split; [exact F|]. split; [exact O|].
  destruct (C80_cop_position _ _ _ _ _ _ _ _ _ _ _ 3 W) as (_ & Q). specialize (Q 1%nat AxisX ltac:(lia)). cbn in Q. replace 9 with (3 * 3) by lra. exact Q.
Qed.

(** ** C81: the constraints hold exactly when the CoP and the steps are within the bounds of the walk states of their intervals *)
Theorem C81_cop : forall N (steps : list nat) (sol : solution) (jk : nat -> nat -> R) (old index : list nat) (states : list walk_bounds),
  indexed N index states -> exists c, form_copBounds jk old (structure_wpg N (length steps)) index states = Ok c /\ walk_object ILU N (length steps) (2 * N) c /\
  (satisfies c (point sol) <-> forall k w a, state_bounds index states k = Some w -> (k < N)%nat -> within (wb_cop w) a (cop_local sol k a)).
Proof. exact task_cop_bounds_walk. Qed.
Theorem C81_footsteps : forall N (steps : list nat) (sol : solution) (jk : nat -> nat -> R) (old index : list nat) (states : list walk_bounds),
  indexed N index states -> (forall s, In s steps -> (s < N)%nat) ->
  exists c, form_footstepBounds jk old false (structure_wpg N (length steps)) steps index states = Ok c /\ walk_object ILU N (length steps) (2 * length steps) c /\
  (satisfies c (point sol) <-> forall j k w a, nth_error steps j = Some k -> state_bounds index states k = Some w -> within (wb_fd w) a (step_local N sol j a)).
Proof. exact task_footsteps. Qed.
Theorem C81_footprints : forall junk N iv Rhs steps Rs support cstate sol M p jk old index states,
  walk_solved junk N iv Rhs steps Rs support cstate sol M p ->
  (forall r, In r Rs -> rotation2 r) -> indexed N index states -> (forall s, In s steps -> (s < N)%nat) ->
  exists c, form_footstepBounds jk old false (structure_wpg N (length steps)) steps index states = Ok c /\
  (satisfies c (point sol) <-> forall j k r w a, nth_error steps j = Some k -> nth_error Rs j = Some r -> state_bounds index states k = Some w -> within (wb_fd w) a (in_frame r (step_made support p j) a)).
Proof. exact footprints_bounded. Qed.
Theorem C81_fixed_footsteps : forall N (steps : list nat) (sol : solution) (jk : nat -> nat -> R) (old index : list nat) (states : list walk_bounds),
  indexed N index states -> (forall s, In s steps -> (s < N)%nat) ->
  exists c, form_footstepBounds jk old true (structure_wpg N (length steps)) steps index states = Ok c /\ walk_object ILU N (length steps) (2 * length steps) c /\
  (satisfies c (point sol) <-> forall j k w a, nth_error steps j = Some k -> state_bounds index states k = Some w -> step_local N sol j a = fixed_step w a).
Proof. exact task_fixed_footsteps. Qed.
Theorem C81_fixed_within : forall w a,
  lower_bound (wb_fd w) a <= upper_bound (wb_fd w) a -> within (wb_fd w) a (fixed_step w a).
Proof. exact fixed_step_within. Qed.
(** the walk state of the second interval allows steps of 8..12 and 15..25: the solution (10, 20) is accepted, a fixed step is (12, 15) *)
Example C81_example : let states := [mkWB TDS (M2 0 0 0 0) (M2 (-1) 1 (-1) 1); mkWB LSS (M2 8 12 15 25) (M2 (-2) 4 (-2) 4)] in
  exists c f, form_footstepBounds (fun _ _ => 7) [] false (structure_wpg 2 1) [1%nat] [0; 1]%nat states = Ok c /\ satisfies c (point walk_example_sol) /\
  form_footstepBounds (fun _ _ => 7) [] true (structure_wpg 2 1) [1%nat] [0; 1]%nat states = Ok f /\ ~ satisfies f (point walk_example_sol).
Proof.
  intros states. assert (I : indexed 2 [0; 1]%nat states) by (split; [reflexivity|intros s [<-|[<-|[]]]; cbn; lia]). assert (K : forall s, In s [1%nat] -> (s < 2)%nat) by (intros s [<-|[]]; lia).
  destruct (C81_footsteps 2 [1%nat] walk_example_sol (fun _ _ => 7) [] _ _ I K) as (c & F & _ & Q). destruct (C81_fixed_footsteps 2 [1%nat] walk_example_sol (fun _ _ => 7) [] _ _ I K) as (f & G & _ & P).
  exists c, f. split; [exact F|]. split; [|split; [exact G|]].
  - apply Q. intros [|j] k w a E; [injection E as <-|destruct j; discriminate]. intros [= <-]. unfold within, step_local, lower_bound, upper_bound. destruct a; cbn - [Rle IZR]; lra.
  - intros X. rewrite P in X. specialize (X 0%nat 1%nat _ AxisX eq_refl eq_refl). unfold step_local, fixed_step, upper_bound in X. cbn - [IZR] in X. lra.
Qed.

(** ** C78: guesses of the active sets of the bounds of the walking MPC *)
Theorem C78_walk_cop : forall N n t f,
  tk_n t = (2 * N)%nat -> f_consistent f = true -> (1 < N)%nat -> length (tk_actual t) = (2 * N)%nat ->
  exists g, guess_copBounds (structure_wpg N n) t = Ok (set_guess t g) /\ postForm f (set_guess t g) = Ok (set_guess t g) /\
    forall k a, (k < N)%nat -> nth_error g (2 * k + axis_index a) = if (k + 1 <? N)%nat then nth_error (tk_actual t) (2 * (k + 1) + axis_index a) else Some INACTIVE.
Proof. exact walk_cop_guess. Qed.
Theorem C78_walk_cop_first : forall N n t f,
  tk_n t = (2 * N)%nat -> f_consistent f = true -> tk_actual t = [] ->
  guess_copBounds (structure_wpg N n) t = Ok (set_guess t (repeat INACTIVE (2 * N))) /\ postForm f (set_guess t (repeat INACTIVE (2 * N))) = Ok (set_guess t (repeat INACTIVE (2 * N))).
Proof. exact walk_cop_guess_first. Qed.
Theorem C78_walk_one_interval_refuted : forall n t,
  length (tk_actual t) = 2%nat -> guess_copBounds (structure_wpg 1 n) t = Throw.
Proof. exact walk_cop_guess_one_interval. Qed.
(** footsteps: the guess is accepted unless more than one step has left the horizon *)
Theorem C78_footsteps : forall N fixed m n t f,
  length (tk_actual t) = (2 * m)%nat -> tk_n t = (2 * n)%nat -> f_consistent f = true ->
  guess_footstepBounds fixed (structure_wpg N n) t = Ok (set_guess t (guessed_steps fixed m n (tk_actual t))) /\
  (postForm f (set_guess t (guessed_steps fixed m n (tk_actual t))) = if fixed || (m <=? n + 1)%nat then Ok (set_guess t (guessed_steps fixed m n (tk_actual t))) else Throw).
Proof. exact footstep_guess. Qed.
Theorem C78_footsteps_refuted : exists N m n t f, length (tk_actual t) = (2 * m)%nat /\ tk_n t = (2 * n)%nat /\ f_consistent f = true /\ (0 < N)%nat /\
  bind (guess_footstepBounds false (structure_wpg N n) t) (postForm f) = Throw.
Proof. exact footstep_guess_refuted. Qed.
Example C78_footsteps_example : guessed_steps false 2 1 [UPPER_BOUND; INACTIVE; INACTIVE; LOWER_BOUND] = [INACTIVE; LOWER_BOUND] /\
  guessed_steps false 1 2 [INACTIVE; LOWER_BOUND] = [INACTIVE; LOWER_BOUND; INACTIVE; INACTIVE].
Proof. split; reflexivity. Qed.

Print Assumptions C80_com_velocity. Print Assumptions C80_cop_velocity. Print Assumptions C80_cop_position. Print Assumptions C80_terminal. Print Assumptions C81_cop. Print Assumptions C81_footsteps. Print Assumptions C81_footprints. Print Assumptions C81_fixed_footsteps. Print Assumptions C81_fixed_within. Print Assumptions C78_walk_cop. Print Assumptions C78_walk_cop_first. Print Assumptions C78_walk_one_interval_refuted. Print Assumptions C78_footsteps. Print Assumptions C78_footsteps_refuted.
