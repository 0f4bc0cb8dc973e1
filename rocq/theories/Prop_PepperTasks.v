(** * Properties C76 (bounds), C77 (objectives), C78 (guesses of active sets) and C79 (bounds derived from radii) of the Pepper MPC *)
From Coq Require Import String List Arith ZArith Lia Reals Lra Bool.
From Verif Require Import Base Matrix Mat2 Mat3 ActiveSet ConstraintType HierarchyLevel Constraints ConstraintsSpec PointMass6z PointMass6zSpec Solution Task PepperPreview MpcGuess PepperModel PepperMpc PepperMpcSpec PepperMpcFacts2 PepperTasks PepperTasksSpec PepperTasksFacts PepperTasksFacts2.
Import ListNotations.
Local Open Scope R_scope.

(** ** C76: for every formed horizon and every vector of variables, the constraints of a bounds task hold exactly when the predicted quantities are within the bounds of the intervals *)
Theorem C76_base_acceleration : forall junk N l model sol M p jk,
  solved junk N l model sol M p ->
  exists c, form_baseAccelerationBounds jk (structure_pepper N) l M = Ok c /\ task_object ASLU N c /\
  (satisfies c (point sol) <-> kept_within l acceleration_bounds (fun k a => vz (base_at model p (k + 1) a))).
Proof. exact task_base_acceleration_bounds. Qed.
Theorem C76_base_velocity : forall junk N l model sol M p jk old,
  solved junk N l model sol M p ->
  exists c, form_baseVelocityBounds jk old (structure_pepper N) l = Ok c /\ task_object ILU N c /\
  (satisfies c (point sol) <-> kept_within l velocity_bounds (fun k a => vy (base_at model p (k + 1) a))).
Proof. exact task_base_velocity_bounds. Qed.
Theorem C76_cop : forall junk N l model sol M p jk,
  solved junk N l model sol M p ->
  exists c, form_copPositionBounds jk (structure_pepper N) l M = Ok c /\ task_object ALU N c /\
  (satisfies c (point sol) <-> kept_within l cop_bounds (fun k a => vget (pp_cop p) (2 * k + axis_index a))).
Proof. exact task_cop_bounds. Qed.
Theorem C76_body : forall junk N l model sol M p jk,
  solved junk N l model sol M p ->
  exists c, form_bodyPositionBounds jk (structure_pepper N) l M = Ok c /\ task_object ALU N c /\
  (satisfies c (point sol) <-> kept_within l body_bounds (base_from_body N model p l)).
Proof. exact task_body_bounds. Qed.
(** two solutions of a problem with one interval: the first satisfies the bounds on the body, the second does not *)
Example C76_example : exists M p p0 c, solved ex_junk 1 [box_interval] off_model off_solution M p /\ solved ex_junk 1 [box_interval] off_model off_zero M p0 /\
  form_bodyPositionBounds (fun _ _ => 0) (structure_pepper 1) [box_interval] M = Ok c /\ satisfies c (point off_solution) /\ ~ satisfies c (point off_zero).
Proof.
  destruct (solved_exists ex_junk 1 [box_interval] off_model off_solution ltac:(lia) box_formed eq_refl eq_refl) as (M & p & S & _).
  destruct (solved_exists ex_junk 1 [box_interval] off_model off_zero ltac:(lia) box_formed eq_refl eq_refl) as (M0 & p0 & S0 & _).
  assert (E : M = M0). { destruct S as (_ & _ & _ & _ & E & _). destruct S0 as (_ & _ & _ & _ & E0 & _). rewrite E in E0. injection E0 as <-. reflexivity. }
  subst M0. destruct (C76_body _ _ _ _ _ _ _ (fun _ _ => 0) S) as (c & F & _ & I). destruct (C76_body _ _ _ _ _ _ _ (fun _ _ => 0) S0) as (c0 & F0 & _ & I0).
  rewrite F in F0. injection F0 as <-. exists M, p, p0, c. split; [exact S|]. split; [exact S0|]. split; [exact F|]. rewrite I, I0, !box_kept.
  destruct (box_offset M p _ _ S) as (X & Y). destruct (box_offset M p0 _ _ S0) as (X0 & _). split.
  - intros [|]; [rewrite X|rewrite Y]; lra.
  - intros Q. specialize (Q AxisX). rewrite X0 in Q. lra.
Qed.

(** ** C77: the residuals of the objectives are the gains times the deviations of the predicted quantities ... *)
Theorem C77_cop_centering : forall junk N l model sol M p g,
  solved junk N l model sol M p ->
  task_object AB N (form_copCentering g (structure_pepper N) M) /\
  minimizes N (form_copCentering g (structure_pepper N) M) (point sol) g (fun k a => vget (pp_cop p) (2 * k + axis_index a)).
Proof. exact task_cop_centering. Qed.
Theorem C77_base_jerk : forall junk N l model sol M p g,
  solved junk N l model sol M p ->
  task_object ASB N (form_baseJerkMinimization g (structure_pepper N) M) /\
  minimizes N (form_baseJerkMinimization g (structure_pepper N) M) (point sol) g (fun k a => vget (pp_jerk p) (2 * k + axis_index a)).
Proof. exact task_base_jerk. Qed.
Theorem C77_body_jerk : forall junk N l model sol M p g,
  solved junk N l model sol M p ->
  let c := zt_constr (zero_form (structure_pepper N) (new_bodyJerkMinimization g)) in
  task_object GIB0 N c /\ minimizes N c (point sol) g (fun k a => body_command N sol k a).
Proof. exact task_body_jerk. Qed.
Theorem C77_base_position : forall junk N l model sol M p jk g,
  solved junk N l model sol M p ->
  exists c, form_basePositionReference jk g (structure_pepper N) l M = Ok c /\ task_object ASB N c /\
  forall k v r a, nth_error l k = Some v -> position_reference v = Some r ->
    residual c (2 * k + axis_index a) (point sol) (g * (vx (base_at model p (k + 1) a) - component r a)).
Proof. exact task_base_position. Qed.
Theorem C77_base_velocity : forall junk N l model sol M p jk old g,
  solved junk N l model sol M p ->
  exists c, form_baseVelocityReference jk old g (structure_pepper N) l = Ok c /\ task_object GIB N c /\
  forall k v r a, nth_error l k = Some v -> velocity_reference v = Some r ->
    residual c (2 * k + axis_index a) (point sol) (g * (vy (base_at model p (k + 1) a) - component r a)).
Proof. exact task_base_velocity. Qed.
(** ... except for the position of the body: the offset of the base is compared with twice the offset predicted with zero commands, and
    a motion which keeps the base at the body does not fulfil the objective *)
Theorem C77_body_position_partial : forall junk N l model sol sol0 M p p0 g,
  solved junk N l model sol M p -> solved junk N l model sol0 M p0 -> all_zeros sol0 ->
  task_object AB N (form_bodyPositionReference g (structure_pepper N) M) /\
  minimizes N (form_bodyPositionReference g (structure_pepper N) M) (point sol) g
    (fun k a => base_from_body N model p l k a - 2 * base_from_body N model p0 l k a).
Proof. exact task_body_position. Qed.
Theorem C77_body_position_aligned : forall junk N l model sol sol0 M p p0 g,
  solved junk N l model sol M p -> solved junk N l model sol0 M p0 -> all_zeros sol0 -> g <> 0 ->
  (forall k a, (k < N)%nat -> base_from_body N model p l k a = 0) ->
  (matched N (form_bodyPositionReference g (structure_pepper N) M) (point sol) <-> (forall k a, (k < N)%nat -> base_from_body N model p0 l k a = 0)).
Proof. exact aligned_not_matched. Qed.
Theorem C77_body_position_refuted : exists junk N l model sol M p, solved junk N l model sol M p /\
  (forall k a, (k < N)%nat -> base_from_body N model p l k a = 0) /\
  forall g, g <> 0 -> ~ matched N (form_bodyPositionReference g (structure_pepper N) M) (point sol).
Proof. exact body_position_refuted. Qed.

(** ** C78: guesses of the active sets of bounds tasks *)
Theorem C78_pepper_shifted : forall N sampling subsampling l t f,
  formed_bounds N t -> length l = N -> f_consistent f = true -> (sampling <= subsampling)%Z -> (1 < N)%nat ->
  length (tk_actual t) = (2 * N)%nat ->
  exists g, guess_pepper sampling subsampling l t = Ok (set_guess t g) /\ postForm f (set_guess t g) = Ok (set_guess t g) /\
    forall k a, (k < N)%nat -> nth_error g (2 * k + axis_index a) = if (k + 1 <? N)%nat then nth_error (tk_actual t) (2 * (k + 1) + axis_index a) else Some INACTIVE.
Proof. exact pepper_guess. Qed.
Theorem C78_pepper_inactive : forall N sampling subsampling l t f,
  formed_bounds N t -> length l = N -> f_consistent f = true -> (subsampling < sampling)%Z \/ tk_actual t = [] ->
  guess_pepper sampling subsampling l t = Ok (set_guess t (repeat INACTIVE (2 * N))) /\ postForm f (set_guess t (repeat INACTIVE (2 * N))) = Ok (set_guess t (repeat INACTIVE (2 * N))).
Proof. exact pepper_guess_inactive. Qed.
Theorem C78_wrong_size : forall n (actual : aset),
  actual <> [] -> length actual <> n -> shifted_guess n actual = Throw.
Proof. exact shifted_guess_wrong_size. Qed.
Theorem C78_pepper_one_interval_refuted : forall sampling subsampling l t,
  length l = 1%nat -> (sampling <= subsampling)%Z -> length (tk_actual t) = 2%nat ->
  guess_pepper sampling subsampling l t = Throw.
Proof. exact pepper_guess_one_interval. Qed.
Example C78_pepper_example : guess_pepper 100 100 ex_horizon (mkTask 0 ALU 4 true [] [UPPER_BOUND; INACTIVE; LOWER_BOUND; UPPER_BOUND]) =
  Ok (mkTask 0 ALU 4 true [LOWER_BOUND; UPPER_BOUND; INACTIVE; INACTIVE] [UPPER_BOUND; INACTIVE; LOWER_BOUND; UPPER_BOUND]).
Proof. reflexivity. Qed.

(** ** C79: the box derived from a radius is the largest centred square inside of the circle *)
Theorem C79_sound : forall r x y,
  within (circle_bounds r) AxisX x -> within (circle_bounds r) AxisY y -> x * x + y * y <= r * r.
Proof. exact circle_sound. Qed.
Theorem C79_corners : forall r,
  0 <= r -> forall x y, (x = lower_bound (circle_bounds r) AxisX \/ x = upper_bound (circle_bounds r) AxisX) ->
  (y = lower_bound (circle_bounds r) AxisY \/ y = upper_bound (circle_bounds r) AxisY) -> x * x + y * y = r * r.
Proof. exact circle_corners. Qed.
Theorem C79_largest : forall r h,
  0 <= r -> 0 <= h -> (forall x y, - h <= x <= h -> - h <= y <= h -> x * x + y * y <= r * r) ->
  forall a, lower_bound (circle_bounds r) a <= - h /\ h <= upper_bound (circle_bounds r) a.
Proof. exact circle_largest. Qed.
Theorem C79_nonempty : forall r a,
  (exists q, within (circle_bounds r) a q) <-> 0 <= r.
Proof. exact circle_nonempty. Qed.
Example C79_example : within (circle_bounds 1) AxisX (1 / 2) /\ ~ within (circle_bounds 1) AxisY (3 / 4).
Proof.
  unfold within, circle_bounds. cbv zeta. rewrite side_half. pose proof (half_square 1) as H. cbn [lower_bound upper_bound a00 a01 a10 a11].
  assert (P : 0 < 1 / sqrt 2) by (apply Rdiv_lt_0_compat; [lra|apply Rlt_sqrt2_0]). set (b := 1 / sqrt 2) in *. split; [split; nra|]. intros [_ Q]. nra.
Qed.

Print Assumptions C76_base_acceleration. Print Assumptions C76_base_velocity. Print Assumptions C76_cop. Print Assumptions C76_body. Print Assumptions C77_cop_centering. Print Assumptions C77_base_jerk. Print Assumptions C77_body_jerk. Print Assumptions C77_base_position. Print Assumptions C77_base_velocity. Print Assumptions C77_body_position_partial. Print Assumptions C77_body_position_aligned. Print Assumptions C77_body_position_refuted. Print Assumptions C78_pepper_shifted. Print Assumptions C78_pepper_inactive. Print Assumptions C78_wrong_size. Print Assumptions C78_pepper_one_interval_refuted. Print Assumptions C79_sound. Print Assumptions C79_corners. Print Assumptions C79_largest. Print Assumptions C79_nonempty.
