(** * Properties C60 (state at a time instant), C69 (profiles of the Pepper MPC), C70 (construction of a model state), C71 (next model state), C72 (centre of pressure) *)
From Coq Require Import String List Arith ZArith Lia Reals Lra Bool.
From Verif Require Import Base Matrix Mat2 Mat3 PointMass6z PointMass6zSpec TripleIntegratorSpec Solution PepperPreview MpcGuess PepperModel PepperMpc PepperMpcSpec PepperMpcFacts PepperMpcFacts2.
Import ListNotations.
Local Open Scope R_scope.

(** ** C69: for every formed horizon and every solution vector the profiles exist ... *)
Theorem C69_profiles : forall junk N l model sol,
  (0 < N)%nat -> formed_horizon N l -> sol_structure sol = structure_pepper N -> length (sol_x sol) = (4 * N)%nat ->
  exists M p, solved junk N l model sol M p /\ (vlen (pp_cstate p) = 12 * N /\ vlen (pp_cop p) = 2 * N /\ vlen (pp_jerk p) = 2 * N)%nat.
Proof. exact solved_exists. Qed.
(** ... the profile of states is the motion of both masses under the commands of the solution, from the state of the model ... *)
Theorem C69_motion : forall junk N l model sol M p k v a,
  solved junk N l model sol M p -> nth_error l k = Some v ->
  moved3 (base_at model p k a) (base_at model p (k + 1) a) (vget (pp_jerk p) (2 * k + axis_index a)) (in_T v) /\
  vy (base_at model p (k + 1) a) = base_command sol k a /\
  moved3 (body_at N model p k a) (body_at N model p (k + 1) a) (body_command N sol k a) (in_T v).
Proof. exact profile_motion. Qed.
(** ... the profile of the CoP is the one of these states with the masses and heights of the intervals ... *)
Theorem C69_cop : forall junk N l model sol M p k v a,
  solved junk N l model sol M p -> nth_error l k = Some v -> in_base_mass v + in_body_mass v <> 0 ->
  relative_cop (in_base_mass v) (in_body_mass v) (in_base_height v) (in_body_height v) (base_at model p (k + 1) a) (body_at N model p (k + 1) a) (vget (pp_cop p) (2 * k + axis_index a)).
Proof. exact profile_cop. Qed.
(** ... and the matrices given to the tasks express the base accelerations, base positions and the base position relative to the body *)
Theorem C69_tasks : forall junk N l model sol M p k v a r,
  solved junk N l model sol M p -> nth_error l k = Some v -> in_rotation v = Ok r ->
  affine_value (pmAas M) (pmsas M) (first_half N sol) (2 * k + axis_index a) = vz (base_at model p (k + 1) a) /\
  affine_value (pmAps M) (pmsps M) (first_half N sol) (2 * k + axis_index a) = vx (base_at model p (k + 1) a) /\
  affine_value (pmApd M) (pmspd M) (sol_x sol) (2 * k + axis_index a) =
  in_frame r (vx (base_at model p (k + 1) AxisX) - vx (body_at N model p (k + 1) AxisX)) (vx (base_at model p (k + 1) AxisY) - vx (body_at N model p (k + 1) AxisY)) a.
Proof. exact profile_tasks. Qed.
Theorem C69_wrong_size : forall junk N l model sol M,
  (0 < N)%nat -> formed_horizon N l -> updateMatrices junk N l model = Ok M -> length (sol_x sol) <> (4 * N)%nat ->
  parseSolution N M sol = Throw.
Proof. exact wrong_size_rejected. Qed.
Example C69_example : exists M p, solved ex_junk 2 ex_horizon ex_model ex_solution M p /\
  vy (base_at ex_model p 2 AxisX) = 2 /\ vy (base_at ex_model p 1 AxisX) = 1 /\ vx (base_at ex_model p 1 AxisX) = 1 / 30.
Proof.
  destruct ex_solved as (M & p & S). exists M, p. split; [exact S|].
  destruct (profile_motion _ _ _ _ _ _ _ 0 ex_interval AxisX S eq_refl) as ((A & B & _) & C & _).
  destruct (profile_motion _ _ _ _ _ _ _ 1 ex_interval AxisX S eq_refl) as (_ & D & _).
  assert (C' : vy (base_at ex_model p 1 AxisX) = 1) by exact C. assert (D' : vy (base_at ex_model p 2 AxisX) = 2) by exact D.
  split; [exact D'|]. split; [exact C'|]. clear C D. change (0 + 1)%nat with 1%nat in *. rewrite C' in B. rewrite A.
  unfold motion_position, motion_velocity in *. cbn [base_at along_axis along ex_model ps_base pm_position pm_velocity pm_acceleration vx vy vz ex_interval in_T] in B |- *.
  cbn [Nat.mul Nat.add axis_index] in B |- *. lra.
Qed.

(** ** C60: correct in the first interval; afterwards the commands of the first interval are used *)
Theorem C60_state_partial : forall junk N l model sol M p k v offset,
  solved junk N l model sol M p -> nth_error l k = Some v ->
  exists s, getModelState N l p model k offset = Ok s /\
    (forall a, moved3 (base_at model p k a) (along_axis (ps_base s) a) (vel_jerk (base_at model p k a) (base_command sol 0 a) (in_T v)) offset /\
               moved3 (body_at N model p k a) (along_axis (ps_body s) a) (body_command N sol 0 a) offset) /\
    vz (pm_position (ps_base s)) = in_base_height v /\ vz (pm_position (ps_body s)) = in_body_height v /\
    vz (ps_rpy s) = heading_before l model k + (in_theta v - heading_before l model k) * offset / in_T v /\
    ps_base_mass s = default_base_mass /\ ps_body_mass s = default_body_mass.
Proof. exact solved_model_state. Qed.
Theorem C60_first_interval_partial : forall junk N l model sol M p,
  solved junk N l model sol M p -> predicts_state N l model sol p 0.
Proof. exact solved_first_interval. Qed.
Theorem C60_equal_commands_partial : forall junk N l model sol M p k,
  solved junk N l model sol M p ->
  (forall a, base_command sol k a = base_command sol 0 a /\ body_command N sol k a = body_command N sol 0 a) -> predicts_state N l model sol p k.
Proof. exact solved_equal_commands. Qed.
Theorem C60_later_interval_wrong : forall junk N l model sol M p k v a,
  solved junk N l model sol M p -> nth_error l k = Some v ->
  base_command sol 0 a <> base_command sol k a -> ~ predicts_state N l model sol p k.
Proof. exact solved_later_interval. Qed.
Theorem C60_later_interval_refuted : exists junk N l model sol M p k, solved junk N l model sol M p /\ (k < N)%nat /\ ~ predicts_state N l model sol p k.
Proof. exact model_state_refuted. Qed.

(** ** C70 *)
Theorem C70_parameters : forall hb hd x mb md,
  vz (pm_position (ps_base (ps_setParameters hb hd x mb md))) = hb /\ vz (pm_position (ps_body (ps_setParameters hb hd x mb md))) = hd /\
  vx (pm_position (ps_body (ps_setParameters hb hd x mb md))) = x /\ ps_base_mass (ps_setParameters hb hd x mb md) = mb /\ ps_body_mass (ps_setParameters hb hd x mb md) = md.
Proof. exact parameters_kept. Qed.
Theorem C70_positions : forall mb md pb pd,
  pm_position (ps_base (ps_of_positions mb md pb pd)) = pb /\ pm_position (ps_body (ps_of_positions mb md pb pd)) = pd /\
  ps_base_mass (ps_of_positions mb md pb pd) = mb /\ ps_body_mass (ps_of_positions mb md pb pd) = md /\
  pm_velocity (ps_base (ps_of_positions mb md pb pd)) = V3 0 0 0 /\ pm_velocity (ps_body (ps_of_positions mb md pb pd)) = V3 0 0 0.
Proof. exact positions_kept. Qed.
Theorem C70_update : forall (s : pepper_state) (mb md : R) (pb pd : v3) (yaw : R),
  let u := ps_update s mb md pb pd yaw in
  pm_position (ps_base u) = pb /\ pm_position (ps_body u) = pd /\ vz (ps_rpy u) = yaw /\ ps_base_mass u = mb /\ ps_body_mass u = md /\
  pm_velocity (ps_base u) = pm_velocity (ps_base s) /\ pm_acceleration (ps_base u) = pm_acceleration (ps_base s) /\
  pm_velocity (ps_body u) = pm_velocity (ps_body s) /\ pm_acceleration (ps_body u) = pm_acceleration (ps_body s) /\
  vx (ps_rpy u) = vx (ps_rpy s) /\ vy (ps_rpy u) = vy (ps_rpy s).
Proof. exact updated_state. Qed.
Theorem C70_heights_refuted : forall h b x,
  h <> b -> vz (pm_position (ps_base (ps_of_heights h b x))) <> h /\ vz (pm_position (ps_body (ps_of_heights h b x))) <> b.
Proof. exact heights_wrong. Qed.
Example C70_example : vz (pm_position (ps_base (ps_of_heights (1 / 10) (7 / 10) 0))) = 7 / 10.
Proof. reflexivity. Qed.

(** ** C71 *)
Theorem C71_next_state_partial : forall junk N l model sol M p v,
  solved junk N l model sol M p -> nth_error l 0 = Some v ->
  exists s, initializeNextModelState l p model = Ok s /\
    (forall a, along_axis (ps_base s) a = base_at model p 1 a /\ along_axis (ps_body s) a = body_at N model p 1 a) /\
    vz (pm_position (ps_base s)) = in_base_height v /\ vz (pm_position (ps_body s)) = in_body_height v /\ vz (ps_rpy s) = in_theta v /\
    ps_base_mass s = default_base_mass /\ ps_body_mass s = default_body_mass.
Proof. exact solved_next_state. Qed.
Theorem C71_masses : forall junk N l model sol M p s,
  solved junk N l model sol M p -> initializeNextModelState l p model = Ok s ->
  ps_base_mass s = default_base_mass /\ ps_body_mass s = default_body_mass.
Proof. exact next_state_masses. Qed.
Theorem C71_masses_refuted : exists junk N l model sol M p s, solved junk N l model sol M p /\ initializeNextModelState l p model = Ok s /\
  (ps_base_mass s <> ps_base_mass model /\ ps_body_mass s <> ps_body_mass model).
Proof. exact masses_refuted. Qed.
Theorem C71_cop : forall junk junk' N l model sol M p s v c a,
  solved junk N l model sol M p -> nth_error l 0 = Some v -> initializeNextModelState l p model = Ok s -> getCoP junk' s = Ok c ->
  in_base_mass v = default_base_mass -> in_body_mass v = default_body_mass -> vget c (axis_index a) = vget (pp_cop p) (axis_index a).
Proof. exact next_state_cop. Qed.

(** ** C72 *)
Theorem C72_state_cop : forall junk s,
  exists c, getCoP junk s = Ok c /\ vlen c = 2%nat /\ forall a, ps_base_mass s + ps_body_mass s <> 0 ->
  relative_cop (ps_base_mass s) (ps_body_mass s) (vz (pm_position (ps_base s))) (vz (pm_position (ps_body s))) (along_axis (ps_base s) a) (along_axis (ps_body s) a) (vget c (axis_index a)).
Proof. exact state_cop. Qed.
Example C72_example : exists c, getCoP ex_junk (ps_of_positions 1 3 (V3 0 0 1) (V3 4 0 2)) = Ok c /\ vget c 0 = 3.
Proof.
  destruct (state_cop ex_junk (ps_of_positions 1 3 (V3 0 0 1) (V3 4 0 2))) as (c & E & _ & C). exists c. split; [exact E|].
  specialize (C AxisX ltac:(cbn; lra)). unfold relative_cop in C. cbn in C. lra.
Qed.

Print Assumptions C69_profiles. Print Assumptions C69_motion. Print Assumptions C69_cop. Print Assumptions C69_tasks. Print Assumptions C69_wrong_size. Print Assumptions C60_state_partial. Print Assumptions C60_first_interval_partial. Print Assumptions C60_equal_commands_partial. Print Assumptions C60_later_interval_wrong. Print Assumptions C60_later_interval_refuted. Print Assumptions C70_parameters. Print Assumptions C70_positions. Print Assumptions C70_update. Print Assumptions C70_heights_refuted. Print Assumptions C71_next_state_partial. Print Assumptions C71_masses. Print Assumptions C71_masses_refuted. Print Assumptions C71_cop. Print Assumptions C72_state_cop.
