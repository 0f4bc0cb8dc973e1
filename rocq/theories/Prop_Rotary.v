(** * Properties C31-C34, C45: rotations *)
From Coq Require Import List Reals Lra.
From Verif Require Import Base Mat3 Rotary RotarySpec RotaryFacts.
Import ListNotations.
Open Scope R_scope.

(** ** C31 Euler angle matrices are rotations *)
Theorem C31_rotation : forall e k m, convertEulerAnglesToMatrix e k = Ok m -> rotation m.
Proof. exact euler_matrix_rotation. Qed.
(** ... and the right ones: products of the elementary rotations *)
Theorem C31_product : forall e,
  convertEulerAnglesToMatrix e RPY = Ok (m3mul (m3mul (Rz (vz e)) (Ry (vy e))) (Rx (vx e))) /\
  convertEulerAnglesToMatrix e YPR = Ok (m3mul (m3mul (Rx (vx e)) (Ry (vy e))) (Rz (vz e))) /\
  convertEulerAnglesToMatrix e EULER_UNDEFINED = Throw.
Proof. exact euler_matrix_product. Qed.
Theorem C31_supported : forall e k, (exists m, convertEulerAnglesToMatrix e k = Ok m) <-> k = RPY \/ k = YPR.
Proof. exact euler_supported. Qed.
Example C31_example : convertEulerAnglesToMatrix (V3 0 0 (PI / 2)) RPY = Ok (M3 0 (-1) 0 1 0 0 0 0 1).
Proof.
  destruct (C31_product (V3 0 0 (PI / 2))) as (-> & _). unfold Rx, Ry, Rz; cbn [vx vy vz].
  rewrite cos_PI2, sin_PI2, cos_0, sin_0. f_equal. unfold m3mul; simpl. f_equal; ring.
Qed.

(** ** C32 Euler rates map to the angular velocity *)
Theorem C32_angular_velocity : forall (roll pitch yaw : R -> R) t roll' pitch' yaw',
  derivable_pt_lim roll t roll' -> derivable_pt_lim pitch t pitch' -> derivable_pt_lim yaw t yaw' ->
  exists (Rot : R -> m3) (M : m3),
    (forall s, convertEulerAnglesToMatrix (V3 (roll s) (pitch s) (yaw s)) RPY = Ok (Rot s)) /\
    getEulerRatesToAngularVelocityTransform (V3 (roll t) (pitch t) (yaw t)) RPY = Ok M /\
    m3_derivative Rot t (m3mul (skew (m3app M (V3 roll' pitch' yaw'))) (Rot t)).
Proof. exact euler_rates. Qed.
Theorem C32_others_rejected : forall e, getEulerRatesToAngularVelocityTransform e YPR = Throw /\ getEulerRatesToAngularVelocityTransform e EULER_UNDEFINED = Throw.
Proof. split; reflexivity. Qed.
Example C32_example : derivable_pt_lim (fun t => 2 * t) 1 2 /\ derivable_pt_lim (fun t => sin t) 1 (cos 1) /\ derivable_pt_lim (fun _ => 3) 1 0.
Proof.
  split; [|split; [apply derivable_pt_lim_sin|apply derivable_pt_lim_const]].
  pose proof (derivable_pt_lim_scal id 2 1 1 (derivable_pt_lim_id 1)) as H. unfold mult_real_fct, id in H. rewrite Rmult_1_r in H. exact H.
Qed.

(** ** C33 Rodrigues integration *)
Theorem C33_orthogonal : forall R w dt tol, 0 < tol -> orthogonal R ->
  orthogonal (integrateAngularVelocityRodrigues R w dt tol) /\ m3det (integrateAngularVelocityRodrigues R w dt tol) = m3det R.
Proof. exact rodrigues_orthogonal. Qed.
Theorem C33_many_steps : forall steps R tol, 0 < tol -> orthogonal R ->
  let R' := fold_left (fun r (s : v3 * Rdefinitions.R) => integrateAngularVelocityRodrigues r (fst s) (snd s) tol) steps R in
  orthogonal R' /\ m3det R' = m3det R.
Proof. exact rodrigues_steps. Qed.
Theorem C33_additive : forall R w dt1 dt2 tol, 0 < tol ->
  integrateAngularVelocityRodrigues (integrateAngularVelocityRodrigues R w dt1 tol) w dt2 tol = integrateAngularVelocityRodrigues R w (dt1 + dt2) tol.
Proof. exact rodrigues_additive. Qed.
(** the result is the rotation about the axis of the velocity by |w| dt, or no motion below the tolerance *)
Theorem C33_result : forall R w dt tol, 0 < tol ->
  (v3norm w < tol /\ integrateAngularVelocityRodrigues R w dt tol = R) \/
  (0 < v3norm w /\ tol <= v3norm w /\ integrateAngularVelocityRodrigues R w dt tol = m3mul R (axis_rotation (v3scale (/ v3norm w) w) (v3norm w * dt))).
Proof. exact rodrigues_cases. Qed.
(** the integrated orientation moves with the given velocity, expressed in the frame of the body *)
Theorem C33_velocity : forall R w tol t, 0 < tol -> tol <= v3norm w ->
  m3_derivative (fun s => integrateAngularVelocityRodrigues R w s tol) t (m3mul (integrateAngularVelocityRodrigues R w t tol) (skew w)).
Proof. exact rodrigues_derivative. Qed.
(** the simple scheme has the same derivative but leaves the rotation group *)
Theorem C33_simple_scheme_velocity : forall R w,
  integrateAngularVelocity R w 0 = R /\ forall t, m3_derivative (integrateAngularVelocity R w) t (m3mul R (skew w)).
Proof. exact simple_integration_derivative. Qed.
Theorem C33_simple_scheme_drift : forall R w dt, m3det (integrateAngularVelocity R w dt) = m3det R * (1 + dt * dt * v3dot w w).
Proof. exact simple_integration_drift. Qed.
Example C33_example : orthogonal (Rz (PI / 2)) /\ 0 < 1 / 1000 <= v3norm (V3 0 3 4) /\
  integrateAngularVelocityRodrigues m3id (V3 0 0 2) (PI / 4) (1 / 1000) = Rz (PI / 2).
Proof.
  split; [apply (proj1 (rotZ (PI / 2)))|]. split.
  - unfold v3norm, v3dot; simpl. replace (0 * 0 + 3 * 3 + 4 * 4) with (5 * 5) by ring. rewrite sqrt_square; lra.
  - assert (N : v3norm (V3 0 0 2) = 2).
    { unfold v3norm, v3dot; simpl. replace (0 * 0 + 0 * 0 + 2 * 2) with (2 * 2) by ring. apply sqrt_square; lra. }
    destruct (C33_result m3id (V3 0 0 2) (PI / 4) (1 / 1000)) as [[L _]|(_ & _ & ->)]; [lra|rewrite N in L; lra|].
    rewrite N, m3mul_id_l. unfold axis_rotation, Rz. replace (2 * (PI / 4)) with (PI / 2) by field. rewrite sin_PI2, cos_PI2.
    apply m3_eq; simpl; field.
Qed.

(** ** C34 angle-axis rotation error *)
Theorem C34_rotation_error : forall C n a, orthogonal C -> unit_vector n ->
  getRotationErrorAngleAxis C (m3mul (axis_rotation n a) C) = v3scale (sin a) n /\
  getRotationError C (m3mul (axis_rotation n a) C) = axis_rotation n a.
Proof. exact rotation_error. Qed.
Theorem C34_zero : forall C, getRotationErrorAngleAxis C C = v3zero.
Proof. exact rotation_error_self. Qed.
Theorem C34_antisymmetric : forall C D, getRotationErrorAngleAxis D C = v3opp (getRotationErrorAngleAxis C D).
Proof. exact rotation_error_antisymmetric. Qed.
(** [axis_rotation] is what it should be: a rotation which keeps the axis; additive in the angle *)
Theorem C34_axis_rotation : forall n a b, unit_vector n ->
  rotation (axis_rotation n a) /\ m3app (axis_rotation n a) n = n /\ m3mul (axis_rotation n a) (axis_rotation n b) = axis_rotation n (a + b).
Proof. exact axis_rotation_facts. Qed.
Example C34_example : orthogonal (Rx 1) /\ unit_vector (V3 0 (3 / 5) (4 / 5)) /\
  getRotationErrorAngleAxis m3id (Rz (PI / 2)) = V3 0 0 1.
Proof.
  split; [apply rotX|]. split; [unfold unit_vector, v3dot; simpl; field|].
  unfold Rz. rewrite sin_PI2, cos_PI2. unfold getRotationErrorAngleAxis, v3scale, v3add, v3cross, m3col; simpl. f_equal; field.
Qed.

(** ** C45 cross product matrices *)
Theorem C45_cross_matrix : forall v x m,
  m3trans (cross_eval v) = m3scale (-1) (cross_eval v) /\
  m3app (cross_eval v) v = v3zero /\
  cross_multiplyRight v x = m3app (cross_eval v) x /\
  m3app (cross_eval v) x = v3cross v x /\
  cross_multiplyLeft v m = m3mul m (cross_eval v) /\
  (forall i, (i < 3)%nat -> m3row (cross_multiplyLeft v m) i = v3cross (m3row m i) v).
Proof. exact cross_matrix. Qed.
Theorem C45_squared : forall v, m3mul (cross_eval v) (cross_eval v) =
  m3add (M3 (vx v * vx v) (vx v * vy v) (vx v * vz v) (vy v * vx v) (vy v * vy v) (vy v * vz v) (vz v * vx v) (vz v * vy v) (vz v * vz v))
        (m3scale (- v3dot v v) m3id).
Proof. exact cross_squared. Qed.
Example C45_example : cross_multiplyRight (V3 1 2 3) (V3 4 5 6) = V3 (-3) 6 (-3).
Proof. unfold cross_multiplyRight, v3cross; simpl. f_equal; ring. Qed.

Print Assumptions C31_rotation. Print Assumptions C31_product. Print Assumptions C31_supported.
Print Assumptions C32_angular_velocity. Print Assumptions C32_others_rejected.
Print Assumptions C33_orthogonal. Print Assumptions C33_many_steps. Print Assumptions C33_additive. Print Assumptions C33_result. Print Assumptions C33_velocity.
Print Assumptions C33_simple_scheme_velocity. Print Assumptions C33_simple_scheme_drift.
Print Assumptions C34_rotation_error. Print Assumptions C34_zero. Print Assumptions C34_antisymmetric. Print Assumptions C34_axis_rotation.
Print Assumptions C45_cross_matrix. Print Assumptions C45_squared.
