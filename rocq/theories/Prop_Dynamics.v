(** * C27-C30: triple integrator and point mass models *)
From Coq Require Import List Reals Lra.
From Verif Require Import Base Matrix Mat3 TripleIntegrator TripleIntegratorSpec TripleIntegratorFacts PointMass6z PointMass6zSpec PointMass6zFacts.
Open Scope R_scope.

(** ** C27: the state predicted for a commanded value is the motion with the constant jerk of the output matrices ... *)
Theorem C27_same_dynamics : forall k n T x u y j, T <> 0 ->
  predict (getA k n T) (getB k n T) x u = Ok y -> predict (getD k n T) (getE k n T) x u = Ok j ->
  moved n x y j T.
Proof. exact same_dynamics. Qed.

(** ... at the end of which the commanded quantity is attained *)
Theorem C27_commanded_attained : forall k n T x u y j, T <> 0 ->
  predict (getA k n T) (getB k n T) x u = Ok y -> predict (getD k n T) (getE k n T) x u = Ok j ->
  forall i, (i < n)%nat ->
    match k with Jerk => vget j i | Acc => acceleration_of y i | Vel => velocity_of y i | Pos => position_of y i end = vget u i.
Proof. exact commanded_attained. Qed.

(** the matrices exist for every number of integrators *)
Theorem C27_defined : forall k n T Ts x u,
  (exists y, predict (getA k n T) (getB k n T) x u = Ok y /\ vlen y = (3 * n)%nat) /\
  (exists y, predict (getAs k n T Ts) (getBs k n T Ts) x u = Ok y /\ vlen y = (3 * n)%nat) /\
  (exists j, predict (getD k n T) (getE k n T) x u = Ok j /\ vlen j = n).
Proof. exact predictions_defined. Qed.

(** ** C28 *)
Theorem C28_subsample : forall k n T Ts x u y j, T <> 0 ->
  predict (getAs k n T Ts) (getBs k n T Ts) x u = Ok y -> predict (getD k n T) (getE k n T) x u = Ok j ->
  moved n x y j Ts.
Proof. exact subsampled_dynamics. Qed.

Theorem C28_full_subsample : forall k n T x u y z, T <> 0 ->
  predict (getA k n T) (getB k n T) x u = Ok y -> predict (getAs k n T T) (getBs k n T T) x u = Ok z -> veq y z.
Proof. exact full_subsample. Qed.

Theorem C28_subsample_and_continue : forall k n T Ts x u y j s z, T <> 0 ->
  predict (getA k n T) (getB k n T) x u = Ok y -> predict (getD k n T) (getE k n T) x u = Ok j ->
  predict (getAs k n T Ts) (getBs k n T Ts) x u = Ok s -> predict (getA Jerk n (T - Ts)) (getB Jerk n (T - Ts)) s j = Ok z ->
  veq z y.
Proof. exact subsample_and_continue. Qed.

Theorem C28_derivatives : forall p v a j t,
  derivable_pt_lim (motion_position p v a j) t (motion_velocity v a j t) /\
  derivable_pt_lim (motion_velocity v a j) t (motion_acceleration a j t) /\
  derivable_pt_lim (motion_acceleration a j) t j.
Proof. exact motion_derivatives. Qed.

Example C27_example : exists y, predict (getA Pos 2 2) (getB Pos 2 2) (mkVec 6 (fun i => INR i)) (mkVec 2 (fun _ => 7)) = Ok y /\
  position_of y 0 = 7 /\ position_of y 1 = 7.
Proof.
  destruct (predictions_defined Pos 2 2 2 (mkVec 6 (fun i => INR i)) (mkVec 2 (fun _ => 7))) as ((y & E & _) & _ & (j & J & _)).
  exists y. split; [exact E|]. assert (T : 2 <> 0) by lra.
  pose proof (commanded_attained Pos 2 2 _ _ _ _ T E J) as C. split; apply C; auto.
Qed.

(** ** C29 *)
(** g (position - cop) = height * acceleration all along the interval, with the CoP moving linearly to the commanded one *)
Theorem C29_cop_interpolates : forall Ts T h c u a k0, 0 < h -> T <> 0 -> is_cop h (state_of c h) a k0 ->
  is_cop h (evaluate Ts T h c u) a (k0 + Ts / T * (vget u (axis_index a) - k0)).
Proof. exact cop_interpolates. Qed.

Theorem C29_cop_reached : forall T h c u a, 0 < h -> T <> 0 -> is_cop h (evaluate T T h c u) a (vget u (axis_index a)).
Proof. exact cop_reached. Qed.

(** it is a motion: it starts at the given state, and position, velocity, acceleration are successive derivatives *)
Theorem C29_motion : forall T h c u a t, 0 < h -> T <> 0 ->
  derivable_pt_lim (fun t => along a (pm_position (evaluate t T h c u))) t (along a (pm_velocity (evaluate t T h c u))) /\
  derivable_pt_lim (fun t => along a (pm_velocity (evaluate t T h c u))) t (along a (pm_acceleration (evaluate t T h c u))).
Proof. exact evaluate_derivatives. Qed.

Theorem C29_start : forall T h c u a, 0 < h -> T <> 0 -> let s := evaluate 0 T h c u in
  along a (pm_position s) = along a (pm_position (state_of c h)) /\ along a (pm_velocity s) = along a (pm_velocity (state_of c h)) /\
  along a (pm_acceleration s) = along a (pm_acceleration (state_of c h)).
Proof. exact evaluate_start. Qed.

Theorem C29_height : forall Ts T h c u,
  vz (pm_position (evaluate Ts T h c u)) = h /\ vz (pm_velocity (evaluate Ts T h c u)) = 0 /\ vz (pm_acceleration (evaluate Ts T h c u)) = 0.
Proof. exact evaluate_height. Qed.

(** stopping at a subsample and continuing for the rest of the interval changes nothing *)
Theorem C29_subsample_and_continue : forall Ts T h c u a, 0 < h -> 0 < T -> 0 <= Ts < T ->
  let s := evaluate Ts T h c u in let e := evaluate (T - Ts) (T - Ts) h (convertCoMState_to_6d s) u in let f := evaluate T T h c u in
  along a (pm_position e) = along a (pm_position f) /\ along a (pm_velocity e) = along a (pm_velocity f) /\ along a (pm_acceleration e) = along a (pm_acceleration f).
Proof. exact evaluate_continues. Qed.

(** output matrices *)
Theorem C29_cop_output : forall h c a, is_cop h (state_of c h) a (vget (mulv (getDdz6 h) c) (axis_index a)).
Proof. exact cop_output. Qed.

Theorem C29_cop_rate : forall T h c u a k0, 0 < h -> T <> 0 -> is_cop h (state_of c h) a k0 ->
  vget (vadd (mulv (getD6 T (getOmega h)) c) (mulv (getE6 T) u)) (axis_index a) = (vget u (axis_index a) - k0) / T.
Proof. exact cop_rate. Qed.

Theorem C29_capture_point_velocity : forall T h c u a t, 0 < h -> T <> 0 ->
  derivable_pt_lim (fun t => along a (pm_position (evaluate t T h c u)) + along a (pm_velocity (evaluate t T h c u)) / getOmega h) t
    (vget (mulv (getDcpv6 (getOmega h)) (convertCoMState_to_6d (evaluate t T h c u))) (axis_index a)).
Proof. exact capture_point_velocity. Qed.

Example C29_example : is_cop (98 / 100) (state_of (mkVec 6 (fun i => INR i)) (98 / 100)) AxisX (- (2 / 10)) /\ 0 < 98 / 100.
Proof. split; [|lra]. unfold is_cop, gravity. simpl. lra. Qed.

(** ** C30 *)
Theorem C30_through_6d : forall s h, let s' := convertCoMState_to_3d (convertCoMState_to_6d s) h in
  (forall a, along a (pm_position s') = along a (pm_position s) /\ along a (pm_velocity s') = along a (pm_velocity s) /\ along a (pm_acceleration s') = along a (pm_acceleration s)) /\
  vz (pm_position s') = h /\ vz (pm_velocity s') = 0 /\ vz (pm_acceleration s') = 0.
Proof. exact convert_round_trip_3. Qed.

Theorem C30_through_3d : forall c h, vlen c = 6%nat -> veq (convertCoMState_to_6d (convertCoMState_to_3d c h)) c.
Proof. exact convert_round_trip_6. Qed.

Example C30_example : convertCoMState_to_3d (convertCoMState_to_6d (mkPM (V3 1 2 3) (V3 4 5 6) (V3 7 8 9))) 10 = mkPM (V3 1 2 10) (V3 4 5 0) (V3 7 8 0).
Proof. reflexivity. Qed.

Print Assumptions C27_same_dynamics. Print Assumptions C27_commanded_attained. Print Assumptions C27_defined.
Print Assumptions C28_subsample. Print Assumptions C28_full_subsample. Print Assumptions C28_subsample_and_continue. Print Assumptions C28_derivatives.
Print Assumptions C29_cop_interpolates. Print Assumptions C29_cop_reached. Print Assumptions C29_motion. Print Assumptions C29_start. Print Assumptions C29_height.
Print Assumptions C29_subsample_and_continue. Print Assumptions C29_cop_output. Print Assumptions C29_cop_rate. Print Assumptions C29_capture_point_velocity.
Print Assumptions C30_through_6d. Print Assumptions C30_through_3d.
