From Coq Require Import List Reals Arith Lra Lia Bool.
From Verif Require Import Base BaseFacts Mat3 CubicFacts TripleIntegratorFacts PointMass6zFacts Rotary RotarySpec.
Open Scope R_scope.

Lemma m3_eq a b : m00 a = m00 b -> m01 a = m01 b -> m02 a = m02 b -> m10 a = m10 b -> m11 a = m11 b -> m12 a = m12 b ->
  m20 a = m20 b -> m21 a = m21 b -> m22 a = m22 b -> a = b.
Proof. destruct a, b; simpl; intros; subst; reflexivity. Qed.

Ltac m3_unfold := unfold m3mul, m3add, m3scale, m3trans, m3id, skew, m3app; cbn [m00 m01 m02 m10 m11 m12 m20 m21 m22 vx vy vz].

(** ** quaternions *)
Definition q_norm2 (q : quaternion) : R := qw q * qw q + qx q * qx q + qy q * qy q + qz q * qz q.
Definition q_hom (q : quaternion) : m3 :=
  let w := qw q in let x := qx q in let y := qy q in let z := qz q in
  M3 (w * w + x * x - y * y - z * z) (2 * (x * y - w * z)) (2 * (x * z + w * y))
     (2 * (x * y + w * z)) (w * w - x * x + y * y - z * z) (2 * (y * z - w * x))
     (2 * (x * z - w * y)) (2 * (y * z + w * x)) (w * w - x * x - y * y + z * z).
Lemma q_hom_mul a b : q_hom (q_mul a b) = m3mul (q_hom a) (q_hom b).
Proof. unfold q_hom, q_mul, m3mul; simpl. apply m3_eq; simpl; ring. Qed.
Lemma q_norm2_mul a b : q_norm2 (q_mul a b) = q_norm2 a * q_norm2 b.
Proof. unfold q_norm2, q_mul; simpl; ring. Qed.
Lemma q_matrix_hom q : q_norm2 q = 1 -> q_matrix q = q_hom q.
Proof. intros N. unfold q_norm2 in N. unfold q_matrix, q_hom; apply m3_eq; simpl; try ring; rewrite <- N; ring. Qed.

Lemma sc2 a : sin a * sin a + cos a * cos a = 1.
Proof. pose proof (sin2_cos2 a) as H. unfold Rsqr in H. exact H. Qed.
Lemma q_axis_norm a n : unit_vector n -> q_norm2 (q_angle_axis a n) = 1.
Proof.
  unfold unit_vector, v3dot, q_norm2, q_angle_axis; simpl. intros N. pose proof (sc2 (a / 2)).
  replace (cos (a / 2) * cos (a / 2) + sin (a / 2) * vx n * (sin (a / 2) * vx n) + sin (a / 2) * vy n * (sin (a / 2) * vy n) + sin (a / 2) * vz n * (sin (a / 2) * vz n))
    with (cos (a / 2) * cos (a / 2) + sin (a / 2) * sin (a / 2) * (vx n * vx n + vy n * vy n + vz n * vz n)) by ring. rewrite N. lra.
Qed.
Lemma half_cos a : cos a = cos (a / 2) * cos (a / 2) - sin (a / 2) * sin (a / 2).
Proof. replace a with (2 * (a / 2)) at 1 by field. apply cos_2a. Qed.
Lemma half_sin a : sin a = 2 * sin (a / 2) * cos (a / 2).
Proof. replace a with (2 * (a / 2)) at 1 by field. apply sin_2a. Qed.
Lemma q_hom_X a : q_hom (q_angle_axis a unitX) = Rx a.
Proof. unfold Rx. rewrite (half_cos a), (half_sin a). pose proof (sc2 (a / 2)). unfold q_hom, q_angle_axis; apply m3_eq; simpl; try ring; lra. Qed.
Lemma q_hom_Y a : q_hom (q_angle_axis a unitY) = Ry a.
Proof. unfold Ry. rewrite (half_cos a), (half_sin a). pose proof (sc2 (a / 2)). unfold q_hom, q_angle_axis; apply m3_eq; simpl; try ring; lra. Qed.
Lemma q_hom_Z a : q_hom (q_angle_axis a unitZ) = Rz a.
Proof. unfold Rz. rewrite (half_cos a), (half_sin a). pose proof (sc2 (a / 2)). unfold q_hom, q_angle_axis; apply m3_eq; simpl; try ring; lra. Qed.
Lemma q3 a b c n1 n2 n3 : unit_vector n1 -> unit_vector n2 -> unit_vector n3 ->
  q_matrix (q_mul (q_mul (q_angle_axis a n1) (q_angle_axis b n2)) (q_angle_axis c n3)) =
  m3mul (m3mul (q_hom (q_angle_axis a n1)) (q_hom (q_angle_axis b n2))) (q_hom (q_angle_axis c n3)).
Proof.
  intros. rewrite q_matrix_hom, !q_hom_mul; [reflexivity|]. rewrite !q_norm2_mul, !q_axis_norm by assumption. ring.
Qed.
Lemma uX : unit_vector unitX. Proof. unfold unit_vector, v3dot; simpl; ring. Qed.
Lemma uY : unit_vector unitY. Proof. unfold unit_vector, v3dot; simpl; ring. Qed.
Lemma uZ : unit_vector unitZ. Proof. unfold unit_vector, v3dot; simpl; ring. Qed.

(** ** C31 *)
Theorem euler_matrix_product e :
  convertEulerAnglesToMatrix e RPY = Ok (m3mul (m3mul (Rz (vz e)) (Ry (vy e))) (Rx (vx e))) /\
  convertEulerAnglesToMatrix e YPR = Ok (m3mul (m3mul (Rx (vx e)) (Ry (vy e))) (Rz (vz e))) /\
  convertEulerAnglesToMatrix e EULER_UNDEFINED = Throw.
Proof.
  repeat split; simpl; f_equal; rewrite q3 by auto using uX, uY, uZ; rewrite q_hom_X, q_hom_Y, q_hom_Z; reflexivity.
Qed.
Lemma rotX a : rotation (Rx a).
Proof. pose proof (sc2 a). repeat split; try (apply m3_eq; simpl; nra). unfold m3det; simpl; nra. Qed.
Lemma rotY a : rotation (Ry a).
Proof. pose proof (sc2 a). repeat split; try (apply m3_eq; simpl; nra). unfold m3det; simpl; nra. Qed.
Lemma rotZ a : rotation (Rz a).
Proof. pose proof (sc2 a). repeat split; try (apply m3_eq; simpl; nra). unfold m3det; simpl; nra. Qed.
Theorem euler_matrix_rotation e k m : convertEulerAnglesToMatrix e k = Ok m -> rotation m.
Proof.
  destruct (euler_matrix_product e) as (A & B & C). destruct k; rewrite ?A, ?B, ?C; intros E; try discriminate; inversion E; subst m;
  repeat apply rotation_mul; auto using rotX, rotY, rotZ.
Qed.
Theorem euler_supported e k : (exists m, convertEulerAnglesToMatrix e k = Ok m) <-> k = RPY \/ k = YPR.
Proof. destruct k; simpl; split; intros H; try (destruct H; discriminate); eauto. Qed.

(** ** C32 *)
Lemma d_mult f g t a b : derivable_pt_lim f t a -> derivable_pt_lim g t b -> derivable_pt_lim (fun s => f s * g s) t (a * g t + f t * b).
Proof. apply derivable_pt_lim_mult. Qed.
Lemma d_sin f t a : derivable_pt_lim f t a -> derivable_pt_lim (fun s => sin (f s)) t (a * cos (f t)).
Proof. intros H. rewrite Rmult_comm. apply (derivable_pt_lim_comp f sin t a (cos (f t))); [exact H|apply derivable_pt_lim_sin]. Qed.
Lemma d_cos f t a : derivable_pt_lim f t a -> derivable_pt_lim (fun s => cos (f s)) t (- a * sin (f t)).
Proof.
  intros H. replace (- a * sin (f t)) with (- sin (f t) * a) by ring. apply (derivable_pt_lim_comp f cos t a (- sin (f t))); [exact H|apply derivable_pt_lim_cos].
Qed.
Lemma d_opp f t a : derivable_pt_lim f t a -> derivable_pt_lim (fun s => - f s) t (- a).
Proof. apply derivable_pt_lim_opp. Qed.
Lemma d_const c t : derivable_pt_lim (fun _ => c) t 0.
Proof. apply (derivable_pt_lim_const c t). Qed.

Lemma m3_derivative_mul F G t D E : m3_derivative F t D -> m3_derivative G t E ->
  m3_derivative (fun s => m3mul (F s) (G s)) t (m3add (m3mul D (G t)) (m3mul (F t) E)).
Proof.
  intros (F1 & F2 & F3 & F4 & F5 & F6 & F7 & F8 & F9) (G1 & G2 & G3 & G4 & G5 & G6 & G7 & G8 & G9).
  unfold m3_derivative, m3mul, m3add; cbn [m00 m01 m02 m10 m11 m12 m20 m21 m22].
  repeat split; (eapply derivable_eq'; [|repeat apply d_plus; apply d_mult; eassumption]); cbv beta; ring.
Qed.
Lemma dRx f t a : derivable_pt_lim f t a -> m3_derivative (fun s => Rx (f s)) t (m3scale a (m3mul (skew unitX) (Rx (f t)))).
Proof.
  intros H. unfold m3_derivative, Rx, m3scale, m3mul, skew; cbn [m00 m01 m02 m10 m11 m12 m20 m21 m22 unitX vx vy vz].
  repeat split; first [eapply derivable_eq'; [|apply d_const]; ring | eapply derivable_eq'; [|apply d_sin, H]; ring | eapply derivable_eq'; [|apply d_cos, H]; ring | eapply derivable_eq'; [|apply d_opp, d_sin, H]; ring].
Qed.
Lemma dRy f t a : derivable_pt_lim f t a -> m3_derivative (fun s => Ry (f s)) t (m3scale a (m3mul (skew unitY) (Ry (f t)))).
Proof.
  intros H. unfold m3_derivative, Ry, m3scale, m3mul, skew; cbn [m00 m01 m02 m10 m11 m12 m20 m21 m22 unitY vx vy vz].
  repeat split; first [eapply derivable_eq'; [|apply d_const]; ring | eapply derivable_eq'; [|apply d_sin, H]; ring | eapply derivable_eq'; [|apply d_cos, H]; ring | eapply derivable_eq'; [|apply d_opp, d_sin, H]; ring].
Qed.
Lemma dRz f t a : derivable_pt_lim f t a -> m3_derivative (fun s => Rz (f s)) t (m3scale a (m3mul (skew unitZ) (Rz (f t)))).
Proof.
  intros H. unfold m3_derivative, Rz, m3scale, m3mul, skew; cbn [m00 m01 m02 m10 m11 m12 m20 m21 m22 unitZ vx vy vz].
  repeat split; first [eapply derivable_eq'; [|apply d_const]; ring | eapply derivable_eq'; [|apply d_sin, H]; ring | eapply derivable_eq'; [|apply d_cos, H]; ring | eapply derivable_eq'; [|apply d_opp, d_sin, H]; ring].
Qed.
Lemma m3_derivative_eq F t D E : D = E -> m3_derivative F t D -> m3_derivative F t E.
Proof. intros ->. auto. Qed.

Lemma skew_add a b : skew (v3add a b) = m3add (skew a) (skew b).
Proof. apply m3_eq; simpl; ring. Qed.
Lemma skew_scale c a : skew (v3scale c a) = m3scale c (skew a).
Proof. apply m3_eq; simpl; ring. Qed.
Lemma m3mul_add_l a b c : m3mul (m3add a b) c = m3add (m3mul a c) (m3mul b c).
Proof. apply m3_eq; simpl; ring. Qed.
Lemma m3mul_scale_l x a b : m3mul (m3scale x a) b = m3scale x (m3mul a b).
Proof. apply m3_eq; simpl; ring. Qed.
Lemma m3mul_scale_r x a b : m3mul a (m3scale x b) = m3scale x (m3mul a b).
Proof. apply m3_eq; simpl; ring. Qed.
Lemma m3mul_add_r a b c : m3mul a (m3add b c) = m3add (m3mul a b) (m3mul a c).
Proof. unfold m3mul, m3add; apply m3_eq; cbn [m00 m01 m02 m10 m11 m12 m20 m21 m22]; ring. Qed.
Lemma skew_Rz a v : m3mul (Rz a) (skew v) = m3mul (skew (m3app (Rz a) v)) (Rz a).
Proof. pose proof (sc2 a) as S. assert (C : cos a * cos a = 1 - sin a * sin a) by lra. destruct v as [x y z]. apply m3_eq; simpl; ring [C]. Qed.
Lemma skew_Ry a v : m3mul (Ry a) (skew v) = m3mul (skew (m3app (Ry a) v)) (Ry a).
Proof. pose proof (sc2 a) as S. assert (C : cos a * cos a = 1 - sin a * sin a) by lra. destruct v as [x y z]. apply m3_eq; simpl; ring [C]. Qed.

Theorem euler_rates (roll pitch yaw : R -> R) t roll' pitch' yaw' :
  derivable_pt_lim roll t roll' -> derivable_pt_lim pitch t pitch' -> derivable_pt_lim yaw t yaw' ->
  exists (Rot : R -> m3) (M : m3),
    (forall s, convertEulerAnglesToMatrix (V3 (roll s) (pitch s) (yaw s)) RPY = Ok (Rot s)) /\
    getEulerRatesToAngularVelocityTransform (V3 (roll t) (pitch t) (yaw t)) RPY = Ok M /\
    m3_derivative Rot t (m3mul (skew (m3app M (V3 roll' pitch' yaw'))) (Rot t)).
Proof.
  intros Hr Hp Hy. exists (fun s => m3mul (m3mul (Rz (yaw s)) (Ry (pitch s))) (Rx (roll s))). eexists. split; [|split; [reflexivity|]].
  - intros s. apply (euler_matrix_product (V3 (roll s) (pitch s) (yaw s))).
  - eapply m3_derivative_eq; [|apply m3_derivative_mul; [apply m3_derivative_mul; [apply dRz, Hy|apply dRy, Hp]|apply dRx, Hr]].
    cbv beta. cbn [vx vy vz].
    set (M := M3 _ _ _ _ _ _ _ _ _).
    assert (W : m3app M (V3 roll' pitch' yaw') =
      v3add (v3add (v3scale yaw' unitZ) (v3scale pitch' (m3app (Rz (yaw t)) unitY))) (v3scale roll' (m3app (Rz (yaw t)) (m3app (Ry (pitch t)) unitX)))).
    { unfold M, m3app, v3add, v3scale, Rz, Ry, unitX, unitY, unitZ; cbn [m00 m01 m02 m10 m11 m12 m20 m21 m22 vx vy vz]. f_equal; ring. }
    rewrite W, !skew_add, !skew_scale, !m3mul_add_l, !m3mul_scale_l.
    rewrite ?m3mul_scale_r, ?m3mul_add_l, ?m3mul_scale_l. f_equal; [f_equal|]; f_equal.
    + rewrite !m3mul_assoc. reflexivity.
    + rewrite <- (m3mul_assoc (Rz (yaw t)) (skew unitY)). rewrite skew_Rz, !m3mul_assoc. reflexivity.
    + rewrite !m3mul_assoc. rewrite <- (m3mul_assoc (Ry (pitch t)) (skew unitX)), skew_Ry, !m3mul_assoc.
      rewrite <- (m3mul_assoc (Rz (yaw t)) (skew _)), skew_Rz, !m3mul_assoc. reflexivity.
Qed.

(** ** C45 *)
Theorem cross_matrix v x m :
  m3trans (cross_eval v) = m3scale (-1) (cross_eval v) /\
  m3app (cross_eval v) v = v3zero /\
  cross_multiplyRight v x = m3app (cross_eval v) x /\
  m3app (cross_eval v) x = v3cross v x /\
  cross_multiplyLeft v m = m3mul m (cross_eval v) /\
  (forall i, (i < 3)%nat -> m3row (cross_multiplyLeft v m) i = v3cross (m3row m i) v).
Proof.
  repeat split.
  - unfold m3trans, m3scale, cross_eval; simpl. apply m3_eq; simpl; ring.
  - unfold m3app, cross_eval, v3zero; simpl. f_equal; ring.
  - unfold cross_multiplyRight, v3cross, m3app, cross_eval; simpl. f_equal; ring.
  - unfold v3cross, m3app, cross_eval; simpl. f_equal; ring.
  - intros i Hi. destruct i as [|[|[|i]]]; [| | |lia]; unfold cross_multiplyLeft, m3row, m3mul, v3cross, cross_eval; simpl; f_equal; ring.
Qed.
Lemma cross_eval_skew v : cross_eval v = skew v.
Proof. reflexivity. Qed.
Theorem cross_squared v : m3mul (cross_eval v) (cross_eval v) =
  m3add (M3 (vx v * vx v) (vx v * vy v) (vx v * vz v) (vy v * vx v) (vy v * vy v) (vy v * vz v) (vz v * vx v) (vz v * vy v) (vz v * vz v))
        (m3scale (- v3dot v v) m3id).
Proof. unfold m3mul, m3add, m3scale, cross_eval, v3dot, m3id; apply m3_eq; simpl; ring. Qed.

(** ** C33 *)
Definition axis_entries (x y z s c : R) : m3 :=
  M3 (c + (1 - c) * (x * x)) ((1 - c) * (x * y) - s * z) ((1 - c) * (x * z) + s * y)
     ((1 - c) * (x * y) + s * z) (c + (1 - c) * (y * y)) ((1 - c) * (y * z) - s * x)
     ((1 - c) * (x * z) - s * y) ((1 - c) * (y * z) + s * x) (c + (1 - c) * (z * z)).
Lemma axis_rotation_entries n a : unit_vector n -> axis_rotation n a = axis_entries (vx n) (vy n) (vz n) (sin a) (cos a).
Proof.
  unfold unit_vector, v3dot. destruct n as [x y z]; cbn [vx vy vz]. intros N. assert (N1 : x * x = 1 - y * y - z * z) by lra.
  unfold axis_rotation, axis_entries. set (s := sin a). set (c := cos a). clearbody s c.
  unfold m3mul, m3add, m3scale, m3id, skew; cbn [m00 m01 m02 m10 m11 m12 m20 m21 m22 vx vy vz].
  apply m3_eq; cbn [m00 m01 m02 m10 m11 m12 m20 m21 m22]; ring [N1].
Qed.
Lemma entries_rotation x y z s c : x * x + y * y + z * z = 1 -> s * s + c * c = 1 -> rotation (axis_entries x y z s c).
Proof.
  intros N S. assert (N1 : x * x = 1 - y * y - z * z) by lra. assert (S1 : s * s = 1 - c * c) by lra.
  unfold axis_entries, rotation, orthogonal, m3det, m3mul, m3trans, m3id; cbn [m00 m01 m02 m10 m11 m12 m20 m21 m22].
  split; [split|]; try (apply m3_eq; cbn [m00 m01 m02 m10 m11 m12 m20 m21 m22]); ring [N1 S1].
Qed.
Lemma entries_add x y z s c s' c' : x * x + y * y + z * z = 1 ->
  m3mul (axis_entries x y z s c) (axis_entries x y z s' c') = axis_entries x y z (s * c' + c * s') (c * c' - s * s').
Proof.
  intros N. assert (N1 : x * x = 1 - y * y - z * z) by lra.
  unfold axis_entries, m3mul; cbn [m00 m01 m02 m10 m11 m12 m20 m21 m22].
  apply m3_eq; cbn [m00 m01 m02 m10 m11 m12 m20 m21 m22]; ring [N1].
Qed.
Lemma axis_rotation_rotation n a : unit_vector n -> rotation (axis_rotation n a).
Proof. intros N. rewrite axis_rotation_entries by exact N. apply entries_rotation; [exact N|apply sc2]. Qed.
Lemma axis_rotation_add n a b : unit_vector n -> m3mul (axis_rotation n a) (axis_rotation n b) = axis_rotation n (a + b).
Proof. intros N. rewrite !axis_rotation_entries by exact N. rewrite entries_add by exact N. rewrite sin_plus, cos_plus. reflexivity. Qed.

Lemma norm_nonneg w : 0 <= v3norm w.
Proof. apply sqrt_pos. Qed.
Lemma norm_sq w : v3norm w * v3norm w = v3dot w w.
Proof. unfold v3norm. apply sqrt_sqrt. unfold v3dot. nra. Qed.
Lemma unit_scaled w : 0 < v3norm w -> unit_vector (v3scale (/ v3norm w) w).
Proof.
  intros H. unfold unit_vector. pose proof (norm_sq w) as N. unfold v3dot in *. cbn [v3scale vx vy vz].
  replace (/ v3norm w * vx w * (/ v3norm w * vx w) + / v3norm w * vy w * (/ v3norm w * vy w) + / v3norm w * vz w * (/ v3norm w * vz w))
    with ((vx w * vx w + vy w * vy w + vz w * vz w) * (/ v3norm w * / v3norm w)) by ring. rewrite <- N. field. lra.
Qed.
Lemma rodrigues_cases R w dt tol : 0 < tol ->
  (v3norm w < tol /\ integrateAngularVelocityRodrigues R w dt tol = R) \/
  (0 < v3norm w /\ tol <= v3norm w /\ integrateAngularVelocityRodrigues R w dt tol = m3mul R (axis_rotation (v3scale (/ v3norm w) w) (v3norm w * dt))).
Proof.
  intros Ht. unfold integrateAngularVelocityRodrigues. pose proof (norm_nonneg w) as P. rewrite (Rabs_right (v3norm w)) by lra.
  destruct (Rlt_dec (v3norm w) tol) as [lt|ge]; [left; auto|right]. split; [lra|]. split; [lra|].
  unfold axis_rotation, cross_multiplyLeft. rewrite cross_eval_skew. set (ax := v3scale (/ v3norm w) w).
  rewrite !m3mul_add_r, m3mul_id_r, m3mul_scale_l, !m3mul_scale_r, m3mul_assoc. reflexivity.
Qed.

Theorem rodrigues_orthogonal R w dt tol : 0 < tol -> orthogonal R ->
  orthogonal (integrateAngularVelocityRodrigues R w dt tol) /\ m3det (integrateAngularVelocityRodrigues R w dt tol) = m3det R.
Proof.
  intros Ht HR. destruct (rodrigues_cases R w dt tol Ht) as [[_ ->]|(P & _ & ->)]; [auto|].
  destruct (axis_rotation_rotation (v3scale (/ v3norm w) w) (v3norm w * dt) (unit_scaled w P)) as [O D]. split.
  - apply orthogonal_mul; assumption.
  - rewrite m3det_mul, D. ring.
Qed.
Theorem rodrigues_additive R w dt1 dt2 tol : 0 < tol ->
  integrateAngularVelocityRodrigues (integrateAngularVelocityRodrigues R w dt1 tol) w dt2 tol = integrateAngularVelocityRodrigues R w (dt1 + dt2) tol.
Proof.
  intros Ht. set (R1 := integrateAngularVelocityRodrigues R w dt1 tol).
  destruct (rodrigues_cases R1 w dt2 tol Ht) as [[L ->]|(P & G & ->)]; destruct (rodrigues_cases R w (dt1 + dt2) tol Ht) as [[L' E]|(P' & G' & E)]; rewrite E; try lra;
    unfold R1; destruct (rodrigues_cases R w dt1 tol Ht) as [[L'' E']|(P'' & G'' & E')]; rewrite E'; try lra; [reflexivity|].
  rewrite m3mul_assoc, axis_rotation_add by (apply unit_scaled; assumption). f_equal. f_equal. ring.
Qed.
(** the integrated orientation rotates with the given velocity, expressed in the frame of the body *)
Theorem rodrigues_derivative R w tol t : 0 < tol -> tol <= v3norm w ->
  m3_derivative (fun s => integrateAngularVelocityRodrigues R w s tol) t (m3mul (integrateAngularVelocityRodrigues R w t tol) (skew w)).
Proof.
  intros Ht Hw. destruct (rodrigues_cases R w t tol Ht) as [[L _]|(P & _ & ->)]; [lra|].
  set (n := v3scale (/ v3norm w) w). set (v := v3norm w) in *.
  assert (W : w = v3scale v n). { unfold n. destruct w as [x y z]; unfold v3scale; cbn [vx vy vz]. f_equal; field; lra. }
  assert (N : unit_vector n) by (apply unit_scaled; exact P).
  assert (E : forall s, integrateAngularVelocityRodrigues R w s tol = m3mul R (axis_rotation n (v * s))).
  { intros s. destruct (rodrigues_cases R w s tol Ht) as [[L _]|(_ & _ & ->)]; [fold v in L; lra|reflexivity]. }
  clearbody n.
  assert (D : m3_derivative (fun s => m3mul R (axis_rotation n (v * s))) t
     (m3mul R (m3add (m3scale (v * cos (v * t)) (skew n)) (m3scale (v * sin (v * t)) (m3mul (skew n) (skew n)))))).
  { assert (S1 : derivable_pt_lim (fun s => sin (v * s)) t (v * cos (v * t))) by (apply (d_sin (fun s => v * s)); apply d_lin).
    assert (C1 : derivable_pt_lim (fun s => cos (v * s)) t (- v * sin (v * t))) by (apply (d_cos (fun s => v * s)); apply d_lin).
    assert (G : forall a0 a1 a2, derivable_pt_lim (fun s => a0 + sin (v * s) * a1 + (1 - cos (v * s)) * a2) t (v * cos (v * t) * a1 + v * sin (v * t) * a2)).
    { intros a0 a1 a2. apply (derivable_ext (fun s => (a0 + a2) + a1 * sin (v * s) + - a2 * cos (v * s))); [intros; ring|].
      eapply derivable_eq'; [|apply d_plus; [apply d_plus; [apply (d_const (a0 + a2))|apply d_scal, S1]|apply d_scal, C1]]. ring. }
    assert (A : m3_derivative (fun s => axis_rotation n (v * s)) t (m3add (m3scale (v * cos (v * t)) (skew n)) (m3scale (v * sin (v * t)) (m3mul (skew n) (skew n))))).
    { unfold axis_rotation. set (K2 := m3mul (skew n) (skew n)). set (K := skew n). clearbody K2 K.
      unfold m3_derivative, m3add, m3scale; cbn [m00 m01 m02 m10 m11 m12 m20 m21 m22]. repeat split; apply G. }
    assert (Z : m3_derivative (fun _ => R) t (M3 0 0 0 0 0 0 0 0 0)) by (unfold m3_derivative; cbn [m00 m01 m02 m10 m11 m12 m20 m21 m22]; repeat split; apply d_const).
    pose proof (m3_derivative_mul _ _ _ _ _ Z A) as M. eapply m3_derivative_eq; [|exact M]. cbv beta.
    set (X := axis_rotation n (v * t)). set (Y := m3mul R _). unfold m3add, m3mul; apply m3_eq; cbn [m00 m01 m02 m10 m11 m12 m20 m21 m22]; ring. }
  assert (F : m3mul (m3mul R (axis_rotation n (v * t))) (skew w) =
     m3mul R (m3add (m3scale (v * cos (v * t)) (skew n)) (m3scale (v * sin (v * t)) (m3mul (skew n) (skew n))))).
  { rewrite m3mul_assoc. f_equal. rewrite W, skew_scale. clear -N.
    assert (K3 : m3mul (m3mul (skew n) (skew n)) (skew n) = m3scale (-1) (skew n)).
    { unfold unit_vector, v3dot in N. destruct n as [x y z]; cbn [vx vy vz] in N.
      assert (N1 : x * x = 1 - y * y - z * z) by lra. unfold m3mul, m3scale, skew; cbn [m00 m01 m02 m10 m11 m12 m20 m21 m22 vx vy vz].
      apply m3_eq; cbn [m00 m01 m02 m10 m11 m12 m20 m21 m22]; ring [N1]. }
    unfold axis_rotation. set (s := sin (v * t)). set (c := cos (v * t)). clearbody s c.
    rewrite m3mul_scale_r, !m3mul_add_l, m3mul_id_l, !m3mul_scale_l, K3.
    set (K2 := m3mul (skew n) (skew n)). set (K := skew n). clearbody K2 K.
    unfold m3add, m3scale; cbn [m00 m01 m02 m10 m11 m12 m20 m21 m22]. apply m3_eq; cbn [m00 m01 m02 m10 m11 m12 m20 m21 m22]; ring. }
  rewrite F. destruct D as (D1 & D2 & D3 & D4 & D5 & D6 & D7 & D8 & D9).
  repeat split; (eapply derivable_ext; [|eassumption]); intros s; cbv beta; rewrite E; reflexivity.
Qed.
(** the simple integration scheme leaves the rotation group *)
Theorem simple_integration_drift R w dt :
  m3det (integrateAngularVelocity R w dt) = m3det R * (1 + dt * dt * v3dot w w).
Proof.
  unfold integrateAngularVelocity, cross_multiplyLeft, m3det, m3add, m3mul, m3scale, cross_eval, v3dot; cbn [m00 m01 m02 m10 m11 m12 m20 m21 m22]. ring.
Qed.
Theorem simple_integration_derivative R w :
  integrateAngularVelocity R w 0 = R /\ forall t, m3_derivative (integrateAngularVelocity R w) t (m3mul R (skew w)).
Proof.
  split; [unfold integrateAngularVelocity, cross_multiplyLeft, m3add, m3mul, m3scale; destruct R; apply m3_eq; simpl; ring|].
  intros t.
  assert (G : forall a0 a1, derivable_pt_lim (fun s => a0 + s * a1) t a1).
  { intros a0 a1. apply (derivable_ext (fun s => a0 + a1 * s)); [intros; ring|].
    eapply derivable_eq'; [|apply d_plus; [apply (d_const a0)|apply d_lin]]. ring. }
  assert (X : forall s, integrateAngularVelocity R w s = m3add R (m3scale s (m3mul R (skew w)))).
  { intros s. unfold integrateAngularVelocity, cross_multiplyLeft. rewrite cross_eval_skew. rewrite m3mul_scale_l. reflexivity. }
  repeat split; (eapply derivable_ext; [intros s; rewrite X; cbn [m3add m3scale m00 m01 m02 m10 m11 m12 m20 m21 m22]; reflexivity|apply G]).
Qed.

(** ** C34 *)
Lemma error_vee C M : orthogonal C ->
  getRotationErrorAngleAxis C (m3mul M C) = V3 ((m21 M - m12 M) / 2) ((m02 M - m20 M) / 2) ((m10 M - m01 M) / 2).
Proof.
  intros [O _].
  assert (P : forall f, f (m3mul C (m3trans C)) = f m3id :> R) by (intros f; rewrite O; reflexivity).
  pose proof (P m00) as P00. pose proof (P m01) as P01. pose proof (P m02) as P02. pose proof (P m11) as P11. pose proof (P m12) as P12. pose proof (P m22) as P22.
  clear P O. destruct C as [a b c d e f g h i]. unfold m3mul, m3trans, m3id in *. cbn [m00 m01 m02 m10 m11 m12 m20 m21 m22] in *.
  unfold getRotationErrorAngleAxis, v3scale, v3add, v3cross, m3col; cbn [m00 m01 m02 m10 m11 m12 m20 m21 m22 vx vy vz].
  f_equal.
  - transitivity (1 / 2 * (m20 M * (a * d + b * e + c * f) + m21 M * (d * d + e * e + f * f) + m22 M * (d * g + e * h + f * i)
        - m10 M * (a * g + b * h + c * i) - m11 M * (d * g + e * h + f * i) - m12 M * (g * g + h * h + i * i))); [ring|]. rewrite P01, P11, P12, P02, P22. field.
  - transitivity (1 / 2 * (m00 M * (a * g + b * h + c * i) + m01 M * (d * g + e * h + f * i) + m02 M * (g * g + h * h + i * i)
        - m20 M * (a * a + b * b + c * c) - m21 M * (a * d + b * e + c * f) - m22 M * (a * g + b * h + c * i))); [ring|]. rewrite P02, P12, P22, P00, P01. field.
  - transitivity (1 / 2 * (m10 M * (a * a + b * b + c * c) + m11 M * (a * d + b * e + c * f) + m12 M * (a * g + b * h + c * i)
        - m00 M * (a * d + b * e + c * f) - m01 M * (d * d + e * e + f * f) - m02 M * (d * g + e * h + f * i))); [ring|]. rewrite P00, P01, P02, P11, P12. field.
Qed.
Theorem rotation_error C n a : orthogonal C -> unit_vector n ->
  getRotationErrorAngleAxis C (m3mul (axis_rotation n a) C) = v3scale (sin a) n /\
  getRotationError C (m3mul (axis_rotation n a) C) = axis_rotation n a.
Proof.
  intros O N. split.
  - rewrite error_vee by assumption. unfold axis_rotation, m3add, m3scale, m3mul, m3id, skew, v3scale; cbn [m00 m01 m02 m10 m11 m12 m20 m21 m22]. f_equal; field.
  - unfold getRotationError. rewrite m3mul_assoc. destruct O as [-> _]. apply m3mul_id_r.
Qed.
Theorem rotation_error_self C : getRotationErrorAngleAxis C C = v3zero.
Proof. unfold getRotationErrorAngleAxis, v3scale, v3add, v3cross, m3col, v3zero; cbn [vx vy vz]. f_equal; ring. Qed.
(** the error vanishes exactly when the relative rotation is symmetric *)
Theorem rotation_error_antisymmetric C D : getRotationErrorAngleAxis D C = v3opp (getRotationErrorAngleAxis C D).
Proof. unfold getRotationErrorAngleAxis, v3scale, v3add, v3cross, m3col, v3opp; cbn [vx vy vz]. f_equal; ring. Qed.

(** any number of steps *)
Theorem rodrigues_steps steps R tol : 0 < tol -> orthogonal R ->
  let R' := fold_left (fun r (s : v3 * Rdefinitions.R) => integrateAngularVelocityRodrigues r (fst s) (snd s) tol) steps R in
  orthogonal R' /\ m3det R' = m3det R.
Proof.
  intros Ht. revert R. induction steps as [|s l IH]; intros R O; [simpl; auto|].
  destruct (rodrigues_orthogonal R (fst s) (snd s) tol Ht O) as [O' D'].
  destruct (IH _ O') as [O'' D'']. cbn [fold_left]. split; [exact O''|]. simpl in D''. rewrite D''. exact D'.
Qed.

Theorem axis_rotation_facts n a b : unit_vector n ->
  rotation (axis_rotation n a) /\ m3app (axis_rotation n a) n = n /\ m3mul (axis_rotation n a) (axis_rotation n b) = axis_rotation n (a + b).
Proof.
  intros N. split; [apply axis_rotation_rotation, N|]. split; [|apply axis_rotation_add, N].
  rewrite axis_rotation_entries by exact N. unfold unit_vector, v3dot in N. destruct n as [x y z]; cbn [vx vy vz] in *.
  assert (N1 : x * x = 1 - y * y - z * z) by lra.
  unfold m3app, axis_entries; cbn [m00 m01 m02 m10 m11 m12 m20 m21 m22 vx vy vz]. f_equal; ring [N1].
Qed.
