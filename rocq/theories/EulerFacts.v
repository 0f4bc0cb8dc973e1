(** * Proofs for C93 *)
From Coq Require Import Reals Lra.
From Verif Require Import Base Mat3 Rotary RotarySpec RotaryFacts Euler EulerSpec.
Open Scope R_scope.

(** ** an implementation which does what is documented *)
Definition atan2 (y x : R) : R := let r := sqrt (x * x + y * y) in if Rle_dec 0 y then acos (x / r) else - acos (x / r).
Lemma acos_cos_sin u : -1 <= u <= 1 -> cos (acos u) = u /\ sin (acos u) = sqrt (1 - u * u).
Proof. intros H. split; [apply cos_acos; exact H|]. rewrite sin_acos by exact H. unfold Rsqr. reflexivity. Qed.
Lemma atan2_ok y x : - PI <= atan2 y x <= PI /\ (0 <= y -> 0 <= atan2 y x) /\ (y < 0 -> atan2 y x <= 0) /\
  (0 < x * x + y * y -> cos (atan2 y x) = x / sqrt (x * x + y * y) /\ sin (atan2 y x) = y / sqrt (x * x + y * y)).
Proof.
  set (r := sqrt (x * x + y * y)). pose proof (acos_bound (x / r)) as B. pose proof PI_RGT_0.
  unfold atan2. fold r. split; [destruct (Rle_dec 0 y); lra|]. split; [destruct (Rle_dec 0 y); lra|]. split; [destruct (Rle_dec 0 y); lra|].
  intros P. assert (R0 : 0 < r) by (apply sqrt_lt_R0; exact P).
  assert (RR : r * r = x * x + y * y) by (apply sqrt_sqrt; lra).
  assert (U : (x / r) * (x / r) + (y / r) * (y / r) = 1) by (replace ((x / r) * (x / r) + (y / r) * (y / r)) with ((x * x + y * y) / (r * r)) by (field; lra); rewrite RR; field; lra).
  assert (I : -1 <= x / r <= 1) by (pose proof (Rle_0_sqr (y / r)) as Q; unfold Rsqr in Q; split; nra).
  destruct (acos_cos_sin _ I) as (C & S).
  assert (E : 1 - x / r * (x / r) = y / r * (y / r)) by lra. rewrite E in S.
  destruct (Rle_dec 0 y) as [Y|Y].
  - split; [exact C|]. rewrite S. apply sqrt_square. unfold Rdiv. apply Rmult_le_pos; [exact Y|]. left. apply Rinv_0_lt_compat, R0.
  - rewrite cos_neg, sin_neg. split; [exact C|]. rewrite S.
    replace (y / r * (y / r)) with ((- y / r) * (- y / r)) by (field; lra). rewrite sqrt_square; [field; lra|].
    unfold Rdiv. apply Rmult_le_pos; [lra|]. left. apply Rinv_0_lt_compat, R0.
Qed.
(** Geometry/EulerAngles.h of Eigen 3.3, for the axes 2, 1, 0 *)
Definition euler_zyx (m : m3) : v3 :=
  let a := atan2 (m10 m) (m00 m) in
  let c2 := sqrt (m22 m * m22 m + m21 m * m21 m) in
  let r0 := if Rlt_dec a 0 then a + PI else a in
  let r1 := if Rlt_dec a 0 then atan2 (- m20 m) (- c2) else atan2 (- m20 m) c2 in
  V3 r0 r1 (atan2 (sin r0 * m02 m - cos r0 * m12 m) (cos r0 * m11 m - sin r0 * m01 m)).
Lemma atan2_unit y x : x * x + y * y = 1 -> cos (atan2 y x) = x /\ sin (atan2 y x) = y.
Proof. intros H. destruct (atan2_ok y x) as (_ & _ & _ & A). destruct A as (A & B); [lra|]. rewrite A, B, H, sqrt_1. split; field. Qed.
Lemma euler_zyx_ok m : rotation m ->
  m3mul (m3mul (Rz (vx (euler_zyx m))) (Ry (vy (euler_zyx m)))) (Rx (vz (euler_zyx m))) = m /\
  0 <= vx (euler_zyx m) <= PI /\ - PI <= vy (euler_zyx m) <= PI /\ - PI <= vz (euler_zyx m) <= PI.
Proof.
  intros ((O1 & O2) & DET). destruct m as [a00 a01 a02 a10 a11 a12 a20 a21 a22].
  unfold m3mul, m3trans, m3id in O1, O2; cbn in O1, O2. injection O1 as Q00 Q01 Q02 Q10 Q11 Q12 Q20 Q21 Q22. injection O2 as P00 P01 P02 P10 P11 P12 P20 P21 P22.
  unfold m3det in DET; cbn in DET. unfold euler_zyx. cbn [m00 m01 m02 m10 m11 m12 m20 m21 m22 vx vy vz].
  set (a := atan2 a10 a00). set (c2 := sqrt (a22 * a22 + a21 * a21)).
  set (r0 := if Rlt_dec a 0 then a + PI else a). set (r1 := if Rlt_dec a 0 then _ else _). pose proof PI_RGT_0 as PP.
  assert (N : a00 * a00 + a10 * a10 = a22 * a22 + a21 * a21) by lra.
  assert (C2 : c2 * c2 = a22 * a22 + a21 * a21) by (apply sqrt_sqrt; nra).
  assert (C2P : 0 <= c2) by apply sqrt_pos.
  assert (E1 : sqrt (a00 * a00 + a10 * a10) = c2) by (rewrite N; reflexivity).
  destruct (atan2_ok a10 a00) as (AB & AP & AN & AC). fold a in AB, AP, AN, AC. rewrite E1 in AC.
  assert (AE : a00 = c2 * cos a /\ a10 = c2 * sin a).
  { destruct (Rle_lt_or_eq_dec 0 c2 C2P) as [L|L].
    - destruct AC as (AC & AS); [nra|]. rewrite AC, AS. split; field; lra.
    - rewrite <- L in *. assert (a00 = 0 /\ a10 = 0) as (-> & ->) by (split; nra). split; ring. }
  assert (R1 : exists t, (t = 1 \/ t = -1) /\ a00 = t * c2 * cos r0 /\ a10 = t * c2 * sin r0 /\ cos r1 = t * c2 /\ sin r1 = - a20 /\ 0 <= r0 <= PI /\ - PI <= r1 <= PI).
  { unfold r0, r1. destruct (Rlt_dec a 0) as [L|L].
    - exists (-1). rewrite neg_cos, neg_sin. destruct (atan2_unit (- a20) (- c2)) as (A & B); [lra|]. rewrite A, B.
      destruct (atan2_ok (- a20) (- c2)) as (BB & _). split; [auto|]. repeat split; try lra.
    - exists 1. destruct (atan2_unit (- a20) c2) as (A & B); [lra|]. rewrite A, B. destruct (atan2_ok (- a20) c2) as (BB & _). split; [auto|]. repeat split; try lra. }
  destruct R1 as (t & T & M00 & M10 & CR1 & SR1 & B0 & B1).
  destruct (atan2_ok (sin r0 * a02 - cos r0 * a12) (cos r0 * a11 - sin r0 * a01)) as (B2 & _).
  clearbody r1. clearbody r0. set (c := cos r0) in *. set (s := sin r0) in *.
  assert (CS : c * c + s * s = 1) by (pose proof (sin2_cos2 r0) as H; unfold Rsqr in H; fold c s in H; lra).
  assert (TT : t * t = 1) by (destruct T; subst; ring).
  set (C := t * c2) in *.
  assert (CC : C * C = 1 - a20 * a20) by (unfold C; replace (t * c2 * (t * c2)) with (t * t * (c2 * c2)) by ring; rewrite TT, C2; lra).
  (* N = Rz^T M; its second row is (0, c3, -s3) *)
  set (c3 := c * a11 - s * a01) in *. set (s3 := s * a02 - c * a12) in *.
  assert (U3 : c3 * c3 + s3 * s3 = 1).
  { assert (Z0 : c * a10 - s * a00 = 0) by (rewrite M00, M10; ring).
    replace (c3 * c3 + s3 * s3) with (c * c * (a10 * a10 + a11 * a11 + a12 * a12) + s * s * (a00 * a00 + a01 * a01 + a02 * a02)
       - 2 * (c * s) * (a00 * a10 + a01 * a11 + a02 * a12) - (c * a10 - s * a00) * (c * a10 - s * a00)) by (unfold c3, s3; ring).
    rewrite Z0, Q00, Q11, Q01. lra. }
  destruct (atan2_unit s3 c3 U3) as (CR2 & SR2).
  split; [|split; [exact B0|split; [exact B1|exact B2]]].
  (* Q = Ry^T N has the first column (1,0,0) *)
  set (q01 := C * (c * a01 + s * a11) + a20 * a21). set (q02 := C * (c * a02 + s * a12) + a20 * a22).
  assert (QZ : q01 = 0 /\ q02 = 0).
  { assert (c * a00 + s * a10 = C) as K0 by (rewrite M00, M10; replace (c * (C * c) + s * (C * s)) with (C * (c * c + s * s)) by ring; rewrite CS; ring).
    split.
    - unfold q01. rewrite <- K0. replace ((c * a00 + s * a10) * (c * a01 + s * a11)) with
        (c * c * (a00 * a01) + s * s * (a10 * a11) + c * s * (a00 * a11 + a10 * a01)) by ring.
      assert (c * s * (a00 * a11 + a10 * a01) = s * s * (a00 * a01) + c * c * (a10 * a11)) as ->.
      { rewrite M00, M10. ring. }
      replace (c * c * (a00 * a01) + s * s * (a10 * a11) + (s * s * (a00 * a01) + c * c * (a10 * a11)) + a20 * a21) with
        ((c * c + s * s) * (a00 * a01 + a10 * a11) + a20 * a21) by ring. rewrite CS. lra.
    - unfold q02. rewrite <- K0. replace ((c * a00 + s * a10) * (c * a02 + s * a12)) with
        (c * c * (a00 * a02) + s * s * (a10 * a12) + c * s * (a00 * a12 + a10 * a02)) by ring.
      assert (c * s * (a00 * a12 + a10 * a02) = s * s * (a00 * a02) + c * c * (a10 * a12)) as ->.
      { rewrite M00, M10. ring. }
      replace (c * c * (a00 * a02) + s * s * (a10 * a12) + (s * s * (a00 * a02) + c * c * (a10 * a12)) + a20 * a22) with
        ((c * c + s * s) * (a00 * a02 + a10 * a12) + a20 * a22) by ring. rewrite CS. lra. }
  destruct QZ as (Z1 & Z2). unfold q01 in Z1. unfold q02 in Z2.
  (* the third row of the matrix is the cross product of the others *)
  assert (X : a20 = a01 * a12 - a02 * a11 /\ a21 = a02 * a10 - a00 * a12 /\ a22 = a00 * a11 - a01 * a10).
  { set (k0 := a01 * a12 - a02 * a11). set (k1 := a02 * a10 - a00 * a12). set (k2 := a00 * a11 - a01 * a10).
    assert (D : a20 * k0 + a21 * k1 + a22 * k2 = 1) by (unfold k0, k1, k2; lra).
    assert (KK : k0 * k0 + k1 * k1 + k2 * k2 = 1).
    { replace (k0 * k0 + k1 * k1 + k2 * k2) with ((a00 * a00 + a01 * a01 + a02 * a02) * (a10 * a10 + a11 * a11 + a12 * a12)
        - (a00 * a10 + a01 * a11 + a02 * a12) * (a00 * a10 + a01 * a11 + a02 * a12)) by (unfold k0, k1, k2; ring). rewrite Q00, Q11, Q01. ring. }
    assert (S0 : (a20 - k0) * (a20 - k0) + (a21 - k1) * (a21 - k1) + (a22 - k2) * (a22 - k2) = 0).
    { replace ((a20 - k0) * (a20 - k0) + (a21 - k1) * (a21 - k1) + (a22 - k2) * (a22 - k2)) with
       ((a20 * a20 + a21 * a21 + a22 * a22) + (k0 * k0 + k1 * k1 + k2 * k2) - 2 * (a20 * k0 + a21 * k1 + a22 * k2)) by ring. rewrite Q22, KK, D. ring. }
    pose proof (Rle_0_sqr (a20 - k0)) as H0. pose proof (Rle_0_sqr (a21 - k1)) as H1. pose proof (Rle_0_sqr (a22 - k2)) as H2. unfold Rsqr in H0, H1, H2.
    assert (G : forall u, u * u = 0 -> u = 0) by (intros u Hu; apply Rmult_integral in Hu; tauto).
    repeat split; apply Rminus_diag_uniq; apply G; lra. }
  destruct X as (X0 & X1 & X2).
  assert (Y1 : a21 = C * s3) by (rewrite X1, M00, M10; unfold s3; ring).
  assert (Y2 : a22 = C * c3) by (rewrite X2, M00, M10; unfold c3; ring).
  (* rows 0 and 1: (c k - s n, s k + c n), k = row of N *)
  assert (W : forall u v k n, k = c * u + s * v -> n = c * v - s * u -> u = c * k - s * n /\ v = s * k + c * n).
  { intros u v k n -> ->. split; [transitivity (u * (c * c + s * s))|transitivity (v * (c * c + s * s))]; try (rewrite CS; ring); ring. }
  destruct (W a01 a11 _ c3 eq_refl eq_refl) as (W01 & W11).
  assert (S3' : - s3 = c * a12 - s * a02) by (unfold s3; ring).
  destruct (W a02 a12 _ (- s3) eq_refl S3') as (W02 & W12).
  set (k1 := c * a01 + s * a11) in *. set (k2 := c * a02 + s * a12) in *.
  (* k1 = - a20 s3, k2 = - a20 c3 *)
  assert (K1 : k1 = - a20 * s3).
  { assert (a20 * k1 = C * a21 * 1 \/ True) by (right; exact I).
    assert (E : C * (k1 + a20 * s3) = 0) by (replace (C * (k1 + a20 * s3)) with (C * k1 + a20 * (C * s3)) by ring; rewrite <- Y1; exact Z1).
    assert (F : a20 * (k1 + a20 * s3) = 0).
    { assert (A20 : a20 = k1 * (- s3) - k2 * c3).
      { rewrite X0. rewrite W01, W02, W11, W12 at 1. transitivity ((c * c + s * s) * (k1 * - s3 - k2 * c3)); [ring|rewrite CS; ring]. }
      assert (B1' : k1 * k1 + k2 * k2 = a20 * a20).
      { assert (C * C + k1 * k1 + k2 * k2 = 1); [|lra].
        replace (C * C) with ((c * a00 + s * a10) * (c * a00 + s * a10)) by (rewrite M00, M10; replace (c * (C * c) + s * (C * s)) with (C * (c * c + s * s)) by ring; rewrite CS; ring).
        unfold k1, k2. replace ((c * a00 + s * a10) * (c * a00 + s * a10) + (c * a01 + s * a11) * (c * a01 + s * a11) + (c * a02 + s * a12) * (c * a02 + s * a12)) with
          (c * c * (a00 * a00 + a01 * a01 + a02 * a02) + s * s * (a10 * a10 + a11 * a11 + a12 * a12) + 2 * (c * s) * (a00 * a10 + a01 * a11 + a02 * a12)) by ring.
        rewrite Q00, Q11, Q01. lra. }
      assert (B2' : k1 * c3 - k2 * s3 = 0).
      { assert (OO : k1 * c3 + k2 * (- s3) = 0); [|lra]. rewrite S3'. unfold k1, k2, c3.
        replace ((c * a01 + s * a11) * (c * a11 - s * a01) + (c * a02 + s * a12) * (c * a12 - s * a02)) with
          (c * c * (a00 * a10 + a01 * a11 + a02 * a12) - s * s * (a00 * a10 + a01 * a11 + a02 * a12) + c * s * ((a10 * a10 + a11 * a11 + a12 * a12) - (a00 * a00 + a01 * a01 + a02 * a02))
           - (c * a00 + s * a10) * (c * a10 - s * a00)) by ring.
        rewrite Q00, Q11, Q01, M00, M10. ring. }
      (* k1 = k1 (c3^2+s3^2) = k2 s3 c3 + k1 s3^2 = - s3 a20 *)
      assert (k1 = - a20 * s3) as ->; [|ring].
      transitivity (k1 * (c3 * c3 + s3 * s3)); [rewrite U3; ring|]. rewrite A20. transitivity ((k1 * c3 - k2 * s3) * c3 + k1 * s3 * s3 + k2 * s3 * c3); [ring|]. rewrite B2'. ring. }
    assert (G : (C * C + a20 * a20) * (k1 + a20 * s3) = 0) by (replace ((C * C + a20 * a20) * (k1 + a20 * s3)) with (C * (C * (k1 + a20 * s3)) + a20 * (a20 * (k1 + a20 * s3))) by ring; rewrite E, F; ring).
    rewrite CC in G. replace (1 - a20 * a20 + a20 * a20) with 1 in G by ring. lra. }
  assert (K2 : k2 = - a20 * c3).
  { assert (OO : k1 * c3 + k2 * (- s3) = 0).
    { rewrite S3'. unfold k1, k2, c3.
        replace ((c * a01 + s * a11) * (c * a11 - s * a01) + (c * a02 + s * a12) * (c * a12 - s * a02)) with
          (c * c * (a00 * a10 + a01 * a11 + a02 * a12) - s * s * (a00 * a10 + a01 * a11 + a02 * a12) + c * s * ((a10 * a10 + a11 * a11 + a12 * a12) - (a00 * a00 + a01 * a01 + a02 * a02))
           - (c * a00 + s * a10) * (c * a10 - s * a00)) by ring.
        rewrite Q00, Q11, Q01, M00, M10. ring. }
    assert (A20 : a20 = k1 * (- s3) - k2 * c3).
      { rewrite X0. rewrite W01, W02, W11, W12 at 1. transitivity ((c * c + s * s) * (k1 * - s3 - k2 * c3)); [ring|rewrite CS; ring]. }
    transitivity (k2 * (c3 * c3 + s3 * s3)); [rewrite U3; ring|]. rewrite A20. transitivity (k2 * c3 * c3 - (k1 * c3 + k2 * - s3) * s3 + k1 * s3 * c3); [ring|]. rewrite OO. ring. }
  unfold m3mul, Rz, Ry, Rx; cbn [m00 m01 m02 m10 m11 m12 m20 m21 m22]. fold c s. rewrite CR1, SR1, CR2, SR2. f_equal.
  - rewrite M00. ring.
  - rewrite W01, K1. ring.
  - rewrite W02, K2. ring.
  - rewrite M10. ring.
  - rewrite W11, K1. ring.
  - rewrite W12, K2. ring.
  - ring.
  - rewrite Y1. ring.
  - rewrite Y2. ring.
Qed.
(** the axes 0, 1, 2: exchange x and z, change the sign of y *)
Definition swap : m3 := M3 0 0 1 0 (-1) 0 1 0 0.
Lemma swap_rotation : rotation swap.
Proof. unfold rotation, orthogonal, swap, m3mul, m3trans, m3id, m3det; cbn. split; [split; f_equal; ring|ring]. Qed.
Lemma swap_twice m : m3mul (m3mul swap (m3mul (m3mul swap m) swap)) swap = m.
Proof. destruct m. unfold swap, m3mul; cbn. f_equal; ring. Qed.
Definition ex_eig (r : m3) (k : euler_type) : v3 :=
  match k with
  | RPY => euler_zyx r
  | YPR => let e := euler_zyx (m3mul (m3mul swap r) swap) in V3 (vx e) (- vy e) (vz e)
  | EULER_UNDEFINED => v3zero
  end.
Lemma ex_eig_documented : documented_eulerAngles ex_eig.
Proof.
  intros r Rr. destruct (euler_zyx_ok r Rr) as (A & B & C & D). pose proof PI_RGT_0.
  assert (R2 : rotation (m3mul (m3mul swap r) swap)) by (repeat apply rotation_mul; auto using swap_rotation).
  destruct (euler_zyx_ok _ R2) as (A2 & B2 & C2 & D2). split; [exact A|]. split.
  - cbn [ex_eig vx vy vz]. set (e := euler_zyx (m3mul (m3mul swap r) swap)) in *. rewrite <- (swap_twice r), <- A2.
    unfold swap, m3mul, Rx, Ry, Rz; cbn. rewrite cos_neg, sin_neg. f_equal; ring.
  - intros [| |]; cbn [ex_eig vx vy vz v3zero]; repeat split; try lra; cbn; lra.
Qed.

(** ** C93 *)
Theorem matrix_to_euler (eig : m3 -> euler_type -> v3) (r : m3) : documented_eulerAngles eig -> rotation r ->
  (exists e, convertMatrixToEulerAngles eig r RPY = Ok e /\ rotation_zyx e = r /\ 0 <= vz e <= PI /\ - PI <= vy e <= PI /\ - PI <= vx e <= PI) /\
  (exists e, convertMatrixToEulerAngles eig r YPR = Ok e /\ rotation_xyz e = r /\ 0 <= vx e <= PI /\ - PI <= vy e <= PI /\ - PI <= vz e <= PI) /\
  convertMatrixToEulerAngles eig r EULER_UNDEFINED = Throw.
Proof.
  intros D Rr. destruct (D r Rr) as (A & B & C). split; [|split; [|reflexivity]].
  - eexists. split; [reflexivity|]. unfold rotation_zyx, v3reverse. cbn [vx vy vz]. split; [exact A|]. apply (C RPY).
  - eexists. split; [reflexivity|]. split; [exact B|]. apply (C YPR).
Qed.
(** the rotation described by angles of some type *)
Lemma euler_to_matrix e : convertEulerAnglesToMatrix e RPY = Ok (rotation_zyx e) /\ convertEulerAnglesToMatrix e YPR = Ok (rotation_xyz e).
Proof. destruct (euler_matrix_product e) as (A & B & _). split; assumption. Qed.
Lemma zyx_rotation e : rotation (rotation_zyx e).
Proof. apply (euler_matrix_rotation e RPY), (proj1 (euler_to_matrix e)). Qed.
Lemma xyz_rotation e : rotation (rotation_xyz e).
Proof. apply (euler_matrix_rotation e YPR), (proj2 (euler_to_matrix e)). Qed.
Theorem euler_converted (eig : m3 -> euler_type -> v3) (e : v3) (from to : euler_type) : documented_eulerAngles eig ->
  (from = EULER_UNDEFINED \/ to = EULER_UNDEFINED -> convertEulerAngles eig e from to = Throw) /\
  (from <> EULER_UNDEFINED -> to <> EULER_UNDEFINED -> exists e' r, convertEulerAngles eig e from to = Ok e' /\
    convertEulerAnglesToMatrix e from = Ok r /\ convertEulerAnglesToMatrix e' to = Ok r).
Proof.
  intros D. destruct (euler_to_matrix e) as (A & B). unfold convertEulerAngles. split.
  - intros [-> | ->]; [destruct (euler_matrix_product e) as (_ & _ & ->); reflexivity|]. destruct from; [|rewrite B; reflexivity|rewrite A; reflexivity].
    destruct (euler_matrix_product e) as (_ & _ & ->). reflexivity.
  - intros F T.
    assert (G : forall r, rotation r -> exists e', convertMatrixToEulerAngles eig r to = Ok e' /\ convertEulerAnglesToMatrix e' to = Ok r).
    { intros r Rr. destruct (matrix_to_euler eig r D Rr) as ((e1 & E1 & Q1 & _) & (e2 & E2 & Q2 & _) & _). destruct to; [congruence|exists e2|exists e1]; (split; [assumption|]);
      [rewrite (proj2 (euler_to_matrix e2)), Q2|rewrite (proj1 (euler_to_matrix e1)), Q1]; reflexivity. }
    destruct from; [congruence|rewrite B|rewrite A]; cbn [bind].
    + destruct (G _ (xyz_rotation e)) as (e' & E1 & E2). exists e', (rotation_xyz e). auto.
    + destruct (G _ (zyx_rotation e)) as (e' & E1 & E2). exists e', (rotation_zyx e). auto.
Qed.
(** yaw of a body which is upright *)
Lemma zyx_upright e a : rotation_zyx e = Rz a -> 0 <= vz e <= PI -> 0 < a < PI -> vz e = a.
Proof.
  intros E B A. unfold rotation_zyx, m3mul, Rx, Ry, Rz in E; cbn in E. injection E as E00 _ _ E10 _ _ E20 _ _.
  assert (S : sin (vy e) = 0) by lra. assert (SA : 0 < sin a) by (apply sin_gt_0; lra). assert (SY : 0 <= sin (vz e)) by (apply sin_ge_0; lra).
  assert (C : cos (vy e) * cos (vy e) = 1) by (pose proof (sin2_cos2 (vy e)) as H; unfold Rsqr in H; rewrite S in H; lra).
  ring_simplify in E00. ring_simplify in E10.
  assert (C1 : cos (vy e) = 1). { assert ((cos (vy e) - 1) * (cos (vy e) + 1) = 0) as H by lra. apply Rmult_integral in H. destruct H as [H|H]; [lra|]. exfalso. replace (cos (vy e)) with (-1) in E10 by lra. nra. }
  rewrite C1 in E00. apply cos_inj; lra.
Qed.
