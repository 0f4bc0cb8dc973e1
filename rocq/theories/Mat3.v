(** * 3d vectors and 3x3 matrices: the part of Eigen::Vector3d / Matrix3d used by the model (models no code) *)
From Coq Require Import Reals Lra.
Open Scope R_scope.

(** Eigen::Vector3d (etools::Vector3, eigentools.h:66-166) *)
Record v3 := V3 { vx : R; vy : R; vz : R }.
(** Eigen::Matrix3d (etools::Matrix3, eigentools.h:66-166) *)
Record m3 := M3 { m00 : R; m01 : R; m02 : R; m10 : R; m11 : R; m12 : R; m20 : R; m21 : R; m22 : R }.

(** an operation of Eigen on vectors, no code of /repo (used e.g. by rotary_state.h:71-219) *)
Definition v3zero : v3 := V3 0 0 0.
(** an operation of Eigen on vectors, no code of /repo (used e.g. by rotary_state.h:71-219) *)
Definition v3add (a b : v3) : v3 := V3 (vx a + vx b) (vy a + vy b) (vz a + vz b).
(** an operation of Eigen on vectors, no code of /repo (used e.g. by rotary_state.h:71-219) *)
Definition v3sub (a b : v3) : v3 := V3 (vx a - vx b) (vy a - vy b) (vz a - vz b).
(** an operation of Eigen on vectors, no code of /repo (used e.g. by rotary_state.h:71-219) *)
Definition v3scale (c : R) (a : v3) : v3 := V3 (c * vx a) (c * vy a) (c * vz a).
(** an operation of Eigen on vectors, no code of /repo (used e.g. by rotary_state.h:71-219) *)
Definition v3opp (a : v3) : v3 := V3 (- vx a) (- vy a) (- vz a).
(** an operation of Eigen on vectors, no code of /repo (used e.g. by rotary_state.h:71-219) *)
Definition v3dot (a b : v3) : R := vx a * vx b + vy a * vy b + vz a * vz b.
(** an operation of Eigen on vectors, no code of /repo (used e.g. by rotary_state.h:71-219) *)
Definition v3cross (a b : v3) : v3 :=
  V3 (vy a * vz b - vz a * vy b) (vz a * vx b - vx a * vz b) (vx a * vy b - vy a * vx b).
(** an operation of Eigen on vectors, no code of /repo (used e.g. by rotary_state.h:71-219) *)
Definition v3norm (a : v3) : R := sqrt (v3dot a a).

(** an operation of Eigen on matrices, no code of /repo (used e.g. by rotary_state.h:71-219) *)
Definition m3id : m3 := M3 1 0 0 0 1 0 0 0 1.
(** an operation of Eigen on matrices, no code of /repo (used e.g. by rotary_state.h:71-219) *)
Definition m3add (a b : m3) : m3 :=
  M3 (m00 a + m00 b) (m01 a + m01 b) (m02 a + m02 b) (m10 a + m10 b) (m11 a + m11 b) (m12 a + m12 b)
     (m20 a + m20 b) (m21 a + m21 b) (m22 a + m22 b).
(** an operation of Eigen on matrices, no code of /repo (used e.g. by rotary_state.h:71-219) *)
Definition m3scale (c : R) (a : m3) : m3 :=
  M3 (c * m00 a) (c * m01 a) (c * m02 a) (c * m10 a) (c * m11 a) (c * m12 a) (c * m20 a) (c * m21 a) (c * m22 a).
(** an operation of Eigen on matrices, no code of /repo (used e.g. by rotary_state.h:71-219) *)
Definition m3mul (a b : m3) : m3 :=
  M3 (m00 a * m00 b + m01 a * m10 b + m02 a * m20 b) (m00 a * m01 b + m01 a * m11 b + m02 a * m21 b) (m00 a * m02 b + m01 a * m12 b + m02 a * m22 b)
     (m10 a * m00 b + m11 a * m10 b + m12 a * m20 b) (m10 a * m01 b + m11 a * m11 b + m12 a * m21 b) (m10 a * m02 b + m11 a * m12 b + m12 a * m22 b)
     (m20 a * m00 b + m21 a * m10 b + m22 a * m20 b) (m20 a * m01 b + m21 a * m11 b + m22 a * m21 b) (m20 a * m02 b + m21 a * m12 b + m22 a * m22 b).
(** an operation of Eigen on matrices, no code of /repo (used e.g. by rotary_state.h:71-219) *)
Definition m3trans (a : m3) : m3 := M3 (m00 a) (m10 a) (m20 a) (m01 a) (m11 a) (m21 a) (m02 a) (m12 a) (m22 a).
(** an operation of Eigen on matrices, no code of /repo (used e.g. by rotary_state.h:71-219) *)
Definition m3det (a : m3) : R :=
  m00 a * (m11 a * m22 a - m12 a * m21 a) - m01 a * (m10 a * m22 a - m12 a * m20 a) + m02 a * (m10 a * m21 a - m11 a * m20 a).
(** an operation of Eigen on matrices, no code of /repo (used e.g. by rotary_state.h:71-219) *)
Definition m3app (a : m3) (v : v3) : v3 :=
  V3 (m00 a * vx v + m01 a * vy v + m02 a * vz v) (m10 a * vx v + m11 a * vy v + m12 a * vz v) (m20 a * vx v + m21 a * vy v + m22 a * vz v).
(** the matrix of the map v -> w x v (the result of CrossProductMatrix, cross_product.h:42-58) *)
Definition skew (w : v3) : m3 := M3 0 (- vz w) (vy w) (vz w) 0 (- vx w) (- vy w) (vx w) 0.

(** rotation matrices (no code of /repo: what rotary_state.h:41-60 expects of its argument) *)
Definition orthogonal (r : m3) : Prop := m3mul r (m3trans r) = m3id /\ m3mul (m3trans r) r = m3id.
(** no code of /repo: what rotary_state.h:41-60 expects of its argument *)
Definition rotation (r : m3) : Prop := orthogonal r /\ m3det r = 1.

Lemma skew_cross w v : m3app (skew w) v = v3cross w v.
Proof. destruct w, v; unfold m3app, v3cross; simpl; f_equal; ring. Qed.
Lemma m3mul_assoc a b c : m3mul (m3mul a b) c = m3mul a (m3mul b c).
Proof. unfold m3mul; simpl; f_equal; ring. Qed.
Lemma m3mul_id_l a : m3mul m3id a = a.
Proof. destruct a; unfold m3mul; simpl; f_equal; ring. Qed.
Lemma m3mul_id_r a : m3mul a m3id = a.
Proof. destruct a; unfold m3mul; simpl; f_equal; ring. Qed.
Lemma m3trans_mul a b : m3trans (m3mul a b) = m3mul (m3trans b) (m3trans a).
Proof. unfold m3mul, m3trans; simpl; f_equal; ring. Qed.
Lemma m3trans_trans a : m3trans (m3trans a) = a.
Proof. destruct a; reflexivity. Qed.
Lemma m3det_mul a b : m3det (m3mul a b) = m3det a * m3det b.
Proof. unfold m3det, m3mul; simpl; ring. Qed.
Lemma m3app_mul a b v : m3app (m3mul a b) v = m3app a (m3app b v).
Proof. unfold m3app, m3mul; simpl; f_equal; ring. Qed.
Lemma m3app_id v : m3app m3id v = v.
Proof. destruct v; unfold m3app; simpl; f_equal; ring. Qed.

Lemma orthogonal_mul a b : orthogonal a -> orthogonal b -> orthogonal (m3mul a b).
Proof.
  intros [A1 A2] [B1 B2]. split; rewrite m3trans_mul.
  - rewrite m3mul_assoc, <- (m3mul_assoc b), B1, m3mul_id_l. exact A1.
  - rewrite m3mul_assoc, <- (m3mul_assoc (m3trans a)), A2, m3mul_id_l. exact B2.
Qed.
Lemma rotation_mul a b : rotation a -> rotation b -> rotation (m3mul a b).
Proof. intros [A1 A2] [B1 B2]. split; [apply orthogonal_mul; assumption|]. rewrite m3det_mul, A2, B2. ring. Qed.
