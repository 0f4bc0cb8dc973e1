(** * 2d vectors and 2x2 matrices: the part of Eigen::Vector2d / Matrix2d used by the model (models no code) *)
From Coq Require Import Reals Lra.
Open Scope R_scope.

(** Eigen::Vector2d (etools::Vector2, eigentools.h:66-166) *)
Record v2 := V2 { ux : R; uy : R }.
(** Eigen::Matrix2d (etools::Matrix2, eigentools.h:66-166) *)
Record m2 := M2 { a00 : R; a01 : R; a10 : R; a11 : R }.

(** an operation of Eigen on vectors, no code of /repo (used e.g. by two_point_mass_model.h:104-130) *)
Definition v2zero : v2 := V2 0 0.
(** an operation of Eigen on vectors, no code of /repo (used e.g. by two_point_mass_model.h:104-130) *)
Definition v2add (a b : v2) : v2 := V2 (ux a + ux b) (uy a + uy b).
(** an operation of Eigen on vectors, no code of /repo (used e.g. by two_point_mass_model.h:104-130) *)
Definition v2sub (a b : v2) : v2 := V2 (ux a - ux b) (uy a - uy b).
(** an operation of Eigen on vectors, no code of /repo (used e.g. by two_point_mass_model.h:104-130) *)
Definition v2scale (c : R) (a : v2) : v2 := V2 (c * ux a) (c * uy a).
(** an operation of Eigen on vectors, no code of /repo (used e.g. by two_point_mass_model.h:104-130) *)
Definition v2dot (a b : v2) : R := ux a * ux b + uy a * uy b.
(** an operation of Eigen on matrices, no code of /repo (used e.g. by preview_horizon.h:202-253) *)
Definition m2id : m2 := M2 1 0 0 1.
(** an operation of Eigen on matrices, no code of /repo (used e.g. by preview_horizon.h:202-253) *)
Definition m2mul (a b : m2) : m2 :=
  M2 (a00 a * a00 b + a01 a * a10 b) (a00 a * a01 b + a01 a * a11 b) (a10 a * a00 b + a11 a * a10 b) (a10 a * a01 b + a11 a * a11 b).
(** an operation of Eigen on matrices, no code of /repo (used e.g. by preview_horizon.h:202-253) *)
Definition m2trans (a : m2) : m2 := M2 (a00 a) (a10 a) (a01 a) (a11 a).
(** an operation of Eigen on matrices, no code of /repo (used e.g. by preview_horizon.h:202-253) *)
Definition m2app (a : m2) (v : v2) : v2 := V2 (a00 a * ux v + a01 a * uy v) (a10 a * ux v + a11 a * uy v).
(** Eigen::Rotation2D(angle) *)
Definition rot2 (angle : R) : m2 := M2 (cos angle) (- sin angle) (sin angle) (cos angle).

Lemma v2_eq a b : ux a = ux b -> uy a = uy b -> a = b.
Proof. destruct a, b; simpl; intros; subst; reflexivity. Qed.
Lemma m2_eq a b : a00 a = a00 b -> a01 a = a01 b -> a10 a = a10 b -> a11 a = a11 b -> a = b.
Proof. destruct a, b; simpl; intros; subst; reflexivity. Qed.
