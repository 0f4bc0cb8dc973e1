(** * Specification vocabulary for C31-C34, C45 *)
From Coq Require Import Reals.
From Verif Require Import Base Mat3.
Open Scope R_scope.

(** elementary rotations about the coordinate axes *)
Definition Rx (a : R) : m3 := M3 1 0 0  0 (cos a) (- sin a)  0 (sin a) (cos a).
Definition Ry (a : R) : m3 := M3 (cos a) 0 (sin a)  0 1 0  (- sin a) 0 (cos a).
Definition Rz (a : R) : m3 := M3 (cos a) (- sin a) 0  (sin a) (cos a) 0  0 0 1.

(** rotation by [angle] about a unit [axis] (Rodrigues formula) *)
Definition unit_vector (n : v3) : Prop := v3dot n n = 1.
Definition axis_rotation (n : v3) (angle : R) : m3 :=
  m3add (m3add m3id (m3scale (sin angle) (skew n))) (m3scale (1 - cos angle) (m3mul (skew n) (skew n))).

(** entrywise derivative *)
Definition m3_derivative (F : R -> m3) (t : R) (D : m3) : Prop :=
  derivable_pt_lim (fun s => m00 (F s)) t (m00 D) /\ derivable_pt_lim (fun s => m01 (F s)) t (m01 D) /\ derivable_pt_lim (fun s => m02 (F s)) t (m02 D) /\
  derivable_pt_lim (fun s => m10 (F s)) t (m10 D) /\ derivable_pt_lim (fun s => m11 (F s)) t (m11 D) /\ derivable_pt_lim (fun s => m12 (F s)) t (m12 D) /\
  derivable_pt_lim (fun s => m20 (F s)) t (m20 D) /\ derivable_pt_lim (fun s => m21 (F s)) t (m21 D) /\ derivable_pt_lim (fun s => m22 (F s)) t (m22 D).
