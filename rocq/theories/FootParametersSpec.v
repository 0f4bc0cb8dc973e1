(** * Specification vocabulary for C35 *)
From Coq Require Import Reals.
From Verif Require Import Base LeftRight Mat2.
Open Scope R_scope.

(** reflection in the sagittal plane *)
Definition mirror (v : v2) : v2 := V2 (ux v) (- uy v).
Definition mirror_matrix (m : m2) : m2 := M2 (a00 m) (- a01 m) (- a10 m) (a11 m).
(** bounds are 2x2 matrices [lower, upper], one row for each coordinate *)
Definition within (b : m2) (v : v2) : Prop := a00 b <= ux v <= a01 b /\ a10 b <= uy v <= a11 b.
Definition ordered (b : m2) : Prop := a00 b <= a01 b /\ a10 b <= a11 b.
Definition mirror_bounds (b : m2) : m2 := M2 (a00 b) (a01 b) (- a11 b) (- a10 b).
(** the only point within the bounds *)
Definition only (b : m2) (v : v2) : Prop := forall w, within b w <-> w = v.
Definition the_other (x y : lr) : Prop := (x = LEFT /\ y = RIGHT) \/ (x = RIGHT /\ y = LEFT).
