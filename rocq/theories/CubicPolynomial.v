(** * 1D cubic polynomial (/repo/core/include/rigid_body/cubic_polynomial.h) *)
From Coq Require Import List Reals Bool.
From Verif Require Import Base.
Import ListNotations.
Open Scope R_scope.

(** cubic_polynomial.h:21-31 *)
Inductive evaluation_type := EVAL_UNDEFINED | POSITION | VELOCITY | ACCELERATION.

(** cubic_polynomial.h:211-214 (the default constructor, lines 47-50, builds [cubic_rest 0 0]) *)
Record cubic := mkCubic { a0 : R; a1 : R; a2 : R; a3 : R }.

(** cubic_polynomial.h:60-66 *)
Definition cubic_rest (a b : R) : cubic := mkCubic a 0 (3 * (b - a)) (-2 * (b - a)).
(** cubic_polynomial.h:78-87 *)
Definition cubic_velocities (a adot b bdot : R) : cubic :=
  mkCubic a adot (3 * (b - a) - 2 * (adot - bdot)) (-2 * (b - a) + 1 * (bdot - adot)).

(** the assertion of lines 99, 113, 127 *)
Definition time_ok (t : R) : bool := if Rle_dec 0 t then if Rle_dec t 1 then true else false else false.

(** cubic_polynomial.h:97-101 *)
Definition getPosition (p : cubic) (t : R) : outcome R := assert_then (time_ok t) (Ok (a0 p + a1 p * t + a2 p * t * t + a3 p * t * t * t)).
(** cubic_polynomial.h:111-115 *)
Definition getVelocity (p : cubic) (t : R) : outcome R := assert_then (time_ok t) (Ok (a1 p + 2 * a2 p * t + 3 * a3 p * t * t)).
(** cubic_polynomial.h:125-129 *)
Definition getAcceleration (p : cubic) (t : R) : outcome R := assert_then (time_ok t) (Ok (2 * a2 p + 6 * a3 p * t)).
(** cubic_polynomial.h:137-140 *)
Definition getJerk (p : cubic) : R := 6 * a3 p.
(** cubic_polynomial.h:151-165 *)
Definition eval (p : cubic) (t : R) (k : evaluation_type) : outcome R :=
  match k with
  | POSITION => getPosition p t
  | VELOCITY => getVelocity p t
  | ACCELERATION => getAcceleration p t
  | EVAL_UNDEFINED => Throw
  end.
(** cubic_polynomial.h:176-187 *)
Fixpoint eval_all (p : cubic) (ts : list R) (k : evaluation_type) : outcome (list R) :=
  match ts with
  | [] => Ok []
  | t :: rest => bind (eval p t k) (fun v => bind (eval_all p rest k) (fun vs => Ok (v :: vs)))
  end.
(** cubic_polynomial.h:197-207; the loop body does not run for an empty vector, so minCoeff/maxCoeff are of a nonempty one;
    division by zero (all points equal) is outside of the model *)
Definition scale (ts : list R) : outcome (list R) :=
  match ts with
  | [] => Ok []
  | t :: rest =>
      let lo := fold_left Rmin rest t in
      let hi := fold_left Rmax rest t in
      Ok (map (fun x => (x - lo) / (hi - lo)) ts)
  end.
