(** * Specification vocabulary for C24-C26 *)
From Coq Require Import Reals.
From Verif Require Import Base CubicPolynomial.
Open Scope R_scope.

Definition between (a b x : R) : Prop := Rmin a b <= x <= Rmax a b.
(** [f] is reported on [0, 1], and any other time is rejected *)
Definition reported (report : R -> outcome R) (f : R -> R) : Prop :=
  (forall t, 0 <= t <= 1 -> report t = Ok (f t)) /\ (forall t, t < 0 \/ 1 < t -> report t = Throw).
Definition derivative (f f' : R -> R) : Prop := forall t, derivable_pt_lim f t (f' t).
