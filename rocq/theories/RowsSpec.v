(** * Bounds of a row of constraints: a missing bound is an infinite one (used by C84, C85) *)
From Coq Require Import Reals.
From Verif Require Import Constraints ConstraintsSpec.
Open Scope R_scope.

Definition lower_or_inf (c : constr) (j : nat) : R := match lower c j with Some b => b | None => - g_infinity end.
Definition upper_or_inf (c : constr) (j : nat) : R := match upper c j with Some b => b | None => g_infinity end.
