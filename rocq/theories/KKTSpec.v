(** * Specification vocabulary for C16 *)
From Coq Require Import List Arith Reals Bool.
From Verif Require Import RSum Matrix QPSpec.
Open Scope R_scope.

(** A x = b *)
Definition feasible (A : mat) (b : vec) (x : nat -> R) : Prop :=
  forall r, (r < mrows A)%nat -> Rsum (mcols A) (fun j => mget A r j * x j) = vget b r.
(** the gradient H x + g of the objective is a combination of the rows of A *)
Definition stationary (H : mat) (g : vec) (A : mat) (x : nat -> R) : Prop :=
  exists lam, forall i, (i < mrows H)%nat ->
    Rsum (mcols H) (fun j => mget H i j * x j) + vget g i = Rsum (mrows A) (fun r => lam r * mget A r i).
Definition positive_semidefinite (H : mat) : Prop :=
  forall d : nat -> R, 0 <= Rsum (mrows H) (fun i => Rsum (mcols H) (fun j => d i * mget H i j * d j)).
(** positive on the nonzero directions which keep A x *)
Definition positive_on_kernel (H A : mat) : Prop :=
  forall d : nat -> R, (forall r, (r < mrows A)%nat -> Rsum (mcols A) (fun j => mget A r j * d j) = 0) ->
    (exists i, (i < mrows H)%nat /\ d i <> 0) ->
    0 < Rsum (mrows H) (fun i => Rsum (mcols H) (fun j => d i * mget H i j * d j)).
(** shape of a QP with [nv] variables *)
Definition qp_shape (nv : nat) (H : mat) (g : vec) (A : mat) (b : vec) : Prop :=
  mrows H = nv /\ mcols H = nv /\ vlen g = nv /\ (mrows A <> 0%nat -> mcols A = nv) /\ vlen b = mrows A.
(** [y] solves the linear system K y = r *)
Definition solves (K : mat) (r y : vec) : Prop := vlen y = mcols K /\ veq (mulv K y) r.
Definition minimises (f : (nat -> R) -> R) (P : (nat -> R) -> Prop) (x : nat -> R) : Prop := P x /\ forall y, P y -> f x <= f y.
