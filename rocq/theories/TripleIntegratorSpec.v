(** * Specification vocabulary for C27, C28 *)
From Coq Require Import Reals.
From Verif Require Import Base Matrix TripleIntegrator.
Open Scope R_scope.

(** motion of one integrator with a constant jerk [j] from position [p], velocity [v], acceleration [a] *)
Definition motion_position (p v a j t : R) : R := p + v * t + a * (t * t / 2) + j * (t * t * t / 6).
Definition motion_velocity (v a j t : R) : R := v + a * t + j * (t * t / 2).
Definition motion_acceleration (a j t : R) : R := a + j * t.

(** the state of the [i]-th integrator *)
Definition position_of (x : vec) (i : nat) : R := vget x (3 * i).
Definition velocity_of (x : vec) (i : nat) : R := vget x (3 * i + 1).
Definition acceleration_of (x : vec) (i : nat) : R := vget x (3 * i + 2).

(** [y] is the state reached from [x] after time [t] with constant jerks [j], for [n] integrators *)
Definition moved (n : nat) (x y j : vec) (t : R) : Prop :=
  forall i, (i < n)%nat ->
    position_of y i = motion_position (position_of x i) (velocity_of x i) (acceleration_of x i) (vget j i) t /\
    velocity_of y i = motion_velocity (velocity_of x i) (acceleration_of x i) (vget j i) t /\
    acceleration_of y i = motion_acceleration (acceleration_of x i) (vget j i) t.

(** x+ = A x + B u *)
Definition predict (A B : outcome mat) (x u : vec) : outcome vec :=
  bind A (fun a => bind B (fun b => Ok (vadd (mulv a x) (mulv b u)))).
