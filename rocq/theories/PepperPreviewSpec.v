(** * Specification vocabulary for C57, C58, C59 *)
From Coq Require Import List Arith ZArith Lia Reals.
From Verif Require Import Base Mat2 PepperPreview.
Import ListNotations.

(** what a motion commands, apart from its duration: velocity, position, angular velocity *)
Definition command : Type := v2 * v2 * R.
Definition command_of (m : motion) : command := (mo_velocity m, mo_position m, mo_angular m).

(** durations that make sense: unlimited or non-negative (and representable) *)
Definition valid_duration (m : motion) : Prop := mo_duration m = (-1)%Z \/ (0 <= mo_duration m < 2 ^ 63)%Z.
Definition valid_queue (q : list motion) : Prop := Forall valid_duration q.

(** the motion that is executed [t] milliseconds from now: motions follow one another, an unlimited one never ends *)
Fixpoint executed (q : list motion) (t : Z) : option motion :=
  match q with
  | [] => None
  | m :: rest =>
      if Z.eq_dec (mo_duration m) (-1) then Some m
      else if Z_lt_dec t (mo_duration m) then Some m
      else executed rest (t - mo_duration m)
  end.
Definition commanded (q : list motion) (t : Z) : option command := option_map command_of (executed q t).

(** some motion never ends *)
Definition endless (q : list motion) : Prop := exists m, In m q /\ mo_duration m = (-1)%Z.
(** duration of motions that end *)
Fixpoint total (q : list motion) : Z := match q with [] => 0%Z | m :: rest => (mo_duration m + total rest)%Z end.

(** sum of the first [i] angular velocities times [T] *)
Fixpoint turned (w : nat -> R) (T : R) (i : nat) : R := match i with O => 0%R | S j => (turned w T j + w j * T)%R end.

Definition sum_before (durations : list nat) (i : nat) : nat := list_sum (firstn i durations).
Definition sum_before_s (durations : list R) (i : nat) : R := fold_right Rplus 0%R (firstn i durations).

(** the parameters make sense *)
Definition proper (p : mpc_parameters) : Prop := (0 < horizon_length p)%nat /\ (0 < sampling_ms p <= 2 ^ 63)%Z.

(** a formed interval: what it contains for the motion [m] when the orientation before it is [theta] *)
Definition follows (p : mpc_parameters) (model : pepper_view) (v : interval) (m : motion) (theta : R) : Prop :=
  in_T_ms v = sampling_ms p /\ in_T v = (IZR (sampling_ms p) / 1000)%R /\ in_theta v = (theta + mo_angular m * in_T v)%R /\
  in_base_height v = view_base_height model /\ in_body_height v = view_body_height model /\
  in_base_mass v = view_base_mass model /\ in_body_mass v = view_body_mass model /\
  in_set v = Some (rot2 (in_theta v), m2app (rot2 (in_theta v)) (mo_velocity m), mo_position m,
                   (view_cop_bounds model, view_velocity_bounds model, view_acceleration_bounds model, view_body_bounds model)).

