(** * Specification vocabulary for C29, C30 *)
From Coq Require Import Reals.
From Verif Require Import Base Matrix Mat3 PointMass6z.
Open Scope R_scope.

(** horizontal axes *)
Inductive axis := AxisX | AxisY.
Definition along (a : axis) (v : v3) : R := match a with AxisX => vx v | AxisY => vy v end.
Definition axis_index (a : axis) : nat := match a with AxisX => 0 | AxisY => 1 end.

(** centre of pressure of a point mass at constant height on flat ground: g (position - cop) = height * acceleration *)
Definition is_cop (height : R) (s : point_mass_state) (a : axis) (cop : R) : Prop :=
  gravity * (along a (pm_position s) - cop) = height * along a (pm_acceleration s).

(** the state that is stored in the 6d vector *)
Definition state_of (c : vec) (height : R) : point_mass_state := convertCoMState_to_3d c height.
