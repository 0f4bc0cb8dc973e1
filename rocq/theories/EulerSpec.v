(** * Specification vocabulary for C93: Euler angles of rotation matrices *)
From Coq Require Import Reals.
From Verif Require Import Base Mat3 Rotary RotarySpec.
Open Scope R_scope.

(** rotations given by roll, pitch, yaw, stored in this order: about z, y, x, and about x, y, z *)
Definition rotation_zyx (e : v3) : m3 := m3mul (m3mul (Rz (vz e)) (Ry (vy e))) (Rx (vx e)).
Definition rotation_xyz (e : v3) : m3 := m3mul (m3mul (Rx (vx e)) (Ry (vy e))) (Rz (vz e)).
(** what the documentation of MatrixBase::eulerAngles promises: the product of the rotations about the axes is the matrix; the first
    angle is in [0, pi], the others in [-pi, pi] *)
Definition documented_eulerAngles (eig : m3 -> euler_type -> v3) : Prop :=
  forall r, rotation r ->
    m3mul (m3mul (Rz (vx (eig r RPY))) (Ry (vy (eig r RPY)))) (Rx (vz (eig r RPY))) = r /\
    m3mul (m3mul (Rx (vx (eig r YPR))) (Ry (vy (eig r YPR)))) (Rz (vz (eig r YPR))) = r /\
    forall k, 0 <= vx (eig r k) <= PI /\ - PI <= vy (eig r k) <= PI /\ - PI <= vz (eig r k) <= PI.
