(** * Euler angles of rotation matrices (/repo/core/include/rigid_body/rotary_state.h).

    MatrixBase::eulerAngles of Eigen is an argument: [eig r YPR] is r.eulerAngles(0, 1, 2), [eig r RPY] is r.eulerAngles(2, 1, 0). *)
From Coq Require Import Reals.
From Verif Require Import Base Mat3 Rotary.
Open Scope R_scope.

(** reverse() of Eigen, rotary_state.h:41-60 *)
Definition v3reverse (v : v3) : v3 := V3 (vz v) (vy v) (vx v).
(** rotary_state.h:41-60 *)
Definition convertMatrixToEulerAngles (eig : m3 -> euler_type -> v3) (r : m3) (k : euler_type) : outcome v3 :=
  match k with
  | YPR => Ok (eig r YPR)
  | RPY => Ok (v3reverse (eig r RPY))
  | EULER_UNDEFINED => Throw
  end.
(** rotary_state.h:107-113 *)
Definition convertEulerAngles (eig : m3 -> euler_type -> v3) (e : v3) (from to : euler_type) : outcome v3 :=
  bind (convertEulerAnglesToMatrix e from) (fun r => convertMatrixToEulerAngles eig r to).
