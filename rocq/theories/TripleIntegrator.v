(** * Triple integrator (/repo/core/include/rigid_body/triple_integrator.h)

    The template parameter t_number_of_integrators is the argument [n]. *)
From Coq Require Import Reals.
From Verif Require Import Base RSum Matrix Mat3 SmallMatrix BlockDiagonal.
Open Scope R_scope.

(** what is commanded: a constant jerk, or the final acceleration, velocity or position (triple_integrator.h:51-367) *)
Inductive control_kind := Jerk | Acc | Vel | Pos.

(** triple_integrator.h:55-58 *)
Definition AJerk3 (T : R) : m3 := M3 1 T (T * T / 2)  0 1 T  0 0 1.
(** triple_integrator.h:69-72 *)
Definition AAcc3 (T : R) : m3 := M3 1 T (T * T / 3)  0 1 (T / 2)  0 0 0.
(** triple_integrator.h:82-85 *)
Definition AVel3 (T : R) : m3 := M3 1 (2 * T / 3) (T * T / 6)  0 0 0  0 (-2 / T) (-1).
(** triple_integrator.h:95-98 *)
Definition APos3 (T : R) : m3 := M3 0 0 0  (-3 / T) (-2) (- T / 2)  (-6 / (T * T)) (-6 / T) (-2).
(** triple_integrator.h:51-100: getAJerk, getAAcc, getAVel, getAPos *)
Definition getA (k : control_kind) (n : nat) (T : R) : outcome mat :=
  makeBlockDiagonal (mat33 (match k with Jerk => AJerk3 T | Acc => AAcc3 T | Vel => AVel3 T | Pos => APos3 T end)) n.

(** triple_integrator.h:120-124 *)
Definition AsAcc3 (T Ts : R) : m3 :=
  M3 1 Ts (- (Ts * Ts * Ts - 3 * T * Ts * Ts) / (6 * T))
     0 1 (- (Ts * Ts - 2 * T * Ts) / (2 * T))
     0 0 (- (Ts - T) / T).
(** triple_integrator.h:134-138 *)
Definition AsVel3 (T Ts : R) : m3 :=
  M3 1 (- (Ts * Ts * Ts - 3 * T * T * Ts) / (3 * T * T)) (- (2 * Ts * Ts * Ts - 3 * T * Ts * Ts) / (6 * T))
     0 (- (Ts * Ts - T * T) / (T * T)) (- (Ts * Ts - T * Ts) / T)
     0 (- (2 * Ts) / (T * T)) (- (2 * Ts - T) / T).
(** triple_integrator.h:148-152 *)
Definition AsPos3 (T Ts : R) : m3 :=
  M3 (- (Ts * Ts * Ts - T * T * T) / (T * T * T)) (- (Ts * Ts * Ts - T * T * Ts) / (T * T)) (- (Ts * Ts * Ts - T * Ts * Ts) / (2 * T))
     (- (3 * Ts * Ts) / (T * T * T)) (- (3 * Ts * Ts - T * T) / (T * T)) (- (3 * Ts * Ts - 2 * T * Ts) / (2 * T))
     (- (6 * Ts) / (T * T * T)) (- (6 * Ts) / (T * T)) (- (3 * Ts - T) / T).
(** triple_integrator.h:116-154: getAsAcc, getAsVel, getAsPos; a constant jerk needs no subsampled version, getAJerk(Ts) is used *)
Definition getAs (k : control_kind) (n : nat) (T Ts : R) : outcome mat :=
  match k with
  | Jerk => getA Jerk n Ts
  | Acc => makeBlockDiagonal (mat33 (AsAcc3 T Ts)) n
  | Vel => makeBlockDiagonal (mat33 (AsVel3 T Ts)) n
  | Pos => makeBlockDiagonal (mat33 (AsPos3 T Ts)) n
  end.

(** triple_integrator.h:176-179 *)
Definition BJerk3 (T : R) : v3 := V3 (T * T * T / 6) (T * T / 2) T.
(** triple_integrator.h:190-193 *)
Definition BAcc3 (T : R) : v3 := V3 (T * T / 6) (T / 2) 1.
(** triple_integrator.h:203-206 *)
Definition BVel3 (T : R) : v3 := V3 (T / 3) 1 (2 / T).
(** triple_integrator.h:216-219 *)
Definition BPos3 (T : R) : v3 := V3 1 (3 / T) (6 / (T * T)).
(** triple_integrator.h:172-221: getBJerk, getBAcc, getBVel, getBPos *)
Definition getB (k : control_kind) (n : nat) (T : R) : outcome mat :=
  makeBlockDiagonal (col3 (match k with Jerk => BJerk3 T | Acc => BAcc3 T | Vel => BVel3 T | Pos => BPos3 T end)) n.

(** triple_integrator.h:240-244 *)
Definition BsAcc3 (T Ts : R) : v3 := V3 (Ts * Ts * Ts / (6 * T)) (Ts * Ts / (2 * T)) (Ts / T).
(** triple_integrator.h:254-258 *)
Definition BsVel3 (T Ts : R) : v3 := V3 (Ts * Ts * Ts / (3 * T * T)) (Ts * Ts / (T * T)) (2 * Ts / (T * T)).
(** triple_integrator.h:268-272 *)
Definition BsPos3 (T Ts : R) : v3 := V3 (Ts * Ts * Ts / (T * T * T)) (3 * Ts * Ts / (T * T * T)) (6 * Ts / (T * T * T)).
(** triple_integrator.h:236-274: getBsAcc, getBsVel, getBsPos *)
Definition getBs (k : control_kind) (n : nat) (T Ts : R) : outcome mat :=
  match k with
  | Jerk => getB Jerk n Ts
  | Acc => makeBlockDiagonal (col3 (BsAcc3 T Ts)) n
  | Vel => makeBlockDiagonal (col3 (BsVel3 T Ts)) n
  | Pos => makeBlockDiagonal (col3 (BsPos3 T Ts)) n
  end.

(** triple_integrator.h:292-321: getDAcc, getDVel, getDPos; a commanded jerk is the output itself *)
Definition D3 (k : control_kind) (T : R) : v3 :=
  match k with
  | Jerk => V3 0 0 0
  | Acc => V3 0 0 (-1 / T)
  | Vel => V3 0 (-2 / (T * T)) (-2 / T)
  | Pos => V3 (-6 / (T * T * T)) (-6 / (T * T)) (-3 / T)
  end.
(** triple_integrator.h:292-321 *)
Definition getD (k : control_kind) (n : nat) (T : R) : outcome mat := makeBlockDiagonal (row3 (D3 k T)) n.

(** triple_integrator.h:338-367: getEAcc, getEVel, getEPos *)
Definition E3 (k : control_kind) (T : R) : R :=
  match k with Jerk => 1 | Acc => 1 / T | Vel => 2 / (T * T) | Pos => 6 / (T * T * T) end.
(** triple_integrator.h:338-367 *)
Definition getE (k : control_kind) (n : nat) (T : R) : outcome mat := Ok (mscale (E3 k T) (mid n)).
