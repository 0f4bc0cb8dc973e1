(** * Fixed-size 3d matrices as general matrices (models no code: Eigen's fixed-size types) *)
From Coq Require Import Reals Arith Lia Lra.
From Verif Require Import Base RSum Matrix Mat3.
Open Scope R_scope.

(** access to a component, Eigen (used e.g. by triple_integrator.h:51-100) *)
Definition v3get (v : v3) (i : nat) : R := match i with 0%nat => vx v | 1%nat => vy v | _ => vz v end.
(** Eigen's comma initialisers of a 3x3 matrix, a column and a row *)
Definition mat33 (m : m3) : mat :=
  mkMat 3 3 (fun i j => match i with
                        | 0%nat => v3get (V3 (m00 m) (m01 m) (m02 m)) j
                        | 1%nat => v3get (V3 (m10 m) (m11 m) (m12 m)) j
                        | _ => v3get (V3 (m20 m) (m21 m) (m22 m)) j
                        end).
(** a comma initialiser of Eigen, triple_integrator.h:116-154, 172-274 *)
Definition col3 (v : v3) : mat := mkMat 3 1 (fun i _ => v3get v i).
(** a comma initialiser of Eigen, triple_integrator.h:116-154, 172-274 *)
Definition row3 (v : v3) : mat := mkMat 1 3 (fun _ j => v3get v j).
(** comma initialiser [out << a, b, c, d] of four blocks (used by point_mass_model_6z.h:134-163) *)
Definition comma4 (a b c d : mat) : mat := mvcat (mhcat a b) (mhcat c d).
