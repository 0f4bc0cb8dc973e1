(** * Spatial transforms without rotation (/repo/bridges/rbdl/interface/rbdl/spatial_transform.h) *)
From Coq Require Import Reals Arith.
From Verif Require Import Base Mat3 Matrix.
Open Scope R_scope.

(** spatial_transform.h:27-33 *)
Inductive spatial_type := SP_UNDEFINED | COMPLETE | TRANSLATION | ROTATION.
(** spatial_transform.h:44-56 *)
Definition getNumberOfElements (t : spatial_type) : outcome nat :=
  match t with COMPLETE => Ok 6%nat | ROTATION | TRANSLATION => Ok 3%nat | SP_UNDEFINED => Throw end.

(** row r of column i after the transformation, spatial_transform.h:95-101 *)
Definition st_entry (t : v3) (m : mat) (r i : nat) : R :=
  match r with
  | 0%nat => mget m 0 i
  | 1%nat => mget m 1 i
  | 2%nat => mget m 2 i
  | 3%nat => vz t * mget m 1 i - vy t * mget m 2 i + mget m 3 i
  | 4%nat => vx t * mget m 2 i - vz t * mget m 0 i + mget m 4 i
  | _ => vy t * mget m 0 i - vx t * mget m 1 i + mget m 5 i
  end.
(** spatial_transform.h:89-103.  The loop is over the columns of the result; each column is written by a comma initialiser
    (the result must have 6 rows) and all 6 rows of the same column of [m] are read; Eigen asserts on both.
    The loop is modelled by the matrix of the written values. *)
Definition st_apply (t : v3) (result_rows result_cols : nat) (m : mat) : outcome mat :=
  if (result_cols =? 0)%nat then Ok (mkMat result_rows 0 (fun _ _ => 0))
  else assert_then ((result_rows =? 6)%nat && (6 <=? mrows m)%nat && (result_cols <=? mcols m)%nat)
         (Ok (mkMat 6 result_cols (st_entry t m))).
(** spatial_transform.h:115-126 *)
Definition st_applyGetTranslationPart (t : v3) (result_rows result_cols : nat) (m : mat) : outcome mat :=
  if (result_cols =? 0)%nat then Ok (mkMat result_rows 0 (fun _ _ => 0))
  else assert_then ((result_rows =? 3)%nat && (6 <=? mrows m)%nat && (result_cols <=? mcols m)%nat)
         (Ok (mkMat 3 result_cols (fun r i => st_entry t m (3 + r) i))).
(** spatial_transform.h:138-143: assignment to a block asserts equal sizes *)
Definition st_applyGetRotationPart (result_rows result_cols : nat) (m : mat) : outcome mat :=
  assert_then ((3 <=? mrows m)%nat && (result_rows =? 3)%nat && (result_cols =? mcols m)%nat) (Ok (mblock m 0 0 3 (mcols m))).
(** spatial_transform.h:146-167 *)
Definition st_applySelective (k : spatial_type) (t : v3) (result_rows result_cols : nat) (m : mat) : outcome mat :=
  match k with
  | COMPLETE => st_apply t result_rows result_cols m
  | TRANSLATION => st_applyGetTranslationPart t result_rows result_cols m
  | ROTATION => st_applyGetRotationPart result_rows result_cols m
  | SP_UNDEFINED => Throw
  end.
