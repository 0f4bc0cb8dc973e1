(** * Specification vocabulary for C39, C40: the dense matrices which block matrices stand for *)
From Coq Require Import Reals Arith.
From Verif Require Import Base RSum Matrix BlockMatrix.
Open Scope R_scope.

(** all blocks but the diagonal ones are zero *)
Definition block_diagonal_of (b : bmat) : mat :=
  mkMat (mrows (raw b)) (mcols (raw b))
    (fun i j => if (i / block_rows b =? j / block_cols b)%nat then mget (raw b) i j else 0).
(** the blocks above the diagonal are zero *)
Definition block_lower_of (b : bmat) : mat :=
  mkMat (mrows (raw b)) (mcols (raw b))
    (fun i j => if (j / block_cols b <=? i / block_rows b)%nat then mget (raw b) i j else 0).
(** the matrix obtained from [m], which consists of r x c blocks, by replacing each block X by the block diagonal matrix with
    [s] copies of X *)
Definition kron_of (m : mat) (r c s : nat) : mat :=
  mkMat (s * mrows m) (s * mcols m)
    (fun i j => let a := (i / r)%nat in let b := (j / c)%nat in
       if (a mod s =? b mod s)%nat then mget m ((a / s) * r + i mod r) ((b / s) * c + j mod c) else 0).
(** the dense matrix which a block matrix stands for: the blocks above the diagonal of a left lower triangular matrix do not
    count *)
Definition dense_of (lower : bool) (b : bmat) : mat := if lower then block_lower_of b else raw b.
