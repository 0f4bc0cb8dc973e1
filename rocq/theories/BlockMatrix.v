(** * Block matrices (/repo/core/include/eigentools/blockmatrix_base.h, blockmatrix.h): access and products *)
From Coq Require Import Reals Arith Bool.
From Verif Require Import Base RSum Matrix.
Open Scope R_scope.

(** Eigen m.block(i0, j0, r, c): reading; Eigen asserts the range *)
Definition getb (m : mat) (i0 j0 r c : nat) : outcome mat :=
  assert_then ((i0 + r <=? mrows m)%nat && (j0 + c <=? mcols m)%nat) (Ok (mblock m i0 j0 r c)).
(** Eigen m.block(i0, j0, r, c) = src; Eigen asserts the range and the size of src *)
Definition putb (m : mat) (i0 j0 r c : nat) (src : mat) : outcome mat :=
  assert_then ((mrows src =? r)%nat && (mcols src =? c)%nat) (mset_block_o m i0 j0 src).

(** blockmatrix_base.h:414-421: the raw matrix with the size of a block; the numbers of blocks are recomputed after each change
    of the raw matrix.  The sizes may be static (template parameters) or dynamic in the code; both are members here. *)
Record bmat := mkBm { raw : mat; block_rows : nat; block_cols : nat }.
(** blockmatrix_base.h:515 *)
Definition num_blocks_vert (b : bmat) : nat := (mrows (raw b) / block_rows b)%nat.
(** blockmatrix_base.h:527 *)
Definition num_blocks_hor (b : bmat) : nat := (mcols (raw b) / block_cols b)%nat.
(** blockmatrix_base.h:504-529 *)
Definition bm_finalize (m : mat) (r c : nat) : outcome bmat :=
  assert_then (negb (r =? 0)%nat) (assert_then (mrows m mod r =? 0)%nat
    (assert_then (negb (c =? 0)%nat) (assert_then (mcols m mod c =? 0)%nat (Ok (mkBm m r c))))).
(** blockmatrix_base.h:143-156 *)
Definition getNumberOfRows (b : bmat) : nat := (block_rows b * num_blocks_vert b)%nat.
(** blockmatrix_base.h:155-158 *)
Definition getNumberOfColumns (b : bmat) : nat := (block_cols b * num_blocks_hor b)%nat.
(** blockmatrix_base.h:167-172 *)
Definition bm_set (b : bmat) (m : mat) : outcome bmat := bm_finalize m (block_rows b) (block_cols b).
(** blockmatrix_base.h:180-187: the new entries are uninitialised ([junk]) *)
Definition bm_resize (junk : nat -> nat -> R) (r c nv nh : nat) : outcome bmat :=
  bm_finalize (mkMat (nv * r) (nh * c) junk) r c.
(** blockmatrix_base.h:196-202 *)
Definition bm_setZero (r c nv nh : nat) : outcome bmat := bm_finalize (mzero (nv * r) (nh * c)) r c.

(** block access, blockmatrix_base.h:569-606 (static sizes), 628-660 (dynamic), 755-790 (1x1) *)
Definition bget (b : bmat) (i j : nat) : outcome mat :=
  getb (raw b) (i * block_rows b) (j * block_cols b) (block_rows b) (block_cols b).
(** assignment to a block, blockmatrix_base.h:570-576 (static sizes), 628-660 (dynamic), 755-790 (1x1) *)
Definition bput (b : bmat) (i j : nat) (src : mat) : outcome bmat :=
  bind (putb (raw b) (i * block_rows b) (j * block_cols b) (block_rows b) (block_cols b) src)
    (fun m => Ok (mkBm m (block_rows b) (block_cols b))).
(** row(i, first, number), blockmatrix_base.h:293-302, 322-331 *)
Definition bget_row (b : bmat) (i first num : nat) : outcome mat :=
  getb (raw b) (i * block_rows b) (first * block_cols b) (block_rows b) (num * block_cols b).
(** assignment to row(), blockmatrix_base.h:297-306 *)
Definition bput_row (b : bmat) (i first num : nat) (src : mat) : outcome bmat :=
  bind (putb (raw b) (i * block_rows b) (first * block_cols b) (block_rows b) (num * block_cols b) src)
    (fun m => Ok (mkBm m (block_rows b) (block_cols b))).
(** column(j, first, number) and column(j), blockmatrix_base.h:235-278 *)
Definition bget_column (b : bmat) (j first num : nat) : outcome mat :=
  getb (raw b) (first * block_rows b) (j * block_cols b) (num * block_rows b) (block_cols b).
(** assignment to column(), blockmatrix_base.h:238-247 *)
Definition bput_column (b : bmat) (j first num : nat) (src : mat) : outcome bmat :=
  bind (putb (raw b) (first * block_rows b) (j * block_cols b) (num * block_rows b) (block_cols b) src)
    (fun m => Ok (mkBm m (block_rows b) (block_cols b))).

(** ** products *)
(** generic (blockmatrix_base.h:864-869) and left lower triangular (1049-1070) matrices: the dense product *)
Definition bm_multiplyRight (b : bmat) (m : mat) : outcome mat := mmul_o (raw b) m.
(** 1x1 blocks, left lower triangular: blockmatrix_base.h:1130-1137; Eigen's triangularView<Lower> treats the entries above
    the diagonal as zeros *)
Definition lower_part (m : mat) : mat := mkMat (mrows m) (mcols m) (fun i j => if (j <=? i)%nat then mget m i j else 0).
(** blockmatrix_base.h:1130-1137 *)
Definition bm_multiplyRight_llt1 (b : bmat) (m : mat) : outcome mat :=
  assert_then (mrows m =? getNumberOfColumns b)%nat (mmul_o (lower_part (raw b)) m).
(** diagonal: blockmatrix_base.h:917-933 *)
Definition bm_multiplyRight_diag (junk : nat -> nat -> R) (b : bmat) (m : mat) : outcome mat :=
  assert_then (mrows m =? getNumberOfColumns b)%nat
    (for_up (num_blocks_hor b) 0 (fun i res =>
       bind (bget b i i) (fun d =>
       bind (getb m (i * block_cols b) 0 (block_cols b) (mcols m)) (fun x =>
       bind (mmul_o d x) (fun p =>
       putb res (i * block_rows b) 0 (block_rows b) (mcols m) p))))
     (mkMat (getNumberOfRows b) (mcols m) junk)).
(** blockmatrix_base.h:947-963 *)
Definition bm_multiplyLeft_diag (junk : nat -> nat -> R) (b : bmat) (m : mat) : outcome mat :=
  assert_then (mcols m =? getNumberOfRows b)%nat
    (for_up (num_blocks_vert b) 0 (fun i res =>
       bind (getb m 0 (i * block_rows b) (mrows m) (block_rows b)) (fun x =>
       bind (bget b i i) (fun d =>
       bind (mmul_o x d) (fun p =>
       putb res 0 (i * block_cols b) (mrows m) (block_cols b) p))))
     (mkMat (mrows m) (getNumberOfColumns b) junk)).
(** products of two block matrices, 1248-1279 (right factor diagonal) and 1294-1323 (general; the left factor decides) *)
Definition bm_mul_by_diag (junk : nat -> nat -> R) (left right : bmat) : outcome mat := bm_multiplyLeft_diag junk right (raw left).
(** blockmatrix_base.h:1294-1323, left factor diagonal *)
Definition bm_mul_diag_by (junk : nat -> nat -> R) (left right : bmat) : outcome mat := bm_multiplyRight_diag junk left (raw right).
