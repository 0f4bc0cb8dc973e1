(** * Block Kronecker products (/repo/core/include/eigentools/blockmatrix_kronecker.h, eigentools.h:700-738)
    The classes are templates over the sparsity type; [lower] is true for the LEFT_LOWER_TRIANGULAR specialisations and false
    for the others.  Vectors are matrices with one column. *)
From Coq Require Import Reals Arith Bool.
From Verif Require Import Base RSum Matrix BlockMatrix.
Open Scope R_scope.

(** blockmatrix_kronecker.h:28-42, 302-311: the block matrix and identity_size_ *)
Record kron := mkKron { kbm : bmat; ksize : nat }.
(** constructors, blockmatrix_kronecker.h:302-310, 509-517, 729-737, 962-970 *)
Definition kron_make (m : mat) (identity_size r c : nat) : outcome kron :=
  bind (bm_finalize m r c) (fun b => assert_then (1 <? identity_size)%nat (Ok (mkKron b identity_size))).
(** the first row of column j which is visited: 0 in general, j in the left lower triangular case (blockmatrix_kronecker.h:61, 367) *)
Definition first_row (lower : bool) (j : nat) : nat := if lower then j else 0%nat.

(** evaluateWithoutInitialization, blockmatrix_kronecker.h:53-74 and 359-380; the versions for 1x1 blocks, 561-582 and 778-799, are the same with
    single entries instead of blocks *)
Definition kron_fill (lower : bool) (k : kron) (out : mat) : outcome mat :=
  let b := kbm k in let s := ksize k in
  for_up (num_blocks_hor b) 0 (fun j out =>
    for_up (num_blocks_vert b - first_row lower j) (first_row lower j) (fun i out =>
      for_up s 0 (fun t out =>
        bind (bget b i j) (fun x => putb out ((i * s + t) * block_rows b) ((j * s + t) * block_cols b) (block_rows b) (block_cols b) x))
      out) out) out.
(** evaluate, blockmatrix_kronecker.h:250-272, 458-480, 677-699, 911-933 *)
Definition kron_evaluate (lower : bool) (k : kron) : outcome mat :=
  kron_fill lower k (mzero (ksize k * mrows (raw (kbm k))) (ksize k * mcols (raw (kbm k)))).
(** evaluate(output.block(i0, j0, r, c)), blockmatrix_kronecker.h:286-290, 494-498, 713-717, 947-951 *)
Definition kron_evaluate_block (lower : bool) (k : kron) (output : mat) (i0 j0 r c : nat) : outcome mat :=
  bind (getb output i0 j0 r c) (fun _ => bind (kron_fill lower k (mzero r c)) (fun x => putb output i0 j0 r c x)).

(** the permutation, blockmatrix_kronecker.h:113-126 and 419-432 *)
Definition kron_indices (b : bmat) (s : nat) : outcome (nat -> nat) :=
  let r := block_rows b in let rows := mrows (raw b) in
  for_up s 0 (fun i idx =>
    for_up (num_blocks_vert b) 0 (fun j idx =>
      assert_then (j * r * s + i * r + r <=? s * rows)%nat
        (Ok (fun x => if in_block (j * r * s + i * r) r x then (i * rows + j * r + (x - (j * r * s + i * r)))%nat else idx x)))
    idx) (fun _ => 0%nat).
(** multiplyRight by a diagonal block matrix, blockmatrix_kronecker.h:96-144 and 402-449.  The result is resized ([junk]) in the generic case and set
    to zero in the triangular one. *)
Definition kron_multiplyRight (junk : nat -> nat -> R) (lower : bool) (k : kron) (dbm : bmat) : outcome mat :=
  let b := kbm k in let s := ksize k in let r := block_rows b in let c := block_cols b in let rows := mrows (raw b) in
  let nv := num_blocks_vert b in let nh := num_blocks_hor b in
  assert_then (block_rows dbm =? c * s)%nat (assert_then (nh =? num_blocks_vert dbm)%nat
  (assert_then (nh * c * s =? getNumberOfRows dbm)%nat
  (let result := mkMat (s * rows) (getNumberOfColumns dbm) (if lower then (fun _ _ => 0) else junk) in
   if (nh =? 0)%nat then Ok result else
   let dbc := (getNumberOfColumns dbm / nh)%nat in
   bind (kron_indices b s) (fun idx =>
   bind (for_up s 0 (fun i result =>
      for_up nh 0 (fun j result =>
        let f := first_row lower j in
        assert_then (f <=? nv)%nat
        (bind (bget_column b j f (nv - f)) (fun col =>
         bind (bget dbm j j) (fun d =>
         bind (getb d (i * c) 0 c dbc) (fun y =>
         bind (mmul_o col y) (fun p => putb result (i * rows + f * r) (dbc * j) ((nv - f) * r) dbc p))))))
      result) result) (fun result =>
   Ok (mkMat (mrows result) (mcols result) (fun x y => mget result (idx x) y))))))).
(** multiplyRight by a vector, blockmatrix_kronecker.h:214-241 (not for the triangular matrices: the overload is not accessible there) *)
Definition kron_multiplyRight_vector (junk junk' : nat -> nat -> R) (k : kron) (v : mat) : outcome mat :=
  let b := kbm k in let s := ksize k in let r := block_rows b in let c := block_cols b in
  bind (for_up s 0 (fun i st =>
    bind (for_up (num_blocks_hor b) 0 (fun j part =>
            bind (getb v (j * c * s + i * c) 0 c 1) (fun x => putb part (j * c) 0 c 1 x)) (snd st)) (fun part =>
    bind (mmul_o (raw b) part) (fun rp =>
    bind (for_up (num_blocks_vert b) 0 (fun j result =>
            bind (getb rp (j * r) 0 r 1) (fun x => putb result (j * r * s + i * r) 0 r 1 x)) (fst st)) (fun result =>
    Ok (result, part))))) (mkMat (s * mrows (raw b)) 1 junk, mkMat (mcols (raw b)) 1 junk')) (fun st => Ok (fst st)).

(** ** 1x1 blocks *)
(** multiplyRight by a diagonal block matrix, blockmatrix_kronecker.h:602-634 and 819-852; [result0] is the matrix passed by the caller, it must consist
    of blocks of the right size although it is resized.  The sizes of the blocks of [dbm] are static. *)
Definition kron1_multiplyRight (junk : nat -> nat -> R) (lower : bool) (k : kron) (dbm : bmat) (result0 : mat) : outcome mat :=
  let b := kbm k in let s := ksize k in let nv := num_blocks_vert b in let nh := num_blocks_hor b in
  assert_then (block_rows dbm =? s)%nat (assert_then (nh =? num_blocks_vert dbm)%nat
  (assert_then (nh * s =? getNumberOfRows dbm)%nat
  (bind (bm_finalize result0 (block_rows dbm) (block_cols dbm)) (fun _ =>
   bind (bm_resize (if lower then (fun _ _ => 0) else junk) (block_rows dbm) (block_cols dbm) nv (num_blocks_hor dbm)) (fun result =>
   bind (if (nh =? 0)%nat then Ok result else
     for_up (num_blocks_hor dbm) 0 (fun j result =>
       for_up (nv - first_row lower j) (first_row lower j) (fun i result =>
         bind (bget b i j) (fun x => bind (bget dbm j j) (fun d => bput result i j (mscale (mget x 0 0) d))))
       result) result) (fun result => Ok (raw result))))))).
(** multiplyRight by a vector, blockmatrix_kronecker.h:653-668 *)
Definition kron1_multiplyRight_vector (k : kron) (v : mat) : outcome mat :=
  let b := kbm k in let s := ksize k in
  for_up (num_blocks_hor b) 0 (fun j result =>
    for_up (num_blocks_vert b) 0 (fun i result =>
      bind (getb result (i * s) 0 s 1) (fun old =>
      bind (bget b i j) (fun x =>
      bind (getb v (j * s) 0 s 1) (fun y => putb result (i * s) 0 s 1 (madd old (mscale (mget x 0 0) y))))))
    result) (mzero (s * mrows (raw b)) 1).
(** multiplyLeft, left lower triangular, blockmatrix_kronecker.h:871-902 *)
Definition kron1_multiplyLeft (k : kron) (dbm : bmat) (result0 : mat) : outcome mat :=
  let b := kbm k in let s := ksize k in let nv := num_blocks_vert b in let nh := num_blocks_hor b in
  assert_then (block_rows dbm =? s)%nat (assert_then (nh =? num_blocks_vert dbm)%nat
  (assert_then (nh * s =? getNumberOfRows dbm)%nat
  (bind (bm_finalize result0 (block_rows dbm) (block_cols dbm)) (fun _ =>
   bind (bm_setZero (block_rows dbm) (block_cols dbm) nv (num_blocks_hor dbm)) (fun result =>
   bind (if (nh =? 0)%nat then Ok result else
     for_up nh 0 (fun j result =>
       for_up (num_blocks_vert dbm - j) j (fun i result =>
         bind (bget dbm i i) (fun d => bind (bget b i j) (fun x => bput result i j (mscale (mget x 0 0) d))))
       result) result) (fun result => Ok (raw result))))))).

(** ** multiplyBlockKroneckerIdentity, eigentools.h:700-738.  The sizes are unsigned; the remainder of a division by 0 is
    undefined behaviour. *)
Definition multiplyBlockKroneckerIdentity (input : mat) (r c s : nat) : outcome mat :=
  if (r =? 0)%nat then UB else assert_then (mrows input mod r =? 0)%nat (
  if (c =? 0)%nat then UB else assert_then (mcols input mod c =? 0)%nat (
  for_up (mrows input / r) 0 (fun i out =>
    for_up (mcols input / c) 0 (fun j out =>
      for_up s 0 (fun t out =>
        bind (getb input (i * r) (j * c) r c) (fun x => putb out (i * (s * r) + t * r) (j * (s * c) + t * c) r c x))
      out) out) (mzero (s * mrows input) (s * mcols input)))).
