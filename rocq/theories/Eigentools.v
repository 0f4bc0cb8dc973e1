(** * Removal of rows and columns, concatenation, selection of rows (/repo/core/include/eigentools/eigentools.h)
    Indices of type ptrdiff_t are integers; a failed assertion of Eigen is [Throw]. *)
From Coq Require Import List ZArith Arith Reals Bool.
From Flocq Require Import BinarySingleNaN.
From Verif Require Import Base RSum Matrix BlockMatrix Time.
Import ListNotations.
Open Scope R_scope.

(** Eigen m.block(i, j, r, c) with signed arguments: every one of them has to be nonnegative and the block inside of the matrix (eigentools.h:647-648, 679-680) *)
Definition zblock (m : mat) (i j r c : Z) : outcome mat :=
  assert_then ((0 <=? i) && (0 <=? j) && (0 <=? r) && (0 <=? c))%Z (getb m (Z.to_nat i) (Z.to_nat j) (Z.to_nat r) (Z.to_nat c)).
(** assignment to such a block, eigentools.h:647, 679 *)
Definition zput (m : mat) (i j : Z) (src : mat) : outcome mat :=
  assert_then ((0 <=? i) && (0 <=? j))%Z (mset_block_o m (Z.to_nat i) (Z.to_nat j) src).
(** Eigen m.conservativeResize(r, c), new entries (there are none here) are [0].  With a negative number of rows the temporary
    matrix of the new size is rejected. With a negative number of columns the number of rows is unchanged and only the product
    of the sizes is checked (check_rows_cols_for_overflow), which an empty matrix passes: the result has a negative size (UB). *)
Definition conservativeResize (m : mat) (r c : Z) : outcome mat :=
  assert_then (0 <=? r)%Z
    (if (c <? 0)%Z then (if (r =? 0)%Z then UB else Throw)
     else Ok (mkMat (Z.to_nat r) (Z.to_nat c) (fun i j => if (i <? mrows m)%nat && (j <? mcols m)%nat then mget m i j else 0))).

(** eigentools.h:635-652 *)
Definition removeRow (m : mat) (row : Z) : outcome mat :=
  let rows := Z.of_nat (mrows m) in let cols := Z.of_nat (mcols m) in
  assert_then (row <=? rows)%Z
   (let number_of_rows := (rows - 1)%Z in
    bind (if (row <? number_of_rows)%Z then
            bind (zblock m (row + 1) 0 (number_of_rows - row) cols) (fun b => zput m row 0 b)
          else Ok m) (fun m' => conservativeResize m' number_of_rows cols)).
(** eigentools.h:667-684: the index is compared with the number of rows *)
Definition removeColumn (m : mat) (column : Z) : outcome mat :=
  let rows := Z.of_nat (mrows m) in let cols := Z.of_nat (mcols m) in
  assert_then (column <=? rows)%Z
   (let number_of_cols := (cols - 1)%Z in
    bind (if (column <? number_of_cols)%Z then
            bind (zblock m 0 (column + 1) rows (number_of_cols - column)) (fun b => zput m 0 column b)
          else Ok m) (fun m' => conservativeResize m' rows number_of_cols)).

(** ** concatenation *)
(** rows() == 0 or cols() == 0 by size(), eigentools.h:485 *)
Definition no_entries (m : mat) : bool := (mrows m * mcols m =? 0)%nat.
(** std::vector::erase(), eigentools.h:483-490 *)
Definition erase_at (i : nat) (l : list mat) : list mat := firstn i l ++ skipn (S i) l.
(** eigentools.h:484-491: when a matrix is erased the index is incremented nevertheless; [k] is the number of iterations left
    at most *)
Fixpoint erase_empty (k i : nat) (l : list mat) : list mat :=
  match k with
  | O => l
  | S k' => match nth_error l i with
            | None => l
            | Some m => erase_empty k' (S i) (if no_entries m then erase_at i l else l)
            end
  end.
(** eigentools.h:510-514 *)
Fixpoint place_rows (ms : list mat) (row : nat) (result : mat) : outcome mat :=
  match ms with
  | [] => Ok result
  | m :: rest => bind (putb result row 0 (mrows m) (mcols result) m) (fun r => place_rows rest (row + mrows m) r)
  end.
(** eigentools.h:466-518 *)
Definition concatenateMatricesVertically (junk : nat -> nat -> R) (matrices : list mat) : outcome mat :=
  match matrices with
  | [] => Ok (mzero 0 0)
  | _ => match erase_empty (length matrices) 0 matrices with
         | [] => Ok (mzero 0 0)
         | m0 :: rest =>
           let ms := m0 :: rest in
           assert_then (forallb (fun m => (mcols m0 =? mcols m)%nat) ms)
             (place_rows ms 0 (mkMat (list_sum (map mrows ms)) (mcols m0) junk))
         end
  end.
(** eigentools.h:532-562; [result << a, b] after the resize to the total size *)
Definition concatenateMatricesHorizontally (m1 m2 : mat) : outcome mat :=
  if (mrows m1 =? 0)%nat then Ok m2 else if (mrows m2 =? 0)%nat then Ok m1 else
  assert_then (mrows m1 =? mrows m2)%nat (Ok (mhcat m1 m2)).
(** eigentools.h:579-620 *)
Definition concatenateMatricesHorizontally3 (m1 m2 m3 : mat) : outcome mat :=
  if (mrows m1 =? 0)%nat then concatenateMatricesHorizontally m2 m3 else
  if (mrows m2 =? 0)%nat then concatenateMatricesHorizontally m1 m3 else
  if (mrows m3 =? 0)%nat then concatenateMatricesHorizontally m1 m2 else
  assert_then ((mrows m1 =? mrows m2)%nat && (mrows m1 =? mrows m3)%nat) (Ok (mhcat m1 (mhcat m2 m3))).

(** ** selection *)
(** the array of a column major matrix; access outside of it is undefined (matrix.data() in eigentools.h:758-772) *)
Definition data (m : mat) (k : Z) : outcome R :=
  if (0 <=? k)%Z && (k <? Z.of_nat (mrows m * mcols m))%Z then Ok (mget m (Z.to_nat k mod mrows m) (Z.to_nat k / mrows m)) else UB.
(** Eigen::Map with strides: entry (i, j) is data[base + i * inner + j * outer] (eigentools.h:758-772) *)
Record strided_map := mkMap { map_base : Z; map_rows : Z; map_cols : Z; map_outer : Z; map_inner : Z }.
(** access to an entry of such a map, eigentools.h:758-772 *)
Definition map_get (m : mat) (v : strided_map) (i j : Z) : outcome R := data m (map_base v + i * map_inner v + j * map_outer v).
(** ceil() of eigentools.h:769 *)
Definition dceil (a : double) : double := Bnearbyint (prec_lt_emax_ := prec_emax) mode_UP a.
(** conversion of a double to ptrdiff_t, undefined when the value does not fit (eigentools.h:769) *)
Definition to_index (a : double) : outcome Z :=
  if is_finite a && (- 2 ^ 63 <=? Btrunc a)%Z && (Btrunc a <? 2 ^ 63)%Z then Ok (Btrunc a) else UB.
(** eigentools.h:758-772: rows - first_row is computed with 64 bit unsigned integers *)
Definition selectRows (m : mat) (row_step first_row : Z) : outcome strided_map :=
  let n := ((Z.of_nat (mrows m) - first_row) mod 2 ^ 64)%Z in
  bind (to_index (dceil (ddiv (double_of_Z n) (double_of_Z row_step)))) (fun count =>
    Ok (mkMap first_row count (Z.of_nat (mcols m)) (Z.of_nat (mrows m)) row_step)).
(** eigentools.h:778-825 *)
Record SelectionMatrix := mkSel { step_size : Z; first_index : Z }.
(** eigentools.h:781-825 *)
Definition selection_mul (s : SelectionMatrix) (m : mat) : outcome strided_map := selectRows m (step_size s) (first_index s).
