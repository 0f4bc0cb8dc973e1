(** * Properties C41 (removal), C42 (concatenation), C43 (Gram matrices), C44 (selection of rows), C64 (block diagonal matrices) *)
From Coq Require Import List ZArith Reals Lra Arith Lia Bool.
From Verif Require Import Base RSum Matrix BlockMatrix BlockDiagonal BlockDiagonalFacts Constraints QP Eigentools EigentoolsSpec EigentoolsFacts SelectRowsFacts.
Import ListNotations.
Open Scope R_scope.

(** ** C41 *)
Theorem C41_row : forall m k,
  (k < mrows m)%nat -> exists m', removeRow m (Z.of_nat k) = Ok m' /\ m' ==m without_row m k.
Proof. exact removeRow_ok. Qed.
Theorem C41_row_rejected : forall m row,
  (row < 0 \/ Z.of_nat (mrows m) < row)%Z -> removeRow m row = Throw.
Proof. exact removeRow_rejects. Qed.
(** the index behind the last row is accepted *)
Theorem C41_row_behind : forall m,
  (0 < mrows m)%nat -> exists m', removeRow m (Z.of_nat (mrows m)) = Ok m' /\ m' ==m without_row m (mrows m - 1).
Proof. exact removeRow_end. Qed.
Theorem C41_row_refuted : exists m row, ~ (0 <= row < Z.of_nat (mrows m))%Z /\ removeRow m row <> Throw.
Proof. exact removeRow_refuted. Qed.
(** the index of the column is compared with the number of rows *)
Theorem C41_column : forall m k,
  (k < mcols m)%nat -> (k <= mrows m)%nat -> exists m', removeColumn m (Z.of_nat k) = Ok m' /\ m' ==m without_column m k.
Proof. exact removeColumn_ok. Qed.
Theorem C41_column_rejected : forall m column,
  (0 < mcols m)%nat -> (column < 0 \/ Z.of_nat (mrows m) < column)%Z -> removeColumn m column = Throw.
Proof. exact removeColumn_rejects. Qed.
Theorem C41_column_behind : forall m k,
  (0 < mcols m)%nat -> (mcols m <= k <= mrows m)%nat -> exists m', removeColumn m (Z.of_nat k) = Ok m' /\ m' ==m without_column m (mcols m - 1).
Proof. exact removeColumn_end. Qed.
Theorem C41_column_refuted : (exists m k, (0 <= k < Z.of_nat (mcols m))%Z /\ removeColumn m k = Throw) /\
  (exists m k, ~ (0 <= k < Z.of_nat (mcols m))%Z /\ removeColumn m k <> Throw).
Proof. exact removeColumn_refuted. Qed.
Definition numbered (r c : nat) : mat := mkMat r c (fun i j => INR (10 * i + j)).
Example C41_example : mget (without_row (numbered 3 2) 1) 1 1 = 21 /\ mget (without_row (numbered 3 2) 1) 0 1 = 1 /\ mget (without_column (numbered 2 3) 0) 1 1 = 12.
Proof. cbn. lra. Qed.

(** ** C42 *)
(** no two empty matrices next to each other: the nonempty ones on top of each other, or an assertion if their widths differ *)
Theorem C42_vertical : forall junk ms,
  isolated ms ->
  match filter nonempty ms with
  | [] => concatenateMatricesVertically junk ms = Ok (mzero 0 0)
  | m0 :: _ => ((forall m, In m (filter nonempty ms) -> mcols m = mcols m0) ->
                  exists r, concatenateMatricesVertically junk ms = Ok r /\ r ==m stack_rows (mcols m0) (filter nonempty ms)) /\
               (~ (forall m, In m (filter nonempty ms) -> mcols m = mcols m0) -> concatenateMatricesVertically junk ms = Throw)
  end.
Proof. exact concat_isolated. Qed.
(** all matrices, also the empty ones, of the same width *)
Theorem C42_vertical_same_width : forall junk ms c,
  (0 < c)%nat -> (forall m, In m ms -> mcols m = c) -> existsb nonempty ms = true ->
  exists r, concatenateMatricesVertically junk ms = Ok r /\ r ==m stack_rows c (filter nonempty ms).
Proof. exact concat_same_columns. Qed.
(** the second of two empty matrices is not ignored *)
Theorem C42_vertical_refuted : forall junk,
  exists ms m, filter nonempty ms = [m] /\ concatenateMatricesVertically junk ms = Throw.
Proof. exact concat_refuted. Qed.
Theorem C42_horizontal : forall m1 m2,
  let ms := filter has_rows [m1; m2] in
  match ms with
  | [] => concatenateMatricesHorizontally m1 m2 = Ok m2
  | m0 :: _ => ((forall m, In m ms -> mrows m = mrows m0) -> exists r, concatenateMatricesHorizontally m1 m2 = Ok r /\ r ==m stack_columns (mrows m0) ms) /\
               (~ (forall m, In m ms -> mrows m = mrows m0) -> concatenateMatricesHorizontally m1 m2 = Throw)
  end.
Proof. exact hconcat2. Qed.
Theorem C42_horizontal_three : forall m1 m2 m3,
  let ms := filter has_rows [m1; m2; m3] in
  match ms with
  | [] => concatenateMatricesHorizontally3 m1 m2 m3 = Ok m3
  | m0 :: _ => ((forall m, In m ms -> mrows m = mrows m0) -> exists r, concatenateMatricesHorizontally3 m1 m2 m3 = Ok r /\ r ==m stack_columns (mrows m0) ms) /\
               (~ (forall m, In m ms -> mrows m = mrows m0) -> concatenateMatricesHorizontally3 m1 m2 m3 = Throw)
  end.
Proof. exact hconcat3. Qed.
Example C42_example : isolated [mzero 0 5; numbered 1 2; mzero 3 0; numbered 2 2] /\
  filter nonempty [mzero 0 5; numbered 1 2; mzero 3 0; numbered 2 2] = [numbered 1 2; numbered 2 2] /\
  mget (stack_rows 2 [numbered 1 2; numbered 2 2]) 2 1 = 11 /\ mget (stack_columns 2 [numbered 2 1; numbered 2 2]) 1 2 = 11.
Proof. split; [cbn; auto 10|]. split; [reflexivity|]. cbn. lra. Qed.

(** ** C43 *)
Theorem C43_get : forall H A,
  exists H', et_getATA H A = Ok H' /\ mrows H' = mcols A /\ mcols H' = mcols A /\
  forall i j, (j <= i < mcols A)%nat -> mget H' i j = mget (mmul (mtrans A) A) i j.
Proof. exact getATA_ok. Qed.
Theorem C43_get_offset : forall H A off n,
  (off + mcols A <= n)%nat -> exists H', et_getATA_off H A off n = Ok H' /\ mrows H' = n /\ mcols H' = n /\
  forall i j, (j <= i < n)%nat -> mget H' i j = if in_block off (mcols A) i && in_block off (mcols A) j then mget (mmul (mtrans A) A) (i - off) (j - off) else 0.
Proof. exact getATA_off_ok. Qed.
Theorem C43_add : forall H A,
  (mcols A <= mrows H)%nat -> (mcols A <= mcols H)%nat ->
  exists H', et_addATA H A = Ok H' /\ mrows H' = mrows H /\ mcols H' = mcols H /\
  (forall i j, (j <= i < mcols A)%nat -> mget H' i j = mget H i j + mget (mmul (mtrans A) A) i j) /\
  (forall i j, (i < j)%nat \/ (mcols A <= i)%nat -> mget H' i j = mget H i j).
Proof. exact addATA_ok. Qed.
Theorem C43_add_offset : forall H A off,
  (off + mcols A <= mrows H)%nat -> (off + mcols A <= mcols H)%nat ->
  exists H', et_addATA_off H A off = Ok H' /\ mrows H' = mrows H /\ mcols H' = mcols H /\
  (forall i j, (j <= i)%nat -> mget H' i j = mget H i j + if in_block off (mcols A) i && in_block off (mcols A) j then mget (mmul (mtrans A) A) (i - off) (j - off) else 0) /\
  (forall i j, (i < j)%nat -> mget H' i j = mget H i j).
Proof. exact addATA_off_ok. Qed.
Theorem C43_symmetric : forall M,
  mrows M = mcols M -> exists S, convertLLTtoSymmetric M = Ok S /\ mrows S = mrows M /\ mcols S = mcols M /\
  (forall i j, (j <= i < mrows M)%nat -> mget S i j = mget M i j) /\ (forall i j, (i < mrows M)%nat -> (j < mrows M)%nat -> mget S i j = mget S j i).
Proof. exact symmetric_ok. Qed.
Theorem C43_whole : forall H A,
  exists H' S, et_getATA H A = Ok H' /\ convertLLTtoSymmetric H' = Ok S /\ S ==m mmul (mtrans A) A.
Proof. exact symmetric_gram. Qed.
Example C43_example : mget (mmul (mtrans (numbered 2 2)) (numbered 2 2)) 1 0 = 110 /\ (1 + mcols (numbered 2 2) <= 4)%nat.
Proof. split; [cbn; lra|cbn; lia]. Qed.

(** ** C44 *)
Theorem C44_selected : forall m step first,
  small m -> (1 <= step < 2 ^ 53)%Z -> (0 <= first <= Z.of_nat (mrows m))%Z ->
  exists v, selectRows m step first = Ok v /\ map_cols v = Z.of_nat (mcols m) /\
    (** the selected rows are exactly first, first + step, ... as far as the matrix goes *)
    (forall i, (0 <= i)%Z -> (i < map_rows v <-> first + i * step < Z.of_nat (mrows m))%Z) /\
    (forall i j, (0 <= i < map_rows v)%Z -> (0 <= j < map_cols v)%Z -> map_get m v i j = Ok (mget m (Z.to_nat (first + i * step)) (Z.to_nat j))).
Proof. exact selectRows_ok. Qed.
Theorem C44_operator : forall m step first,
  selection_mul (mkSel step first) m = selectRows m step first.
Proof. exact selection_matrix. Qed.
Theorem C44_first_behind_refuted : (exists m first, (Z.of_nat (mrows m) < first)%Z /\ selectRows m 1 first = UB) /\
  (exists m first v, (Z.of_nat (mrows m) < first)%Z /\ selectRows m 4 first = Ok v /\ (Z.of_nat (mrows m) < map_rows v)%Z).
Proof. exact selectRows_behind_refuted. Qed.
Theorem C44_zero_step_refuted : exists m, selectRows m 0 0 = UB.
Proof. exact selectRows_zero_step_refuted. Qed.
Example C44_example : small (numbered 7 2) /\ (1 <= 3 < 2 ^ 53)%Z /\ (0 <= 1 <= Z.of_nat (mrows (numbered 7 2)))%Z /\ (1 + 1 * 3 < 7)%Z /\ ~ (1 + 2 * 3 < 7)%Z.
Proof. unfold small. cbn. lia. Qed.

(** ** C64 *)
Theorem C64_repeated : forall a n,
  exists m, makeBlockDiagonal a n = Ok m /\
  mrows m = (n * mrows a)%nat /\ mcols m = (n * mcols a)%nat /\
  forall r c, (r < mrows m)%nat -> (c < mcols m)%nat -> mget m r c = bd_entry a r c.
Proof. exact makeBlockDiagonal_spec. Qed.
Theorem C64_list : forall l,
  exists m, makeBlockDiagonalList l = Ok m /\
  mrows m = list_sum (map mrows l) /\ mcols m = list_sum (map mcols l) /\
  forall r c, (r < mrows m)%nat -> (c < mcols m)%nat -> mget m r c = bd_list_entry l r c.
Proof. exact makeBlockDiagonalList_spec. Qed.
Theorem C64_applied : forall a n m x i r,
  makeBlockDiagonal a n = Ok m -> (i < n)%nat -> (r < mrows a)%nat ->
  vget (mulv m x) (i * mrows a + r) = vget (mulv a (vsegment x (i * mcols a) (mcols a))) r.
Proof. exact makeBlockDiagonal_apply. Qed.
Example C64_example : bd_entry (numbered 2 2) 3 2 = 10 /\ bd_entry (numbered 2 2) 3 1 = 0 /\
  bd_list_entry [numbered 1 1; numbered 2 3] 2 2 = 11 /\ bd_list_entry [numbered 1 1; numbered 2 3] 2 0 = 0.
Proof. unfold bd_entry. cbn. lra. Qed.

Print Assumptions C41_row. Print Assumptions C41_row_rejected. Print Assumptions C41_row_behind. Print Assumptions C41_row_refuted. Print Assumptions C41_column. Print Assumptions C41_column_rejected. Print Assumptions C41_column_behind. Print Assumptions C41_column_refuted. Print Assumptions C42_vertical. Print Assumptions C42_vertical_same_width. Print Assumptions C42_vertical_refuted. Print Assumptions C42_horizontal. Print Assumptions C42_horizontal_three. Print Assumptions C43_get. Print Assumptions C43_get_offset. Print Assumptions C43_add. Print Assumptions C43_add_offset. Print Assumptions C43_symmetric. Print Assumptions C43_whole. Print Assumptions C44_selected. Print Assumptions C44_operator. Print Assumptions C44_first_behind_refuted. Print Assumptions C44_zero_step_refuted. Print Assumptions C64_repeated. Print Assumptions C64_list. Print Assumptions C64_applied.
