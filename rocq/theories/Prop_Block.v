(** * Properties C39 (block matrix products) and C40 (block Kronecker products) *)
From Coq Require Import Reals Lra Arith Lia.
From Verif Require Import Base RSum Matrix BlockMatrix BlockMatrixFacts BlockMatrixSpec BlockProductFacts Kronecker KroneckerFacts KroneckerFacts2.
Open Scope R_scope.

(** ** C39 *)
Theorem C39_diagonal_times_dense : forall junk b N m,
  has_blocks b N N -> mrows m = (N * block_cols b)%nat ->
  exists res, bm_multiplyRight_diag junk b m = Ok res /\ res ==m mmul (block_diagonal_of b) m.
Proof. exact diag_right. Qed.
Theorem C39_dense_times_diagonal : forall junk b N m,
  has_blocks b N N -> mcols m = (N * block_rows b)%nat ->
  exists res, bm_multiplyLeft_diag junk b m = Ok res /\ res ==m mmul m (block_diagonal_of b).
Proof. exact diag_left. Qed.
Theorem C39_lower_times_dense : forall b nv nh m,
  has_blocks b nv nh -> mrows m = mcols (raw b) ->
  (forall i j, (i < mrows (raw b))%nat -> (j < mcols (raw b))%nat -> (i / block_rows b < j / block_cols b)%nat -> mget (raw b) i j = 0) ->
  exists res, bm_multiplyRight b m = Ok res /\ res ==m mmul (block_lower_of b) m.
Proof. exact lower_dense. Qed.
Theorem C39_lower1_times_dense : forall b nv nh m,
  has_blocks b nv nh -> block_rows b = 1%nat -> block_cols b = 1%nat -> mrows m = mcols (raw b) ->
  exists res, bm_multiplyRight_llt1 b m = Ok res /\ res ==m mmul (block_lower_of b) m.
Proof. exact lower1_dense. Qed.
Theorem C39_generic_times_dense : forall b m,
  mrows m = mcols (raw b) -> bm_multiplyRight b m = Ok (mmul (raw b) m).
Proof. exact generic_dense. Qed.
Theorem C39_block_times_diagonal : forall junk left right N,
  has_blocks right N N -> mcols (raw left) = (N * block_rows right)%nat ->
  exists res, bm_mul_by_diag junk left right = Ok res /\ res ==m mmul (raw left) (block_diagonal_of right).
Proof. exact by_diag. Qed.
Theorem C39_diagonal_times_block : forall junk left right N,
  has_blocks left N N -> mrows (raw right) = (N * block_cols left)%nat ->
  exists res, bm_mul_diag_by junk left right = Ok res /\ res ==m mmul (block_diagonal_of left) (raw right).
Proof. exact diag_by. Qed.
Theorem C39_sizes_rejected : forall junk b nv nh m,
  has_blocks b nv nh ->
  (mrows m <> mcols (raw b) -> bm_multiplyRight b m = Throw /\ bm_multiplyRight_llt1 b m = Throw /\ bm_multiplyRight_diag junk b m = Throw) /\
  (mcols m <> mrows (raw b) -> bm_multiplyLeft_diag junk b m = Throw).
Proof. exact product_size_rejected. Qed.
(** a block diagonal matrix with more block rows than block columns: the result has uninitialised entries *)
Theorem C39_rectangular_refuted : has_blocks tall 2 1 /\ exists junk m res, mrows m = mcols (raw tall) /\
  bm_multiplyRight_diag junk tall m = Ok res /\ ~ (res ==m mmul (block_diagonal_of tall) m).
Proof. exact rectangular_refuted. Qed.
Theorem C39_wide_rejected : forall junk b nv nh m,
  has_blocks b nv nh -> (nv < nh)%nat -> mrows m = mcols (raw b) -> bm_multiplyRight_diag junk b m <> UB /\
  forall res, bm_multiplyRight_diag junk b m <> Ok res.
Proof. exact wide_rejected. Qed.
Definition two_blocks : bmat := mkBm (mkMat 4 2 (fun i j => if (i / 2 =? j)%nat then INR (i + 1) else 9)) 2 1.
Example C39_example : has_blocks two_blocks 2 2 /\
  mget (mmul (block_diagonal_of two_blocks) (mkMat 2 1 (fun i _ => INR (i + 1)))) 3 0 = 8 /\
  mget (mmul (block_lower_of two_blocks) (mkMat 2 1 (fun i _ => INR (i + 1)))) 3 0 = 17.
Proof. split; [repeat split; cbn; lia|]. cbn. lra. Qed.

(** ** C40 *)
Theorem C40_constructor : forall m s r c k,
  kron_make m s r c = Ok k <-> k = mkKron (mkBm m r c) s /\ (1 < s)%nat /\ exists nv nh, has_blocks (mkBm m r c) nv nh.
Proof. exact kron_make_iff. Qed.
Theorem C40_evaluate : forall lower k nv nh,
  has_blocks (kbm k) nv nh -> (0 < ksize k)%nat ->
  exists out, kron_evaluate lower k = Ok out /\ out ==m kron_of (dense_of lower (kbm k)) (block_rows (kbm k)) (block_cols (kbm k)) (ksize k).
Proof. exact kron_evaluate_dense. Qed.
Theorem C40_evaluate_into_block : forall lower k nv nh m i0 j0,
  has_blocks (kbm k) nv nh -> (0 < ksize k)%nat ->
  let r := (ksize k * mrows (raw (kbm k)))%nat in let c := (ksize k * mcols (raw (kbm k)))%nat in
  (i0 + r <= mrows m)%nat -> (j0 + c <= mcols m)%nat ->
  exists out, kron_evaluate_block lower k m i0 j0 r c = Ok out /\
    out ==m mset_block m i0 j0 (kron_of (dense_of lower (kbm k)) (block_rows (kbm k)) (block_cols (kbm k)) (ksize k)).
Proof. exact kron_evaluate_block_dense. Qed.
Theorem C40_times_diagonal : forall junk lower k dbm nv nh,
  has_blocks (kbm k) nv nh -> (0 < ksize k)%nat -> has_blocks dbm nh nh ->
  block_rows dbm = (block_cols (kbm k) * ksize k)%nat -> (lower = true -> (nh <= nv)%nat) ->
  exists out, kron_multiplyRight junk lower k dbm = Ok out /\
    out ==m mmul (kron_of (dense_of lower (kbm k)) (block_rows (kbm k)) (block_cols (kbm k)) (ksize k)) (block_diagonal_of dbm).
Proof. exact kron_right_dense. Qed.
Theorem C40_times_vector : forall junk junk' k v nv nh,
  has_blocks (kbm k) nv nh -> (0 < ksize k)%nat ->
  mrows v = (ksize k * mcols (raw (kbm k)))%nat -> mcols v = 1%nat ->
  exists out, kron_multiplyRight_vector junk junk' k v = Ok out /\
    out ==m mmul (kron_of (raw (kbm k)) (block_rows (kbm k)) (block_cols (kbm k)) (ksize k)) v.
Proof. exact kron_vector_dense. Qed.
Theorem C40_scalar_times_diagonal : forall junk lower k dbm nv nh result0,
  has_blocks (kbm k) nv nh -> block_rows (kbm k) = 1%nat -> block_cols (kbm k) = 1%nat ->
  (0 < ksize k)%nat -> has_blocks dbm nh nh -> block_rows dbm = ksize k -> (exists a b, has_blocks (mkBm result0 (block_rows dbm) (block_cols dbm)) a b) ->
  exists out, kron1_multiplyRight junk lower k dbm result0 = Ok out /\
    out ==m mmul (kron_of (dense_of lower (kbm k)) 1 1 (ksize k)) (block_diagonal_of dbm).
Proof. exact kron1_right_dense. Qed.
Theorem C40_scalar_times_vector : forall k v nv nh,
  has_blocks (kbm k) nv nh -> block_rows (kbm k) = 1%nat -> block_cols (kbm k) = 1%nat -> (0 < ksize k)%nat ->
  mrows v = (ksize k * mcols (raw (kbm k)))%nat -> mcols v = 1%nat ->
  exists out, kron1_multiplyRight_vector k v = Ok out /\ out ==m mmul (kron_of (raw (kbm k)) 1 1 (ksize k)) v.
Proof. exact kron1_vector_dense. Qed.
Theorem C40_diagonal_times_scalar : forall k dbm n result0,
  has_blocks (kbm k) n n -> block_rows (kbm k) = 1%nat -> block_cols (kbm k) = 1%nat ->
  (0 < ksize k)%nat -> has_blocks dbm n n -> block_rows dbm = ksize k -> block_cols dbm = ksize k ->
  (exists a b, has_blocks (mkBm result0 (ksize k) (ksize k)) a b) ->
  exists out, kron1_multiplyLeft k dbm result0 = Ok out /\
    out ==m mmul (block_diagonal_of dbm) (kron_of (dense_of true (kbm k)) 1 1 (ksize k)).
Proof. exact kron1_left_dense. Qed.
(** the sizes which are checked are those of the product in the other order *)
Theorem C40_diagonal_times_scalar_refuted : exists k dbm, has_blocks (kbm k) 1 1 /\ block_rows (kbm k) = 1%nat /\ block_cols (kbm k) = 1%nat /\ (1 < ksize k)%nat /\
  has_blocks dbm 1 1 /\ mcols (raw dbm) = mrows (kron_of (dense_of true (kbm k)) 1 1 (ksize k)) /\
  forall result0 out, kron1_multiplyLeft k dbm result0 <> Ok out.
Proof. exact kron1_left_refuted. Qed.
Theorem C40_function : forall input r c s nv nh,
  (0 < r)%nat -> (0 < c)%nat -> mrows input = (nv * r)%nat -> mcols input = (nh * c)%nat -> 
  exists out, multiplyBlockKroneckerIdentity input r c s = Ok out /\ out ==m kron_of input r c s.
Proof. exact kron_identity_dense. Qed.
(** a 4 x 2 matrix of 2 x 1 blocks with an identity of size 2: the (5, 2) entry is the second entry of the first copy of the
    block (1, 1); in the triangular case the block (0, 1) does not count *)
Example C40_example : (exists k, kron_make (raw two_blocks) 2 2 1 = Ok k) /\
  mget (kron_of (raw two_blocks) 2 1 2) 5 2 = 4 /\ mget (kron_of (raw two_blocks) 2 1 2) 3 3 = 9 /\ mget (kron_of (raw two_blocks) 2 1 2) 3 2 = 0 /\
  mget (kron_of (dense_of true two_blocks) 2 1 2) 3 3 = 0 /\
  has_blocks (mkBm (mid 4) 2 2) 2 2 /\ (block_rows (mkBm (mid 4) 2 2) = 1 * 2)%nat /\ has_blocks (mkBm (mzero 0 0) 2 2) 0 0.
Proof. split; [eexists; reflexivity|]. split; [cbn; lra|]. split; [cbn; lra|]. split; [cbn; lra|]. split; [cbn; lra|]. repeat split; cbn; lia. Qed.

Print Assumptions C39_diagonal_times_dense. Print Assumptions C39_dense_times_diagonal. Print Assumptions C39_lower_times_dense. Print Assumptions C39_lower1_times_dense. Print Assumptions C39_generic_times_dense. Print Assumptions C39_block_times_diagonal. Print Assumptions C39_diagonal_times_block. Print Assumptions C39_sizes_rejected. Print Assumptions C39_rectangular_refuted. Print Assumptions C39_wide_rejected. Print Assumptions C40_constructor. Print Assumptions C40_evaluate. Print Assumptions C40_evaluate_into_block. Print Assumptions C40_times_diagonal. Print Assumptions C40_times_vector. Print Assumptions C40_scalar_times_diagonal. Print Assumptions C40_scalar_times_vector. Print Assumptions C40_diagonal_times_scalar. Print Assumptions C40_diagonal_times_scalar_refuted. Print Assumptions C40_function.
