From Coq Require Import List Reals Arith Lra Lia Bool.
From Verif Require Import Base BaseFacts RSum Matrix BlockDiagonalFacts BlockMatrix.
Import ListNotations.
Open Scope R_scope.

Lemma getb_ok m i0 j0 r c : (i0 + r <= mrows m)%nat -> (j0 + c <= mcols m)%nat -> getb m i0 j0 r c = Ok (mblock m i0 j0 r c).
Proof. intros A B. unfold getb. apply assert_true. apply andb_true_iff; split; apply Nat.leb_le; assumption. Qed.
Lemma getb_inv m i0 j0 r c b : getb m i0 j0 r c = Ok b -> (i0 + r <= mrows m)%nat /\ (j0 + c <= mcols m)%nat /\ b = mblock m i0 j0 r c.
Proof. unfold getb. intros H. apply assert_ok in H. destruct H as [H E]. apply andb_true_iff in H. rewrite !Nat.leb_le in H. inversion E. tauto. Qed.
Lemma putb_ok m i0 j0 r c src : mrows src = r -> mcols src = c -> (i0 + r <= mrows m)%nat -> (j0 + c <= mcols m)%nat ->
  putb m i0 j0 r c src = Ok (mset_block m i0 j0 src).
Proof.
  intros R C A B. unfold putb, mset_block_o. rewrite !assert_true; [reflexivity| |].
  - apply andb_true_iff; split; apply Nat.leb_le; lia.
  - apply andb_true_iff; split; apply Nat.eqb_eq; assumption.
Qed.
Lemma putb_inv m i0 j0 r c src m' : putb m i0 j0 r c src = Ok m' ->
  mrows src = r /\ mcols src = c /\ (i0 + r <= mrows m)%nat /\ (j0 + c <= mcols m)%nat /\ m' = mset_block m i0 j0 src.
Proof.
  unfold putb, mset_block_o. intros H. apply assert_ok in H. destruct H as [H E]. apply assert_ok in E. destruct E as [E F].
  apply andb_true_iff in H, E. rewrite !Nat.eqb_eq in H. rewrite !Nat.leb_le in E. inversion F. intuition lia.
Qed.
Lemma mmul_o_ok a b : mcols a = mrows b -> mmul_o a b = Ok (mmul a b).
Proof. intros H. unfold mmul_o. apply assert_true, Nat.eqb_eq, H. Qed.

Lemma in_block_grid r i a p : (p < r)%nat -> in_block (i * r) r (a * r + p) = (a =? i)%nat.
Proof.
  intros Hp. destruct (Nat.eqb_spec a i) as [->|N].
  - apply in_block_iff. lia.
  - apply in_block_niff. nia.
Qed.
Lemma mset_grid m r c i j src a b p q : (p < r)%nat -> (q < c)%nat -> mrows src = r -> mcols src = c ->
  mget (mset_block m (i * r) (j * c) src) (a * r + p) (b * c + q) =
  if (a =? i)%nat && (b =? j)%nat then mget src p q else mget m (a * r + p) (b * c + q).
Proof.
  intros Hp Hq R C. cbn [mset_block mget]. rewrite R, C, !in_block_grid by assumption.
  destruct (Nat.eqb_spec a i) as [->|]; destruct (Nat.eqb_spec b j) as [->|]; cbn [andb]; try reflexivity. f_equal; lia.
Qed.
(** the block occupies whole rows or whole columns *)
Lemma mset_grid_col m r c i src a p q : (p < r)%nat -> (q < c)%nat -> mrows src = r -> mcols src = c ->
  mget (mset_block m (i * r) 0 src) (a * r + p) q = if (a =? i)%nat then mget src p q else mget m (a * r + p) q.
Proof.
  intros Hp Hq R C. pose proof (mset_grid m r c i 0 src a 0 p q Hp Hq R C) as H. cbn [Nat.mul Nat.add Nat.eqb] in H.
  rewrite andb_true_r in H. exact H.
Qed.

Lemma bget_ok b i j : (i * block_rows b + block_rows b <= mrows (raw b))%nat -> (j * block_cols b + block_cols b <= mcols (raw b))%nat ->
  bget b i j = Ok (mblock (raw b) (i * block_rows b) (j * block_cols b) (block_rows b) (block_cols b)).
Proof. intros. apply getb_ok; assumption. Qed.
Lemma bput_ok b i j src : mrows src = block_rows b -> mcols src = block_cols b ->
  (i * block_rows b + block_rows b <= mrows (raw b))%nat -> (j * block_cols b + block_cols b <= mcols (raw b))%nat ->
  bput b i j src = Ok (mkBm (mset_block (raw b) (i * block_rows b) (j * block_cols b) src) (block_rows b) (block_cols b)).
Proof. intros. unfold bput. rewrite putb_ok by assumption. reflexivity. Qed.

Lemma bm_finalize_ok r c m nv nh : (0 < r)%nat -> (0 < c)%nat -> mrows m = (nv * r)%nat -> mcols m = (nh * c)%nat -> bm_finalize m r c = Ok (mkBm m r c).
Proof.
  intros Hr Hc R C. unfold bm_finalize. rewrite R, C, !Nat.mod_mul by lia. rewrite !assert_true; auto;
   apply negb_true_iff, Nat.eqb_neq; lia.
Qed.
Lemma bm_resize_ok junk r c nv nh : (0 < r)%nat -> (0 < c)%nat -> bm_resize junk r c nv nh = Ok (mkBm (mkMat (nv * r) (nh * c) junk) r c).
Proof. intros. unfold bm_resize. apply (bm_finalize_ok _ _ _ nv nh); auto. Qed.
Lemma bm_setZero_ok r c nv nh : (0 < r)%nat -> (0 < c)%nat -> bm_setZero r c nv nh = Ok (mkBm (mzero (nv * r) (nh * c)) r c).
Proof. intros. unfold bm_setZero. apply (bm_finalize_ok _ _ _ nv nh); auto. Qed.

(** a block matrix with [nv] x [nh] blocks *)
Definition has_blocks (b : bmat) (nv nh : nat) : Prop :=
  (0 < block_rows b)%nat /\ (0 < block_cols b)%nat /\ mrows (raw b) = (nv * block_rows b)%nat /\ mcols (raw b) = (nh * block_cols b)%nat.
Lemma has_blocks_num b nv nh : has_blocks b nv nh -> num_blocks_vert b = nv /\ num_blocks_hor b = nh.
Proof. intros (A & B & C & D). unfold num_blocks_vert, num_blocks_hor. rewrite C, D, !Nat.div_mul by lia. auto. Qed.
Lemma finalize_has_blocks m r c b : bm_finalize m r c = Ok b -> b = mkBm m r c /\ has_blocks b (num_blocks_vert b) (num_blocks_hor b).
Proof.
  unfold bm_finalize. intros H. apply assert_ok in H. destruct H as [A H]. apply assert_ok in H. destruct H as [B H].
  apply assert_ok in H. destruct H as [C H]. apply assert_ok in H. destruct H as [D H]. inversion H. split; [reflexivity|].
  apply negb_true_iff in A, C. rewrite Nat.eqb_neq in A, C. apply Nat.eqb_eq in B, D.
  unfold has_blocks, num_blocks_vert, num_blocks_hor; cbn [raw block_rows block_cols].
  pose proof (Nat.div_mod (mrows m) r A). pose proof (Nat.div_mod (mcols m) c C). repeat split; lia.
Qed.
(** entry (p,q) of block (i,j) *)
Definition entry (b : bmat) (i j p q : nat) : R := mget (raw b) (i * block_rows b + p) (j * block_cols b + q).
