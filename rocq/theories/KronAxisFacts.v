(** Block Kronecker products with an identity act on each axis separately; diagonal block matrices *)
From Coq Require Import List Reals Arith Lra Lia Bool.
From Verif Require Import Base BaseFacts RSum Matrix BlockMatrix BlockMatrixFacts BlockMatrixSpec GridFill BlockProductFacts Kronecker KroneckerFacts KroneckerFacts2
  Condense CondenseSpec CondenseFacts CondenseOutputFacts PepperModel PepperMpc.
Import ListNotations.
Local Open Scope R_scope.

(** entries of axis [t] among [s] of a vector which consists of groups of [s] parts with [c] entries *)
Definition axis_of (s c t n : nat) (v : vec) : vec := mkVec n (fun i => vget v (((i / c) * s + t) * c + i mod c)).

Lemma kron_row X (r c s nh i t p : nat) v : (t < s)%nat -> (p < r)%nat -> (0 < c)%nat -> mcols X = (nh * c)%nat ->
  Rsum (s * (nh * c)) (fun k => mget (kron_of X r c s) ((i * s + t) * r + p) k * vget v k) = vget (mulv X (axis_of s c t (nh * c) v)) (i * r + p).
Proof.
  intros Ht Hp Hc XC.
  pose proof (kron_vector_entry X r c s nh (column_of v) (i * s + t) p ltac:(lia) Hp XC) as K.
  cbn [mmul mget mcols kron_of column_of] in K. rewrite XC in K. cbn [kron_of mget]. rewrite K. rewrite grid_div, grid_mod by assumption.
  cbn [mulv vget]. rewrite XC, Rsum_blocks. apply Rsum_ext. intros y Hy. apply Rsum_ext. intros q Hq. cbn [axis_of vget].
  rewrite grid_div, grid_mod by assumption. reflexivity.
Qed.

(** the blocks above the diagonal are zero *)
Definition lower_blocks (b : bmat) (nv nh : nat) : Prop := block_lower (raw b) (block_rows b) (block_cols b) nv /\ nv = nh.
Lemma dense_lower b n : has_blocks b n n -> block_lower (raw b) (block_rows b) (block_cols b) n -> dense_of true b ==m raw b.
Proof.
  intros (Hr & Hc & R & C) L. apply (meq_grid _ _ (block_rows b) (block_cols b) n n); try (cbn; assumption); try assumption.
  intros i j p q Hi Hj Hp Hq. rewrite dense_of_entry by assumption. cbn [first_row]. destruct (Nat.leb_spec j i); [reflexivity|].
  symmetry. apply L; assumption.
Qed.

Lemma kron2_vector_axis junk junk' b v nv nh : has_blocks b nv nh -> vlen v = (2 * (nh * block_cols b))%nat ->
  exists out, kron2_vector junk junk' b v = Ok out /\ mrows out = (2 * (nv * block_rows b))%nat /\ mcols out = 1%nat /\
    forall i t p, (i < nv)%nat -> (t < 2)%nat -> (p < block_rows b)%nat ->
      mget out ((i * 2 + t) * block_rows b + p) 0 = vget (mulv (raw b) (axis_of 2 (block_cols b) t (nh * block_cols b) v)) (i * block_rows b + p).
Proof.
  intros HB VL. pose proof HB as (Hr & Hc & R & C). unfold kron2_vector.
  rewrite (proj2 (kron_make_iff (raw b) 2 (block_rows b) (block_cols b) (mkKron (mkBm (raw b) (block_rows b) (block_cols b)) 2))).
  2:{ split; [reflexivity|]. split; [lia|]. exists nv, nh. exact HB. }
  cbn [bind]. destruct (kron_vector_dense junk junk' (mkKron (mkBm (raw b) (block_rows b) (block_cols b)) 2) (column_of v) nv nh) as (out & E & (OR & OC & OE)).
  { exact HB. } { cbn. lia. } { cbn [column_of mrows ksize kbm raw]. lia. } { reflexivity. }
  exists out. split; [exact E|]. cbn [kbm raw block_rows block_cols ksize] in *. cbn [mmul mrows mcols kron_of column_of] in OR, OC.
  split; [lia|]. split; [exact OC|]. intros i t p Hi Ht Hp.
  rewrite OE by nia. cbn [mmul mget mcols kron_of column_of]. rewrite C.
  exact (kron_row (raw b) (block_rows b) (block_cols b) 2 nh i t p v Ht Hp Hc C).
Qed.

Lemma kron2_evaluate_axis b n : has_blocks b n n -> block_lower (raw b) (block_rows b) (block_cols b) n ->
  exists out, kron2_evaluate b = Ok out /\ mrows out = (2 * (n * block_rows b))%nat /\ mcols out = (2 * (n * block_cols b))%nat /\
    forall v i t p, (i < n)%nat -> (t < 2)%nat -> (p < block_rows b)%nat ->
      vget (mulv out v) ((i * 2 + t) * block_rows b + p) = vget (mulv (raw b) (axis_of 2 (block_cols b) t (n * block_cols b) v)) (i * block_rows b + p).
Proof.
  intros HB L. pose proof HB as (Hr & Hc & R & C). unfold kron2_evaluate.
  rewrite (proj2 (kron_make_iff (raw b) 2 (block_rows b) (block_cols b) (mkKron (mkBm (raw b) (block_rows b) (block_cols b)) 2))).
  2:{ split; [reflexivity|]. split; [lia|]. exists n, n. exact HB. }
  cbn [bind]. destruct (kron_evaluate_dense true (mkKron (mkBm (raw b) (block_rows b) (block_cols b)) 2) n n) as (out & E & (OR & OC & OE)).
  { exact HB. } { cbn. lia. }
  exists out. split; [exact E|]. cbn [kbm raw block_rows block_cols ksize] in *. 
  destruct (dense_of_sizes true (mkBm (raw b) (block_rows b) (block_cols b))) as [DR DC]. cbn [raw] in DR, DC.
  cbn [mrows mcols kron_of] in OR, OC. rewrite DR in OR. rewrite DC in OC.
  split; [lia|]. split; [lia|]. intros v i t p Hi Ht Hp.
  cbn [mulv vget]. rewrite OC, C.
  assert (D : dense_of true (mkBm (raw b) (block_rows b) (block_cols b)) ==m raw b) by (destruct b; apply (dense_lower _ n); assumption).
  rewrite (Rsum_ext _ _ (fun k => mget (kron_of (dense_of true (mkBm (raw b) (block_rows b) (block_cols b))) (block_rows b) (block_cols b) 2) ((i * 2 + t) * block_rows b + p) k * vget v k)).
  2:{ intros k Hk. rewrite OE by nia. reflexivity. }
  rewrite (kron_row _ (block_rows b) (block_cols b) 2 n i t p v Ht Hp Hc) by lia.
  cbn [mulv vget]. rewrite DC, C. apply Rsum_ext. intros k Hk. rewrite (proj2 (proj2 D)) by nia. reflexivity.
Qed.

Lemma kron2_block_axis b n m i0 j0 r c : has_blocks b n n -> block_lower (raw b) (block_rows b) (block_cols b) n ->
  r = (2 * (n * block_rows b))%nat -> c = (2 * (n * block_cols b))%nat -> (i0 + r <= mrows m)%nat -> (j0 + c <= mcols m)%nat ->
  exists out, kron2_evaluate_block b m i0 j0 r c = Ok out /\ mrows out = mrows m /\ mcols out = mcols m /\
    (forall i j, (i < mrows m)%nat -> (j < mcols m)%nat -> in_block i0 r i && in_block j0 c j = false -> mget out i j = mget m i j) /\
    forall v i t p, (i < n)%nat -> (t < 2)%nat -> (p < block_rows b)%nat ->
      Rsum c (fun k => mget out (i0 + ((i * 2 + t) * block_rows b + p)) (j0 + k) * vget v k) =
      vget (mulv (raw b) (axis_of 2 (block_cols b) t (n * block_cols b) v)) (i * block_rows b + p).
Proof.
  intros HB L -> -> HI HJ. pose proof HB as (Hr & Hc & R & C). unfold kron2_evaluate_block.
  rewrite (proj2 (kron_make_iff (raw b) 2 (block_rows b) (block_cols b) (mkKron (mkBm (raw b) (block_rows b) (block_cols b)) 2))).
  2:{ split; [reflexivity|]. split; [lia|]. exists n, n. exact HB. }
  cbn [bind]. pose proof (kron_evaluate_block_dense true (mkKron (mkBm (raw b) (block_rows b) (block_cols b)) 2) n n m i0 j0) as K.
  cbn [kbm ksize raw block_rows block_cols] in K. rewrite R, C in K.
  destruct K as (out & E & (OR & OC & OE)); [exact HB|lia|exact HI|exact HJ|].
  destruct (dense_of_sizes true (mkBm (raw b) (block_rows b) (block_cols b))) as [DR DC]. cbn [raw] in DR, DC.
  exists out. split; [exact E|]. cbn [mset_block mrows mcols] in OR, OC. split; [exact OR|]. split; [exact OC|].
  set (X := dense_of true (mkBm (raw b) (block_rows b) (block_cols b))) in *.
  assert (SR : mrows (kron_of X (block_rows b) (block_cols b) 2) = (2 * (n * block_rows b))%nat) by (cbn [kron_of mrows]; lia).
  assert (SC : mcols (kron_of X (block_rows b) (block_cols b) 2) = (2 * (n * block_cols b))%nat) by (cbn [kron_of mcols]; lia).
  split.
  - intros i j Hi Hj F. rewrite OE by lia. cbn [mset_block mget]. rewrite SR, SC, F. reflexivity.
  - intros v i t p Hi Ht Hp. assert (D : X ==m raw b) by (subst X; destruct b; apply (dense_lower _ n); assumption).
    rewrite (Rsum_ext _ _ (fun k => mget (kron_of X (block_rows b) (block_cols b) 2) ((i * 2 + t) * block_rows b + p) k * vget v k)).
    2:{ intros k Hk. assert (((i * 2 + t) * block_rows b + p < 2 * (n * block_rows b))%nat) by nia.
        rewrite OE by lia. cbn [mset_block mget]. rewrite SR, SC. unfold in_block.
        replace ((i0 <=? i0 + ((i * 2 + t) * block_rows b + p))%nat) with true by (symmetry; apply Nat.leb_le; lia).
        replace ((i0 + ((i * 2 + t) * block_rows b + p) <? i0 + 2 * (n * block_rows b))%nat) with true by (symmetry; apply Nat.ltb_lt; lia).
        replace ((j0 <=? j0 + k)%nat) with true by (symmetry; apply Nat.leb_le; lia).
        replace ((j0 + k <? j0 + 2 * (n * block_cols b))%nat) with true by (symmetry; apply Nat.ltb_lt; lia).
        cbn [andb]. replace (i0 + ((i * 2 + t) * block_rows b + p) - i0)%nat with ((i * 2 + t) * block_rows b + p)%nat by lia.
        replace (j0 + k - j0)%nat with k by lia. reflexivity. }
    rewrite (kron_row X (block_rows b) (block_cols b) 2 n i t p v Ht Hp Hc) by lia.
    cbn [mulv vget]. rewrite DC, C. apply Rsum_ext. intros k Hk. rewrite (proj2 (proj2 D)) by (fold X in DR, DC |- *; rewrite ?DR, ?DC, ?R, ?C; nia). reflexivity.
Qed.

(** diagonal block matrices *)
Lemma bm_diag_ok r c blocks : (0 < r)%nat -> (0 < c)%nat -> sized blocks r c ->
  exists b, bm_diag r c blocks = Ok b /\ has_blocks b (length blocks) (length blocks) /\ block_rows b = r /\ block_cols b = c /\
    forall i j p q, (i < length blocks)%nat -> (j < length blocks)%nat -> (p < r)%nat -> (q < c)%nat ->
      mget (raw b) (i * r + p) (j * c + q) = if (i =? j)%nat then mget (mat_at blocks i) p q else 0.
Proof.
  intros Hr Hc SZ. unfold bm_diag. rewrite bm_setZero_ok by assumption. cbn [bind].
  set (n := length blocks) in *. set (m0 := mzero (n * r) (n * c)).
  match goal with |- context [for_up n 0 ?bd _] => set (body := bd) end.
  assert (G : forall cnt k b, (k + cnt <= n)%nat -> block_rows b = r -> block_cols b = c ->
      filled m0 r c n n (fun a _ p q => mget (mat_at blocks a) p q) (fun i j => (i = j /\ i < k)%nat) (raw b) ->
      exists b', for_up cnt k body b = Ok b' /\ block_rows b' = r /\ block_cols b' = c /\
        filled m0 r c n n (fun a _ p q => mget (mat_at blocks a) p q) (fun i j => (i = j /\ i < k + cnt)%nat) (raw b')).
  { induction cnt as [|cnt IH]; intros k b Hk BR BC F.
    - exists b. split; [reflexivity|]. split; [exact BR|]. split; [exact BC|]. rewrite Nat.add_0_r. exact F.
    - cbn [for_up]. unfold body at 1. rewrite mat_at_ok by (unfold n in Hk; lia). cbn [bind].
      destruct (mat_at_size blocks r c k SZ) as [MR MC]; [unfold n in Hk; lia|].
      destruct (filled_put1 m0 r c n n _ _ (fun i j => (i = j /\ i < S k)%nat) (raw b) k k (mat_at blocks k) F) as (m' & E & F'); try assumption; try lia.
      { intros; reflexivity. }
      assert (BP : bput b k k (mat_at blocks k) = Ok (mkBm m' r c)).
      { unfold bput. rewrite BR, BC, E. reflexivity. }
      rewrite BP. cbn [bind]. destruct (IH (S k) (mkBm m' r c)) as (b' & E' & R' & C' & F''); [lia|reflexivity|reflexivity|exact F'|].
      exists b'. split; [exact E'|]. split; [exact R'|]. split; [exact C'|]. replace (k + S cnt)%nat with (S k + cnt)%nat by lia. exact F''. }
  destruct (G n 0%nat (mkBm m0 r c)) as (b & E & BR & BC & F); [lia|reflexivity|reflexivity|apply filled_init; [reflexivity|reflexivity|intros; lia]|].
  exists b. split; [exact E|]. split; [unfold has_blocks; rewrite BR, BC; repeat split; [exact Hr|exact Hc|apply F|apply F]|]. split; [exact BR|]. split; [exact BC|].
  intros i j p q Hi Hj Hp Hq. destruct (Nat.eqb_spec i j) as [->|Nij].
  - apply (filled_get _ _ _ _ _ _ _ _ _ _ _ _ F); [split; [reflexivity|lia]|assumption..].
  - rewrite (filled_get0 _ _ _ _ _ _ _ _ _ _ _ _ F); [reflexivity|intros [A _]; exact (Nij A)|assumption..].
Qed.

(** product of a diagonal block matrix and a matrix *)
Lemma diag_mul_entry junk b blocks r c m : (0 < r)%nat -> (0 < c)%nat -> bm_diag r c blocks = Ok b -> sized blocks r c -> mrows m = (length blocks * c)%nat ->
  exists res, bm_multiplyRight_diag junk b m = Ok res /\ mrows res = (length blocks * r)%nat /\ mcols res = mcols m /\
    forall i p j, (i < length blocks)%nat -> (p < r)%nat -> (j < mcols m)%nat ->
      mget res (i * r + p) j = Rsum c (fun q => mget (mat_at blocks i) p q * mget m (i * c + q) j).
Proof.
  intros Hr Hc E SZ MR. destruct (bm_diag_ok r c blocks Hr Hc SZ) as (b' & E' & HB & BR & BC & EN). rewrite E in E'. injection E' as <-.
  destruct (diag_right junk b (length blocks) m HB) as (res & ER & (RR & RC & RE)); [rewrite BC; exact MR|].
  exists res. split; [exact ER|]. pose proof HB as (_ & _ & R & C). rewrite BR in R. rewrite BC in C.
  cbn [mmul mrows mcols block_diagonal_of] in RR, RC. split; [lia|]. split; [exact RC|].
  intros i p j Hi Hp Hj. rewrite RE by nia. cbn [mmul mget mcols block_diagonal_of]. rewrite C, Rsum_blocks.
  rewrite (Rsum_single (length blocks) i); [|exact Hi|].
  - apply Rsum_ext. intros q Hq. rewrite BR, BC, !grid_div, Nat.eqb_refl by assumption. rewrite EN, Nat.eqb_refl by assumption. reflexivity.
  - intros k Hk Nk. apply Rsum_zero. intros q Hq. rewrite BR, BC, !grid_div by assumption.
    destruct (Nat.eqb_spec i k); [lia|]. ring.
Qed.
