From Coq Require Import List Reals Arith Lra Lia Bool.
From Verif Require Import Base BaseFacts RSum Matrix BlockDiagonalFacts BlockMatrix BlockMatrixFacts BlockMatrixSpec GridFill.
Open Scope R_scope.

Lemma rows_of b nv nh : has_blocks b nv nh -> getNumberOfRows b = (nv * block_rows b)%nat /\ getNumberOfColumns b = (nh * block_cols b)%nat.
Proof.
  intros H. destruct (has_blocks_num b nv nh H) as [A B]. unfold getNumberOfRows, getNumberOfColumns. rewrite ?A, ?B. destruct H as (_ & _ & R & C). lia.
Qed.

(** block diagonal times matrix *)
Lemma diag_right junk b N m : has_blocks b N N -> mrows m = (N * block_cols b)%nat ->
  exists res, bm_multiplyRight_diag junk b m = Ok res /\ res ==m mmul (block_diagonal_of b) m.
Proof.
  intros HB HM. destruct (has_blocks_num b N N HB) as [NV NH]. destruct (rows_of b N N HB) as [GR GC]. destruct HB as (Hr & Hc & R & C).
  unfold bm_multiplyRight_diag. rewrite GR, GC, NH, HM, Nat.eqb_refl. rewrite assert_true by reflexivity.
  set (r := block_rows b) in *. set (c := block_cols b) in *.
  pose (F := fun (a x p q : nat) => Rsum c (fun l => mget (raw b) (a * r + p) (a * c + l) * mget m (a * c + l) q)).
  match goal with |- context [for_up N 0 ?bd ?z] => set (body := bd); set (z0 := z) end.
  destruct (for_up_inv (fun i res => filled z0 r (mcols m) N 1 F (fun a _ => (a < i)%nat) res) body N 0 z0) as (res & E & FL).
  - apply filled_init; [reflexivity|cbn; lia|]. intros; lia.
  - intros i res Hi FL. unfold body. rewrite bget_ok by (rewrite ?R, ?C; fold r c; nia). cbn [bind]. fold r c.
    rewrite getb_ok by nia. cbn [bind]. rewrite mmul_o_ok by reflexivity. cbn [bind].
    destruct (filled_put1 _ _ _ _ _ _ _ (fun a _ => (a < S i)%nat) res i 0 (mmul (mblock (raw b) (i * r) (i * c) r c) (mblock m (i * c) 0 c (mcols m))) FL) as (res' & E & FL'); try lia; try reflexivity.
    + exists res'. split; [exact E|exact FL'].
  - exists res. split; [exact E|]. pose proof FL as (RR & RC & _).
    apply (meq_grid _ _ r (mcols m) N 1); [lia|lia|cbn; lia|cbn; lia|]. intros a x p q Ha Hx Hp Hq. rewrite (filled_get _ _ _ _ _ _ _ _ _ _ _ _ FL) by (first [assumption|lia]).
    replace x with 0%nat by lia. cbn [Nat.mul Nat.add]. unfold F. cbn [mmul mget block_diagonal_of mcols]. rewrite C, Rsum_blocks.
    rewrite (Rsum_single N a) by (first [assumption|intros b' Hb' Ne; apply Rsum_zero; intros l Hl; fold r c; rewrite !grid_div by assumption;
      destruct (Nat.eqb_spec a b'); [lia|ring]]).
    apply Rsum_ext. intros l Hl. fold r c. rewrite !grid_div, Nat.eqb_refl by assumption. reflexivity.
Qed.

(** matrix times block diagonal *)
Lemma diag_left junk b N m : has_blocks b N N -> mcols m = (N * block_rows b)%nat ->
  exists res, bm_multiplyLeft_diag junk b m = Ok res /\ res ==m mmul m (block_diagonal_of b).
Proof.
  intros HB HM. destruct (has_blocks_num b N N HB) as [NV NH]. destruct (rows_of b N N HB) as [GR GC]. destruct HB as (Hr & Hc & R & C).
  unfold bm_multiplyLeft_diag. rewrite GR, GC, NV, HM, Nat.eqb_refl. rewrite assert_true by reflexivity.
  set (r := block_rows b) in *. set (c := block_cols b) in *.
  pose (F := fun (x a p q : nat) => Rsum r (fun l => mget m p (a * r + l) * mget (raw b) (a * r + l) (a * c + q))).
  match goal with |- context [for_up N 0 ?bd ?z] => set (body := bd); set (z0 := z) end.
  destruct (for_up_inv (fun i res => filled z0 (mrows m) c 1 N F (fun _ a => (a < i)%nat) res) body N 0 z0) as (res & E & FL).
  - apply filled_init; [cbn; lia|reflexivity|]. intros; lia.
  - intros i res Hi FL. unfold body. rewrite getb_ok by nia. cbn [bind]. rewrite bget_ok by (rewrite ?R, ?C; fold r c; nia). cbn [bind]. fold r c.
    rewrite mmul_o_ok by reflexivity. cbn [bind].
    destruct (filled_put1 _ _ _ _ _ _ _ (fun _ a => (a < S i)%nat) res 0 i (mmul (mblock m 0 (i * r) (mrows m) r) (mblock (raw b) (i * r) (i * c) r c)) FL) as (res' & E & FL'); try lia; try reflexivity.
    + exists res'. split; [exact E|exact FL'].
  - exists res. split; [exact E|]. pose proof FL as (RR & RC & _).
    apply (meq_grid _ _ (mrows m) c 1 N); [lia|lia|cbn; lia|cbn; lia|]. intros x a p q Hx Ha Hp Hq. rewrite (filled_get _ _ _ _ _ _ _ _ _ _ _ _ FL) by (first [assumption|lia]).
    replace x with 0%nat by lia. cbn [Nat.mul Nat.add]. unfold F. cbn [mmul mget block_diagonal_of mcols]. rewrite HM, Rsum_blocks.
    rewrite (Rsum_single N a) by (first [assumption|intros b' Hb' Ne; apply Rsum_zero; intros l Hl; fold r c; rewrite !grid_div by assumption;
      destruct (Nat.eqb_spec b' a); [lia|ring]]).
    apply Rsum_ext. intros l Hl. fold r c. rewrite !grid_div, Nat.eqb_refl by assumption. reflexivity.
Qed.

(** ** left lower triangular *)
Lemma lower_dense b nv nh m : has_blocks b nv nh -> mrows m = mcols (raw b) ->
  (forall i j, (i < mrows (raw b))%nat -> (j < mcols (raw b))%nat -> (i / block_rows b < j / block_cols b)%nat -> mget (raw b) i j = 0) ->
  exists res, bm_multiplyRight b m = Ok res /\ res ==m mmul (block_lower_of b) m.
Proof.
  intros HB HM Z. unfold bm_multiplyRight. rewrite mmul_o_ok by auto. eexists. split; [reflexivity|]. split; [reflexivity|]. split; [reflexivity|].
  cbn [mmul mget mrows mcols block_lower_of]. intros i j Hi Hj. apply Rsum_ext. intros k Hk.
  destruct (Nat.leb_spec (k / block_cols b) (i / block_rows b)); [reflexivity|]. rewrite (Z i k) by assumption. reflexivity.
Qed.
(** 1 x 1 blocks: the entries above the diagonal are ignored *)
Lemma lower1_dense b nv nh m : has_blocks b nv nh -> block_rows b = 1%nat -> block_cols b = 1%nat -> mrows m = mcols (raw b) ->
  exists res, bm_multiplyRight_llt1 b m = Ok res /\ res ==m mmul (block_lower_of b) m.
Proof.
  intros HB R1 C1 HM. destruct (rows_of b nv nh HB) as [GR GC]. pose proof HB as (_ & _ & R & C). unfold bm_multiplyRight_llt1. rewrite GC, HM, C, Nat.eqb_refl.
  rewrite assert_true by reflexivity. rewrite mmul_o_ok by (cbn; lia). eexists. split; [reflexivity|]. split; [reflexivity|]. split; [reflexivity|].
  cbn [mmul mget mrows mcols block_lower_of lower_part]. intros i j Hi Hj. apply Rsum_ext. intros k Hk. rewrite R1, C1, !Nat.div_1_r. reflexivity.
Qed.
Lemma generic_dense b m : mrows m = mcols (raw b) -> bm_multiplyRight b m = Ok (mmul (raw b) m).
Proof. intros H. unfold bm_multiplyRight. apply mmul_o_ok. auto. Qed.

(** wrong sizes are rejected *)
Lemma product_size_rejected junk b nv nh m : has_blocks b nv nh ->
  (mrows m <> mcols (raw b) -> bm_multiplyRight b m = Throw /\ bm_multiplyRight_llt1 b m = Throw /\ bm_multiplyRight_diag junk b m = Throw) /\
  (mcols m <> mrows (raw b) -> bm_multiplyLeft_diag junk b m = Throw).
Proof.
  intros HB. destruct (rows_of b nv nh HB) as [GR GC]. pose proof HB as (_ & _ & R & C). split; intros H.
  - unfold bm_multiplyRight, bm_multiplyRight_llt1, bm_multiplyRight_diag, mmul_o. rewrite GC, <- C.
    assert (E : (mrows m =? mcols (raw b))%nat = false) by (apply Nat.eqb_neq; assumption).
    assert (E' : (mcols (raw b) =? mrows m)%nat = false) by (apply Nat.eqb_neq; auto). rewrite E, E'. repeat split.
  - unfold bm_multiplyLeft_diag. rewrite GR, <- R. assert (E : (mcols m =? mrows (raw b))%nat = false) by (apply Nat.eqb_neq; assumption). rewrite E. reflexivity.
Qed.

(** ** block matrix times block matrix *)
Lemma by_diag junk left right N : has_blocks right N N -> mcols (raw left) = (N * block_rows right)%nat ->
  exists res, bm_mul_by_diag junk left right = Ok res /\ res ==m mmul (raw left) (block_diagonal_of right).
Proof. intros. apply (diag_left junk right N); assumption. Qed.
Lemma diag_by junk left right N : has_blocks left N N -> mrows (raw right) = (N * block_cols left)%nat ->
  exists res, bm_mul_diag_by junk left right = Ok res /\ res ==m mmul (block_diagonal_of left) (raw right).
Proof. intros. apply (diag_right junk left N); assumption. Qed.

(** ** not square in blocks *)
(** two block rows, one block column: the second row of the result is never written *)
Definition tall : bmat := mkBm (mkMat 2 1 (fun i _ => if (i =? 0)%nat then 1 else 0)) 1 1.
Lemma rectangular_refuted : has_blocks tall 2 1 /\ exists junk m res, mrows m = mcols (raw tall) /\
  bm_multiplyRight_diag junk tall m = Ok res /\ ~ (res ==m mmul (block_diagonal_of tall) m).
Proof.
  split; [repeat split; cbn; lia|]. exists (fun _ _ => 7), (mid 1). eexists. split; [reflexivity|]. split; [reflexivity|].
  intros (_ & _ & H). specialize (H 1%nat 0%nat ltac:(cbn; lia) ltac:(cbn; lia)). cbn in H. lra.
Qed.
(** more block columns than block rows: rejected *)
Lemma wide_rejected junk b nv nh m : has_blocks b nv nh -> (nv < nh)%nat -> mrows m = mcols (raw b) -> bm_multiplyRight_diag junk b m <> UB /\
  forall res, bm_multiplyRight_diag junk b m <> Ok res.
Proof.
  intros HB L HM. destruct (has_blocks_num b nv nh HB) as [NV NH]. destruct (rows_of b nv nh HB) as [GR GC]. pose proof HB as (Hr & Hc & R & C).
  assert (T : bm_multiplyRight_diag junk b m = Throw).
  { unfold bm_multiplyRight_diag. rewrite GC, GR, NH, HM, C, Nat.eqb_refl, assert_true by reflexivity.
    set (r := block_rows b) in *. set (c := block_cols b) in *.
    match goal with |- for_up nh 0 ?bd ?z = _ => set (body := bd); set (z0 := z) end.
    assert (SPL : forall c1 c2 f s0, for_up (c1 + c2) f body s0 = bind (for_up c1 f body s0) (for_up c2 (f + c1) body)).
    { induction c1 as [|c1 IH]; intros c2 f s0; cbn [for_up Nat.add bind]; [rewrite Nat.add_0_r; reflexivity|].
      destruct (body f s0); cbn [bind]; try reflexivity. rewrite IH. replace (S f + c1)%nat with (f + S c1)%nat by lia. reflexivity. }
    replace nh with (nv + (nh - nv))%nat by lia. rewrite SPL.
    destruct (for_up_inv (fun i (res : mat) => mrows res = (nv * r)%nat /\ mcols res = mcols m) body nv 0 z0) as (s1 & E1 & P1).
    - split; reflexivity.
    - intros i res Hi (RR & RC). unfold body. rewrite bget_ok by (rewrite ?R, ?C; fold r c; nia). cbn [bind]. fold r c.
      rewrite getb_ok by nia. cbn [bind]. rewrite mmul_o_ok by reflexivity. cbn [bind]. rewrite putb_ok by (cbn; nia). eexists. split; [reflexivity|]. split; assumption.
    - rewrite E1. cbn [bind]. replace (nh - nv)%nat with (S (nh - nv - 1)) by lia. cbn [for_up Nat.add]. unfold body at 1.
      unfold bget, getb. assert (E : (nv * r + r <=? mrows (raw b))%nat = false) by (apply Nat.leb_gt; rewrite R; fold r; nia). fold r c. rewrite E. reflexivity. }
  rewrite T. split; [discriminate|]. intros res X; discriminate.
Qed.
