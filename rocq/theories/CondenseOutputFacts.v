From Coq Require Import List Reals Arith Lra Lia Bool.
From Verif Require Import Base BaseFacts RSum Matrix BlockDiagonalFacts BlockMatrix BlockMatrixFacts Condense CondenseSpec CondenseFacts CondenseLoops CondenseLoops2.
Import ListNotations.
Open Scope R_scope.

(** contents of the condensed output matrices *)
Definition outputs_of (D E : list mat) (ny n m N : nat) (S U Ox Ou : mat) : Prop :=
  mrows Ox = (N * ny)%nat /\ mcols Ox = n /\ mrows Ou = (N * ny)%nat /\ mcols Ou = (N * m)%nat /\
  (forall i p q, (i < N)%nat -> (p < ny)%nat -> (q < n)%nat -> mget Ox (i * ny + p) q =
     if (i =? 0)%nat then mget (mat_at D 0) p q else Rsum n (fun l => mget (mat_at D i) p l * mget S ((i - 1) * n + l) q)) /\
  (forall i j p q, (i < N)%nat -> (j < N)%nat -> (p < ny)%nat -> (q < m)%nat -> mget Ou (i * ny + p) (j * m + q) =
     if (j =? i)%nat then mget (mat_at E i) p q
     else if (j <? i)%nat then Rsum n (fun l => mget (mat_at D i) p l * mget U ((i - 1) * n + l) (j * m + q)) else 0).

(** the blocks above the diagonal are zero *)
Definition block_lower (U : mat) (n m N : nat) : Prop :=
  forall i j p q, (i < N)%nat -> (j < N)%nat -> (p < n)%nat -> (q < m)%nat -> (i < j)%nat -> mget U (i * n + p) (j * m + q) = 0.

Lemma condensed_lower A B n m S U : condensed A B n m S U -> block_lower U n m (length A).
Proof. intros (_ & _ & _ & _ & _ & H) i j p q Hi Hj Hp Hq L. rewrite H by assumption. apply Nat.leb_gt in L. rewrite L. reflexivity. Qed.

Lemma outputs_stack D E ny n m N S U Ox Ou x0 u (x : nat -> vec) :
  sized D ny n -> sized E ny m -> length D = N -> length E = N ->
  mcols S = n -> mcols U = (N * m)%nat -> block_lower U n m N ->
  outputs_of D E ny n m N S U Ox Ou ->
  x 0%nat = x0 -> vlen x0 = n ->
  stacks N n S U x0 u (fun k => x (Datatypes.S k)) ->
  stacks N ny Ox Ou x0 u (output D E m u x).
Proof.
  intros HD HE LD LE S2 U2 BL (R1 & C1 & R2 & C2 & EX & EU) X0 L0 ST k Hk.
  destruct (mat_at_size D ny n k HD ltac:(lia)) as [RD CD]. destruct (mat_at_size E ny m k HE ltac:(lia)) as [RE CE].
  split; [cbn; rewrite RD; reflexivity|]. unfold output. cbn [part vlen vget vadd]. intros p Hp.
  assert (EE : vget (mulv Ou u) (k * ny + p) = Rsum N (fun j => Rsum m (fun q => mget Ou (k * ny + p) (j * m + q) * vget u (j * m + q)))).
  { cbn [mulv vget]. rewrite C2, Rsum_blocks. reflexivity. }
  rewrite EE. replace (vget (mulv Ox x0) (k * ny + p)) with (Rsum n (fun q => mget Ox (k * ny + p) q * vget x0 q)) by (cbn [mulv vget]; rewrite C1; reflexivity).
  assert (EL : vget (mulv (mat_at E k) (part u (k * m) m)) p = Rsum m (fun q => mget Ou (k * ny + p) (k * m + q) * vget u (k * m + q))).
  { cbn [mulv vget part]. rewrite CE. apply Rsum_ext. intros q Hq. rewrite EU, Nat.eqb_refl by lia. reflexivity. }
  rewrite EL. clear EL EE.
  destruct k as [|i].
  - f_equal.
    + cbn [mulv vget]. rewrite CD, X0. apply Rsum_ext. intros q Hq. rewrite EX by lia. reflexivity.
    + apply (Rsum_single N 0); [lia|]. intros j Hj Nj. apply Rsum_zero. intros q Hq. rewrite EU by lia.
      destruct (Nat.eqb_spec j 0); [lia|]. destruct (Nat.ltb_spec j 0); [lia|]. ring.
  - pose proof (ST i ltac:(lia)) as (_ & V). cbn [part vlen vget vadd] in V.
    assert (DX : vget (mulv (mat_at D (Datatypes.S i)) (x (Datatypes.S i))) p =
       Rsum n (fun l => mget (mat_at D (Datatypes.S i)) p l * (vget (mulv S x0) (i * n + l) + vget (mulv U u) (i * n + l)))).
    { cbn [mulv vget]. rewrite CD. apply Rsum_ext. intros l Hl. rewrite <- V by lia. cbn [mulv vget]. rewrite S2, U2. reflexivity. }
    rewrite DX. clear DX V.
    match goal with |- _ = ?a + _ => assert (SP : a = Rsum n (fun l => mget (mat_at D (Datatypes.S i)) p l * vget (mulv S x0) (i * n + l)) + Rsum n (fun l => mget (mat_at D (Datatypes.S i)) p l * vget (mulv U u) (i * n + l))) by (rewrite <- Rsum_plus; apply Rsum_ext; intros; ring); rewrite SP; clear SP end.
    assert (P1 : Rsum n (fun l => mget (mat_at D (Datatypes.S i)) p l * vget (mulv S x0) (i * n + l)) = Rsum n (fun q => mget Ox (Datatypes.S i * ny + p) q * vget x0 q)).
    { cbn [mulv vget]. rewrite S2.
      rewrite (Rsum_ext n _ (fun l => Rsum n (fun q => mget (mat_at D (Datatypes.S i)) p l * mget S (i * n + l) q * vget x0 q))).
      2:{ intros l Hl. rewrite <- Rsum_scal. apply Rsum_ext. intros; ring. }
      rewrite Rsum_swap. apply Rsum_ext. intros q Hq. rewrite EX by lia. cbn [Nat.eqb]. rewrite <- Rsum_scal_r. apply Rsum_ext. intros l Hl.
      replace (Datatypes.S i - 1)%nat with i by lia. reflexivity. }
    rewrite P1. rewrite Rplus_assoc. f_equal. clear P1.
    assert (P2 : Rsum n (fun l => mget (mat_at D (Datatypes.S i)) p l * vget (mulv U u) (i * n + l)) =
      Rsum N (fun j => if (j =? Datatypes.S i)%nat then 0 else Rsum m (fun q => mget Ou (Datatypes.S i * ny + p) (j * m + q) * vget u (j * m + q)))).
    { cbn [mulv vget]. rewrite U2.
      rewrite (Rsum_ext n _ (fun l => Rsum N (fun j => Rsum m (fun q => mget (mat_at D (Datatypes.S i)) p l * mget U (i * n + l) (j * m + q) * vget u (j * m + q))))).
      2:{ intros l Hl. rewrite Rsum_blocks, <- Rsum_scal. apply Rsum_ext. intros j Hj. rewrite <- Rsum_scal. apply Rsum_ext. intros; ring. }
      rewrite Rsum_swap. apply Rsum_ext. intros j Hj. rewrite Rsum_swap.
      destruct (Nat.eqb_spec j (Datatypes.S i)) as [->|Nj].
      - apply Rsum_zero. intros q Hq. apply Rsum_zero. intros l Hl. rewrite BL by lia. ring.
      - apply Rsum_ext. intros q Hq. rewrite EU by lia. destruct (Nat.eqb_spec j (Datatypes.S i)); [lia|].
        destruct (Nat.ltb_spec j (Datatypes.S i)).
        + rewrite <- Rsum_scal_r. apply Rsum_ext. intros l Hl. replace (Datatypes.S i - 1)%nat with i by lia. reflexivity.
        + rewrite Rsum_zero; [ring|]. intros l Hl. rewrite BL by lia. ring. }
    rewrite P2. set (f := fun j => Rsum m (fun q => mget Ou (Datatypes.S i * ny + p) (j * m + q) * vget u (j * m + q))).
    change (Rsum N f = Rsum N (fun j => if (j =? Datatypes.S i)%nat then 0 else f j) + f (Datatypes.S i)).
    rewrite <- (Rsum_delta N (Datatypes.S i) f) by assumption. rewrite <- Rsum_plus. apply Rsum_ext. intros j Hj.
    destruct (Nat.eqb_spec j (Datatypes.S i)); ring.
Qed.

(** assignment of the first [i] blocks of a block row *)
Lemma mset_row mm r c i num src a b p q : (p < r)%nat -> (q < c)%nat -> mrows src = r -> mcols src = (num * c)%nat ->
  mget (mset_block mm (i * r) 0 src) (a * r + p) (b * c + q) =
  if (a =? i)%nat && (b <? num)%nat then mget src p (b * c + q) else mget mm (a * r + p) (b * c + q).
Proof.
  intros Hp Hq R C. cbn [mset_block mget]. rewrite R, C, in_block_grid by assumption.
  assert (E : in_block 0 (num * c) (b * c + q) = (b <? num)%nat).
  { destruct (Nat.ltb_spec b num); [apply in_block_iff|apply in_block_niff]; nia. }
  rewrite E. destruct (Nat.eqb_spec a i) as [->|]; cbn [andb]; [|reflexivity]. destruct (b <? num)%nat; [|reflexivity]. f_equal; lia.
Qed.

Section Block.
Variables (D E : list mat) (ny n m N : nat).
Hypothesis HD : sized D ny n.
Hypothesis HE : sized E ny m.
Hypothesis LD : length D = N.
Hypothesis LE : length E = N.
Hypothesis HN : (0 < N)%nat.
Hypothesis Hny : (0 < ny)%nat.
Hypothesis Hn : (0 < n)%nat.
Hypothesis Hm : (0 < m)%nat.

Lemma condenseOutput_ok junk Ux Uu : shaped Ux n n N 1 -> shaped Uu n m N N ->
  exists Ox Ou, condenseOutput junk ny n m D E Ux Uu = Ok (Ox, Ou) /\ shaped Ox ny n N 1 /\ shaped Ou ny m N N /\
    outputs_of D E ny n m N (raw Ux) (raw Uu) (raw Ox) (raw Ou).
Proof.
  intros HX HU. pose proof HX as (X1 & X2 & X3 & X4). pose proof HU as (U1 & U2 & U3 & U4). rewrite Nat.mul_1_l in X4.
  assert (V1 : num_blocks_vert Ux = N) by (unfold num_blocks_vert; rewrite X1, X3; apply Nat.div_mul; lia).
  assert (V2 : num_blocks_hor Ux = 1%nat) by (unfold num_blocks_hor; rewrite X2, X4; apply Nat.div_same; lia).
  assert (V3 : num_blocks_vert Uu = N) by (unfold num_blocks_vert; rewrite U1, U3; apply Nat.div_mul; lia).
  assert (V4 : num_blocks_hor Uu = N) by (unfold num_blocks_hor; rewrite U2, U4; apply Nat.div_mul; lia).
  unfold condenseOutput. rewrite V1, V2, V3, V4, LD, LE. rewrite !Nat.eqb_refl. cbn [andb]. rewrite !assert_true by reflexivity.
  rewrite bm_resize_ok, bm_setZero_ok by assumption. cbn [bind]. rewrite (mat_at_ok D 0), (mat_at_ok E 0) by lia. cbn [bind].
  destruct (mat_at_size D ny n 0 HD ltac:(lia)) as [RD CD]. destruct (mat_at_size E ny m 0 HE ltac:(lia)) as [RE CE].
  rewrite bput_ok by (cbn; nia). cbn [bind]. rewrite bput_ok by (cbn; nia). cbn [bind raw block_rows block_cols].
  set (OX0 := mkBm _ ny n). set (OU0 := mkBm _ ny m).
  match goal with |- context [for_up (N - 1) 1 ?b ?z] => set (body := b) end.
  destruct (for_up_inv (fun i (OO : bmat * bmat) => shaped (fst OO) ny n N 1 /\ shaped (snd OO) ny m N N /\
    (forall a p q, (a < i)%nat -> (p < ny)%nat -> (q < n)%nat -> mget (raw (fst OO)) (a * ny + p) q =
       if (a =? 0)%nat then mget (mat_at D 0) p q else Rsum n (fun l => mget (mat_at D a) p l * mget (raw Ux) ((a - 1) * n + l) q)) /\
    (forall a b p q, (p < ny)%nat -> (q < m)%nat -> mget (raw (snd OO)) (a * ny + p) (b * m + q) =
       if (a <? i)%nat then
         if (b =? a)%nat then mget (mat_at E a) p q
         else if (b <? a)%nat then Rsum n (fun l => mget (mat_at D a) p l * mget (raw Uu) ((a - 1) * n + l) (b * m + q)) else 0
       else 0)) body (N - 1) 1 (OX0, OU0)) as ([OX OU] & EQ & SX & SU & EX & EU).
  - cbn [fst snd]. split; [repeat split; cbn; lia|]. split; [repeat split; cbn; lia|]. split.
    + intros a p q Ha Hp Hq. replace a with 0%nat by lia. unfold OX0. cbn [raw]. rewrite (Nat.mul_0_l n), (mset_grid_col _ ny n) by auto. rewrite !Nat.eqb_refl. reflexivity.
    + intros a b p q Hp Hq. unfold OU0. cbn [raw]. rewrite mset_grid by auto. cbn [mzero mget].
      destruct (Nat.eqb_spec a 0) as [->|]; destruct (Nat.eqb_spec b 0) as [->|]; cbn [andb Nat.ltb Nat.leb]; try reflexivity.
      * destruct a; [lia|reflexivity].
      * destruct a; [lia|reflexivity].
  - intros i [OX OU] Hi (SX & SU & EX & EU). unfold body. cbn [fst snd] in *.
    destruct (mat_at_size D ny n i HD ltac:(lia)) as [RDi CDi]. destruct (mat_at_size E ny m i HE ltac:(lia)) as [REi CEi].
    destruct SX as (SX1 & SX2 & SX3 & SX4). destruct SU as (SU1 & SU2 & SU3 & SU4). rewrite Nat.mul_1_l in SX4.
    rewrite (mat_at_ok D i), (mat_at_ok E i) by lia. cbn [bind]. rewrite bget_ok by (rewrite ?X1, ?X2, ?X3, ?X4; nia). cbn [bind].
    rewrite mmul_o_ok by (cbn; lia). cbn [bind]. rewrite bput_ok by (cbn [mmul mblock mrows mcols]; rewrite ?SX1, ?SX2, ?SX3, ?SX4; nia). cbn [bind].
    unfold bget_row. rewrite getb_ok by (rewrite ?U1, ?U2, ?U3, ?U4; nia). cbn [bind]. rewrite mmul_o_ok by (cbn; lia). cbn [bind].
    unfold bput_row. rewrite putb_ok by (cbn [mmul mblock mrows mcols]; rewrite ?SU1, ?SU2, ?SU3, ?SU4, ?U2; nia). cbn [bind].
    rewrite bput_ok by (cbn [raw block_rows block_cols mset_block mrows mcols]; rewrite ?SU1, ?SU2, ?SU3, ?SU4; nia). cbn [bind raw block_rows block_cols].
    eexists. split; [reflexivity|]. cbn [fst snd raw]. split; [repeat split; cbn; auto; lia|]. split; [repeat split; cbn; auto; lia|]. split.
    + intros a p q Ha Hp Hq. rewrite SX1, (Nat.mul_0_l (block_cols OX)). rewrite (mset_grid_col _ ny n) by (cbn; auto).
      destruct (Nat.eqb_spec a i) as [->|Ne].
      * replace (i =? 0)%nat with false by (symmetry; apply Nat.eqb_neq; lia). cbn [mmul mblock mget]. rewrite CDi. apply Rsum_ext. intros l Hl. rewrite X1. reflexivity.
      * apply EX; [lia|assumption|assumption].
    + intros a b p q Hp Hq. rewrite SU1, SU2, (Nat.mul_0_l m). rewrite mset_grid by auto.
      rewrite (mset_row _ ny m i i) by (cbn [mmul mblock mrows mcols]; rewrite ?U2; auto). rewrite EU by assumption.
      destruct (Nat.eqb_spec a i) as [->|Ne]; cbn [andb].
      * replace (i <? Datatypes.S i)%nat with true by (symmetry; apply Nat.ltb_lt; lia). replace (i <? i)%nat with false by (symmetry; apply Nat.ltb_irrefl).
        destruct (Nat.eqb_spec b i); [reflexivity|]. destruct (b <? i)%nat; [|reflexivity].
        cbn [mmul mblock mget]. rewrite CDi. apply Rsum_ext. intros l Hl. rewrite U1. reflexivity.
      * destruct (Nat.ltb_spec a i), (Nat.ltb_spec a (Datatypes.S i)); try lia; reflexivity.
  - cbn [fst snd] in *. exists OX, OU. split; [exact EQ|]. split; [exact SX|]. split; [exact SU|].
    destruct SX as (SX1 & SX2 & SX3 & SX4). destruct SU as (SU1 & SU2 & SU3 & SU4). rewrite Nat.mul_1_l in SX4.
    repeat split; auto.
    + intros i p q Hi Hp Hq. apply EX; [lia|assumption|assumption].
    + intros i j p q Hi Hj Hp Hq. rewrite EU by assumption. replace (i <? 1 + (N - 1))%nat with true by (symmetry; apply Nat.ltb_lt; lia). reflexivity.
Qed.
End Block.

(** ** dense, time invariant *)
Lemma condenseOutput_dense_ok junk N D E Ux Uu : let n := mcols D in let m := mcols E in
  (0 < N)%nat -> (0 < n)%nat -> mrows D = mrows E ->
  mrows Ux = (N * n)%nat -> mcols Ux = n -> mrows Uu = (N * n)%nat -> mcols Uu = (N * m)%nat -> block_lower Uu n m N ->
  exists Ox Ou, condenseOutput_dense junk D E Ux Uu = Ok (Ox, Ou) /\
    outputs_of (repeat D N) (repeat E N) (mrows D) n m N Ux Uu Ox Ou.
Proof.
  intros n m HN Hn HR X1 X2 U1 U2 BL. unfold condenseOutput_dense. fold n m. set (ny := mrows D) in *. cbv zeta.
  replace (n =? 0)%nat with false by (symmetry; apply Nat.eqb_neq; lia).
  rewrite X1, X2, U1, U2, Nat.div_mul by lia. rewrite !Nat.eqb_refl. rewrite !assert_true by reflexivity.
  rewrite putb_ok by (cbn; fold ny n; nia). cbn [bind]. rewrite putb_ok by (cbn; fold m; nia). cbn [bind].
  match goal with |- context [for_up (N - 1) 1 ?b ?z] => set (body := b); set (z0 := z) end.
  destruct (for_up_inv (fun i (OO : mat * mat) => (mrows (fst OO) = (N * ny)%nat /\ mcols (fst OO) = n /\ mrows (snd OO) = (N * ny)%nat /\ mcols (snd OO) = (N * m)%nat) /\
    (forall a p q, (a < i)%nat -> (p < ny)%nat -> (q < n)%nat -> mget (fst OO) (a * ny + p) q =
       if (a =? 0)%nat then mget D p q else Rsum n (fun l => mget D p l * mget Ux ((a - 1) * n + l) q)) /\
    (forall a b p q, (a < i)%nat -> (b < N)%nat -> (p < ny)%nat -> (q < m)%nat -> mget (snd OO) (a * ny + p) (b * m + q) =
         if (b =? a)%nat then mget E p q
         else if (b <? a)%nat then Rsum n (fun l => mget D p l * mget Uu ((a - 1) * n + l) (b * m + q)) else 0)) body (N - 1) 1 z0) as ([OX OU] & EQ & (R1 & C1 & R2 & C2) & EX & EU).
  - unfold z0. cbn [fst snd]. split; [repeat split|]. split.
    + intros a p q Ha Hp Hq. replace a with 0%nat by lia. change 0%nat with (0 * ny)%nat at 1. rewrite (mset_grid_col _ ny n) by auto. reflexivity.
    + intros a b p q Ha Hb Hp Hq. replace a with 0%nat by lia. change 0%nat with (0 * ny)%nat at 1. change 0%nat with (0 * m)%nat at 2. rewrite mset_grid by auto.
      cbn [Nat.eqb andb mzero mget]. destruct (Nat.eqb_spec b 0); [reflexivity|]. destruct b; reflexivity.
  - intros i [OX OU] Hi ((R1 & C1 & R2 & C2) & EX & EU). unfold body. cbn [fst snd] in *.
    rewrite getb_ok by nia. cbn [bind]. rewrite mmul_o_ok by reflexivity. cbn [bind]. rewrite putb_ok by (cbn; fold ny; nia). cbn [bind].
    rewrite getb_ok by nia. cbn [bind]. rewrite mmul_o_ok by reflexivity. cbn [bind]. rewrite putb_ok by (cbn; fold ny; nia). cbn [bind].
    rewrite putb_ok by (cbn; fold m; nia). cbn [bind]. eexists. split; [reflexivity|]. cbn [fst snd]. split; [repeat split; assumption|]. split.
    + intros a p q Ha Hp Hq. rewrite (mset_grid_col _ ny n) by (cbn; auto). destruct (Nat.eqb_spec a i) as [->|Ne].
      * replace (i =? 0)%nat with false by (symmetry; apply Nat.eqb_neq; lia). reflexivity.
      * apply EX; [lia|assumption|assumption].
    + intros a b p q Ha Hb Hp Hq. rewrite mset_grid by auto. rewrite (mset_row _ ny m i N) by (cbn; auto).
      destruct (Nat.eqb_spec a i) as [->|Ne]; cbn [andb].
      * destruct (Nat.eqb_spec b i); [reflexivity|]. replace (b <? N)%nat with true by (symmetry; apply Nat.ltb_lt; lia).
        cbn [mmul mblock mget]. fold n. destruct (Nat.ltb_spec b i); [reflexivity|]. apply Rsum_zero. intros l Hl. rewrite Nat.add_0_l, BL by lia. ring.
      * rewrite EU by lia. reflexivity.
  - cbn [fst snd] in *. exists OX, OU. split; [exact EQ|]. repeat split; auto.
    + intros i p q Hi Hp Hq. rewrite EX by lia. rewrite !mat_at_repeat by lia. reflexivity.
    + intros i j p q Hi Hj Hp Hq. rewrite EU by lia. rewrite !mat_at_repeat by lia. reflexivity.
Qed.
