From Coq Require Import List Reals Arith Lra Lia Bool.
From Verif Require Import Base BaseFacts RSum Matrix BlockDiagonalFacts BlockMatrix BlockMatrixFacts Condense CondenseSpec CondenseFacts.
Import ListNotations.
Open Scope R_scope.

Section Loops.
Variables (A B : list mat) (n m : nat).
Hypothesis HA : sized A n n.
Hypothesis HB : sized B n m.
Hypothesis HL : length A = length B.
Hypothesis HN : (0 < length A)%nat.
Let N := length A.

(** columns k, ..., N-1 are done *)
Definition cinv (k : nat) (S U : mat) : Prop :=
  mrows S = (N * n)%nat /\ mcols S = n /\ mrows U = (N * n)%nat /\ mcols U = (N * m)%nat /\
  (forall i p q, (k <= i < N)%nat -> (p < n)%nat -> (q < n)%nat -> mget S (i * n + p) q = mget (psi A n k (i - k)) p q) /\
  (forall i j p q, (i < N)%nat -> (j < N)%nat -> (p < n)%nat -> (q < m)%nat ->
     mget U (i * n + p) (j * m + q) = if (k <=? j)%nat && (j <=? i)%nat then mget (mmul (psi A n j (i - j)) (mat_at B j)) p q else 0).

Lemma mid_mul (b : mat) p q : mrows b = n -> mcols b = m -> (p < n)%nat -> (q < m)%nat -> mget (mmul (mid n) b) p q = mget b p q.
Proof. intros R C Hp Hq. rewrite <- R. apply meq_get; [apply mmul_id_l|cbn; lia|cbn; lia]. Qed.

Lemma cinv_step k S U S' U' : (Datatypes.S k < N)%nat -> cinv (Datatypes.S k) S U ->
  mrows S' = (N * n)%nat -> mcols S' = n -> mrows U' = (N * n)%nat -> mcols U' = (N * m)%nat ->
  (forall i p q, (k < i < N)%nat -> (p < n)%nat -> (q < n)%nat ->
     mget S' (i * n + p) q = Rsum n (fun l => mget S (i * n + p) l * mget (mat_at A (Datatypes.S k)) l q)) ->
  (forall p q, (p < n)%nat -> (q < n)%nat -> mget S' (k * n + p) q = mget (mid n) p q) ->
  (forall i j p q, (i < N)%nat -> (j < N)%nat -> (p < n)%nat -> (q < m)%nat ->
     mget U' (i * n + p) (j * m + q) =
       if (j =? k)%nat && (k <=? i)%nat then (if (i =? k)%nat then mget (mat_at B k) p q else Rsum n (fun l => mget S' (i * n + p) l * mget (mat_at B k) l q))
       else mget U (i * n + p) (j * m + q)) ->
  cinv k S' U'.
Proof.
  intros Hk (S1 & S2 & U1 & U2 & CS & CU) S1' S2' U1' U2' NS NS0 NU.
  destruct (mat_at_size B n m k HB ltac:(unfold N in *; lia)) as [RB CB].
  destruct (mat_at_size A n n (Datatypes.S k) HA ltac:(unfold N in *; lia)) as [RA CA].
  assert (CS' : forall i p q, (k <= i < N)%nat -> (p < n)%nat -> (q < n)%nat -> mget S' (i * n + p) q = mget (psi A n k (i - k)) p q).
  { intros i p q Hi Hp Hq. destruct (Nat.eq_dec i k) as [->|Ne].
    - rewrite NS0, Nat.sub_diag by assumption. reflexivity.
    - rewrite NS by lia. replace (i - k)%nat with (Datatypes.S (i - Datatypes.S k)) by lia. cbn [psi mmul mget].
      rewrite (psi_cols A n HA) by (unfold N in *; lia). apply Rsum_ext. intros l Hl. rewrite CS by lia. reflexivity. }
  repeat split; auto.
  intros i j p q Hi Hj Hp Hq. rewrite NU by assumption. destruct (Nat.eqb_spec j k) as [->|Ne]; cbn [andb].
  - rewrite Nat.leb_refl. cbn [andb]. destruct (Nat.leb_spec k i) as [L|L].
    + destruct (Nat.eqb_spec i k) as [->|Ni].
      * rewrite Nat.sub_diag. cbn [psi]. rewrite mid_mul by assumption. reflexivity.
      * cbn [mmul mget]. rewrite (psi_cols A n HA) by (unfold N in *; lia). apply Rsum_ext. intros l Hl. rewrite CS' by lia. reflexivity.
    + rewrite CU by assumption. replace (Datatypes.S k <=? k)%nat with false by (symmetry; apply Nat.leb_gt; lia). reflexivity.
  - rewrite CU by assumption. destruct (Nat.leb_spec k j) as [L|L]; destruct (Nat.leb_spec (Datatypes.S k) j) as [L'|L']; try lia; reflexivity.
Qed.

Lemma cinv_final S U S' : cinv 0 S U -> mrows S' = (N * n)%nat -> mcols S' = n ->
  (forall i p q, (i < N)%nat -> (p < n)%nat -> (q < n)%nat -> mget S' (i * n + p) q = Rsum n (fun l => mget S (i * n + p) l * mget (mat_at A 0) l q)) ->
  condensed A B n m S' U.
Proof.
  intros (S1 & S2 & U1 & U2 & CS & CU) R C E. unfold condensed. fold N. repeat split; auto.
  - intros i p q Hi Hp Hq. rewrite E by assumption. cbn [mmul mget]. rewrite (psi_cols A n HA) by (unfold N in *; lia).
    apply Rsum_ext. intros l Hl. rewrite CS by lia. rewrite Nat.sub_0_r. reflexivity.
Qed.

Lemma cinv_init S U : mrows S = (N * n)%nat -> mcols S = n -> mrows U = (N * n)%nat -> mcols U = (N * m)%nat ->
  (forall p q, (p < n)%nat -> (q < n)%nat -> mget S ((N - 1) * n + p) q = mget (mid n) p q) ->
  (forall i j p q, (i < N)%nat -> (j < N)%nat -> (p < n)%nat -> (q < m)%nat ->
     mget U (i * n + p) (j * m + q) = if (i =? N - 1)%nat && (j =? N - 1)%nat then mget (mat_at B (N - 1)) p q else 0) ->
  cinv (N - 1) S U.
Proof.
  intros S1 S2 U1 U2 ES EU. fold N in HN. destruct (mat_at_size B n m (N - 1) HB ltac:(unfold N in *; lia)) as [RB CB]. repeat split; auto.
  - intros i p q Hi Hp Hq. replace i with (N - 1)%nat by lia. rewrite ES, Nat.sub_diag by assumption. reflexivity.
  - intros i j p q Hi Hj Hp Hq. rewrite EU by assumption.
    destruct (Nat.eqb_spec i (N - 1)) as [->|]; destruct (Nat.eqb_spec j (N - 1)) as [->|]; cbn [andb].
    + rewrite !Nat.leb_refl, Nat.sub_diag. cbn [psi andb]. rewrite mid_mul by assumption. reflexivity.
    + replace (N - 1 <=? j)%nat with false by (symmetry; apply Nat.leb_gt; lia). reflexivity.
    + replace (N - 1 <=? i)%nat with false by (symmetry; apply Nat.leb_gt; lia). rewrite andb_false_r. reflexivity.
    + replace (N - 1 <=? j)%nat with false by (symmetry; apply Nat.leb_gt; lia). reflexivity.
Qed.

(** ** blocks *)
Definition shaped (b : bmat) (r c nv nh : nat) : Prop :=
  block_rows b = r /\ block_cols b = c /\ mrows (raw b) = (nv * r)%nat /\ mcols (raw b) = (nh * c)%nat.

Theorem condense_blocks junk : (0 < n)%nat -> (0 < m)%nat -> exists S U, condense junk n m A B = Ok (S, U) /\
  shaped S n n N 1 /\ shaped U n m N N /\ condensed A B n m (raw S) (raw U).
Proof.
  intros Hn Hm. unfold condense. rewrite !assert_true by (first [apply Nat.eqb_eq; exact HL | apply Nat.ltb_lt; exact HN]).
  fold N. fold N in HN. cbv zeta. rewrite bm_resize_ok, bm_setZero_ok by assumption. cbn [bind].
  rewrite bput_ok by (cbn; nia). cbn [bind raw block_rows block_cols].
  assert (LB : (N - 1 < length B)%nat) by (unfold N in *; lia).
  rewrite (mat_at_ok B (N - 1) LB). cbn [bind]. destruct (mat_at_size B n m (N - 1) HB LB) as [RB CB].
  rewrite bput_ok by (cbn; rewrite ?RB, ?CB; nia). cbn [bind raw block_rows block_cols].
  set (S1 := mkBm _ n n). set (U1 := mkBm _ n m).
  destruct (for_up_inv (fun t (SU : bmat * bmat) => shaped (fst SU) n n N 1 /\ shaped (snd SU) n m N N /\ cinv (N - 1 - t) (raw (fst SU)) (raw (snd SU)))
     (fun t SU =>
          let k := (N - 2 - t)%nat in
          bind (for_up (N - 1 - k) (k + 1) (fun i S =>
                  bind (bget S i 0) (fun s => bind (vec_at A (k + 1)) (fun a => bind (mmul_o s a) (bput S i 0)))) (fst SU)) (fun S =>
          bind (bput S k 0 (mid n)) (fun S' =>
          bind (vec_at B k) (fun b =>
          bind (bput (snd SU) k k b) (fun U =>
          bind (for_up (N - 1 - k) (k + 1) (fun i U =>
                  bind (bget S' i 0) (fun s => bind (mmul_o s b) (bput U i k))) U) (fun U' =>
          Ok (S', U')))))))
     (N - 1) 0 (S1, U1)) as ([S U] & E & HS & HU & C).
  - cbn [fst snd]. split; [repeat split; cbn; lia|]. split; [repeat split; cbn; lia|]. rewrite Nat.sub_0_r. apply cinv_init; try (cbn; lia).
    + intros p q Hp Hq. unfold S1. cbn [raw]. rewrite Nat.mul_0_l. rewrite (mset_grid_col _ n n) by (auto). rewrite Nat.eqb_refl. reflexivity.
    + intros i j p q Hi Hj Hp Hq. unfold U1. cbn [raw]. rewrite mset_grid by auto. reflexivity.
  - intros t [S U] Ht (HS & HU & C). cbn [fst snd] in *. cbv zeta. set (k := (N - 2 - t)%nat).
    replace (N - 1 - t)%nat with (Datatypes.S k) in C by lia.
    destruct HS as (HS1 & HS2 & HS3 & HS4). destruct HU as (HU1 & HU2 & HU3 & HU4).
    assert (LA : (k + 1 < length A)%nat) by (unfold N in *; lia).
    destruct (mat_at_size A n n (k + 1) HA LA) as [RA CA].
    assert (LBk : (k < length B)%nat) by (unfold N in *; lia). destruct (mat_at_size B n m k HB LBk) as [RBk CBk].
    rewrite Nat.mul_1_l in HS4.
    (* first loop *)
    destruct (for_up_inv (fun i (X : bmat) => shaped X n n N 1 /\
        forall a p q, (p < n)%nat -> (q < n)%nat -> mget (raw X) (a * n + p) q =
          if (k <? a)%nat && (a <? i)%nat then Rsum n (fun l => mget (raw S) (a * n + p) l * mget (mat_at A (k + 1)) l q) else mget (raw S) (a * n + p) q)
      (fun i S => bind (bget S i 0) (fun s => bind (vec_at A (k + 1)) (fun a => bind (mmul_o s a) (bput S i 0)))) (N - 1 - k) (k + 1) S)
      as (X & EX & HX & CX).
    { split; [repeat split; auto; lia|]. intros a p q Hp Hq.
      destruct (Nat.ltb_spec k a), (Nat.ltb_spec a (k + 1)); try lia; reflexivity. }
    { intros i X Hi (HX & CX). destruct HX as (HX1 & HX2 & HX3 & HX4). rewrite Nat.mul_1_l in HX4.
      rewrite bget_ok by (rewrite ?HX1, ?HX2, ?HX3, ?HX4; nia). cbn [bind]. rewrite (mat_at_ok A (k + 1) LA). cbn [bind].
      rewrite mmul_o_ok by (cbn; rewrite HX2; lia). cbn [bind]. rewrite bput_ok by (cbn [mmul mblock mrows mcols]; rewrite ?HX1, ?HX2, ?HX3, ?HX4; nia).
      eexists. split; [reflexivity|]. split; [repeat split; cbn; auto; lia|].
      intros a p q Hp Hq. cbn [raw]. rewrite HX1, HX2, Nat.mul_0_l.
      rewrite (mset_grid_col _ n n) by (cbn; auto).
      destruct (Nat.eqb_spec a i) as [->|Ne].
      - replace (k <? i)%nat with true by (symmetry; apply Nat.ltb_lt; lia). replace (i <? Datatypes.S i)%nat with true by (symmetry; apply Nat.ltb_lt; lia).
        cbn [andb mmul mblock mget mcols]. apply Rsum_ext. intros l Hl. rewrite Nat.add_0_l, CX by assumption.
        replace (i <? i)%nat with false by (symmetry; apply Nat.ltb_irrefl). rewrite andb_false_r. reflexivity.
      - rewrite CX by assumption. destruct (Nat.ltb_spec a i), (Nat.ltb_spec a (Datatypes.S i)); try lia; reflexivity. }
    rewrite EX. cbn [bind]. destruct HX as (HX1 & HX2 & HX3 & HX4). rewrite Nat.mul_1_l in HX4.
    rewrite bput_ok by (cbn [mid mrows mcols]; rewrite ?HX1, ?HX2, ?HX3, ?HX4; nia). cbn [bind]. rewrite HX1, HX2.
    set (S' := mkBm _ n n). rewrite (mat_at_ok B k LBk). cbn [bind].
    rewrite bput_ok by (rewrite ?HU1, ?HU2, ?HU3, ?HU4; nia). cbn [bind]. rewrite HU1, HU2. set (U0 := mkBm _ n m).
    assert (ES' : forall a p q, (p < n)%nat -> (q < n)%nat -> mget (raw S') (a * n + p) q = if (a =? k)%nat then mget (mid n) p q else mget (raw X) (a * n + p) q).
    { intros a p q Hp Hq. unfold S'. cbn [raw]. rewrite Nat.mul_0_l. apply (mset_grid_col _ n n); auto. }
    (* second loop *)
    destruct (for_up_inv (fun i (Y : bmat) => shaped Y n m N N /\
        forall a b p q, (p < n)%nat -> (q < m)%nat -> mget (raw Y) (a * n + p) (b * m + q) =
          if ((k <? a)%nat && (a <? i)%nat) && (b =? k)%nat then Rsum n (fun l => mget (raw S') (a * n + p) l * mget (mat_at B k) l q) else mget (raw U0) (a * n + p) (b * m + q))
      (fun i U => bind (bget S' i 0) (fun s => bind (mmul_o s (mat_at B k)) (bput U i k))) (N - 1 - k) (k + 1) U0)
      as (Y & EY & HY & CY).
    { split; [repeat split; cbn; auto; lia|]. intros a b p q Hp Hq.
      destruct (Nat.ltb_spec k a), (Nat.ltb_spec a (k + 1)); try lia; reflexivity. }
    { intros i Y Hi (HY & CY). destruct HY as (HY1 & HY2 & HY3 & HY4).
      rewrite bget_ok by (cbn [S' raw block_rows block_cols mset_block mrows mcols]; rewrite ?HX3, ?HX4; nia). cbn [bind].
      rewrite mmul_o_ok by (cbn; lia). cbn [bind]. rewrite bput_ok by (cbn [S' raw block_rows block_cols mmul mblock mrows mcols]; rewrite ?HY1, ?HY2, ?HY3, ?HY4; nia).
      eexists. split; [reflexivity|]. split; [repeat split; cbn; auto; lia|].
      intros a b p q Hp Hq. cbn [raw]. rewrite HY1, HY2. rewrite mset_grid by (cbn; auto).
      destruct (Nat.eqb_spec a i) as [->|Ne]; cbn [andb].
      - replace (k <? i)%nat with true by (symmetry; apply Nat.ltb_lt; lia). replace (i <? Datatypes.S i)%nat with true by (symmetry; apply Nat.ltb_lt; lia).
        cbn [andb]. destruct (Nat.eqb_spec b k) as [->|Nb].
        + cbn [mmul mblock mget mcols S' block_cols block_rows]. apply Rsum_ext. intros l Hl. rewrite Nat.add_0_l. reflexivity.
        + rewrite CY by assumption. destruct (Nat.eqb_spec b k); [lia|]. rewrite ?andb_false_r. reflexivity.
      - rewrite CY by assumption. destruct (Nat.ltb_spec a i), (Nat.ltb_spec a (Datatypes.S i)); try lia; reflexivity. }
    rewrite EY. cbn [bind]. eexists. split; [reflexivity|]. cbn [fst snd]. split; [repeat split; cbn; auto; lia|]. split; [exact HY|].
    replace (N - 1 - Datatypes.S t)%nat with k by lia. destruct HY as (HY1 & HY2 & HY3 & HY4).
    apply (cinv_step k (raw S) (raw U)); auto; try (cbn; lia).
    + intros i p q Hi Hp Hq. rewrite ES' by assumption. replace (i =? k)%nat with false by (symmetry; apply Nat.eqb_neq; lia).
      rewrite CX by assumption. replace (k <? i)%nat with true by (symmetry; apply Nat.ltb_lt; lia).
      replace (i <? k + 1 + (N - 1 - k))%nat with true by (symmetry; apply Nat.ltb_lt; lia). cbn [andb]. replace (k + 1)%nat with (Datatypes.S k) by lia. reflexivity.
    + intros p q Hp Hq. rewrite ES', Nat.eqb_refl by assumption. reflexivity.
    + intros i j p q Hi Hj Hp Hq. rewrite CY by assumption. unfold U0. cbn [raw]. rewrite mset_grid by auto.
      replace (i <? k + 1 + (N - 1 - k))%nat with true by (symmetry; apply Nat.ltb_lt; lia). rewrite andb_true_r.
      destruct (Nat.eqb_spec j k) as [->|]; rewrite ?andb_true_r, ?andb_false_r; cbn [andb]; [|reflexivity].
      destruct (Nat.ltb_spec k i), (Nat.leb_spec k i), (Nat.eqb_spec i k); try lia; reflexivity.
  - cbv zeta in E. rewrite E. cbn [bind fst snd]. cbn [fst snd] in HS, HU, C. replace (N - 1 - (0 + (N - 1)))%nat with 0%nat in C by lia.
    pose proof HS as (HS1 & HS2 & HS3 & HS4). rewrite Nat.mul_1_l in HS4.
    unfold bget_column. rewrite getb_ok by (rewrite ?HS1, ?HS2, ?HS3, ?HS4; nia). cbn [bind]. rewrite (mat_at_ok A 0 HN). cbn [bind].
    destruct (mat_at_size A n n 0 HA HN) as [RA CA].
    rewrite mmul_o_ok by (cbn; lia). cbn [bind]. unfold bput_column.
    rewrite putb_ok by (cbn [mmul mblock mrows mcols]; rewrite ?HS1, ?HS2, ?HS3, ?HS4; nia). cbn [bind].
    eexists. exists U. split; [reflexivity|]. split; [repeat split; cbn; auto; lia|]. split; [exact HU|]. cbn [raw].
    apply (cinv_final (raw S)); [exact C|exact HS3|cbn; exact HS4|].
    intros i p q Hi Hp Hq. cbn [mset_block mget mmul mblock mrows mcols].
    rewrite !HS1, !HS2, CA, !Nat.mul_0_l.
    assert (B1 : in_block 0 (N * n) (i * n + p) = true) by (apply in_block_iff; nia).
    assert (B2 : in_block 0 n q = true) by (apply in_block_iff; lia). rewrite B1, B2. cbn [andb]. rewrite !Nat.sub_0_r.
    apply Rsum_ext. intros l Hl. reflexivity.
Qed.
End Loops.
