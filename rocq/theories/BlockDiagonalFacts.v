From Coq Require Import List Reals Arith Lra Lia Bool.
From Verif Require Import Base BaseFacts RSum Matrix BlockDiagonal.
Import ListNotations.
Open Scope R_scope.

Lemma in_block_iff i0 n i : in_block i0 n i = true <-> (i0 <= i < i0 + n)%nat.
Proof. unfold in_block. rewrite andb_true_iff, Nat.leb_le, Nat.ltb_lt. tauto. Qed.
Lemma in_block_niff i0 n i : in_block i0 n i = false <-> ~ (i0 <= i < i0 + n)%nat.
Proof. rewrite <- in_block_iff. destruct (in_block i0 n i); split; intros; try discriminate; auto; try congruence. Qed.

(** entry of the replicated matrix *)
Definition bd_entry (a : mat) (r c : nat) : R :=
  if (r / mrows a =? c / mcols a)%nat then mget a (r mod mrows a) (c mod mcols a) else 0.

Lemma replicate_ok a k : forall out i,
  mrows out = ((i + k) * mrows a)%nat -> mcols out = ((i + k) * mcols a)%nat ->
  exists m, replicate_blocks a out i k = Ok m /\ mrows m = mrows out /\ mcols m = mcols out /\
    forall r c, mget m r c =
      if (i * mrows a <=? r)%nat && (r <? (i + k) * mrows a)%nat && ((i * mcols a <=? c)%nat && (c <? (i + k) * mcols a)%nat) && (r / mrows a =? c / mcols a)%nat
      then mget a (r mod mrows a) (c mod mcols a) else mget out r c.
Proof.
  induction k as [|k IH]; intros out i Hr Hc; simpl.
  - exists out. repeat split. intros r c.
    replace (i + 0)%nat with i by lia.
    destruct ((i * mrows a <=? r)%nat && (r <? i * mrows a)%nat) eqn:E; [|reflexivity].
    apply andb_true_iff in E. destruct E as [E1 E2]. apply Nat.leb_le in E1. apply Nat.ltb_lt in E2. lia.
  - unfold mset_block_o.
    assert (L : ((i * mrows a + mrows a <=? mrows out)%nat && (i * mcols a + mcols a <=? mcols out)%nat) = true).
    { rewrite Hr, Hc. apply andb_true_iff. split; apply Nat.leb_le; nia. }
    rewrite L. cbn [assert_then bind].
    destruct (IH (mset_block out (i * mrows a) (i * mcols a) a) (S i)) as (m & E & M1 & M2 & M3);
      [cbn [mset_block mrows]; rewrite Hr; lia|cbn [mset_block mcols]; rewrite Hc; lia|].
    exists m. split; [exact E|]. cbn [mset_block mrows mcols] in *. split; [exact M1|]. split; [exact M2|].
    intros r c. rewrite M3. cbn [mset_block mget].
    replace (S i + k)%nat with (i + S k)%nat by lia.
    destruct (in_block (i * mrows a) (mrows a) r && in_block (i * mcols a) (mcols a) c) eqn:B.
    + apply andb_true_iff in B. destruct B as [B1 B2]. apply in_block_iff in B1. apply in_block_iff in B2.
      assert (R1 : (r / mrows a = i)%nat) by (symmetry; apply Nat.div_unique with (r - i * mrows a)%nat; lia).
      assert (C1 : (c / mcols a = i)%nat) by (symmetry; apply Nat.div_unique with (c - i * mcols a)%nat; lia).
      assert (R2 : (r mod mrows a = r - i * mrows a)%nat) by (symmetry; apply Nat.mod_unique with i; lia).
      assert (C2 : (c mod mcols a = c - i * mcols a)%nat) by (symmetry; apply Nat.mod_unique with i; lia).
      rewrite R1, C1, R2, C2, Nat.eqb_refl.
      replace (S i * mrows a <=? r)%nat with false by (symmetry; apply Nat.leb_gt; lia). cbn [andb].
      replace (i * mrows a <=? r)%nat with true by (symmetry; apply Nat.leb_le; lia).
      replace (i * mcols a <=? c)%nat with true by (symmetry; apply Nat.leb_le; lia).
      replace (r <? (i + S k) * mrows a)%nat with true by (symmetry; apply Nat.ltb_lt; nia).
      replace (c <? (i + S k) * mcols a)%nat with true by (symmetry; apply Nat.ltb_lt; nia). reflexivity.
    + destruct (r / mrows a =? c / mcols a)%nat eqn:Q; [|rewrite !andb_false_r; reflexivity].
      apply Nat.eqb_eq in Q.
      destruct ((i * mrows a <=? r)%nat && (r <? (i + S k) * mrows a)%nat && ((i * mcols a <=? c)%nat && (c <? (i + S k) * mcols a)%nat)) eqn:Z.
      * apply andb_true_iff in Z. destruct Z as [Z1 Z2]. apply andb_true_iff in Z1. apply andb_true_iff in Z2.
        destruct Z1 as [Z1 Z3]. destruct Z2 as [Z2 Z4]. apply Nat.leb_le in Z1, Z2. apply Nat.ltb_lt in Z3, Z4.
        assert (RA : (mrows a <> 0)%nat) by nia. assert (CA : (mcols a <> 0)%nat) by nia.
        assert (G1 : (i <= r / mrows a)%nat) by (apply Nat.div_le_lower_bound; nia).
        destruct (Nat.eq_dec (r / mrows a) i) as [K|K].
        -- exfalso. apply andb_false_iff in B. rewrite !in_block_niff in B.
           pose proof (Nat.div_mod r (mrows a) RA). pose proof (Nat.div_mod c (mcols a) CA).
           pose proof (Nat.mod_upper_bound r (mrows a) RA). pose proof (Nat.mod_upper_bound c (mcols a) CA).
           rewrite <- Q in *. rewrite K in *. nia.
        -- pose proof (Nat.div_mod r (mrows a) RA). pose proof (Nat.div_mod c (mcols a) CA).
           rewrite <- Q in *.
           replace (S i * mrows a <=? r)%nat with true by (symmetry; apply Nat.leb_le; nia).
           replace (S i * mcols a <=? c)%nat with true by (symmetry; apply Nat.leb_le; nia).
           replace (r <? (i + S k) * mrows a)%nat with true by (symmetry; apply Nat.ltb_lt; nia).
           replace (c <? (i + S k) * mcols a)%nat with true by (symmetry; apply Nat.ltb_lt; nia). reflexivity.
      * destruct ((S i * mrows a <=? r)%nat && (r <? (i + S k) * mrows a)%nat && ((S i * mcols a <=? c)%nat && (c <? (i + S k) * mcols a)%nat)) eqn:Y; [|reflexivity].
        exfalso. apply andb_true_iff in Y. destruct Y as [Z1 Z2]. apply andb_true_iff in Z1. apply andb_true_iff in Z2.
        destruct Z1 as [Z1 Z3]. destruct Z2 as [Z2 Z4]. apply Nat.leb_le in Z1, Z2.
        rewrite Z3, Z4 in Z.
        replace (i * mrows a <=? r)%nat with true in Z by (symmetry; apply Nat.leb_le; lia).
        replace (i * mcols a <=? c)%nat with true in Z by (symmetry; apply Nat.leb_le; lia). discriminate.
Qed.

Theorem makeBlockDiagonal_spec a n : exists m, makeBlockDiagonal a n = Ok m /\
  mrows m = (n * mrows a)%nat /\ mcols m = (n * mcols a)%nat /\
  forall r c, (r < mrows m)%nat -> (c < mcols m)%nat -> mget m r c = bd_entry a r c.
Proof.
  unfold makeBlockDiagonal. destruct n as [|[|n]].
  - exists (mzero 0 0). repeat split. simpl. lia.
  - exists a. repeat split; try (simpl; lia). intros r c Hr Hc. unfold bd_entry.
    rewrite !Nat.div_small, !Nat.mod_small by assumption. reflexivity.
  - destruct (replicate_ok a (S (S n)) (mzero (S (S n) * mrows a) (S (S n) * mcols a)) 0) as (m & E & M1 & M2 & M3); [reflexivity|reflexivity|].
    exists m. split; [exact E|]. split; [exact M1|]. split; [exact M2|]. intros r c Hr Hc. rewrite M3. unfold bd_entry.
    rewrite M1 in Hr. rewrite M2 in Hc. cbn [mzero mrows mcols mget] in *.
    replace (0 * mrows a <=? r)%nat with true by reflexivity. replace (0 * mcols a <=? c)%nat with true by reflexivity.
    replace (r <? (0 + S (S n)) * mrows a)%nat with true by (symmetry; apply Nat.ltb_lt; exact Hr).
    replace (c <? (0 + S (S n)) * mcols a)%nat with true by (symmetry; apply Nat.ltb_lt; exact Hc). cbn [andb]. reflexivity.
Qed.

(** multiplication by a replicated matrix multiplies each segment *)
Definition vsegment (x : vec) (i0 n : nat) : vec := mkVec n (fun i => vget x (i0 + i)).

Lemma bd_entry_block a i r j c : (r < mrows a)%nat -> (c < mcols a)%nat ->
  bd_entry a (i * mrows a + r) (j * mcols a + c) = if (i =? j)%nat then mget a r c else 0.
Proof.
  intros Hr Hc. unfold bd_entry.
  rewrite (Nat.add_comm (i * mrows a)), (Nat.add_comm (j * mcols a)).
  rewrite !Nat.div_add, !Nat.mod_add, !Nat.div_small, !Nat.mod_small by lia. reflexivity.
Qed.

Theorem makeBlockDiagonal_apply a n m x i r : makeBlockDiagonal a n = Ok m -> (i < n)%nat -> (r < mrows a)%nat ->
  vget (mulv m x) (i * mrows a + r) = vget (mulv a (vsegment x (i * mcols a) (mcols a))) r.
Proof.
  intros E Hi Hr. destruct (makeBlockDiagonal_spec a n) as (m' & E' & M1 & M2 & M3). rewrite E in E'. inversion E'; subst m'.
  cbn [mulv vget vsegment]. rewrite M2.
  transitivity (Rsum (n * mcols a) (fun k => bd_entry a (i * mrows a + r) k * vget x k)).
  { apply Rsum_ext. intros k Hk. rewrite M3; [reflexivity|rewrite M1; nia|rewrite M2; exact Hk]. }
  rewrite Rsum_blocks. rewrite (Rsum_single n i); [|exact Hi|].
  - apply Rsum_ext. intros k Hk. rewrite bd_entry_block by assumption. rewrite Nat.eqb_refl. reflexivity.
  - intros j Hj N. apply Rsum_zero. intros k Hk. rewrite bd_entry_block by assumption.
    replace (i =? j)%nat with false by (symmetry; apply Nat.eqb_neq; congruence). ring.
Qed.

(** ** list of blocks *)
Fixpoint bd_list_entry (l : list mat) (r c : nat) : R :=
  match l with
  | [] => 0
  | a :: rest =>
      if (r <? mrows a)%nat then if (c <? mcols a)%nat then mget a r c else 0
      else if (c <? mcols a)%nat then 0 else bd_list_entry rest (r - mrows a) (c - mcols a)
  end.

Lemma place_ok l : forall out r0 c0,
  (r0 + list_sum (map mrows l) <= mrows out)%nat -> (c0 + list_sum (map mcols l) <= mcols out)%nat ->
  (forall r c, (r0 <= r)%nat \/ (c0 <= c)%nat -> mget out r c = 0) ->
  exists m, place_blocks l out r0 c0 = Ok m /\ mrows m = mrows out /\ mcols m = mcols out /\
    (forall r c, (r0 <= r)%nat -> (c0 <= c)%nat -> mget m r c = bd_list_entry l (r - r0) (c - c0)) /\
    (forall r c, (r < r0)%nat \/ (c < c0)%nat -> mget m r c = mget out r c).
Proof.
  induction l as [|a l IH]; intros out r0 c0 Hr Hc Z; simpl in *.
  - exists out. repeat split; auto.
  - unfold mset_block_o.
    assert (L : ((r0 + mrows a <=? mrows out)%nat && (c0 + mcols a <=? mcols out)%nat) = true) by (apply andb_true_iff; split; apply Nat.leb_le; lia).
    rewrite L. cbn [assert_then bind].
    destruct (IH (mset_block out r0 c0 a) (r0 + mrows a)%nat (c0 + mcols a)%nat) as (m & E & M1 & M2 & M3 & M4); cbn [mset_block mrows mcols] in *; try lia.
    { intros r c H. cbn [mset_block mget].
      assert (B : in_block r0 (mrows a) r && in_block c0 (mcols a) c = false).
      { apply andb_false_iff. rewrite !in_block_niff. lia. }
      rewrite B. apply Z. lia. }
    exists m. repeat split; auto.
    + intros r c H1 H2.
      destruct (r - r0 <? mrows a)%nat eqn:R; destruct (c - c0 <? mcols a)%nat eqn:C;
        rewrite ?Nat.ltb_lt, ?Nat.ltb_ge in R, C.
      * rewrite M4 by lia. cbn [mset_block mget].
        assert (B : in_block r0 (mrows a) r && in_block c0 (mcols a) c = true) by (apply andb_true_iff; rewrite !in_block_iff; lia).
        rewrite B. reflexivity.
      * rewrite M4 by lia. cbn [mset_block mget].
        assert (B : in_block r0 (mrows a) r && in_block c0 (mcols a) c = false) by (apply andb_false_iff; rewrite !in_block_niff; lia).
        rewrite B. apply Z. lia.
      * rewrite M4 by lia. cbn [mset_block mget].
        assert (B : in_block r0 (mrows a) r && in_block c0 (mcols a) c = false) by (apply andb_false_iff; rewrite !in_block_niff; lia).
        rewrite B. apply Z. lia.
      * rewrite M3 by lia. f_equal; lia.
    + intros r c H. rewrite M4 by lia. cbn [mset_block mget].
      assert (B : in_block r0 (mrows a) r && in_block c0 (mcols a) c = false) by (apply andb_false_iff; rewrite !in_block_niff; lia).
      rewrite B. reflexivity.
Qed.

Theorem makeBlockDiagonalList_spec l : exists m, makeBlockDiagonalList l = Ok m /\
  mrows m = list_sum (map mrows l) /\ mcols m = list_sum (map mcols l) /\
  forall r c, (r < mrows m)%nat -> (c < mcols m)%nat -> mget m r c = bd_list_entry l r c.
Proof.
  destruct l as [|a [|b l]].
  - exists (mzero 0 0). repeat split.
  - exists a. repeat split; try (simpl; lia). intros r c Hr Hc. simpl.
    apply Nat.ltb_lt in Hr, Hc. rewrite Hr, Hc. reflexivity.
  - cbn [makeBlockDiagonalList]. set (l' := a :: b :: l).
    destruct (place_ok l' (mzero (list_sum (map mrows l')) (list_sum (map mcols l'))) 0 0) as (m & E & M1 & M2 & M3 & _); [cbn [mzero mrows]; lia|cbn [mzero mcols]; lia|reflexivity|].
    exists m. split; [exact E|]. split; [exact M1|]. split; [exact M2|]. intros r c Hr Hc. rewrite M3 by lia. f_equal; lia.
Qed.

(** the i-th block of the result is the i-th input, everything else is zero *)
Definition row_offset (l : list mat) (i : nat) : nat := list_sum (map mrows (firstn i l)).
Definition col_offset (l : list mat) (i : nat) : nat := list_sum (map mcols (firstn i l)).
Lemma bd_list_entry_block : forall l i j a b r c, nth_error l i = Some a -> nth_error l j = Some b ->
  (r < mrows a)%nat -> (c < mcols b)%nat ->
  bd_list_entry l (row_offset l i + r) (col_offset l j + c) = if (i =? j)%nat then mget a r c else 0.
Proof.
  induction l as [|x l IH]; intros i j a b r c Ha Hb Hr Hc; [destruct i; discriminate|].
  unfold row_offset, col_offset in *.
  destruct i as [|i], j as [|j]; cbn [nth_error firstn map list_sum fold_right] in *.
  - inversion Ha; inversion Hb; subst. cbn [bd_list_entry]. simpl. apply Nat.ltb_lt in Hr, Hc. rewrite Hr, Hc. reflexivity.
  - inversion Ha; subst. cbn [bd_list_entry]. simpl. apply Nat.ltb_lt in Hr. rewrite Hr.
    replace (_ <? mcols a)%nat with false by (symmetry; apply Nat.ltb_ge; lia). reflexivity.
  - inversion Hb; subst. cbn [bd_list_entry]. simpl. apply Nat.ltb_lt in Hc. rewrite Hc.
    replace (_ <? mrows b)%nat with false by (symmetry; apply Nat.ltb_ge; lia). reflexivity.
  - cbn [bd_list_entry].
    replace (_ <? mrows x)%nat with false by (symmetry; apply Nat.ltb_ge; lia).
    replace (_ <? mcols x)%nat with false by (symmetry; apply Nat.ltb_ge; lia).
    change (S i =? S j)%nat with (i =? j)%nat. rewrite <- (IH i j a b r c Ha Hb Hr Hc). f_equal; unfold list_sum; lia.
Qed.
