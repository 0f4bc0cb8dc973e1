From Coq Require Import List ZArith Arith Reals Lra Lia Bool.
From Verif Require Import Base BaseFacts RSum Matrix BlockDiagonalFacts BlockMatrix BlockMatrixFacts Constraints QP QPFacts Eigentools EigentoolsSpec.
Import ListNotations.
Open Scope R_scope.

Lemma ZT b (A : Type) (k : outcome A) : b = true -> assert_then b k = k.
Proof. intros ->. reflexivity. Qed.

(** ** removal *)
Lemma mset_block_o_ok m i j src : (i + mrows src <= mrows m)%nat -> (j + mcols src <= mcols m)%nat -> mset_block_o m i j src = Ok (mset_block m i j src).
Proof. intros A B. unfold mset_block_o. rewrite assert_true by (apply andb_true_iff; split; apply Nat.leb_le; lia). reflexivity. Qed.

Theorem removeRow_ok m k : (k < mrows m)%nat -> exists m', removeRow m (Z.of_nat k) = Ok m' /\ m' ==m without_row m k.
Proof.
  intros H. unfold removeRow. cbv zeta. rewrite assert_true by (apply Z.leb_le; lia).
  destruct (Z.ltb_spec (Z.of_nat k) (Z.of_nat (mrows m) - 1)) as [L|G].
  - unfold zblock. rewrite assert_true by (rewrite !andb_true_iff, !Z.leb_le; lia). rewrite getb_ok by lia. cbn [bind].
    unfold zput. rewrite assert_true by (rewrite !andb_true_iff, !Z.leb_le; lia). rewrite mset_block_o_ok by (cbn [mblock mrows mcols]; lia). cbn [bind].
    unfold conservativeResize. rewrite assert_true by (apply Z.leb_le; lia). destruct (Z.ltb_spec (Z.of_nat (mcols m)) 0) as [X|_]; [lia|].
    eexists. split; [reflexivity|]. split; [cbn; lia|]. split; [cbn; lia|]. cbn [mrows mcols without_row mget mset_block mblock]. intros i j Hi Hj.
    rewrite (proj2 (Nat.ltb_lt i (mrows m))), (proj2 (Nat.ltb_lt j (mcols m))) by lia. cbn [andb].
    replace (Z.to_nat (Z.of_nat k)) with k by lia. change (Z.to_nat 0) with 0%nat.
    destruct (Nat.ltb_spec i k) as [l|g].
    + rewrite (proj2 (in_block_niff k _ i)) by lia. reflexivity.
    + rewrite (proj2 (in_block_iff k _ i)) by lia. rewrite (proj2 (in_block_iff 0 _ j)) by lia. cbn [andb]. f_equal; lia.
  - cbn [bind]. unfold conservativeResize. rewrite assert_true by (apply Z.leb_le; lia). destruct (Z.ltb_spec (Z.of_nat (mcols m)) 0) as [X|_]; [lia|].
    eexists. split; [reflexivity|]. split; [cbn; lia|]. split; [cbn; lia|]. cbn [mrows mcols without_row mget]. intros i j Hi Hj.
    rewrite (proj2 (Nat.ltb_lt i (mrows m))), (proj2 (Nat.ltb_lt j (mcols m))), (proj2 (Nat.ltb_lt i k)) by lia. reflexivity.
Qed.
Theorem removeRow_rejects m row : (row < 0 \/ Z.of_nat (mrows m) < row)%Z -> removeRow m row = Throw.
Proof.
  intros H. unfold removeRow. cbv zeta. destruct (Z.leb_spec row (Z.of_nat (mrows m))) as [L|G]; [|reflexivity].
  assert (N : (row < 0)%Z) by lia. cbn [assert_then]. destruct (Z.ltb_spec row (Z.of_nat (mrows m) - 1)) as [L'|G'].
  - unfold zput. assert (B : ((0 <=? row) && (0 <=? 0))%Z = false) by (apply andb_false_iff; left; apply Z.leb_gt; lia). rewrite B.
    destruct (zblock _ _ _ _ _) eqn:E; cbn; try reflexivity. unfold zblock, assert_then, getb, assert_then in E.
    repeat match type of E with (if ?b then _ else _) = _ => destruct b end; discriminate.
  - cbn [bind]. unfold conservativeResize. assert (B : (0 <=? Z.of_nat (mrows m) - 1)%Z = false) by (apply Z.leb_gt; lia). rewrite B. reflexivity.
Qed.
(** the index one past the end is accepted: the last row is removed *)
Theorem removeRow_end m : (0 < mrows m)%nat -> exists m', removeRow m (Z.of_nat (mrows m)) = Ok m' /\ m' ==m without_row m (mrows m - 1).
Proof.
  intros H. unfold removeRow. cbv zeta. rewrite assert_true by (apply Z.leb_le; lia).
  destruct (Z.ltb_spec (Z.of_nat (mrows m)) (Z.of_nat (mrows m) - 1)) as [L|G]; [lia|].
  cbn [bind]. unfold conservativeResize. rewrite assert_true by (apply Z.leb_le; lia). destruct (Z.ltb_spec (Z.of_nat (mcols m)) 0) as [X|_]; [lia|].
  eexists. split; [reflexivity|]. split; [cbn; lia|]. split; [cbn; lia|]. cbn [mrows mcols without_row mget]. intros i j Hi Hj.
  rewrite (proj2 (Nat.ltb_lt i (mrows m))), (proj2 (Nat.ltb_lt j (mcols m))), (proj2 (Nat.ltb_lt i (mrows m - 1))) by lia. reflexivity.
Qed.
Theorem removeRow_refuted : exists m row, ~ (0 <= row < Z.of_nat (mrows m))%Z /\ removeRow m row <> Throw.
Proof. exists (mid 2), 2%Z. split; [cbn; lia|]. discriminate. Qed.

Theorem removeColumn_ok m k : (k < mcols m)%nat -> (k <= mrows m)%nat -> exists m', removeColumn m (Z.of_nat k) = Ok m' /\ m' ==m without_column m k.
Proof.
  intros H HR. unfold removeColumn. cbv zeta. rewrite assert_true by (apply Z.leb_le; lia).
  destruct (Z.ltb_spec (Z.of_nat k) (Z.of_nat (mcols m) - 1)) as [L|G].
  - unfold zblock. rewrite assert_true by (rewrite !andb_true_iff, !Z.leb_le; lia). rewrite getb_ok by lia. cbn [bind].
    unfold zput. rewrite assert_true by (rewrite !andb_true_iff, !Z.leb_le; lia). rewrite mset_block_o_ok by (cbn [mblock mrows mcols]; lia). cbn [bind].
    unfold conservativeResize. rewrite assert_true by (apply Z.leb_le; lia). destruct (Z.ltb_spec (Z.of_nat (mcols m) - 1) 0) as [X|_]; [lia|].
    eexists. split; [reflexivity|]. split; [cbn; lia|]. split; [cbn; lia|]. cbn [mrows mcols without_column mget mset_block mblock]. intros i j Hi Hj.
    rewrite (proj2 (Nat.ltb_lt i (mrows m))), (proj2 (Nat.ltb_lt j (mcols m))) by lia. cbn [andb].
    replace (Z.to_nat (Z.of_nat k)) with k by lia. change (Z.to_nat 0) with 0%nat.
    rewrite (proj2 (in_block_iff 0 _ i)) by lia. cbn [andb].
    destruct (Nat.ltb_spec j k) as [l|g].
    + rewrite (proj2 (in_block_niff k _ j)) by lia. reflexivity.
    + rewrite (proj2 (in_block_iff k _ j)) by lia. f_equal; lia.
  - cbn [bind]. unfold conservativeResize. rewrite assert_true by (apply Z.leb_le; lia). destruct (Z.ltb_spec (Z.of_nat (mcols m) - 1) 0) as [X|_]; [lia|].
    eexists. split; [reflexivity|]. split; [cbn; lia|]. split; [cbn; lia|]. cbn [mrows mcols without_column mget]. intros i j Hi Hj.
    rewrite (proj2 (Nat.ltb_lt i (mrows m))), (proj2 (Nat.ltb_lt j (mcols m))), (proj2 (Nat.ltb_lt j k)) by lia. reflexivity.
Qed.
(** outside of 0 .. rows: rejected, even if the column exists *)
Theorem removeColumn_rejects m column : (0 < mcols m)%nat -> (column < 0 \/ Z.of_nat (mrows m) < column)%Z -> removeColumn m column = Throw.
Proof.
  intros HC H. unfold removeColumn. cbv zeta. destruct (Z.leb_spec column (Z.of_nat (mrows m))) as [L|G]; [|reflexivity].
  assert (N : (column < 0)%Z) by lia. cbn [assert_then]. destruct (Z.ltb_spec column (Z.of_nat (mcols m) - 1)) as [L'|G']; [|lia].
  unfold zput. assert (B : ((0 <=? 0) && (0 <=? column))%Z = false) by (apply andb_false_iff; right; apply Z.leb_gt; lia). rewrite B.
  destruct (zblock _ _ _ _ _) eqn:E; cbn; try reflexivity. unfold zblock, assert_then, getb, assert_then in E.
  repeat match type of E with (if ?b then _ else _) = _ => destruct b end; discriminate.
Qed.
Theorem removeColumn_end m k : (0 < mcols m)%nat -> (mcols m <= k <= mrows m)%nat -> exists m', removeColumn m (Z.of_nat k) = Ok m' /\ m' ==m without_column m (mcols m - 1).
Proof.
  intros H HK. unfold removeColumn. cbv zeta. rewrite assert_true by (apply Z.leb_le; lia).
  destruct (Z.ltb_spec (Z.of_nat k) (Z.of_nat (mcols m) - 1)) as [L|G]; [lia|].
  cbn [bind]. unfold conservativeResize. rewrite assert_true by (apply Z.leb_le; lia). destruct (Z.ltb_spec (Z.of_nat (mcols m) - 1) 0) as [X|_]; [lia|].
  eexists. split; [reflexivity|]. split; [cbn; lia|]. split; [cbn; lia|]. cbn [mrows mcols without_column mget]. intros i j Hi Hj.
  rewrite (proj2 (Nat.ltb_lt i (mrows m))), (proj2 (Nat.ltb_lt j (mcols m))), (proj2 (Nat.ltb_lt j (mcols m - 1))) by lia. reflexivity.
Qed.
(** a column which exists is not removed; one which does not exist is not rejected *)
Theorem removeColumn_refuted :
  (exists m k, (0 <= k < Z.of_nat (mcols m))%Z /\ removeColumn m k = Throw) /\
  (exists m k, ~ (0 <= k < Z.of_nat (mcols m))%Z /\ removeColumn m k <> Throw).
Proof.
  split.
  - exists (mzero 1 3), 2%Z. split; [cbn; lia|reflexivity].
  - exists (mzero 3 1), 2%Z. split; [cbn; lia|discriminate].
Qed.

(** ** concatenation *)
Lemma no_entries_nonempty m : no_entries m = negb (nonempty m).
Proof. unfold no_entries, nonempty. destruct (mrows m) as [|r], (mcols m) as [|c]; try reflexivity. rewrite Nat.mul_0_r. reflexivity. Qed.
(** what remains: an empty matrix which follows an erased one is not looked at *)
Fixpoint survivors (skip : bool) (ms : list mat) : list mat :=
  match ms with
  | [] => []
  | m :: rest => if skip then m :: survivors false rest else if nonempty m then m :: survivors false rest else survivors true rest
  end.
Lemma erase_empty_ok : forall n k i l, (length l - i <= k)%nat -> (length l - i <= n)%nat -> erase_empty k i l = firstn i l ++ survivors false (skipn i l).
Proof.
  induction n as [|n IH]; intros k i l Hk Hn.
  - assert (L : (length l <= i)%nat) by lia. rewrite firstn_all2, skipn_all2 by assumption. cbn. rewrite app_nil_r.
    destruct k; cbn [erase_empty]; [reflexivity|]. rewrite (proj2 (nth_error_None l i)) by assumption. reflexivity.
  - destruct k as [|k].
    { assert (L : (length l <= i)%nat) by lia. rewrite firstn_all2, skipn_all2 by assumption. cbn. rewrite app_nil_r. reflexivity. }
    cbn [erase_empty]. destruct (nth_error l i) as [m|] eqn:E.
    2:{ apply nth_error_None in E. rewrite firstn_all2, skipn_all2 by assumption. cbn. rewrite app_nil_r. reflexivity. }
    pose proof (nth_error_Some l i) as NS. rewrite E in NS. assert (IL : (i < length l)%nat) by (apply NS; discriminate).
    destruct (nth_error_split l i E) as (l1 & l2 & -> & L1).
    rewrite no_entries_nonempty. assert (F1 : firstn i (l1 ++ m :: l2) = l1) by (rewrite firstn_app, L1, Nat.sub_diag, firstn_O, app_nil_r; apply firstn_all2; lia).
    assert (S1 : skipn i (l1 ++ m :: l2) = m :: l2) by (rewrite skipn_app, L1, Nat.sub_diag, skipn_all2 by lia; reflexivity).
    assert (S2 : skipn (S i) (l1 ++ m :: l2) = l2) by (rewrite skipn_app, L1, skipn_all2 by lia; replace (S i - i)%nat with 1%nat by lia; reflexivity).
    rewrite app_length in *. cbn [length] in *. rewrite F1, S1. cbn [survivors]. destruct (nonempty m) eqn:NE; cbn [negb].
    + rewrite IH by (rewrite app_length; cbn [length]; lia). rewrite S2. 
      replace (firstn (S i) (l1 ++ m :: l2)) with (l1 ++ [m]).
      2:{ rewrite firstn_app, L1, firstn_all2 by lia. replace (S i - i)%nat with 1%nat by lia. reflexivity. }
      rewrite <- app_assoc. reflexivity.
    + unfold erase_at. rewrite F1, S2. rewrite IH by (rewrite app_length; lia).
      destruct l2 as [|m2 l2].
      * rewrite app_nil_r. rewrite firstn_all2, skipn_all2 by lia. reflexivity.
      * replace (firstn (S i) (l1 ++ m2 :: l2)) with (l1 ++ [m2]).
        2:{ rewrite firstn_app, L1, firstn_all2 by lia. replace (S i - i)%nat with 1%nat by lia. reflexivity. }
        rewrite skipn_app, L1, skipn_all2 by lia. replace (S i - i)%nat with 1%nat by lia. cbn [skipn survivors app]. rewrite <- app_assoc. reflexivity.
Qed.
Lemma stack_rows_sizes c ms : (forall m, In m ms -> mcols m = c) -> mrows (stack_rows c ms) = list_sum (map mrows ms) /\ mcols (stack_rows c ms) = c.
Proof.
  induction ms as [|m ms IH]; intros H; [split; reflexivity|]. destruct (IH ltac:(intros; apply H; right; assumption)) as [A B].
  split; [|cbn; apply H; left; reflexivity]. change (mrows m + mrows (stack_rows c ms) = list_sum (map mrows (m :: ms)))%nat. rewrite A. reflexivity.
Qed.
Lemma place_rows_ok c ms : forall row result, (forall m, In m ms -> mcols m = c) -> mcols result = c -> (row + list_sum (map mrows ms) <= mrows result)%nat ->
  exists r, place_rows ms row result = Ok r /\ mrows r = mrows result /\ mcols r = c /\
    (forall i j, (i < row)%nat -> mget r i j = mget result i j) /\
    (forall i j, (i < list_sum (map mrows ms))%nat -> (j < c)%nat -> mget r (row + i) j = mget (stack_rows c ms) i j).
Proof.
  induction ms as [|m ms IH]; intros row result HC C L; cbn [place_rows].
  - exists result. repeat split; auto. cbn. intros; lia.
  - change (list_sum (map mrows (m :: ms))) with (mrows m + list_sum (map mrows ms))%nat in *.
    assert (MC : mcols m = c) by (apply HC; left; reflexivity).
    rewrite putb_ok by (try reflexivity; try lia). cbn [bind].
    destruct (IH (row + mrows m)%nat (mset_block result row 0 m)) as (r & E & R & CC & A & B); [intros; apply HC; right; assumption|assumption|cbn; lia|].
    exists r. split; [exact E|]. split; [exact R|]. split; [exact CC|]. split.
    + intros i j Hi. rewrite A by lia. cbn [mset_block mget]. rewrite (proj2 (in_block_niff row _ i)) by lia. reflexivity.
    + intros i j Hi Hj. change (stack_rows c (m :: ms)) with (mvcat m (stack_rows c ms)). cbn [mvcat mget]. destruct (Nat.ltb_spec i (mrows m)) as [l|g].
      * rewrite A by lia. cbn [mset_block mget]. rewrite (proj2 (in_block_iff row _ (row + i))), (proj2 (in_block_iff 0 _ j)) by lia. cbn [andb]. f_equal; lia.
      * replace (row + i)%nat with (row + mrows m + (i - mrows m))%nat by lia. apply B; lia.
Qed.
Lemma concat_survivors junk ms : let sv := survivors false ms in
  match sv with
  | [] => concatenateMatricesVertically junk ms = Ok (mzero 0 0)
  | m0 :: _ => ((forall m, In m sv -> mcols m = mcols m0) -> exists r, concatenateMatricesVertically junk ms = Ok r /\ r ==m stack_rows (mcols m0) sv) /\
               (~ (forall m, In m sv -> mcols m = mcols m0) -> concatenateMatricesVertically junk ms = Throw)
  end.
Proof.
  cbv zeta. unfold concatenateMatricesVertically. destruct ms as [|a ms]; [reflexivity|].
  rewrite (erase_empty_ok (length (a :: ms)) _ 0 (a :: ms)) by lia. rewrite firstn_O, app_nil_l. change (skipn 0 (a :: ms)) with (a :: ms).
  destruct (survivors false (a :: ms)) as [|m0 rest]; [reflexivity|]. split; intros H.
  - rewrite assert_true by (apply forallb_forall; intros m Hm; apply Nat.eqb_eq; symmetry; apply H, Hm).
    set (sv := m0 :: rest) in *.
    destruct (place_rows_ok (mcols m0) sv 0 (mkMat (list_sum (map mrows sv)) (mcols m0) junk) H eq_refl ltac:(cbn [mrows]; lia)) as (r & E & R & C & _ & B).
    exists r. split; [exact E|]. destruct (stack_rows_sizes (mcols m0) sv H) as [A1 A2]. split; [rewrite A1; exact R|]. split; [rewrite A2; exact C|].
    intros i j Hi Hj. apply (B i j); [rewrite R in Hi; exact Hi|lia].
  - destruct (forallb (fun m => (mcols m0 =? mcols m)%nat) (m0 :: rest)) eqn:F; [|reflexivity]. destruct H. intros m Hm.
    rewrite forallb_forall in F. specialize (F m Hm). apply Nat.eqb_eq in F. auto.
Qed.
Lemma survivors_isolated : forall ms, isolated ms -> survivors false ms = filter nonempty ms /\ (forall m0 rest, ms = m0 :: rest -> nonempty m0 = true -> survivors true ms = filter nonempty ms).
Proof.
  induction ms as [|a ms IH]; intros H; [split; [reflexivity|discriminate]|]. cbn [survivors filter].
  assert (I : isolated ms) by (destruct ms; [exact I|apply H]). destruct (IH I) as [A B]. split.
  - destruct (nonempty a) eqn:N; [rewrite A; reflexivity|]. destruct ms as [|b ms]; [reflexivity|]. apply (B b ms); [reflexivity|]. destruct H as [[X|X] _]; congruence.
  - intros m0 rest E N. injection E as -> ->. rewrite N, A. reflexivity.
Qed.
Theorem concat_isolated junk ms : isolated ms ->
  match filter nonempty ms with
  | [] => concatenateMatricesVertically junk ms = Ok (mzero 0 0)
  | m0 :: _ => ((forall m, In m (filter nonempty ms) -> mcols m = mcols m0) ->
                  exists r, concatenateMatricesVertically junk ms = Ok r /\ r ==m stack_rows (mcols m0) (filter nonempty ms)) /\
               (~ (forall m, In m (filter nonempty ms) -> mcols m = mcols m0) -> concatenateMatricesVertically junk ms = Throw)
  end.
Proof. intros H. pose proof (concat_survivors junk ms) as X. cbv zeta in X. rewrite (proj1 (survivors_isolated ms H)) in X. exact X. Qed.
(** empty matrices with the right number of columns: no restriction *)
Lemma survivors_in : forall ms b m, In m (survivors b ms) -> In m ms.
Proof. induction ms as [|a ms IH]; intros b m H; [destruct H|]. cbn in H. destruct b; [|destruct (nonempty a)]; (try (destruct H as [H|H]; [left; exact H|])); right; eapply IH; exact H. Qed.
Lemma mvcat_nil a b : mrows a = 0%nat -> mcols a = mcols b -> mvcat a b ==m b.
Proof. intros R C. split; [cbn; lia|]. split; [exact C|]. intros i j Hi Hj. cbn [mvcat mget]. rewrite R. cbn [Nat.ltb Nat.leb]. rewrite Nat.sub_0_r. reflexivity. Qed.
Lemma mvcat_meq a b b' : mcols a = mcols b -> b ==m b' -> mvcat a b ==m mvcat a b'.
Proof.
  intros C (R & C' & E). split; [cbn; lia|]. split; [reflexivity|]. intros i j Hi Hj. cbn [mvcat mget mrows mcols] in *.
  destruct (Nat.ltb_spec i (mrows a)); [reflexivity|]. apply E; lia.
Qed.
Lemma stack_survivors c : (0 < c)%nat -> forall ms b, (forall m, In m ms -> mcols m = c) -> stack_rows c (survivors b ms) ==m stack_rows c (filter nonempty ms).
Proof.
  intros C0. induction ms as [|a ms IH]; intros b H; [apply meq_refl|].
  assert (H' : forall m, In m ms -> mcols m = c) by (intros; apply H; right; assumption).
  assert (HS : forall b, mcols (stack_rows c (survivors b ms)) = c) by (intros b'; apply stack_rows_sizes; intros m Hm; eapply H', survivors_in, Hm).
  assert (HA : mcols a = c) by (apply H; left; reflexivity).
  cbn [survivors filter]. destruct (nonempty a) eqn:N.
  - destruct b; apply (mvcat_meq a); try (rewrite HS; exact HA); apply IH, H'.
  - assert (R0 : mrows a = 0%nat) by (unfold nonempty in N; rewrite HA in N; destruct (mrows a), c; try reflexivity; try lia; discriminate).
    destruct b; [|apply IH, H']. eapply meq_trans; [apply mvcat_nil; [exact R0|rewrite HS; exact HA]|apply IH, H'].
Qed.
Lemma survivors_some : forall ms b, existsb nonempty ms = true -> survivors b ms <> [].
Proof.
  induction ms as [|a ms IH]; intros b H; [discriminate|]. cbn in H |- *. destruct b; [discriminate|]. destruct (nonempty a); [discriminate|]. apply IH, H.
Qed.
Theorem concat_same_columns junk ms c : (0 < c)%nat -> (forall m, In m ms -> mcols m = c) -> existsb nonempty ms = true ->
  exists r, concatenateMatricesVertically junk ms = Ok r /\ r ==m stack_rows c (filter nonempty ms).
Proof.
  intros C0 H NE. pose proof (concat_survivors junk ms) as X. cbv zeta in X. destruct (survivors false ms) as [|m0 sv] eqn:E.
  - destruct (survivors_some ms false NE E).
  - assert (IN : forall m, In m (m0 :: sv) -> mcols m = c) by (intros m Hm; rewrite <- E in Hm; apply H; eapply survivors_in, Hm).
    destruct X as [X _]. destruct X as (r & E1 & E2). { intros m Hm. rewrite (IN m Hm), (IN m0) by (left; reflexivity). reflexivity. }
    exists r. split; [exact E1|]. rewrite (IN m0) in E2 by (left; reflexivity). eapply meq_trans; [exact E2|]. rewrite <- E. apply stack_survivors; assumption.
Qed.
(** two empty neighbours: the second is not ignored *)
Theorem concat_refuted junk : exists ms m, filter nonempty ms = [m] /\ concatenateMatricesVertically junk ms = Throw.
Proof. exists [mzero 0 3; mzero 0 3; mid 2], (mid 2). split; reflexivity. Qed.

(** ** horizontally *)
Theorem hconcat2 m1 m2 : let ms := filter has_rows [m1; m2] in
  match ms with
  | [] => concatenateMatricesHorizontally m1 m2 = Ok m2
  | m0 :: _ => ((forall m, In m ms -> mrows m = mrows m0) -> exists r, concatenateMatricesHorizontally m1 m2 = Ok r /\ r ==m stack_columns (mrows m0) ms) /\
               (~ (forall m, In m ms -> mrows m = mrows m0) -> concatenateMatricesHorizontally m1 m2 = Throw)
  end.
Proof.
  assert (ONE : forall m, m ==m mhcat m (mzero (mrows m) 0)).
  { intros m. split; [reflexivity|]. split; [cbn; lia|]. intros i j Hi Hj. cbn [mhcat mget]. rewrite (proj2 (Nat.ltb_lt j (mcols m))) by exact Hj. reflexivity. }
  cbv zeta. unfold concatenateMatricesHorizontally. cbn [filter]. unfold has_rows. destruct (Nat.eqb_spec (mrows m1) 0) as [Z1|N1]; cbn [negb].
  - destruct (Nat.eqb_spec (mrows m2) 0) as [Z2|N2]; cbn [negb]; [reflexivity|]. split.
    + intros _. exists m2. split; [reflexivity|]. apply ONE.
    + intros H. destruct H. intros m [<-|[]]. reflexivity.
  - destruct (Nat.eqb_spec (mrows m2) 0) as [Z2|N2]; cbn [negb].
    + split.
      * intros _. exists m1. split; [reflexivity|]. apply ONE.
      * intros H. destruct H. intros m [<-|[]]. reflexivity.
    + split; intros H.
      * rewrite assert_true by (apply Nat.eqb_eq; symmetry; apply H; right; left; reflexivity). eexists. split; [reflexivity|].
        split; [reflexivity|]. split; [cbn; lia|]. intros i j Hi Hj. cbn [stack_columns fold_right mhcat mget mcols] in *. destruct (Nat.ltb_spec j (mcols m1)); [reflexivity|].
        rewrite (proj2 (Nat.ltb_lt _ (mcols m2))) by lia. reflexivity.
      * destruct (Nat.eqb_spec (mrows m1) (mrows m2)) as [e|ne]; [|reflexivity]. destruct H. intros m [<-|[<-|[]]]; auto.
Qed.
Theorem hconcat3 m1 m2 m3 : let ms := filter has_rows [m1; m2; m3] in
  match ms with
  | [] => concatenateMatricesHorizontally3 m1 m2 m3 = Ok m3
  | m0 :: _ => ((forall m, In m ms -> mrows m = mrows m0) -> exists r, concatenateMatricesHorizontally3 m1 m2 m3 = Ok r /\ r ==m stack_columns (mrows m0) ms) /\
               (~ (forall m, In m ms -> mrows m = mrows m0) -> concatenateMatricesHorizontally3 m1 m2 m3 = Throw)
  end.
Proof.
  cbv zeta. unfold concatenateMatricesHorizontally3.
  destruct (Nat.eqb_spec (mrows m1) 0) as [Z1|N1].
  { assert (H1 : has_rows m1 = false) by (unfold has_rows; rewrite Z1; reflexivity).
    change (filter has_rows [m1; m2; m3]) with (if has_rows m1 then m1 :: filter has_rows [m2; m3] else filter has_rows [m2; m3]). rewrite H1. apply (hconcat2 m2 m3). }
  assert (H1 : has_rows m1 = true) by (unfold has_rows; rewrite (proj2 (Nat.eqb_neq _ _) N1); reflexivity).
  destruct (Nat.eqb_spec (mrows m2) 0) as [Z2|N2].
  - assert (H2 : has_rows m2 = false) by (unfold has_rows; rewrite Z2; reflexivity).
    pose proof (hconcat2 m1 m3) as X. cbv zeta in X. cbn [filter] in *. rewrite H1, H2 in *. exact X.
  - assert (H2 : has_rows m2 = true) by (unfold has_rows; rewrite (proj2 (Nat.eqb_neq _ _) N2); reflexivity).
    destruct (Nat.eqb_spec (mrows m3) 0) as [Z3|N3].
    + pose proof (hconcat2 m1 m2) as X. cbv zeta in X. cbn [filter] in *.
      assert (H3 : has_rows m3 = false) by (unfold has_rows; rewrite Z3; reflexivity). rewrite H1, H2, H3 in *. exact X.
    + assert (H3 : has_rows m3 = true) by (unfold has_rows; rewrite (proj2 (Nat.eqb_neq _ _) N3); reflexivity). cbn [filter]. rewrite H1, H2, H3. split; intros H.
      * rewrite assert_true by (apply andb_true_iff; split; apply Nat.eqb_eq; symmetry; apply H; cbn; auto). eexists. split; [reflexivity|].
        split; [reflexivity|]. split; [cbn; lia|]. intros i j Hi Hj. cbn [stack_columns fold_right mhcat mget mcols] in *. destruct (Nat.ltb_spec j (mcols m1)); [reflexivity|].
        destruct (Nat.ltb_spec (j - mcols m1) (mcols m2)); [reflexivity|]. rewrite (proj2 (Nat.ltb_lt _ (mcols m3))) by lia. reflexivity.
      * destruct (Nat.eqb_spec (mrows m1) (mrows m2)) as [e|ne]; [|reflexivity]. destruct (Nat.eqb_spec (mrows m1) (mrows m3)) as [e3|ne3]; [|reflexivity].
        destruct H. intros m [<-|[<-|[<-|[]]]]; auto.
Qed.

(** ** Gram matrices *)
Lemma col_product_trans A i j : col_product A i j = mget (mmul (mtrans A) A) i j.
Proof. reflexivity. Qed.
Theorem getATA_ok H A : exists H', et_getATA H A = Ok H' /\ mrows H' = mcols A /\ mcols H' = mcols A /\
  forall i j, (j <= i < mcols A)%nat -> mget H' i j = mget (mmul (mtrans A) A) i j.
Proof.
  unfold et_getATA. destruct (gram_loop_ok false A 0 (mresize H (mcols A) (mcols A))) as (H' & E & R & C & L & _); [cbn; lia|cbn; lia|].
  exists H'. split; [exact E|]. split; [exact R|]. split; [exact C|]. intros i j Hij. rewrite L by lia. rewrite !(proj2 (in_block_iff 0 _ _)) by lia.
  cbn [andb]. rewrite !Nat.sub_0_r, col_product_trans. ring.
Qed.
Theorem getATA_off_ok H A off n : (off + mcols A <= n)%nat -> exists H', et_getATA_off H A off n = Ok H' /\ mrows H' = n /\ mcols H' = n /\
  forall i j, (j <= i < n)%nat -> mget H' i j = if in_block off (mcols A) i && in_block off (mcols A) j then mget (mmul (mtrans A) A) (i - off) (j - off) else 0.
Proof.
  intros HO. unfold et_getATA_off. destruct (gram_loop_ok false A off (zero_lower (mresize H n n))) as (H' & E & R & C & L & _); [cbn; lia|cbn; lia|].
  exists H'. split; [exact E|]. split; [exact R|]. split; [exact C|]. intros i j Hij. rewrite L by lia. destruct (in_block _ _ _ && in_block _ _ _).
  - rewrite col_product_trans. ring.
  - cbn [zero_lower mget]. rewrite (proj2 (Nat.leb_le j i)) by lia. reflexivity.
Qed.
Theorem addATA_off_ok H A off : (off + mcols A <= mrows H)%nat -> (off + mcols A <= mcols H)%nat ->
  exists H', et_addATA_off H A off = Ok H' /\ mrows H' = mrows H /\ mcols H' = mcols H /\
  (forall i j, (j <= i)%nat -> mget H' i j = mget H i j + if in_block off (mcols A) i && in_block off (mcols A) j then mget (mmul (mtrans A) A) (i - off) (j - off) else 0) /\
  (forall i j, (i < j)%nat -> mget H' i j = mget H i j).
Proof.
  intros HR HC. unfold et_addATA_off. destruct (gram_loop_ok true A off H) as (H' & E & R & C & L & U); [exact HR|exact HC|].
  exists H'. split; [exact E|]. split; [exact R|]. split; [exact C|]. split; [|exact U]. intros i j Hij. rewrite L by lia. destruct (in_block _ _ _ && in_block _ _ _).
  - rewrite col_product_trans. reflexivity.
  - ring.
Qed.
Theorem addATA_ok H A : (mcols A <= mrows H)%nat -> (mcols A <= mcols H)%nat ->
  exists H', et_addATA H A = Ok H' /\ mrows H' = mrows H /\ mcols H' = mcols H /\
  (forall i j, (j <= i < mcols A)%nat -> mget H' i j = mget H i j + mget (mmul (mtrans A) A) i j) /\
  (forall i j, (i < j)%nat \/ (mcols A <= i)%nat -> mget H' i j = mget H i j).
Proof.
  intros HR HC. destruct (addATA_off_ok H A 0 ltac:(lia) ltac:(lia)) as (H' & E & R & C & L & U). exists H'. split; [exact E|]. split; [exact R|]. split; [exact C|]. split.
  - intros i j Hij. rewrite L by lia. rewrite !(proj2 (in_block_iff 0 _ _)) by lia. cbn [andb]. rewrite !Nat.sub_0_r. reflexivity.
  - intros i j [X|X]; [apply U, X|]. destruct (le_lt_dec j i) as [l|g]; [|apply U, g]. rewrite L by assumption. rewrite (proj2 (in_block_niff 0 _ i)) by lia. cbn [andb]. ring.
Qed.
(** mirrored: the whole product *)
Theorem symmetric_gram H A : exists H' S, et_getATA H A = Ok H' /\ convertLLTtoSymmetric H' = Ok S /\ S ==m mmul (mtrans A) A.
Proof.
  destruct (getATA_ok H A) as (H' & E & R & C & L). destruct (symm_ok (mcols A) H' R C) as (S & E2 & R2 & C2 & L2). exists H', S. split; [exact E|]. split; [exact E2|].
  split; [exact R2|]. split; [exact C2|]. intros i j Hi Hj. rewrite R2 in Hi. rewrite C2 in Hj. rewrite L2 by assumption. destruct (Nat.ltb_spec i j).
  - rewrite L by lia. cbn [mmul mtrans mget mcols]. apply Rsum_ext. intros; ring.
  - rewrite L by lia. reflexivity.
Qed.
Theorem symmetric_ok M : mrows M = mcols M -> exists S, convertLLTtoSymmetric M = Ok S /\ mrows S = mrows M /\ mcols S = mcols M /\
  (forall i j, (j <= i < mrows M)%nat -> mget S i j = mget M i j) /\ (forall i j, (i < mrows M)%nat -> (j < mrows M)%nat -> mget S i j = mget S j i).
Proof.
  intros Q. destruct (symm_ok (mcols M) M Q eq_refl) as (S & E & R & C & L). exists S. split; [exact E|]. split; [lia|]. split; [exact C|]. rewrite Q. split.
  - intros i j Hij. rewrite L by lia. rewrite (proj2 (Nat.ltb_ge i j)) by lia. reflexivity.
  - intros i j Hi Hj. rewrite !L by assumption. destruct (Nat.ltb_spec i j), (Nat.ltb_spec j i); try reflexivity; try lia. replace j with i by lia. reflexivity.
Qed.
