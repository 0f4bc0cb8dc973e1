(** * Proofs about the life of block matrices: writing and selection of rows *)
From Coq Require Import List Arith ZArith Reals Bool Lia Lra.
From Verif Require Import Base BaseFacts RSum Matrix Eigentools SelectRowsFacts BlockLife BlockLifeSpec BlockLifeFacts.
Import ListNotations.
Local Open Scope Z_scope.

(** ** writing *)
Lemma mset_in m i j src p q : (p < mrows src)%nat -> (q < mcols src)%nat -> mget (mset_block m i j src) (i + p) (j + q) = mget src p q.
Proof.
  intros P Q. unfold mset_block, in_block. cbn [mget].
  replace ((i <=? i + p)%nat) with true by (symmetry; apply Nat.leb_le; lia). replace ((i + p <? i + mrows src)%nat) with true by (symmetry; apply Nat.ltb_lt; lia).
  replace ((j <=? j + q)%nat) with true by (symmetry; apply Nat.leb_le; lia). replace ((j + q <? j + mcols src)%nat) with true by (symmetry; apply Nat.ltb_lt; lia).
  cbn [andb]. f_equal; lia.
Qed.
Lemma mset_out m i j src p q : ~ ((i <= p < i + mrows src)%nat /\ (j <= q < j + mcols src)%nat) -> mget (mset_block m i j src) p q = mget m p q.
Proof.
  intros N. unfold mset_block, in_block. cbn [mget].
  destruct (Nat.leb_spec i p), (Nat.ltb_spec p (i + mrows src)), (Nat.leb_spec j q), (Nat.ltb_spec q (j + mcols src)); cbn [andb]; try reflexivity.
  exfalso. apply N. lia.
Qed.
Lemma undo_sized z s s' : sized z s -> s_rows s' = s_rows s -> s_cols s' = s_cols s -> sized z s'.
Proof. unfold sized. intros S A B. rewrite A, B. exact S. Qed.
Lemma getBlock_get z s nv nh br bc i j b : sized z s -> divided z s nv nh br bc -> getBlock z s i j = Ok b ->
  (0 <= i < nv /\ 0 <= j < nh) /\ part (s_raw s) (i * br) (j * bc) br bc b.
Proof.
  intros S D H. pose proof D as (P1 & P2 & P3 & P4 & P5 & P6 & _ & _ & P9 & P10 & _).
  unfold getBlock in H. rewrite block_area_eq in H by (auto; lia). rewrite P5, P6 in H. cbn [view_area] in H.
  destruct (inside (s_raw s) (i * br) (j * bc) br bc) eqn:I.
  - destruct (view_part _ _ _ _ _ I) as (b' & V & Q). rewrite V in H. injection H as <-. split; [|exact Q]. apply inside_true in I. nia.
  - rewrite (view_throw _ _ _ _ _ I) in H. discriminate.
Qed.
Lemma replaced_area z s s' nv nh br bc i0 j0 m n src : sized z s -> divided z s nv nh br bc -> 0 <= m -> 0 <= n ->
  write_area (i0 * br, j0 * bc, m * br, n * bc) src s = Fine s' ->
  divided z s' nv nh br bc /\ Z.of_nat (mrows src) = m * br /\ Z.of_nat (mcols src) = n * bc /\ replaced z s s' br bc i0 j0 m n src.
Proof.
  intros S D M N W. pose proof (write_divided _ _ _ _ _ _ _ _ _ W D) as D'.
  assert (S' : sized z s') by (destruct (write_area_keeps (i0 * br, j0 * bc, m * br, n * bc) src s) as [K1 K2]; rewrite W in K1, K2; cbn in K1, K2; eapply undo_sized; eassumption).
  apply write_area_inv in W. destruct W as (I & R & C & E). split; [exact D'|]. split; [exact R|]. split; [exact C|].
  intros i j b b' B B'. apply (getBlock_get z s nv nh br bc) in B; auto. apply (getBlock_get z s' nv nh br bc) in B'; auto.
  destruct B as [[Ri Rj] (B1 & B2 & B3)], B' as [_ (B1' & B2' & B3')]. intros p q P Q.
  assert (P0 : 0 < br /\ 0 < bc) by (destruct D as (_ & _ & X & Y & _); auto). destruct P0 as [Pr Pc].
  apply inside_true in I. destruct I as (I1 & I2 & I3 & I4 & I5 & I6).
  rewrite B3' by lia. rewrite E. cbn [s_raw].
  assert (J0 : 0 <= i0 /\ 0 <= j0) by nia. destruct J0 as [J1 J2].
  destruct (Z.leb_spec i0 i) as [L1|L1], (Z.ltb_spec i (i0 + m)) as [L2|L2], (Z.leb_spec j0 j) as [L3|L3], (Z.ltb_spec j (j0 + n)) as [L4|L4]; cbn [andb];
    try (rewrite mset_out; [symmetry; apply B3; assumption|]; intros [X Y]; nia).
  replace (Z.to_nat (i * br) + p)%nat with (Z.to_nat (i0 * br) + (Z.to_nat ((i - i0) * br) + p))%nat by nia.
  replace (Z.to_nat (j * bc) + q)%nat with (Z.to_nat (j0 * bc) + (Z.to_nat ((j - j0) * bc) + q))%nat by nia.
  apply mset_in; nia.
Qed.
Lemma written (z : bsize) (s s' : bstate) (nv nh br bc : Z) (k : call) : reachable z s -> divided z s nv nh br bc -> do_ z k s = Fine s' ->
  match k with
  | WriteBlock i j src => divided z s' nv nh br bc /\ Z.of_nat (mrows src) = br /\ Z.of_nat (mcols src) = bc /\ replaced z s s' br bc i j 1 1 src
  | WriteRow i first num src =>
      divided z s' nv nh br bc /\ Z.of_nat (mrows src) = br /\ Z.of_nat (mcols src) = num * bc /\ replaced z s s' br bc i first 1 num src
  | WriteColumn j first num src =>
      divided z s' nv nh br bc /\ Z.of_nat (mrows src) = num * br /\ Z.of_nat (mcols src) = bc /\ replaced z s s' br bc first j num 1 src
  | _ => True
  end.
Proof.
  intros R D. apply reachable_sized in R. pose proof D as (P1 & P2 & P3 & P4 & P5 & P6 & _).
  destruct k as [r c|m|junk a b|a b|i j src|j f n src|i f n src]; cbn [do_]; intros W; auto.
  - rewrite block_area_eq in W by (auto; lia). rewrite P5, P6 in W.
    rewrite <- (Z.mul_1_l br) in W at 2. rewrite <- (Z.mul_1_l bc) in W at 2.
    apply (replaced_area z s s' nv nh br bc i j 1 1 src R D) in W; [|lia|lia]. rewrite !Z.mul_1_l in W. exact W.
  - unfold column_area in W. rewrite P5, P6 in W. rewrite <- (Z.mul_1_l bc) in W at 2.
    assert (N : 0 <= n) by (pose proof (proj1 (write_area_inv _ _ _ _ _ _ _ W)) as I; apply inside_true in I; nia).
    apply (replaced_area z s s' nv nh br bc f j n 1 src R D) in W; [|lia|lia]. rewrite !Z.mul_1_l in W. exact W.
  - unfold row_area in W. rewrite P5, P6 in W. rewrite <- (Z.mul_1_l br) in W at 2.
    assert (N : 0 <= n) by (pose proof (proj1 (write_area_inv _ _ _ _ _ _ _ W)) as I; apply inside_true in I; nia).
    apply (replaced_area z s s' nv nh br bc i f 1 n src R D) in W; [|lia|lia]. rewrite !Z.mul_1_l in W. exact W.
Qed.
Lemma write_accepted (z : bsize) (s : bstate) (nv nh br bc i j : Z) (src : mat) : reachable z s -> divided z s nv nh br bc ->
  0 <= i < nv -> 0 <= j < nh -> Z.of_nat (mrows src) = br -> Z.of_nat (mcols src) = bc -> exists s', do_ z (WriteBlock i j src) s = Fine s'.
Proof.
  intros R D I J A B. apply reachable_sized in R. destruct D as (P1 & P2 & P3 & P4 & P5 & P6 & _ & _ & P9 & P10 & _).
  cbn [do_]. rewrite block_area_eq by (auto; lia). rewrite P5, P6. unfold write_area, write.
  rewrite (proj2 (inside_true _ _ _ _ _)) by nia. rewrite A, B, !Z.eqb_refl. cbn. eexists. reflexivity.
Qed.

(** ** selection of rows *)
Lemma selected_rows (z : bsize) (s : bstate) (nv nh br bc row : Z) : divided z s nv nh br bc -> small (s_raw s) -> 0 < nv -> 0 <= row < br ->
  exists v, selectRows (s_raw s) (block_rows_num z s) row = Ok v /\ map_rows v = nv /\ map_cols v = Z.of_nat (mcols (s_raw s)) /\
    forall i j, 0 <= i < nv -> 0 <= j < map_cols v -> map_get (s_raw s) v i j = Ok (mget (s_raw s) (Z.to_nat (row + i * br)) (Z.to_nat j)).
Proof.
  intros (P1 & P2 & P3 & P4 & P5 & P6 & _ & _ & P9 & P10 & _) S N R. rewrite P5. unfold small in S.
  destruct (selectRows_ok (s_raw s) br row S) as (v & E & C & I & G); [nia|nia|]. exists v. split; [exact E|].
  assert (M : map_rows v = nv).
  { assert (A : ~ nv < map_rows v). { intros L. apply (I nv P1) in L. nia. }
    assert (B : nv - 1 < map_rows v) by (apply I; nia). lia. }
  split; [exact M|]. split; [exact C|]. intros i j Hi Hj. apply G; lia.
Qed.
Lemma selected_matrix (z : bsize) (s : bstate) (nv nh br bc row : Z) : divided z s nv nh br bc -> small (s_raw s) -> 0 < nv -> 0 <= row < br ->
  exists m, selectRowInBlocksAsMatrix z s row = Ok m /\ Z.of_nat (mrows m) = nv /\ mcols m = mcols (s_raw s) /\
    forall i j, (i < mrows m)%nat -> (j < mcols m)%nat -> mget m i j = mget (s_raw s) (i * Z.to_nat br + Z.to_nat row) j.
Proof.
  intros D S N R. destruct (selected_rows z s nv nh br bc row D S N R) as (v & E & V1 & V2 & G). unfold selectRowInBlocksAsMatrix. rewrite E. cbn [bind].
  eexists. split; [reflexivity|]. unfold seen. cbn [mrows mcols mget]. rewrite V1, V2, Nat2Z.id. split; [apply Z2Nat.id; lia|]. split; [reflexivity|].
  intros i j Hi Hj. rewrite G by lia. f_equal; [|apply Nat2Z.id]. destruct D as (_ & _ & P3 & _). nia.
Qed.
Lemma seen_size m v nv : map_rows v = nv -> 0 <= nv -> map_cols v = Z.of_nat (mcols m) -> Z.of_nat (mrows (seen m v)) = nv /\ mcols (seen m v) = mcols m.
Proof. intros A B C. unfold seen. cbn. rewrite A, C. split; [apply Z2Nat.id; exact B|apply Nat2Z.id]. Qed.
(** sizes of blocks given as template parameters *)
Lemma selected_blocks (z : bsize) (s : bstate) (nv nh br bc row : Z) : reachable z s -> divided z s nv nh br bc -> small (s_raw s) -> 0 < nv -> 0 <= row < br ->
  0 < t_rows z -> 0 < t_cols z ->
  exists s', selectRowInBlocks z s row = Ok s' /\ divided (selection_size z) s' nv nh 1 bc /\
    forall i j b b', getBlock z s i j = Ok b -> getBlock (selection_size z) s' i j = Ok b' ->
      forall q, (q < mcols b)%nat -> mget b' 0 q = mget b (Z.to_nat row) q.
Proof.
  intros Rc D S N R T1 T2. destruct (selected_rows z s nv nh br bc row D S N R) as (v & E & V1 & V2 & G).
  unfold selectRowInBlocks. rewrite E. cbn [bind]. rewrite (proj2 (Z.ltb_lt _ _) T1).
  destruct (seen_size _ _ _ V1 ltac:(lia) V2) as [Z1 Z2].
  pose proof D as (P1 & P2 & P3 & P4 & P5 & P6 & _ & _ & P9 & P10 & _).
  assert (BC : t_cols z = bc) by (unfold block_cols_num, eff in P6; destruct (Z.ltb_spec 0 (t_cols z)); lia).
  destruct (proj2 (construct_accepts (selection_size z) (seen (s_raw s) v) UNDEFINED UNDEFINED)) as [s' C].
  { cbn [selection_size t_rows t_cols]. rewrite Z2. split; right.
    - exists 1. split; [lia|]. split; [auto|]. exists nv. lia.
    - exists bc. split; [lia|]. split; [right; auto|]. exists nh. lia. }
  exists s'. split; [exact C|]. pose proof (construct_sized _ _ _ _ _ C) as S2. apply constructed in C. destruct C as (C1 & C2 & C3 & C4).
  cbn [selection_size t_rows t_cols] in C2, C3.
  assert (K : known (selection_size z) s') by (split; cbn; intros [X _]; unfold DYNAMIC in X; lia).
  destruct (C4 K) as (nv' & nh' & br' & bc' & D').
  assert (X : nv' = nv /\ nh' = nh /\ br' = 1 /\ bc' = bc).
  { destruct D' as (Q1 & Q2 & Q3 & Q4 & Q5 & Q6 & _ & _ & Q9 & Q10 & _). rewrite C1 in Q9, Q10. rewrite Q5 in C2. rewrite Q6 in C3.
    destruct (Z.eqb_spec 1 DYNAMIC) as [X|X]; [unfold DYNAMIC in X; lia|]. destruct (Z.eqb_spec (t_cols z) DYNAMIC) as [Y|Y]; [unfold DYNAMIC in Y; lia|].
    subst br'. rewrite BC in C3. subst bc'. nia. }
  destruct X as (-> & -> & -> & ->). split; [exact D'|]. intros i j b b' B B' q Q.
  apply (getBlock_get z s nv nh br bc) in B; [|apply reachable_sized; exact Rc|exact D].
  apply (getBlock_get (selection_size z) s' nv nh 1 bc) in B'; [|exact S2|exact D'].
  destruct B as [[Ri Rj] (B1 & B2 & B3)], B' as [_ (B1' & B2' & B3')]. rewrite B3' by lia. rewrite B3 by lia. rewrite C1. unfold seen. cbn [mget].
  rewrite G by nia. f_equal; nia.
Qed.
(** dynamic sizes *)
Lemma selected_dynamic (z : bsize) (s : bstate) (nv nh br bc row : Z) : reachable z s -> divided z s nv nh br bc -> small (s_raw s) -> 0 < nv -> 0 <= row < br ->
  (t_rows z = DYNAMIC -> 0 < t_cols z -> selectRowInBlocks z s row = Throw) /\
  (0 < t_rows z -> t_cols z = DYNAMIC -> exists s', selectRowInBlocks z s row = Ok s' /\ getNumberOfBlocksHorizontal s' = UB) /\
  (t_rows z = DYNAMIC -> t_cols z = DYNAMIC ->
     (~ (br | nh * bc) -> selectRowInBlocks z s row = Throw) /\
     (forall n, nh * bc = n * br -> exists s', selectRowInBlocks z s row = Ok s' /\ divided (selection_size z) s' nv n 1 br)).
Proof.
  intros Rc D S N R. destruct (selected_rows z s nv nh br bc row D S N R) as (v & E & V1 & V2 & G).
  unfold selectRowInBlocks. rewrite E. cbn [bind]. destruct (seen_size _ _ _ V1 ltac:(lia) V2) as [Z1 Z2].
  pose proof D as (P1 & P2 & P3 & P4 & P5 & P6 & _ & _ & P9 & P10 & _).
  assert (U : forall m r c, ~ (fits (t_rows (selection_size z)) r (Z.of_nat (mrows m)) /\ fits (t_cols (selection_size z)) c (Z.of_nat (mcols m))) ->
                construct (selection_size z) m r c = Throw).
  { intros m r c F. destruct (construct (selection_size z) m r c) eqn:C; [|reflexivity|].
    - exfalso. apply F. apply construct_accepts. exists a. exact C.
    - unfold construct in C. destruct (then_ _ _); discriminate. }
  split; [|split].
  - intros T1 T2. rewrite T1. change (0 <? DYNAMIC) with false. cbn iota.
    assert (BR : s_rows s = br) by (unfold block_rows_num, eff in P5; rewrite T1 in P5; exact P5).
    apply U. intros [_ F]. cbn [selection_size t_cols] in F. unfold fits, DYNAMIC, UNDEFINED in F. destruct F as [[X _]|(b & B & [[X _]|[_ X]] & _)]; lia.
  - intros T1 T2. rewrite (proj2 (Z.ltb_lt _ _) T1).
    destruct (proj2 (construct_accepts (selection_size z) (seen (s_raw s) v) UNDEFINED UNDEFINED)) as [s' C].
    { cbn [selection_size t_rows t_cols]. split; [|left; auto]. right. exists 1. split; [lia|]. split; [auto|]. exists nv. lia. }
    exists s'. split; [exact C|]. apply construct_inv in C. destruct C as (s1 & A & B). apply init_fine in A.
    destruct A as (_ & _ & A & _ & _ & A2 & _). cbn [selection_size t_cols s_nh] in A, A2. specialize (A2 T2).
    unfold finalize in B. apply then_fine in B. destruct B as (s2 & B1 & B2).
    assert (X : s_nh s2 = None /\ s_cols s2 = UNDEFINED).
    { destruct (negb (t_rows (selection_size z) =? DYNAMIC) || negb (s_rows s1 =? UNDEFINED)); fine; cbn; auto. }
    destruct X as [X1 X2]. cbn [selection_size t_cols] in B2. rewrite T2, X2 in B2. cbn in B2. injection B2 as <-.
    unfold getNumberOfBlocksHorizontal. rewrite X1. reflexivity.
  - intros T1 T2. assert (BR : s_rows s = br) by (unfold block_rows_num, eff in P5; rewrite T1 in P5; exact P5).
    rewrite T1. change (0 <? DYNAMIC) with false. cbn iota. rewrite BR. split.
    + intros ND. apply U. rewrite Z2. cbn [selection_size t_cols]. intros [_ F]. unfold fits, UNDEFINED, DYNAMIC in F.
      destruct F as [[_ X]|(b & B & [[_ X]|[X _]] & Dv)]; [lia| |unfold DYNAMIC in T2; lia]. subst b. apply ND. rewrite <- P10. exact Dv.
    + intros n En.
      destruct (proj2 (construct_accepts (selection_size z) (seen (s_raw s) v) UNDEFINED br)) as [s' C].
      { cbn [selection_size t_rows t_cols]. rewrite Z2. split; right.
        - exists 1. split; [lia|]. split; [auto|]. exists nv. lia.
        - exists br. split; [lia|]. split; [left; auto|]. exists n. lia. }
      exists s'. split; [exact C|]. pose proof (construct_sized _ _ _ _ _ C) as S2. pose proof C as C0. apply constructed in C. destruct C as (C1 & C2 & C3 & C4).
      cbn [selection_size t_rows t_cols] in C2, C3. rewrite T2 in C3. cbn in C3.
      assert (K : known (selection_size z) s').
      { split; cbn; intros [X Y]; [unfold DYNAMIC in X; lia|]. unfold block_cols_num, eff in C3. cbn in C3. rewrite T2 in C3. cbn in C3. unfold UNDEFINED in Y. lia. }
      destruct (C4 K) as (nv' & nh' & br' & bc' & D').
      assert (X : nv' = nv /\ nh' = n /\ br' = 1 /\ bc' = br).
      { destruct D' as (Q1 & Q2 & Q3 & Q4 & Q5 & Q6 & _ & _ & Q9 & Q10 & _). rewrite C1 in Q9, Q10. rewrite Q5 in C2. rewrite Q6 in C3.
        cbn in C2. subst br' bc'. nia. }
      destruct X as (-> & -> & -> & ->). exact D'.
Qed.

(** ** witnesses *)
Definition static22 : bsize := mkSize 2 2.
Definition dynamic : bsize := mkSize DYNAMIC DYNAMIC.
Definition made (o : outcome bstate) : bstate := match o with Ok s => s | _ => mkState (mzero 0 0) None None 0 0 end.
Definition four : mat := mkMat 4 4 (fun i j => INR (10 * i + j)).
Definition m22 : bstate := made (construct static22 four 0 0).
Lemma m22_born : undisturbed static22 m22.
Proof. apply (Born static22 four 0 0). reflexivity. Qed.
Lemma m22_divided : divided static22 m22 2 2 2 2.
Proof. unfold divided. cbn. intuition lia. Qed.
Lemma m22_small : small (s_raw m22). Proof. unfold small. cbn. lia. Qed.
Definition d22 : bstate := made (construct dynamic four 2 2).
Lemma d22_born : undisturbed dynamic d22.
Proof. apply (Born dynamic four 2 2). reflexivity. Qed.
(** a matrix that does not fit is refused, but it is there *)
Lemma refused_set : exists z s s' m, undisturbed z s /\ known z s /\ do_ z (SetRaw m) s = Refused s' /\
  s_raw s' = m /\ getNumberOfRows z s' = Ok 4 /\ mrows m = 3%nat /\ ~ consistent z s' /\ getBlock z s' 1 1 = Throw.
Proof.
  exists static22, m22, (after (do_ static22 (SetRaw (mid 3)) m22)), (mid 3). split; [exact m22_born|].
  split; [split; cbn; intros [H _]; discriminate H|]. do 4 (split; [reflexivity|]). split; [|reflexivity].
  intros (nv & nh & br & bc & D). unfold divided in D. cbn in D. destruct D as (_ & _ & _ & _ & _ & _ & D1 & _ & D2 & _ & D3 & _). discriminate D3.
Qed.
(** a size that does not fit is refused, but it is there *)
Lemma refused_size : exists z s s', undisturbed z s /\ known z s /\ do_ z (SetBlockSize 3 2) s = Refused s' /\
  block_rows_num z s' = 3 /\ mrows (s_raw s') = 4%nat /\ getNumberOfRows z s' = Ok 6 /\ ~ consistent z s'.
Proof.
  exists dynamic, d22, (after (do_ dynamic (SetBlockSize 3 2) d22)). split; [exact d22_born|].
  split; [split; cbn; intros [_ H]; discriminate H|]. do 4 (split; [reflexivity|]).
  intros (nv & nh & br & bc & D). unfold divided in D. cbn in D. destruct D as (_ & _ & _ & _ & _ & _ & D1 & _ & D2 & _ & D3 & _). discriminate D3.
Qed.
(** no sizes: numbers of blocks are read before they are written; any block exists and is empty *)
Lemma unknown_size : exists z s, undisturbed z s /\ mrows (s_raw s) = 4%nat /\ getNumberOfBlocksVertical s = UB /\ getNumberOfRows z s = UB /\
  getRowFrom z s 0 0 = UB /\ exists b, getBlock z s 5 7 = Ok b /\ mrows b = 0%nat.
Proof.
  exists dynamic, (made (construct dynamic four 0 0)). split; [apply (Born dynamic four 0 0); reflexivity|]. do 4 (split; [reflexivity|]).
  eexists. split; reflexivity.
Qed.
(** rows of blocks which do not exist *)
Lemma selection_unchecked : exists z s m, undisturbed z s /\ divided z s 2 2 2 2 /\ selectRowInBlocksAsMatrix z s 2 = Ok m /\ mrows m = 1%nat /\
  mget m 0 0 = mget (s_raw s) 2 0.
Proof.
  destruct (selectRows_ok four 2 2) as (v & E & C & I & G); [unfold small; cbn; lia|lia|cbn; lia|].
  exists static22, m22, (seen four v). split; [exact m22_born|]. split; [exact m22_divided|].
  assert (M : map_rows v = 1).
  { change (Z.of_nat (mrows four)) with 4 in I. assert (~ 1 < map_rows v) by (intros L; apply (I 1 ltac:(lia)) in L; lia). assert (0 < map_rows v) by (apply (I 0 ltac:(lia)); lia). lia. }
  split; [|split].
  - unfold selectRowInBlocksAsMatrix. change (s_raw m22) with four. change (block_rows_num static22 m22) with 2. rewrite E. reflexivity.
  - cbn. rewrite M. reflexivity.
  - unfold seen. cbn [mget]. rewrite G; [reflexivity|cbn; lia|cbn in C |- *; lia].
Qed.
Definition empty33 : bstate := made (construct (mkSize 3 3) (mzero 0 3) 0 0).
Lemma selection_of_nothing : exists z s m, undisturbed z s /\ mrows (s_raw s) = 0%nat /\ selectRowInBlocksAsMatrix z s 1 = Ok m /\ (0 < mrows m)%nat.
Proof.
  assert (E : exists v, selectRows (mzero 0 3) 3 1 = Ok v /\ 0 < map_rows v).
  { eexists. split; [vm_compute; reflexivity|]. reflexivity. }
  destruct E as (v & E & P). exists (mkSize 3 3), empty33, (seen (mzero 0 3) v). split; [apply (Born _ (mzero 0 3) 0 0); reflexivity|].
  split; [reflexivity|]. split.
  - unfold selectRowInBlocksAsMatrix. change (s_raw empty33) with (mzero 0 3). change (block_rows_num (mkSize 3 3) empty33) with 3. rewrite E. reflexivity.
  - unfold seen. cbn [mrows]. lia.
Qed.
Definition d23 : bstate := made (construct dynamic (mkMat 4 6 (fun i j => INR (10 * i + j))) 2 3).
Lemma selection_wrong : exists z s s', undisturbed z s /\ divided z s 2 2 2 3 /\ selectRowInBlocks z s 0 = Ok s' /\ divided (selection_size z) s' 2 3 1 2.
Proof.
  assert (B : undisturbed dynamic d23) by (apply (Born dynamic (mkMat 4 6 (fun i j => INR (10 * i + j))) 2 3); reflexivity).
  assert (D : divided dynamic d23 2 2 2 3) by (unfold divided; cbn; intuition lia).
  destruct (selected_dynamic dynamic d23 2 2 2 3 0 (undisturbed_reachable _ _ B) D) as (_ & _ & H); [unfold small; cbn; lia|lia|lia|].
  destruct (H eq_refl eq_refl) as [_ H2]. destruct (H2 3 eq_refl) as (s' & A & A2). exists dynamic, d23, s'. auto.
Qed.
