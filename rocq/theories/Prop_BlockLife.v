(** * Property C96: sizes of block matrices. Vocabulary in BlockLifeSpec.v. *)
From Coq Require Import List Arith ZArith Reals Bool Lia Lra.
From Verif Require Import Base RSum Matrix Eigentools SelectRowsFacts BlockLife BlockLifeSpec BlockLifeFacts BlockLifeSelect.
Import ListNotations.
Local Open Scope Z_scope.

(** Which block matrices can be constructed, and what they are *)
Theorem C96_construct : forall (z : bsize) (m : mat) (r c : Z),
  (exists s, construct z m r c = Ok s) <-> fits (t_rows z) r (Z.of_nat (mrows m)) /\ fits (t_cols z) c (Z.of_nat (mcols m)).
Proof. exact construct_accepts. Qed.
Theorem C96_constructed : forall (z : bsize) (m : mat) (r c : Z) (s : bstate),
  construct z m r c = Ok s ->
  s_raw s = m /\ block_rows_num z s = (if t_rows z =? DYNAMIC then r else t_rows z) /\ block_cols_num z s = (if t_cols z =? DYNAMIC then c else t_cols z) /\
  (known z s -> consistent z s).
Proof. exact constructed. Qed.
(** As long as no call is refused, the object describes the division of its matrix; afterwards any accepted call which changes sizes restores this *)
Theorem C96_consistent : forall (z : bsize) (s : bstate),
  undisturbed z s -> known z s -> consistent z s.
Proof. exact undisturbed_consistent. Qed.
Theorem C96_restored : forall (z : bsize) (s s' : bstate) (k : call),
  restructures k = true -> do_ z k s = Fine s' -> known z s' -> consistent z s'.
Proof. exact restructured. Qed.
Theorem C96_result : forall (z : bsize) (s s' : bstate) (k : call),
  reachable z s -> do_ z k s = Fine s' -> known z s' ->
  match k with
  | SetBlockSize r c => s_raw s' = s_raw s /\ block_rows_num z s' = (if t_rows z =? DYNAMIC then r else t_rows z) /\
                        block_cols_num z s' = (if t_cols z =? DYNAMIC then c else t_cols z)
  | SetRaw m => s_raw s' = m /\ block_rows_num z s' = block_rows_num z s /\ block_cols_num z s' = block_cols_num z s
  | Resize _ nv nh => divided z s' nv nh (block_rows_num z s) (block_cols_num z s)
  | SetZero nv nh => divided z s' nv nh (block_rows_num z s) (block_cols_num z s) /\ forall i j, mget (s_raw s') i j = 0%R
  | _ => True
  end.
Proof. exact restructured_to. Qed.
Theorem C96_known : forall (z : bsize) (s : bstate) (cs : list call),
  known z s -> known z (history z cs s).
Proof. exact known_forever. Qed.
(** Refused calls which change nothing *)
Theorem C96_harmless : forall (z : bsize) (s s' : bstate) (k : call),
  do_ z k s = Refused s' ->
  match k with
  | SetRaw _ => False
  | SetBlockSize r c => (t_rows z = DYNAMIC /\ r <= 0) \/ (t_cols z = DYNAMIC /\ c <= 0)
  | Resize _ nv nh | SetZero nv nh => nv * block_rows_num z s < 0 \/ nh * block_cols_num z s < 0
  | _ => True
  end -> s' = s.
Proof. exact harmless. Qed.
Example C96_example : undisturbed static22 m22 /\ known static22 m22 /\ divided static22 m22 2 2 2 2 /\ small (s_raw m22) /\
  (exists s, do_ static22 (SetZero 3 1) m22 = Fine s) /\ (exists s, do_ dynamic (SetBlockSize 4 1) d22 = Fine s).
Proof.
  split; [exact m22_born|]. split; [split; cbn; intros [H _]; discriminate H|]. split; [exact m22_divided|]. split; [exact m22_small|].
  split; eexists; reflexivity.
Qed.
(** Access: exactly the blocks of the matrix, each entry in one of them *)
Theorem C96_blocks : forall (z : bsize) (s : bstate) (nv nh br bc i j : Z),
  reachable z s -> divided z s nv nh br bc ->
  (0 <= i < nv /\ 0 <= j < nh -> exists b, getBlock z s i j = Ok b /\ part (s_raw s) (i * br) (j * bc) br bc b) /\
  (~ (0 <= i < nv /\ 0 <= j < nh) -> getBlock z s i j = Throw).
Proof. exact block_access. Qed.
Theorem C96_rows : forall (z : bsize) (s : bstate) (nv nh br bc i first num : Z),
  divided z s nv nh br bc ->
  (0 <= i < nv /\ 0 <= first /\ 0 <= num /\ first + num <= nh ->
     exists b, getRow z s i first num = Ok b /\ part (s_raw s) (i * br) (first * bc) br (num * bc) b) /\
  (~ (0 <= i < nv /\ 0 <= first /\ 0 <= num /\ first + num <= nh) -> getRow z s i first num = Throw) /\
  getRowFrom z s i first = getRow z s i first (nh - first).
Proof. exact row_access. Qed.
Theorem C96_columns : forall (z : bsize) (s : bstate) (nv nh br bc j first num : Z),
  divided z s nv nh br bc ->
  (0 <= j < nh /\ 0 <= first /\ 0 <= num /\ first + num <= nv ->
     exists b, getColumn z s j first num = Ok b /\ part (s_raw s) (first * br) (j * bc) (num * br) bc b) /\
  (~ (0 <= j < nh /\ 0 <= first /\ 0 <= num /\ first + num <= nv) -> getColumn z s j first num = Throw) /\
  getColumnFrom z s j first = getColumn z s j first (nv - first).
Proof. exact column_access. Qed.
Theorem C96_one_block : forall (z : bsize) (s : bstate) (nv nh br bc : Z) (a b : nat),
  divided z s nv nh br bc -> (a < mrows (s_raw s))%nat -> (b < mcols (s_raw s))%nat ->
  exists i j, (0 <= i < nv /\ 0 <= j < nh /\ i * br <= Z.of_nat a < (i + 1) * br /\ j * bc <= Z.of_nat b < (j + 1) * bc) /\
    forall i' j', i' * br <= Z.of_nat a < (i' + 1) * br -> j' * bc <= Z.of_nat b < (j' + 1) * bc -> i' = i /\ j' = j.
Proof. exact one_block. Qed.
(** Writing *)
Theorem C96_written : forall (z : bsize) (s s' : bstate) (nv nh br bc : Z) (k : call),
  reachable z s -> divided z s nv nh br bc -> do_ z k s = Fine s' ->
  match k with
  | WriteBlock i j src => divided z s' nv nh br bc /\ Z.of_nat (mrows src) = br /\ Z.of_nat (mcols src) = bc /\ replaced z s s' br bc i j 1 1 src
  | WriteRow i first num src =>
      divided z s' nv nh br bc /\ Z.of_nat (mrows src) = br /\ Z.of_nat (mcols src) = num * bc /\ replaced z s s' br bc i first 1 num src
  | WriteColumn j first num src =>
      divided z s' nv nh br bc /\ Z.of_nat (mrows src) = num * br /\ Z.of_nat (mcols src) = bc /\ replaced z s s' br bc first j num 1 src
  | _ => True
  end.
Proof. exact written. Qed.
Theorem C96_write_accepted : forall (z : bsize) (s : bstate) (nv nh br bc i j : Z) (src : mat),
  reachable z s -> divided z s nv nh br bc ->
  0 <= i < nv -> 0 <= j < nh -> Z.of_nat (mrows src) = br -> Z.of_nat (mcols src) = bc -> exists s', do_ z (WriteBlock i j src) s = Fine s'.
Proof. exact write_accepted. Qed.
(** Selection of one row of each block *)
Theorem C96_selected_matrix : forall (z : bsize) (s : bstate) (nv nh br bc row : Z),
  divided z s nv nh br bc -> small (s_raw s) -> 0 < nv -> 0 <= row < br ->
  exists m, selectRowInBlocksAsMatrix z s row = Ok m /\ Z.of_nat (mrows m) = nv /\ mcols m = mcols (s_raw s) /\
    forall i j, (i < mrows m)%nat -> (j < mcols m)%nat -> mget m i j = mget (s_raw s) (i * Z.to_nat br + Z.to_nat row) j.
Proof. exact selected_matrix. Qed.
Theorem C96_selected_blocks : forall (z : bsize) (s : bstate) (nv nh br bc row : Z),
  reachable z s -> divided z s nv nh br bc -> small (s_raw s) -> 0 < nv -> 0 <= row < br ->
  0 < t_rows z -> 0 < t_cols z ->
  exists s', selectRowInBlocks z s row = Ok s' /\ divided (selection_size z) s' nv nh 1 bc /\
    forall i j b b', getBlock z s i j = Ok b -> getBlock (selection_size z) s' i j = Ok b' ->
      forall q, (q < mcols b)%nat -> mget b' 0 q = mget b (Z.to_nat row) q.
Proof. exact selected_blocks. Qed.
Theorem C96_selected_dynamic : forall (z : bsize) (s : bstate) (nv nh br bc row : Z),
  reachable z s -> divided z s nv nh br bc -> small (s_raw s) -> 0 < nv -> 0 <= row < br ->
  (t_rows z = DYNAMIC -> 0 < t_cols z -> selectRowInBlocks z s row = Throw) /\
  (0 < t_rows z -> t_cols z = DYNAMIC -> exists s', selectRowInBlocks z s row = Ok s' /\ getNumberOfBlocksHorizontal s' = UB) /\
  (t_rows z = DYNAMIC -> t_cols z = DYNAMIC ->
     (~ (br | nh * bc) -> selectRowInBlocks z s row = Throw) /\
     (forall n, nh * bc = n * br -> exists s', selectRowInBlocks z s row = Ok s' /\ divided (selection_size z) s' nv n 1 br)).
Proof. exact selected_dynamic. Qed.
Theorem C96_selection_refuted : exists z s s', undisturbed z s /\ divided z s 2 2 2 3 /\ selectRowInBlocks z s 0 = Ok s' /\ divided (selection_size z) s' 2 3 1 2.
Proof. exact selection_wrong. Qed.
Theorem C96_selection_unchecked_refuted : exists z s m, undisturbed z s /\ divided z s 2 2 2 2 /\ selectRowInBlocksAsMatrix z s 2 = Ok m /\ mrows m = 1%nat /\
  mget m 0 0 = mget (s_raw s) 2 0.
Proof. exact selection_unchecked. Qed.
Theorem C96_selection_of_nothing_refuted : exists z s m, undisturbed z s /\ mrows (s_raw s) = 0%nat /\ selectRowInBlocksAsMatrix z s 1 = Ok m /\ (0 < mrows m)%nat.
Proof. exact selection_of_nothing. Qed.
Theorem C96_refused_set_refuted : exists z s s' m, undisturbed z s /\ known z s /\ do_ z (SetRaw m) s = Refused s' /\
  s_raw s' = m /\ getNumberOfRows z s' = Ok 4 /\ mrows m = 3%nat /\ ~ consistent z s' /\ getBlock z s' 1 1 = Throw.
Proof. exact refused_set. Qed.
Theorem C96_refused_size_refuted : exists z s s', undisturbed z s /\ known z s /\ do_ z (SetBlockSize 3 2) s = Refused s' /\
  block_rows_num z s' = 3 /\ mrows (s_raw s') = 4%nat /\ getNumberOfRows z s' = Ok 6 /\ ~ consistent z s'.
Proof. exact refused_size. Qed.
Theorem C96_unknown_size_refuted : exists z s, undisturbed z s /\ mrows (s_raw s) = 4%nat /\ getNumberOfBlocksVertical s = UB /\ getNumberOfRows z s = UB /\
  getRowFrom z s 0 0 = UB /\ exists b, getBlock z s 5 7 = Ok b /\ mrows b = 0%nat.
Proof. exact unknown_size. Qed.

Print Assumptions C96_construct. Print Assumptions C96_constructed. Print Assumptions C96_consistent. Print Assumptions C96_restored. Print Assumptions C96_result. Print Assumptions C96_known. Print Assumptions C96_harmless. Print Assumptions C96_blocks. Print Assumptions C96_rows. Print Assumptions C96_columns. Print Assumptions C96_one_block. Print Assumptions C96_written. Print Assumptions C96_write_accepted. Print Assumptions C96_selected_matrix. Print Assumptions C96_selected_blocks. Print Assumptions C96_selected_dynamic. Print Assumptions C96_selection_refuted. Print Assumptions C96_selection_unchecked_refuted. Print Assumptions C96_selection_of_nothing_refuted. Print Assumptions C96_refused_set_refuted. Print Assumptions C96_refused_size_refuted. Print Assumptions C96_unknown_size_refuted.
