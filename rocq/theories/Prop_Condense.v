(** * Properties C37 (condensing) and C38 (condensing of outputs) *)
From Coq Require Import List Reals Lra Arith Lia Bool.
From Verif Require Import Base RSum Matrix BlockMatrix Condense CondenseSpec CondenseResults.
Import ListNotations.
Open Scope R_scope.

(** ** C37: S x0 + U u is the stacked sequence of simulated states *)
Theorem C37_block : forall junk n m A B,
  (0 < n)%nat -> (0 < m)%nat -> sized A n n -> sized B n m -> length A = length B -> (0 < length A)%nat ->
  exists S U, condense junk n m A B = Ok (S, U) /\
    mrows (raw S) = (length A * n)%nat /\ mcols (raw S) = n /\ mrows (raw U) = (length A * n)%nat /\ mcols (raw U) = (length A * m)%nat /\
    forall x0 u, vlen x0 = n -> vlen u = (length A * m)%nat ->
      stacks (length A) n (raw S) (raw U) x0 u (fun k => simulate A B m u x0 (k + 1)).
Proof. exact condense_simulates. Qed.
Theorem C37_dense : forall junk n m A B,
  sized A n n -> sized B n m -> length A = length B -> (0 < length A)%nat ->
  exists S U, condense_dense junk A B = Ok (S, U) /\
    mrows S = (length A * n)%nat /\ mcols S = n /\ mrows U = (length A * n)%nat /\ mcols U = (length A * m)%nat /\
    forall x0 u, vlen x0 = n -> vlen u = (length A * m)%nat ->
      stacks (length A) n S U x0 u (fun k => simulate A B m u x0 (k + 1)).
Proof. exact condense_dense_simulates. Qed.
Theorem C37_time_invariant : forall junk N A B,
  mcols A = mrows A -> mrows B = mrows A -> (0 < N)%nat ->
  exists S U, condenseTimeInvariant junk N A B = Ok (S, U) /\
    mrows S = (N * mrows A)%nat /\ mcols S = mrows A /\ mrows U = (N * mrows A)%nat /\ mcols U = (N * mcols B)%nat /\
    forall x0 u, vlen x0 = mrows A -> vlen u = (N * mcols B)%nat ->
      stacks N (mrows A) S U x0 u (fun k => simulate (repeat A N) (repeat B N) (mcols B) u x0 (k + 1)).
Proof. exact condense_ti_simulates. Qed.
Theorem C37_rejects : forall junk n m A B,
  length A <> length B \/ A = [] -> condense junk n m A B = Throw /\ condense_dense junk A B = Throw.
Proof. exact condense_rejects. Qed.
(** a double integrator with unit period: x(2) = (2, 2) after two unit accelerations *)
Definition di_A : mat := mkMat 2 2 (fun i j => if (j <? i)%nat then 0 else 1).
Definition di_B : mat := mkMat 2 1 (fun i _ => if (i =? 0)%nat then 1 / 2 else 1).
Definition di_u : vec := vconst 2 1.
Example C37_example : sized [di_A; di_A] 2 2 /\ sized [di_B; di_B] 2 1 /\
  (exists S U, condense (fun _ _ => 7) 2 1 [di_A; di_A] [di_B; di_B] = Ok (S, U)) /\
  let x2 := simulate [di_A; di_A] [di_B; di_B] 1 di_u (vconst 2 0) 2 in vget x2 0 = 2 /\ vget x2 1 = 2.
Proof.
  split; [repeat constructor|]. split; [repeat constructor|]. split.
  - destruct (condense_simulates (fun _ _ => 7) 2 1 [di_A; di_A] [di_B; di_B]) as (S & U & E & _); try lia; try reflexivity; try (repeat constructor). exists S, U. exact E.
  - cbn. lra.
Qed.

(** ** C38: Ox x0 + Ou u is the stacked sequence of outputs *)
Theorem C38_block : forall junk junk' ny n m A B D E,
  (0 < ny)%nat -> (0 < n)%nat -> (0 < m)%nat ->
  sized A n n -> sized B n m -> sized D ny n -> sized E ny m ->
  (0 < length A)%nat -> length B = length A -> length D = length A -> length E = length A ->
  exists S U Ox Ou, condense junk n m A B = Ok (S, U) /\ condenseOutput junk' ny n m D E S U = Ok (Ox, Ou) /\
    mrows (raw Ox) = (length A * ny)%nat /\ mcols (raw Ox) = n /\ mrows (raw Ou) = (length A * ny)%nat /\ mcols (raw Ou) = (length A * m)%nat /\
    forall x0 u, vlen x0 = n -> vlen u = (length A * m)%nat ->
      stacks (length A) ny (raw Ox) (raw Ou) x0 u (output D E m u (simulate A B m u x0)).
Proof. exact condenseOutput_simulates. Qed.
Theorem C38_time_invariant : forall junk junk' N A B D E,
  (0 < N)%nat -> (0 < mrows A)%nat ->
  mcols A = mrows A -> mrows B = mrows A -> mcols D = mrows A -> mrows E = mrows D -> mcols E = mcols B ->
  exists S U Ox Ou, condenseTimeInvariant junk N A B = Ok (S, U) /\ condenseOutput_dense junk' D E S U = Ok (Ox, Ou) /\
    mrows Ox = (N * mrows D)%nat /\ mcols Ox = mrows A /\ mrows Ou = (N * mrows D)%nat /\ mcols Ou = (N * mcols B)%nat /\
    forall x0 u, vlen x0 = mrows A -> vlen u = (N * mcols B)%nat ->
      stacks N (mrows D) Ox Ou x0 u
        (output (repeat D N) (repeat E N) (mcols B) u (simulate (repeat A N) (repeat B N) (mcols B) u x0)).
Proof. exact condenseOutput_dense_simulates. Qed.
(** the overload with several groups of controls: the first output lacks the feedthrough term, the others are right
    (stated for the controls of each group, the other groups being zero) *)
Theorem C38_groups_partial : forall junk junk' ny n A Bs Ux Uu D E,
  (0 < ny)%nat -> (0 < n)%nat -> (0 < length A)%nat -> sized A n n ->
  (exists m B U, (0 < m)%nat /\ sized B n m /\ length B = length A /\ condense junk n m A B = Ok (Ux, U)) ->
  length Bs = length Uu ->
  (forall g B u, nth_error Bs g = Some B -> nth_error Uu g = Some u ->
     (0 < block_cols u)%nat /\ sized B n (block_cols u) /\ length B = length A /\ exists S, condense junk n (block_cols u) A B = Ok (S, u)) ->
  sized D ny n -> sized E ny (list_sum (map block_cols Uu)) -> length D = length A -> length E = length A ->
  exists Ox Ou, condenseOutput_groups junk' ny n D E Ux Uu = Ok (Ox, Ou) /\ length Ou = length Uu /\
    forall g B u o, nth_error Bs g = Some B -> nth_error Uu g = Some u -> nth_error Ou g = Some o ->
      let Eg := slices E ny (group_offset Uu g) (block_cols u) in
      forall x0 v, vlen x0 = n -> vlen v = (length A * block_cols u)%nat ->
      stacks (length A) ny (raw Ox) (raw o) x0 v (fun k =>
        if ((k =? 0) && negb (length A =? 1))%nat then mulv (mat_at D 0) x0
        else output D Eg (block_cols u) v (simulate A B (block_cols u) v x0) k).
Proof. exact groups_outputs. Qed.
Theorem C38_groups_refuted : exists Ux U Ox o,
  condense (fun _ _ => 0) 1 1 w_A w_A = Ok (Ux, U) /\
  condenseOutput_groups (fun _ _ => 0) 1 1 w_D w_A Ux [U] = Ok (Ox, [o]) /\
  exists x0 u, vlen x0 = 1%nat /\ vlen u = 2%nat /\ ~ stacks 2 1 (raw Ox) (raw o) x0 u (output w_D w_A 1 u (simulate w_A w_A 1 u x0)).
Proof. exact groups_refuted. Qed.
Example C38_example : sized [mid 2; mid 2] 2 2 /\ sized [di_B; di_B] 2 1 /\
  (exists S U Ox Ou, condense (fun _ _ => 7) 2 1 [di_A; di_A] [di_B; di_B] = Ok (S, U) /\ condenseOutput (fun _ _ => 5) 2 2 1 [mid 2; mid 2] [di_B; di_B] S U = Ok (Ox, Ou)) /\
  vget (output [mid 2; mid 2] [di_B; di_B] 1 di_u (simulate [di_A; di_A] [di_B; di_B] 1 di_u (vconst 2 0)) 1) 1 = 2.
Proof.
  split; [repeat constructor|]. split; [repeat constructor|]. split.
  - destruct (condenseOutput_simulates (fun _ _ => 7) (fun _ _ => 5) 2 2 1 [di_A; di_A] [di_B; di_B] [mid 2; mid 2] [di_B; di_B]) as (S & U & Ox & Ou & E & E' & _);
      try (cbn; lia); try reflexivity; try (repeat constructor). exists S, U, Ox, Ou. split; assumption.
  - cbn. lra.
Qed.

Print Assumptions C37_block. Print Assumptions C37_dense. Print Assumptions C37_time_invariant. Print Assumptions C37_rejects. Print Assumptions C38_block. Print Assumptions C38_time_invariant. Print Assumptions C38_groups_partial. Print Assumptions C38_groups_refuted.
