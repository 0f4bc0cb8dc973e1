(** * Vocabulary for the life of block matrices *)
From Coq Require Import List Arith ZArith Reals Bool Lia.
From Verif Require Import Base RSum Matrix Eigentools BlockLife.
Import ListNotations.
Local Open Scope Z_scope.

(** a block matrix which was constructed and used, with or without refused calls *)
Definition reachable (z : bsize) (s : bstate) : Prop := exists m r c s0 cs, construct z m r c = Ok s0 /\ s = history z cs s0.
(** ... such that no call was refused *)
Inductive undisturbed (z : bsize) : bstate -> Prop :=
| Born m r c s : construct z m r c = Ok s -> undisturbed z s
| Lives s k s' : undisturbed z s -> do_ z k s = Fine s' -> undisturbed z s'.
(** calls which change sizes *)
Definition restructures (k : call) : bool := match k with SetBlockSize _ _ | SetRaw _ | Resize _ _ _ | SetZero _ _ => true | _ => false end.

(** a size which is neither a template parameter nor given: DYNAMIC and UNDEFINED *)
Definition known (z : bsize) (s : bstate) : Prop :=
  ~ (t_rows z = DYNAMIC /\ s_rows s = UNDEFINED) /\ ~ (t_cols z = DYNAMIC /\ s_cols s = UNDEFINED).
(** one dimension [n] of a matrix, template parameter [t], argument [a]: left open, or a positive size given once, a divisor of [n] *)
Definition fits (t a n : Z) : Prop :=
  (t = DYNAMIC /\ a = UNDEFINED) \/ (exists b, 0 < b /\ (t = DYNAMIC /\ a = b \/ t = b /\ a = UNDEFINED) /\ (b | n)).
(** the matrix consists of nv x nh blocks of the size br x bc, and the object says so *)
Definition divided (z : bsize) (s : bstate) (nv nh br bc : Z) : Prop :=
  0 <= nv /\ 0 <= nh /\ 0 < br /\ 0 < bc /\
  block_rows_num z s = br /\ block_cols_num z s = bc /\
  getNumberOfBlocksVertical s = Ok nv /\ getNumberOfBlocksHorizontal s = Ok nh /\
  Z.of_nat (mrows (s_raw s)) = nv * br /\ Z.of_nat (mcols (s_raw s)) = nh * bc /\
  getNumberOfRows z s = Ok (Z.of_nat (mrows (s_raw s))) /\ getNumberOfColumns z s = Ok (Z.of_nat (mcols (s_raw s))).
Definition consistent (z : bsize) (s : bstate) : Prop := exists nv nh br bc, divided z s nv nh br bc.
(** [b] is the part of [m] with the first row [i], the first column [j], [r] rows and [c] columns *)
Definition part (m : mat) (i j r c : Z) (b : mat) : Prop :=
  Z.of_nat (mrows b) = r /\ Z.of_nat (mcols b) = c /\
  forall p q, (p < mrows b)%nat -> (q < mcols b)%nat -> mget b p q = mget m (Z.to_nat i + p) (Z.to_nat j + q).
(** blocks (i0 .. i0+m-1) x (j0 .. j0+n-1) are replaced by [src] *)
Definition replaced (z : bsize) (s s' : bstate) (br bc i0 j0 m n : Z) (src : mat) : Prop :=
  forall i j b b', getBlock z s i j = Ok b -> getBlock z s' i j = Ok b' -> forall p q, (p < mrows b)%nat -> (q < mcols b)%nat ->
    mget b' p q = if (i0 <=? i) && (i <? i0 + m) && (j0 <=? j) && (j <? j0 + n)
                  then mget src (Z.to_nat ((i - i0) * br) + p) (Z.to_nat ((j - j0) * bc) + q) else mget b p q.
