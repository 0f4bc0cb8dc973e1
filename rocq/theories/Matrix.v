(** * Dense matrices: the part of Eigen::MatrixXd used by the model.

    A matrix is its size and its entries; entries outside of the size are junk and are
    ignored by [meq]. Operations on operands of wrong sizes are Eigen assertions;
    the functions with suffix [_o] check the sizes and return [Throw]. *)
From Coq Require Import Reals Arith Lra Lia Bool Setoid Morphisms.
From Verif Require Import Base RSum.
Open Scope R_scope.

(** Eigen::MatrixXd (eigentools.h:66-166) *)
Record mat := mkMat { mrows : nat; mcols : nat; mget : nat -> nat -> R }.

(** equality of matrices: sizes and all entries (no code of /repo: used in statements, e.g. about eigentools.h:202-319) *)
Definition meq (a b : mat) : Prop :=
  mrows a = mrows b /\ mcols a = mcols b /\
  forall i j, (i < mrows a)%nat -> (j < mcols a)%nat -> mget a i j = mget b i j.
Infix "==m" := meq (at level 70).

(** an operation of Eigen, no code of /repo (used e.g. by eigentools.h:202-319) *)
Definition mzero (r c : nat) : mat := mkMat r c (fun _ _ => 0).
(** an operation of Eigen, no code of /repo (used e.g. by eigentools.h:202-319) *)
Definition mid (n : nat) : mat := mkMat n n (fun i j => if Nat.eqb i j then 1 else 0).
(** an operation of Eigen, no code of /repo (used e.g. by eigentools.h:202-319) *)
Definition madd (a b : mat) : mat := mkMat (mrows a) (mcols a) (fun i j => mget a i j + mget b i j).
(** an operation of Eigen, no code of /repo (used e.g. by eigentools.h:202-319) *)
Definition msub (a b : mat) : mat := mkMat (mrows a) (mcols a) (fun i j => mget a i j - mget b i j).
(** an operation of Eigen, no code of /repo (used e.g. by eigentools.h:202-319) *)
Definition mscale (c : R) (a : mat) : mat := mkMat (mrows a) (mcols a) (fun i j => c * mget a i j).
(** an operation of Eigen, no code of /repo (used e.g. by eigentools.h:202-319) *)
Definition mopp (a : mat) : mat := mkMat (mrows a) (mcols a) (fun i j => - mget a i j).
(** an operation of Eigen, no code of /repo (used e.g. by eigentools.h:202-319) *)
Definition mtrans (a : mat) : mat := mkMat (mcols a) (mrows a) (fun i j => mget a j i).
(** an operation of Eigen, no code of /repo (used e.g. by eigentools.h:202-319) *)
Definition mmul (a b : mat) : mat :=
  mkMat (mrows a) (mcols b) (fun i j => Rsum (mcols a) (fun k => mget a i k * mget b k j)).

(** Eigen block(i0, j0, r, c), reading *)
Definition mblock (m : mat) (i0 j0 r c : nat) : mat :=
  mkMat r c (fun i j => mget m (i0 + i) (j0 + j)).
(** Eigen block(i0, j0, rows(src), cols(src)) = src *)
Definition in_block (i0 n i : nat) : bool := (i0 <=? i)%nat && (i <? i0 + n)%nat.
(** assignment to a block of a matrix, Eigen (used e.g. by eigentools.h:400, 445) *)
Definition mset_block (m : mat) (i0 j0 : nat) (src : mat) : mat :=
  mkMat (mrows m) (mcols m)
    (fun i j => if in_block i0 (mrows src) i && in_block j0 (mcols src) j
                then mget src (i - i0) (j - j0) else mget m i j).

(** block access with the assertions of Eigen (used e.g. by eigentools.h:400, 445) *)
Definition mset_block_o (m : mat) (i0 j0 : nat) (src : mat) : outcome mat :=
  assert_then ((i0 + mrows src <=? mrows m)%nat && (j0 + mcols src <=? mcols m)%nat)
    (Ok (mset_block m i0 j0 src)).
(** the product with the assertion of Eigen on the sizes (used e.g. by blockmatrix_base.h:864-869) *)
Definition mmul_o (a b : mat) : outcome mat := assert_then (mcols a =? mrows b)%nat (Ok (mmul a b)).
(** the sum with the assertion of Eigen on the sizes (used e.g. by blockmatrix_base.h:1130-1137) *)
Definition madd_o (a b : mat) : outcome mat :=
  assert_then ((mrows a =? mrows b)%nat && (mcols a =? mcols b)%nat) (Ok (madd a b)).

(** write of one entry, checked by Eigen (used e.g. by constraints_mixins.h:799-805) *)
Definition mset_o (m : mat) (i j : nat) (v : R) : outcome mat :=
  assert_then ((i <? mrows m)%nat && (j <? mcols m)%nat)
    (Ok (mkMat (mrows m) (mcols m) (fun a b => if (a =? i)%nat && (b =? j)%nat then v else mget m a b))).

(** column vectors: Eigen::VectorXd (used e.g. by solution.h:187-190) *)
Record vec := mkVec { vlen : nat; vget : nat -> R }.
(** no code of /repo: used in statements, e.g. about solution.h:214-299 *)
Definition veq (a b : vec) : Prop := vlen a = vlen b /\ forall i, (i < vlen a)%nat -> vget a i = vget b i.
(** an operation of Eigen on vectors, no code of /repo (used e.g. by constraints_mixins.h:134-145) *)
Definition vconst (n : nat) (c : R) : vec := mkVec n (fun _ => c).
(** an operation of Eigen on vectors, no code of /repo (used e.g. by constraints_mixins.h:134-145) *)
Definition vopp (v : vec) : vec := mkVec (vlen v) (fun i => - vget v i).
(** an operation of Eigen on vectors, no code of /repo (used e.g. by constraints_mixins.h:134-145) *)
Definition vadd (a b : vec) : vec := mkVec (vlen a) (fun i => vget a i + vget b i).
(** matrix times vector (Eigen, used e.g. by constraints_mixins.h:503-507) *)
Definition mulv (a : mat) (x : vec) : vec := mkVec (mrows a) (fun i => Rsum (mcols a) (fun k => mget a i k * vget x k)).
(** the scalar product, Eigen (used e.g. by kktsolver.h:97-128) *)
Definition dot (x y : vec) : R := Rsum (vlen x) (fun i => vget x i * vget y i).
(** segment(off, len) = src: Eigen asserts the range and the size of src (used e.g. by constraints_mixins.h:814-827) *)
Definition vset_segment (v : vec) (l : Location) (src : vec) : outcome vec :=
  assert_then ((offset l + len l <=? vlen v)%nat && (len l =? vlen src)%nat)
    (Ok (mkVec (vlen v) (fun i => if in_block (offset l) (len l) i then vget src (i - offset l) else vget v i))).
(** checked write of one entry (used e.g. by constraints_base.h:324-364) *)
Definition vset_o (v : vec) (i : nat) (x : R) : outcome vec :=
  assert_then (i <? vlen v)%nat (Ok (mkVec (vlen v) (fun k => if (k =? i)%nat then x else vget v k))).

(** vertical stack of two matrices (Eigen comma initialiser, used e.g. by point_mass_model_6z.h:134-163) *)
Definition mvcat (a b : mat) : mat :=
  mkMat (mrows a + mrows b) (mcols a)
    (fun i j => if (i <? mrows a)%nat then mget a i j else mget b (i - mrows a) j).
(** two matrices side by side, Eigen comma initialiser (used e.g. by point_mass_model_6z.h:134-163) *)
Definition mhcat (a b : mat) : mat :=
  mkMat (mrows a) (mcols a + mcols b)
    (fun i j => if (j <? mcols a)%nat then mget a i j else mget b i (j - mcols a)).

(** ** Algebra *)
Lemma meq_refl a : a ==m a.
Proof. repeat split; auto. Qed.
Lemma meq_sym a b : a ==m b -> b ==m a.
Proof. intros (A & B & C). repeat split; auto. intros i j Hi Hj. symmetry. apply C; lia. Qed.
Lemma meq_trans a b c : a ==m b -> b ==m c -> a ==m c.
Proof.
  intros (A & B & C) (A' & B' & C'). repeat split; try congruence. intros i j Hi Hj.
  rewrite C by assumption. apply C'; lia.
Qed.
Global Instance meq_equiv : Equivalence meq.
Proof. split; [exact meq_refl|exact meq_sym|exact meq_trans]. Qed.

Lemma meq_get a b i j : a ==m b -> (i < mrows a)%nat -> (j < mcols a)%nat -> mget a i j = mget b i j.
Proof. intros (_ & _ & H). apply H. Qed.

Lemma mmul_meq a a' b b' : a ==m a' -> b ==m b' -> mcols a = mrows b -> mmul a b ==m mmul a' b'.
Proof.
  intros (A & B & C) (A' & B' & C') D. repeat split; simpl; auto. intros i j Hi Hj.
  rewrite <- B. apply Rsum_ext. intros k Hk. rewrite C, C'; auto; lia.
Qed.

Lemma madd_meq a a' b b' : a ==m a' -> b ==m b' -> mrows a = mrows b -> mcols a = mcols b -> madd a b ==m madd a' b'.
Proof.
  intros (A & B & C) (A' & B' & C') D E. repeat split; simpl; auto. intros i j Hi Hj.
  rewrite C, C'; auto; lia.
Qed.

Global Instance mtrans_proper : Proper (meq ==> meq) mtrans.
Proof. intros a a' (A & B & C). repeat split; simpl; auto. Qed.
Global Instance mopp_proper : Proper (meq ==> meq) mopp.
Proof. intros a a' (A & B & C). repeat split; simpl; auto. intros. rewrite C; auto. Qed.
Global Instance mscale_proper : Proper (eq ==> meq ==> meq) mscale.
Proof. intros x y -> a a' (A & B & C). repeat split; simpl; auto. intros. rewrite C; auto. Qed.

Lemma mmul_assoc a b c : mcols a = mrows b -> mcols b = mrows c -> mmul (mmul a b) c ==m mmul a (mmul b c).
Proof.
  intros H1 H2. repeat split; simpl; auto. intros i j Hi Hj.
  transitivity (Rsum (mcols b) (fun k => Rsum (mcols a) (fun l => mget a i l * mget b l k * mget c k j))).
  - apply Rsum_ext. intros k Hk. rewrite <- Rsum_scal_r. reflexivity.
  - rewrite Rsum_swap. apply Rsum_ext. intros l Hl. rewrite <- Rsum_scal. apply Rsum_ext. intros; ring.
Qed.

Lemma mmul_id_l a : mmul (mid (mrows a)) a ==m a.
Proof.
  repeat split; simpl; auto. intros i j Hi Hj.
  rewrite (Rsum_single _ i); [rewrite Nat.eqb_refl; ring|assumption|].
  intros k Hk N. replace (i =? k)%nat with false by (symmetry; apply Nat.eqb_neq; auto). ring.
Qed.

Lemma mmul_id_r a : mmul a (mid (mcols a)) ==m a.
Proof.
  repeat split; simpl; auto. intros i j Hi Hj.
  rewrite (Rsum_single _ j); [rewrite Nat.eqb_refl; ring|assumption|].
  intros k Hk N. replace (k =? j)%nat with false by (symmetry; apply Nat.eqb_neq; auto). ring.
Qed.

Lemma mmul_add_l a b c : mcols a = mcols b -> mmul (madd a b) c ==m madd (mmul a c) (mmul b c).
Proof.
  intros H. repeat split; simpl; auto. intros i j Hi Hj. rewrite <- H, <- Rsum_plus. apply Rsum_ext. intros; ring.
Qed.
Lemma mmul_add_r a b c : mmul a (madd b c) ==m madd (mmul a b) (mmul a c).
Proof. repeat split; simpl; auto. intros i j Hi Hj. rewrite <- Rsum_plus. apply Rsum_ext. intros; ring. Qed.

Lemma mmul_trans a b : mcols a = mrows b -> mtrans (mmul a b) ==m mmul (mtrans b) (mtrans a).
Proof. intros H. repeat split; simpl; auto. intros i j Hi Hj. rewrite H. apply Rsum_ext. intros; ring. Qed.

Lemma mtrans_invol a : mtrans (mtrans a) ==m a.
Proof. repeat split; simpl; auto. Qed.
