(** * Specification vocabulary for C41, C42 *)
From Coq Require Import List Reals Arith Bool.
From Verif Require Import Base RSum Matrix.
Import ListNotations.
Open Scope R_scope.
(** the matrix without row / column [k] *)
Definition without_row (m : mat) (k : nat) : mat := mkMat (mrows m - 1) (mcols m) (fun i j => if (i <? k)%nat then mget m i j else mget m (i + 1) j).
Definition without_column (m : mat) (k : nat) : mat := mkMat (mrows m) (mcols m - 1) (fun i j => if (j <? k)%nat then mget m i j else mget m i (j + 1)).
Definition nonempty (m : mat) : bool := negb (mrows m =? 0)%nat && negb (mcols m =? 0)%nat.
(** matrices with [c] columns on top of each other *)
Definition stack_rows (c : nat) (ms : list mat) : mat := fold_right mvcat (mzero 0 c) ms.
(** matrices with [r] rows next to each other *)
Definition stack_columns (r : nat) (ms : list mat) : mat := fold_right mhcat (mzero r 0) ms.
Definition has_rows (m : mat) : bool := negb (mrows m =? 0)%nat.
(** no two neighbours are empty *)
Fixpoint isolated (ms : list mat) : Prop :=
  match ms with
  | a :: ((b :: _) as rest) => (nonempty a = true \/ nonempty b = true) /\ isolated rest
  | _ => True
  end.
