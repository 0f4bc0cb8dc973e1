(** * Block diagonal matrices (/repo/core/include/eigentools/eigentools.h) *)
From Coq Require Import List Reals Arith.
From Verif Require Import Base RSum Matrix.
Import ListNotations.
Open Scope R_scope.

(** eigentools.h:444-448, the loop: [i] goes from [n - k] to [n - 1]; the blocks are inside of the output by its size (Eigen assertion) *)
Fixpoint replicate_blocks (a : mat) (out : mat) (i k : nat) : outcome mat :=
  match k with
  | O => Ok out
  | S k' => bind (mset_block_o out (i * mrows a) (i * mcols a) a) (fun o => replicate_blocks a o (S i) k')
  end.
(** eigentools.h:421-450 *)
Definition makeBlockDiagonal (a : mat) (n : nat) : outcome mat :=
  match n with
  | O => Ok (mzero 0 0)
  | 1%nat => Ok a
  | _ => replicate_blocks a (mzero (n * mrows a) (n * mcols a)) 0 n
  end.

(** eigentools.h:394-404, the loop over the rest of the input with the cumulative row and column *)
Fixpoint place_blocks (l : list mat) (out : mat) (r c : nat) : outcome mat :=
  match l with
  | [] => Ok out
  | a :: rest => bind (mset_block_o out r c a) (fun o => place_blocks rest o (r + mrows a) (c + mcols a))
  end.
(** eigentools.h:362-407 *)
Definition makeBlockDiagonalList (l : list mat) : outcome mat :=
  match l with
  | [] => Ok (mzero 0 0)
  | [a] => Ok a
  | _ => place_blocks l (mzero (list_sum (map mrows l)) (list_sum (map mcols l))) 0 0
  end.
