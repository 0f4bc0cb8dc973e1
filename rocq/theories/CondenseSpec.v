(** * Specification vocabulary for C37, C38 *)
From Coq Require Import List Reals.
From Verif Require Import Base RSum Matrix BlockMatrix.
Open Scope R_scope.

(** part [n] entries long of a stacked vector *)
Definition part (x : vec) (first n : nat) : vec := mkVec n (fun i => vget x (first + i)).
Definition mat_at (l : list mat) (k : nat) : mat := nth k l (mzero 0 0).

(** simulation of x(k+1) = A_k x(k) + B_k u(k), where u(k) is the k-th part of the stacked controls *)
Fixpoint simulate (A B : list mat) (m : nat) (u x0 : vec) (k : nat) : vec :=
  match k with
  | O => x0
  | S j => vadd (mulv (mat_at A j) (simulate A B m u x0 j)) (mulv (mat_at B j) (part u (j * m) m))
  end.
(** outputs y(k) = D_k x(k) + E_k u(k) *)
Definition output (D E : list mat) (m : nat) (u : vec) (x : nat -> vec) (k : nat) : vec :=
  vadd (mulv (mat_at D k) (x k)) (mulv (mat_at E k) (part u (k * m) m)).
(** all matrices of the list have the given size *)
Definition sized (l : list mat) (r c : nat) : Prop := Forall (fun a => mrows a = r /\ mcols a = c) l.

(** S x0 + U u is the stacked sequence y(0), ..., y(N-1) of vectors with [n] entries *)
Definition stacks (N n : nat) (S U : mat) (x0 u : vec) (y : nat -> vec) : Prop :=
  forall k, (k < N)%nat -> veq (part (vadd (mulv S x0) (mulv U u)) (k * n) n) (y k).

(** controls split in groups: the columns of E_k which belong to group [g] start after the columns of the previous groups *)
Definition group_offset (Uu : list bmat) (g : nat) : nat := list_sum (map block_cols (firstn g Uu)).
Definition slices (E : list mat) (ny off mg : nat) : list mat := map (fun e => mblock e 0 off ny mg) E.
