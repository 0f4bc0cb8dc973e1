(** * KKT solver (/repo/core/include/kktsolver.h). The Eigen factorisations are function parameters. *)
From Coq Require Import List Arith Reals Bool.
From Verif Require Import Base RSum Matrix ConstraintType HierarchyLevel Constraints QP Solver.
Import ListNotations.
Open Scope R_scope.

(** kktsolver.h:37-57: the solution methods; [KKT_UNDEFINED] is any other value *)
Inductive kkt_method := CONSTRAINT_ELIMINATION_LLT | LU | QR | KKT_UNDEFINED.
(** kktsolver.h:60-71 *)
Record kkt_parameters := mkKKTP { solution_method : kkt_method; elimination_regularization_factor : R }.

(** kktsolver.h:182-183: the comma initialiser [H A'; A 0]; the sizes are checked by [solveDirect] *)
Definition kkt_matrix (H A : mat) : mat :=
  let nv := mrows H in
  mkMat (nv + mrows A) (nv + mrows A) (fun i j =>
    if (i <? nv)%nat then if (j <? nv)%nat then mget H i j else mget A (j - nv) i
    else if (j <? nv)%nat then mget A (i - nv) j else 0).
(** kktsolver.h:185-186 *)
Definition kkt_vector (g b : vec) : vec :=
  mkVec (vlen g + vlen b) (fun i => if (i <? vlen g)%nat then - vget g i else vget b (i - vlen g)).

(** kktsolver.h:170-205. [lin K r] is the result of the factorisation selected by the method (LU or QR).
    Eigen asserts that the blocks fit; empty blocks are skipped by the comma initialiser. *)
Definition solveDirect (lin : mat -> vec -> vec) (H : mat) (g : vec) (A : mat) (b : vec) (nv : nat) : outcome vec :=
  assert_then ((mrows H =? nv)%nat && (mcols H =? nv)%nat && ((mrows A =? 0)%nat || (mcols A =? nv)%nat)
               && (vlen g =? nv)%nat && (vlen b =? mrows A)%nat)
    (let x := lin (kkt_matrix H A) (kkt_vector g b) in
     assert_then (nv <=? vlen x)%nat (Ok (mkVec nv (vget x)))).

(** kktsolver.h:137-161. [llt S r] is the result of the Cholesky solve. *)
Definition solveWithElimination (llt : mat -> vec -> vec) (reg : R) (H : mat) (g : vec) (A : mat) (b : vec) (nv : nat) : outcome vec :=
  let inverted_H i := / (mget H i i + reg) in
  assert_then ((nv <=? mrows H)%nat && (nv <=? mcols H)%nat && (vlen g =? nv)%nat && (mcols A =? nv)%nat && (vlen b =? mrows A)%nat)
   (let iH_g := mkVec nv (fun i => inverted_H i * vget g i) in
    let iH_At := mkMat nv (mrows A) (fun i r => inverted_H i * mget A r i) in
    let lambda := llt (mmul A iH_At) (vadd (mulv A iH_g) b) in
    assert_then (vlen lambda =? mrows A)%nat
      (Ok (mkVec nv (fun i => vget (mulv iH_At lambda) i - vget iH_g i)))).

(** kktsolver.h:106-128 *)
Definition kkt_solveHierarchy (p : kkt_parameters) (llt lin : mat -> vec -> vec) (qp : objective * contAB) (nv : nat) : outcome vec :=
  let '(o, q) := qp in
  match solution_method p with
  | CONSTRAINT_ELIMINATION_LLT =>
      match o_type o with
      | HESSIAN_DIAGONAL => solveWithElimination llt (elimination_regularization_factor p) (o_H o) (o_g o) (ab_A q) (ab_b q) nv
      | _ => Throw
      end
  | LU | QR => solveDirect lin (o_H o) (o_g o) (ab_A q) (ab_b q) nv
  | KKT_UNDEFINED => Throw
  end.

(** kktsolver.h:97-101 followed by 106-128: what solve() does; [qp] is the content of qp_problem_ before the call *)
Definition kkt_solve (p : kkt_parameters) (llt lin : mat -> vec -> vec) (cs : nat -> constr) (levels : list level) (nv : nat)
    (qp : objective * contAB) : outcome vec :=
  bind (getQPProblem (fun l => initializeConstraints_AB cs l nv) cs levels true qp) (fun qp =>
    kkt_solveHierarchy p llt lin qp nv).
