(** * What the bridges give to the QP libraries.

    The libraries (qpOASES, QuadProg++, qpmad) are not in the repository; the arguments of their calls are the values of
    the functions below. Buffers of numbers passed by pointers are functions from positions to numbers. The guesses of
    active sets are in QpoasesBridge.v; the guess of the solution, parameters and return values are not modelled. *)
From Coq Require Import List Arith Bool Reals.
From Verif Require Import Base ConstraintType HierarchyLevel Matrix Constraints QP QpoasesBridge.
Import ListNotations.
Open Scope R_scope.

(** the contents of a matrix in memory: Eigen stores columns unless RowMajor is given (the calls qpOASES solver.h:237-262, QuadProgpp solver.h:76-82, qpmad solver.h:103-109 pass matrices of Eigen) *)
Definition col_major (m : mat) (k : nat) : R := mget m (k mod mrows m) (k / mrows m).
(** storage by rows: the general constraints of qpOASES, bridges/qpOASES/interface/qpoases/solver.h:182-262 *)
Definition row_major (m : mat) (k : nat) : R := mget m (k / mcols m) (k mod mcols m).

(** bridges/qpOASES/interface/qpoases/solver.h:182-262: the arguments of SQProblem::init(); None is a null pointer *)
Record qpoases_args := mkQpoases {
  qa_nV : nat; qa_nC : nat;
  qa_H : nat -> R; qa_g : nat -> R;
  qa_A : option (nat -> R); qa_lb : option (nat -> R); qa_ub : option (nat -> R);
  qa_lbA : option (nat -> R); qa_ubA : option (nat -> R)
}.
(** bridges/qpOASES/interface/qpoases/solver.h:237-262: the arguments of the call *)
Definition qpoases_call (s : qpo) : qpoases_args :=
  let b := (0 <? length (ilu_I (q_bounds (qo_con s))))%nat in
  let g := (0 <? qo_nc s)%nat in
  mkQpoases (qo_nv s) (qo_nc s) (col_major (o_H (qo_obj s))) (vget (o_g (qo_obj s)))
    (if g then Some (row_major (alu_A (q_general (qo_con s)))) else None)
    (if b then Some (vget (q_lb (qo_con s))) else None)
    (if b then Some (vget (q_ub (qo_con s))) else None)
    (if g then Some (vget (alu_lb (q_general (qo_con s)))) else None)
    (if g then Some (vget (alu_ub (q_general (qo_con s)))) else None).

(** bridges/QuadProgpp/.../solver.h:76-82, bridges/qpmad/.../solver.h:103-109: the check of the regularization factor
    and the regularization *)
Definition regularized (f : R) (o : objective) : outcome objective :=
  if Rle_dec 0 f then if Rlt_dec 0 f then regularize f o else Ok o else Throw.

(** bridges/QuadProgpp/.../solver.h:63-91: initialize() and the arguments of QuadProgpp::Solver::solve() *)
Record quadprogpp_args := mkQuadprogpp { qg_G : mat; qg_g : vec; qg_CE : mat; qg_ce : vec; qg_CI : mat; qg_ci : vec }.
(** bridges/QuadProgpp/.../solver.h:63-91: initialize(), then the call *)
Definition quadprogpp_call (cs : nat -> constr) (levels : list level) (nv : nat) (f : R) (qp : objective * qpc_AB_AL)
    : outcome quadprogpp_args :=
  bind (getQPProblem (fun l => initializeConstraints_AB_AL cs l nv) cs levels true qp) (fun qp1 =>
  bind (regularized f (fst qp1)) (fun o =>
    Ok (mkQuadprogpp (o_H o) (o_g o)
          (mtrans (ab_A (q_eq (snd qp1)))) (vopp (ab_b (q_eq (snd qp1))))
          (mtrans (al_A (q_ineq (snd qp1)))) (vopp (al_lb (q_ineq (snd qp1))))))).

(** bridges/qpmad/.../solver.h:90-121: initialize() and the arguments of qpmad::Solver::solve() *)
Record qpmad_args := mkQpmad { qm_H : mat; qm_g : vec; qm_lb : vec; qm_ub : vec; qm_A : mat; qm_Alb : vec; qm_Aub : vec }.
(** bridges/qpmad/.../solver.h:90-121: initialize(), then the call *)
Definition qpmad_call (cs : nat -> constr) (levels : list level) (nv : nat) (f : R) (qp : objective * qpc_ILU_ALU)
    : outcome qpmad_args :=
  bind (getQPProblem (fun l => initializeConstraints_ILU_ALU cs l nv) cs levels false qp) (fun qp1 =>
  bind (regularized f (fst qp1)) (fun o =>
    Ok (mkQpmad (o_H o) (o_g o) (q_lb (snd qp1)) (q_ub (snd qp1))
          (alu_A (q_general (snd qp1))) (alu_lb (q_general (snd qp1))) (alu_ub (q_general (snd qp1)))))).

(** new objects (the members of a new QuadProgpp solver, qp_problem.h:316-386) *)
Definition empty_AB_AL : qpc_AB_AL := mkQAB (mkAL (mzero 0 0) (vconst 0 0)) (mkAB (mzero 0 0) (vconst 0 0)).
