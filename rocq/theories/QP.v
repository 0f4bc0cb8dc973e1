(** * QP objective and QP problem
    (/repo/core/include/eigentools/eigentools.h:202-319, humoto/constraints.h getATAandATb / addATAandATb,
    humoto/hierarchy_level.h:479-496, humoto/qp_problem.h, humoto/hierarchy.h:329-347). *)
From Coq Require Import List Arith Reals Bool.
From Verif Require Import Base RSum Matrix ConstraintType HierarchyLevel Constraints.
Import ListNotations.
Open Scope R_scope.

(** column product: A.col(a)^T * A.col(b) (eigentools.h:211, 244, 268, 297) *)
Definition col_product (A : mat) (a b : nat) : R := Rsum (mrows A) (fun k => mget A k a * mget A k b).

(** eigentools.h:206-210, 235-241, 266-269, 290-296: the loop over columns; column [i] of the lower triangle of the
    block at ([off], [off]) is set ([plus = false]) or incremented ([plus = true]); block ranges are checked by Eigen *)
Definition gram_loop (plus : bool) (A : mat) (off : nat) (H : mat) : outcome mat :=
  for_up (mcols A) 0 (fun i H =>
    mset_block_o H (off + i) (off + i)
      (mkMat (mcols A - i) 1 (fun r _ =>
         (if plus then mget H (off + i + r) (off + i) else 0) + col_product A (i + r) i))) H.

(** Eigen triangularView<Lower>().setZero() (eigentools.h:229-246) *)
Definition zero_lower (H : mat) : mat :=
  mkMat (mrows H) (mcols H) (fun i j => if (j <=? i)%nat then 0 else mget H i j).

(** eigentools.h:202-213 *)
Definition et_getATA (H A : mat) : outcome mat := gram_loop false A 0 (mresize H (mcols A) (mcols A)).
(** eigentools.h:229-246 *)
Definition et_getATA_off (H A : mat) (off num_el : nat) : outcome mat :=
  gram_loop false A off (zero_lower (mresize H num_el num_el)).
(** eigentools.h:260-271 *)
Definition et_addATA (H A : mat) : outcome mat := gram_loop true A 0 H.
(** eigentools.h:284-299 *)
Definition et_addATA_off (H A : mat) (off : nat) : outcome mat := gram_loop true A off H.

(** eigentools.h:310-319: matrix.block(i, i+1, 1, n-i-1) = matrix.transpose().block(i, i+1, 1, n-i-1) *)
Definition convertLLTtoSymmetric (M : mat) : outcome mat :=
  for_up (mcols M - 1) 0 (fun i M =>
    mset_block_o M i (i + 1) (mkMat 1 (mcols M - i - 1) (fun _ c => mget M (i + 1 + c) i))) M.

(** constraints_mixins.h:799-805, 945-951: H(I[i], I[i]) += value *)
Definition add_diagonal (ix : list nat) (value : nat -> R) (H : mat) : outcome mat :=
  for_up (length ix) 0 (fun i H =>
    mset_o H (nth i ix 0%nat) (nth i ix 0%nat) (mget H (nth i ix 0%nat) (nth i ix 0%nat) + value i)) H.

(** getATA of the body: constraints_mixins.h:495-499, 634-637, 789-795, 935-941 *)
Definition body_getATA (c : constr) (H : mat) : outcome mat :=
  match c_body c with
  | BodyA A => et_getATA H A
  | BodyAS A off => et_getATA_off H A off (c_nvars c)
  | BodyI ix => add_diagonal ix (fun _ => 1) (zero_lower (mresize H (c_nvars c) (c_nvars c)))
  | BodyGI ix G => add_diagonal ix (fun i => vget G i * vget G i) (zero_lower (mresize H (c_nvars c) (c_nvars c)))
  end.

(** addATA of the body: constraints_mixins.h:503-507, 641-644, 799-805, 945-951 *)
Definition body_addATA (c : constr) (H : mat) : outcome mat :=
  match c_body c with
  | BodyA A => et_addATA H A
  | BodyAS A off => et_addATA_off H A off
  | BodyI ix => add_diagonal ix (fun _ => 1) H
  | BodyGI ix G => add_diagonal ix (fun i => vget G i * vget G i) H
  end.

(** A^T b; Eigen asserts equal sizes (constraints.h:203-215, 261-273) *)
Definition ATb (A : mat) (b : vec) : outcome vec :=
  assert_then (mrows A =? vlen b)%nat (Ok (mkVec (mcols A) (fun j => Rsum (mrows A) (fun k => mget A k j * vget b k)))).

(** constraints.h:720-726: g[I[i]] += gain[i] * b[i] *)
Definition gib_addATb (ix : list nat) (G b : vec) (g : vec) : outcome vec :=
  for_up (length ix) 0 (fun i g => vset_o g (nth i ix 0%nat) (vget g (nth i ix 0%nat) + vget G i * vget b i)) g.

(** constraints.h: the second half of getATAandATb: 206 (AB), 475-480 (ASB), 759-760 (GIB),
    constraints_mixins.h:70-73 (B0). ConstraintsIB (1006-1011) calls getATb(), which its base classes do
    not have, so that a program using the objective of IB does not compile: modelled as Throw.
    Inequalities inherit the default which throws (constraints_base.h:436-447). *)
Definition bounds_getATb (c : constr) (g : vec) : outcome vec :=
  match c_bounds c, c_body c with
  | BoundsB0, _ => Ok (vconst (c_nvars c) 0)
  | BoundsB b, BodyA A => ATb A b
  | BoundsB b, BodyAS A off =>
      bind (ATb A b) (fun v =>
        assert_then (off + vlen v <=? c_nvars c)%nat
          (vset_segment (vconst (c_nvars c) 0) (mkLoc off (vlen v)) v))
  | BoundsB b, BodyGI ix G => gib_addATb ix G b (vconst (c_nvars c) 0)
  | _, _ => Throw
  end.

(** constraints.h:214 (AB), 488-489 (ASB), 768 (GIB), constraints_mixins.h:77-80 (B0) *)
Definition bounds_addATb (c : constr) (g : vec) : outcome vec :=
  match c_bounds c, c_body c with
  | BoundsB0, _ => Ok g
  | BoundsB b, BodyA A =>
      bind (ATb A b) (fun v => assert_then (vlen g =? vlen v)%nat (Ok (vadd g v)))
  | BoundsB b, BodyAS A off =>
      bind (ATb A b) (fun v =>
        vset_segment g (mkLoc off (vlen v)) (mkVec (vlen v) (fun i => vget g (off + i) + vget v i)))
  | BoundsB b, BodyGI ix G => gib_addATb ix G b g
  | _, _ => Throw
  end.

(** constraints.h:203-207, 261-265, 472-481, 538-542, 756-761, 806-810, 1059-1063 *)
Definition getATAandATb (c : constr) (s : mat * vec) : outcome (mat * vec) :=
  if ct_isEquality (getType c)
  then bind (body_getATA c (fst s)) (fun H => bind (bounds_getATb c (snd s)) (fun g => Ok (H, g)))
  else Throw.

(** constraints.h:211-215, 269-273, 485-490, 546-550, 765-769, 814-818, 1067-1071 *)
Definition addATAandATb (c : constr) (s : mat * vec) : outcome (mat * vec) :=
  if ct_isEquality (getType c)
  then bind (body_addATA c (fst s)) (fun H => bind (bounds_addATb c (snd s)) (fun g => Ok (H, g)))
  else Throw.

(** hierarchy_level.h:479-496: the rest of the tasks *)
Fixpoint objective_loop (cs : nat -> constr) (ts : list tinfo) (s : mat * vec) : outcome (mat * vec) :=
  match ts with
  | [] => Ok s
  | i :: rest => bind (addATAandATb (cs (tk_id (ti_task i))) s) (objective_loop cs rest)
  end.
(** hierarchy_level.h:479-496 *)
Definition getObjective (cs : nat -> constr) (l : level) (s : mat * vec) : outcome (mat * vec) :=
  match lv_tasks l with
  | [] => Ok s
  | i :: rest => bind (getATAandATb (cs (tk_id (ti_task i))) s) (objective_loop cs rest)
  end.

(** qp_problem.h:20-36 *)
Inductive hessian_type := HESSIAN_UNDEFINED | HESSIAN_GENERIC | HESSIAN_DIAGONAL | HESSIAN_LOWER_TRIANGULAR.
(** qp_problem.h:20-36 *)
Inductive qp_status := QP_UNDEFINED | QP_INITIALIZED | QP_MODIFIED.
(** qp_problem.h:20-36, 56-90 *)
Record objective := mkObjective { o_H : mat; o_g : vec; o_type : hessian_type; o_status : qp_status }.

(** qp_problem.h:56-90 *)
Definition initializeObjective (cs : nat -> constr) (l : level) (upper_part : bool) (o : objective) : outcome objective :=
  assert_then (level_isEquality l)
   (assert_then (0 <? level_getNumberOfConstraints l)%nat
     (bind (getObjective cs l (o_H o, o_g o)) (fun s =>
      bind (if upper_part then convertLLTtoSymmetric (fst s) else Ok (fst s)) (fun H =>
      Ok (mkObjective H (vopp (snd s))
            (if level_isSimple l then HESSIAN_DIAGONAL
             else if upper_part then HESSIAN_GENERIC else HESSIAN_LOWER_TRIANGULAR)
            QP_INITIALIZED))))).

(** qp_problem.h:168-176 *)
Definition regularize (f : R) (o : objective) : outcome objective :=
  bind (for_up (mrows (o_H o)) 0 (fun i H => mset_o H i i (mget H i i + f)) (o_H o)) (fun H =>
    Ok (mkObjective H (o_g o) (o_type o) QP_MODIFIED)).

(** ** Constraints of a QP and the QP problem *)

(** qp_problem.h:207-217 *)
Record qpc_ILU_ALU := mkQILU { q_general : contALU; q_bounds : contILU; q_lb : vec; q_ub : vec }.
(** qp_problem.h:302-305 *)
Record qpc_AB_AL := mkQAB { q_ineq : contAL; q_eq : contAB }.

(** qp_problem.h:225-232 *)
Definition initializeConstraints_ILU_ALU (cs : nat -> constr) (l : level) (nv : nat) (q : qpc_ILU_ALU) : outcome qpc_ILU_ALU :=
  bind (getGeneralConstraints cs l (q_general q) nv) (fun g =>
  bind (getSimpleConstraints cs l (q_bounds q) nv) (fun s =>
  bind (initializeSolutionBounds s) (fun b => Ok (mkQILU g s (fst b) (snd b))))).

(** qp_problem.h:316-321 *)
Definition initializeConstraints_AB_AL (cs : nat -> constr) (l : level) (nv : nat) (q : qpc_AB_AL) : outcome qpc_AB_AL :=
  bind (getEqualityConstraints cs l (q_eq q) nv) (fun e =>
  bind (getInequalityConstraints cs l (q_ineq q) nv) (fun i => Ok (mkQAB i e))).

(** qp_problem.h:380-386 *)
Definition initializeConstraints_AB (cs : nat -> constr) (l : level) (nv : nat) (q : contAB) : outcome contAB :=
  assert_then (level_isEquality l) (getEqualityConstraints cs l q nv).

(** hierarchy.h:329-347 getQPProblem; [init] is initializeConstraints of the constraints type; the QP object is the
    pair of its objective and its constraints *)
Definition getQPProblem {Q : Type} (init : level -> Q -> outcome Q) (cs : nat -> constr) (levels : list level)
    (upper_part : bool) (qp : objective * Q) : outcome (objective * Q) :=
  match levels with
  | [l0] => bind (initializeObjective cs l0 upper_part (fst qp)) (fun o => Ok (o, snd qp))
  | [l0; l1] => bind (initializeObjective cs l1 upper_part (fst qp)) (fun o =>
                bind (init l0 (snd qp)) (fun q => Ok (o, q)))
  | _ => Throw
  end.
