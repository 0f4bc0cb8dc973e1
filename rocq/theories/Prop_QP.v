(** * Properties C13 and C14. Vocabulary in QPSpec.v, ConstraintsSpec.v. *)
From Coq Require Import List Arith Reals Lra Lia.
From Verif Require Import Base RSum Matrix ConstraintType HierarchyLevel HierarchySpec HierarchyFacts Constraints ConstraintsSpec
  QP QPSpec QPFacts QPFacts2.
Import ListNotations.
Open Scope R_scope.

(** C13. Full Hessian requested; [o] is the previous content of the objective *)
Theorem C13_objective :
  forall fo gu l l' cs nv o,
  lreach l -> level_form fo gu l = Ok l' -> described cs fo nv l -> equality_level l ->
  exists o', initializeObjective cs l' true o = Ok o' /\ sizes o' nv /\ symmetric (o_H o') /\
    (o_type o' = HESSIAN_DIAGONAL -> diagonal (o_H o')) /\
    exists k, forall x, quadratic (o_H o') (o_g o') x = / 2 * level_cost cs l x + k.
Proof. exact objective_full. Qed.
Print Assumptions C13_objective.

(** C13. Only the lower triangle requested *)
Theorem C13_objective_lower_triangle :
  forall fo gu l l' cs nv o,
  lreach l -> level_form fo gu l = Ok l' -> described cs fo nv l -> equality_level l ->
  exists o', initializeObjective cs l' false o = Ok o' /\ sizes o' nv /\
    (o_type o' = HESSIAN_DIAGONAL -> diagonal (symmetric_of_lower (o_H o'))) /\
    exists k, forall x, quadratic (symmetric_of_lower (o_H o')) (o_g o') x = / 2 * level_cost cs l x + k.
Proof. exact objective_lower. Qed.
Print Assumptions C13_objective_lower_triangle.

(** C13. A level with an inequality is rejected *)
Theorem C13_inequalities_rejected :
  forall fo gu l l' cs nv up o,
  lreach l -> level_form fo gu l = Ok l' -> described cs fo nv l ->
  (exists i, In i (lv_tasks l) /\ ct_isEquality (tk_type (ti_task i)) = false) -> initializeObjective cs l' up o = Throw.
Proof. exact objective_reject. Qed.
Print Assumptions C13_inequalities_rejected.

(** C14. Two levels, for each of the three kinds of QP constraints, whatever the QP object ([o], [q]) contained before *)
Theorem C14_two_levels_AB_AL :
  forall fo gu up l0 l0' l1 l1' cs nv,
  lreach l0 -> level_form fo gu l0 = Ok l0' -> described cs fo nv l0 ->
  lreach l1 -> level_form fo gu l1 = Ok l1' -> described cs fo nv l1 -> equality_level l1 ->
  forall o q, exists o' q', getQPProblem (fun l => initializeConstraints_AB_AL cs l nv) cs [l0'; l1'] up (o, q) = Ok (o', q') /\
    objective_of cs nv l1 up o' /\ forall x, (sat_AB (q_eq q') x /\ sat_AL (q_ineq q') x) <-> satisfies_level cs l0 x.
Proof. exact two_levels_AB_AL. Qed.
Print Assumptions C14_two_levels_AB_AL.

Theorem C14_two_levels_AB :
  forall fo gu up l0 l0' l1 l1' cs nv,
  lreach l0 -> level_form fo gu l0 = Ok l0' -> described cs fo nv l0 ->
  lreach l1 -> level_form fo gu l1 = Ok l1' -> described cs fo nv l1 -> equality_level l1 ->
  forall o q, equality_level l0 ->
  exists o' q', getQPProblem (fun l => initializeConstraints_AB cs l nv) cs [l0'; l1'] up (o, q) = Ok (o', q') /\
    objective_of cs nv l1 up o' /\ forall x, sat_AB q' x <-> satisfies_level cs l0 x.
Proof. exact two_levels_AB. Qed.
Print Assumptions C14_two_levels_AB.

Theorem C14_two_levels_ILU_ALU :
  forall fo gu up l0 l0' l1 l1' cs nv,
  lreach l0 -> level_form fo gu l0 = Ok l0' -> described cs fo nv l0 ->
  lreach l1 -> level_form fo gu l1 = Ok l1' -> described cs fo nv l1 -> equality_level l1 ->
  forall o q, (forall i, In i (lv_tasks l0) -> has_gains (tk_type (ti_task i)) = false) ->
  ((exists x, (forall i, In i (lv_tasks l0) -> within_infinity (cs (tk_id (ti_task i))) x) /\
      (forall v, (v < nv)%nat -> - g_infinity <= x v <= g_infinity) /\ satisfies_level cs l0 x) ->
   exists r, getQPProblem (fun l => initializeConstraints_ILU_ALU cs l nv) cs [l0'; l1'] up (o, q) = Ok r) /\
  forall r, getQPProblem (fun l => initializeConstraints_ILU_ALU cs l nv) cs [l0'; l1'] up (o, q) = Ok r ->
    objective_of cs nv l1 up (fst r) /\
    forall x, (forall i, In i (lv_tasks l0) -> within_infinity (cs (tk_id (ti_task i))) x) ->
      (forall v, (v < nv)%nat -> - g_infinity <= x v <= g_infinity) ->
      ((sat_ALU (q_general (snd r)) x /\ sat_bounds (q_lb (snd r), q_ub (snd r)) x) <-> satisfies_level cs l0 x).
Proof. exact two_levels_ILU_ALU. Qed.
Print Assumptions C14_two_levels_ILU_ALU.

(** the problem is refused exactly if the bounds on single variables have no common point within the infinity *)
Theorem C14_accepted :
  forall fo gu up l0 l0' l1 l1' cs nv,
  lreach l0 -> level_form fo gu l0 = Ok l0' -> described cs fo nv l0 ->
  lreach l1 -> level_form fo gu l1 = Ok l1' -> described cs fo nv l1 -> equality_level l1 ->
  forall o q, (forall i, In i (lv_tasks l0) -> has_gains (tk_type (ti_task i)) = false) ->
  ((exists r, getQPProblem (fun l => initializeConstraints_ILU_ALU cs l nv) cs [l0'; l1'] up (o, q) = Ok r) <->
   exists x, (forall i, In i (lv_tasks l0) -> simple_task (ti_task i) = true -> satisfies (cs (tk_id (ti_task i))) x) /\
     forall v, (v < nv)%nat -> - g_infinity <= x v <= g_infinity).
Proof. exact two_levels_accepted. Qed.
Print Assumptions C14_accepted.

(** C14. With one level the constraints of the QP object stay as they were: a fresh (empty) object gives an
    unconstrained problem, a reused one does not *)
Theorem C14_one_level_keeps_constraints_partial :
  forall (Q : Type) (init : level -> Q -> outcome Q) cs l0 up o q r,
  getQPProblem init cs [l0] up (o, q) = Ok r -> snd r = q.
Proof. exact @one_level_keeps. Qed.
Print Assumptions C14_one_level_keeps_constraints_partial.

(** C14. Other numbers of levels are rejected *)
Theorem C14_level_count :
  forall (Q : Type) (init : level -> Q -> outcome Q) cs ls up qp r,
  getQPProblem init cs ls up qp = Ok r -> (1 <= length ls <= 2)%nat.
Proof. exact @level_count. Qed.
Print Assumptions C14_level_count.

(** ** Concrete cases *)
Definition qp_cs (i : nat) : constr :=
  match i with
  | 1%nat => mkConstr 2 (BodyA (mkMat 1 2 (fun _ j => 1 + INR j))) (BoundsB (vconst 1 4))
  | 2%nat => mkConstr 2 (BodyGI [1]%nat (vconst 1 3)) (BoundsB (vconst 1 5))
  | 3%nat => mkConstr 2 (BodyI [0; 0]%nat) BoundsB0
  | 4%nat => mkConstr 2 (BodyI [1]%nat) (BoundsU (vconst 1 7))
  | _ => mkConstr 2 (BodyAS (mkMat 1 1 (fun _ _ => 1)) 0) (BoundsB (vconst 1 1))
  end.
Definition qp_fo (i : nat) : formed := mkFormed (getNumberOfConstraints (qp_cs i)) true true None.
Definition qp_t1 := mkTask 1 AB 0 true [] [].
Definition qp_t2 := mkTask 2 GIB 0 true [] [].
Definition qp_t3 := mkTask 3 IB0 0 true [] [].
Definition qp_t4 := mkTask 4 IU 0 true [] [].
Definition qp_t5 := mkTask 5 ASB 0 true [] [].

Example C13_case :
  lreach (pushed [qp_t1; qp_t2; qp_t3]) /\ described qp_cs qp_fo 2 (pushed [qp_t1; qp_t2; qp_t3]) /\
  equality_level (pushed [qp_t1; qp_t2; qp_t3]) /\
  exists l', level_form qp_fo true (pushed [qp_t1; qp_t2; qp_t3]) = Ok l'.
Proof.
  split; [apply pushed_reach|]. split; [|split].
  - intros i Hi. simpl in Hi. destruct Hi as [<-|[<-|[<-|[]]]]; simpl; repeat split; repeat constructor; lia.
  - intros i Hi. simpl in Hi. destruct Hi as [<-|[<-|[<-|[]]]]; simpl; split; congruence.
  - eexists. vm_compute. reflexivity.
Qed.

Example C14_case :
  lreach (pushed [qp_t4; qp_t5]) /\ described qp_cs qp_fo 2 (pushed [qp_t4; qp_t5]) /\
  (forall i, In i (lv_tasks (pushed [qp_t4; qp_t5])) -> has_gains (tk_type (ti_task i)) = false) /\
  (exists l', level_form qp_fo true (pushed [qp_t4; qp_t5]) = Ok l') /\
  equality_level (pushed [qp_t5]).
Proof.
  split; [apply pushed_reach|]. split; [|split; [|split]].
  - intros i Hi. simpl in Hi. destruct Hi as [<-|[<-|[]]]; simpl; repeat split; repeat constructor; lia.
  - intros i Hi. simpl in Hi. destruct Hi as [<-|[<-|[]]]; reflexivity.
  - eexists. vm_compute. reflexivity.
  - intros i Hi. simpl in Hi. destruct Hi as [<-|[]]; simpl; split; congruence.
Qed.

(** C14 fails for one level: a QP object reused after a two-level problem keeps the constraint x0 = 1 *)
Lemma one_level_stale :
  exists l0 l1, lreach (pushed [qp_t5]) /\ level_form qp_fo true (pushed [qp_t5]) = Ok l0 /\
    lreach (pushed [qp_t1]) /\ level_form qp_fo true (pushed [qp_t1]) = Ok l1 /\
    forall o q qp2, getQPProblem (fun l => initializeConstraints_AB qp_cs l 2) qp_cs [l0; l1] true (o, q) = Ok qp2 ->
    exists qp1, getQPProblem (fun l => initializeConstraints_AB qp_cs l 2) qp_cs [l1] true qp2 = Ok qp1 /\
      ~ sat_AB (snd qp1) (fun _ => 0).
Proof.
  assert (D5 : described qp_cs qp_fo 2 (pushed [qp_t5])).
  { intros i Hi. simpl in Hi. destruct Hi as [<-|[]]; simpl; repeat split; repeat constructor; lia. }
  assert (D1 : described qp_cs qp_fo 2 (pushed [qp_t1])).
  { intros i Hi. simpl in Hi. destruct Hi as [<-|[]]; simpl; repeat split; repeat constructor; lia. }
  assert (E5 : equality_level (pushed [qp_t5])).
  { intros i Hi. simpl in Hi. destruct Hi as [<-|[]]; simpl; split; congruence. }
  assert (E1 : equality_level (pushed [qp_t1])).
  { intros i Hi. simpl in Hi. destruct Hi as [<-|[]]; simpl; split; congruence. }
  destruct (level_form qp_fo true (pushed [qp_t5])) as [l0| |] eqn:F0; [|vm_compute in F0; discriminate|vm_compute in F0; discriminate].
  destruct (level_form qp_fo true (pushed [qp_t1])) as [l1| |] eqn:F1; [|vm_compute in F1; discriminate|vm_compute in F1; discriminate].
  exists l0, l1. split; [apply pushed_reach|]. split; [reflexivity|]. split; [apply pushed_reach|]. split; [reflexivity|].
  intros o q qp2 Q2.
  destruct (two_levels_AB qp_fo true true _ l0 _ l1 qp_cs 2 (pushed_reach _) F0 D5 (pushed_reach _) F1 D1 E1 o q E5)
    as (o' & q' & Q2' & _ & S). rewrite Q2' in Q2. inversion Q2; subst qp2.
  destruct (objective_any qp_fo true _ l1 qp_cs 2 true o' (pushed_reach _) F1 D1 E1) as (o'' & EO & _).
  exists (o'', q'). split.
  - simpl. rewrite EO. reflexivity.
  - simpl. intros A. apply S in A. specialize (A (mkTInfo qp_t5 (mkLoc 0 0)) ltac:(left; reflexivity) 0%nat (le_n 1)).
    destruct A as [A _]. change (1 <= 0 + (if true then 1 else 0) * 0 + (if false then 1 else 0) * 0) in A. rewrite !Rmult_0_r in A. lra.
Qed.

Theorem C14_one_level_refuted :
  exists l0 l1, lreach (pushed [qp_t5]) /\ level_form qp_fo true (pushed [qp_t5]) = Ok l0 /\
    lreach (pushed [qp_t1]) /\ level_form qp_fo true (pushed [qp_t1]) = Ok l1 /\
    forall o q qp2, getQPProblem (fun l => initializeConstraints_AB qp_cs l 2) qp_cs [l0; l1] true (o, q) = Ok qp2 ->
    exists qp1, getQPProblem (fun l => initializeConstraints_AB qp_cs l 2) qp_cs [l1] true qp2 = Ok qp1 /\
      ~ sat_AB (snd qp1) (fun _ => 0).
Proof. exact one_level_stale. Qed.
Print Assumptions C14_one_level_refuted.
