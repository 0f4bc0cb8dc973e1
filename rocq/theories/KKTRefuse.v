(** * The KKT solver refuses hierarchies with inequalities (C16) *)
From Coq Require Import List Reals Arith Bool Lia.
From Verif Require Import Base BaseFacts RSum Matrix ConstraintType HierarchyLevel HierarchySpec HierarchyFacts Constraints ConstraintsSpec ConstraintsFacts QP QPSpec QPFacts2 SolverLifeFacts KKT.
Import ListNotations.
Local Open Scope nat_scope.

Lemma not_equality fo gu l l' cs nv i : lreach l -> level_form fo gu l = Ok l' -> described cs fo nv l -> In i (lv_tasks l) -> ct_isEquality (tk_type (ti_task i)) = false ->
  0 < getNumberOfConstraints (cs (tk_id (ti_task i))) -> level_isEquality l' = false.
Proof.
  intros R F D I N P. destruct (formed_equality fo gu l l' R F) as (E & _). destruct (level_isEquality l'); [|reflexivity].
  destruct (proj1 E eq_refl i I) as [Z|Z]; [|congruence]. destruct (D i I) as (_ & X & _). lia.
Qed.
Theorem inequality_refused (fo : nat -> formed) (gu : bool) (l0 l0' l1 l1' : level) (cs : nat -> constr) (nv : nat) :
  lreach l0 -> level_form fo gu l0 = Ok l0' -> described cs fo nv l0 -> lreach l1 -> level_form fo gu l1 = Ok l1' -> described cs fo nv l1 -> (forall i, In i (lv_tasks l1) -> tk_type (ti_task i) <> IB) ->
  forall i, In i (lv_tasks l0 ++ lv_tasks l1) -> ct_isEquality (tk_type (ti_task i)) = false -> 0 < getNumberOfConstraints (cs (tk_id (ti_task i))) ->
  forall (p : kkt_parameters) (llt lin : mat -> vec -> vec) (qp : objective * contAB), kkt_solve p llt lin cs [l0'; l1'] nv qp = Throw.
Proof.
  intros R0 F0 D0 R1 F1 D1 NI i I N P p llt lin (o & q). unfold kkt_solve. rewrite two_levels.
  destruct (existsb (fun j => negb (ct_isEquality (tk_type (ti_task j)))) (lv_tasks l1)) eqn:X.
  - apply existsb_exists in X. destruct X as (j & J & Q). apply negb_true_iff in Q. assert (OB : initializeObjective cs l1' true o = Throw) by (eapply objective_reject; eauto). rewrite OB. reflexivity.
  - assert (EL : equality_level l1).
    { intros j J. split; [|exact (NI j J)]. destruct (ct_isEquality (tk_type (ti_task j))) eqn:Q; [reflexivity|]. rewrite <- X. apply existsb_exists. exists j. rewrite Q. auto. }
    destruct (initialize_entries fo gu l1 l1' cs nv true o R1 F1 D1 EL) as (o' & EO & _). rewrite EO. cbn [bind]. unfold initializeConstraints_AB.
    apply in_app_or in I. destruct I as [I|I]; [rewrite (not_equality fo gu l0 l0' cs nv i R0 F0 D0 I N P); reflexivity|]. destruct (EL i I). congruence.
Qed.
