(** * Properties C84 and C85: bridges to the QP libraries. Vocabulary in QpoasesBridgeSpec.v and BackendsSpec.v. *)
From Coq Require Import List Arith Bool Reals Lra Lia.
From Verif Require Import Base ActiveSet ConstraintType HierarchyLevel HierarchySpec RSum Matrix Constraints ConstraintsSpec RowsSpec QP QPSpec
  Problem ProblemSpec ProblemFacts ProblemFacts2 QpoasesBridge QpoasesBridgeSpec QpoasesBridgeFacts Backends BackendsSpec BackendsFacts.
Import ListNotations.
Local Open Scope R_scope.

(** C84. initialize() succeeds if the constraints can be satisfied *)
Theorem C84_initialize : forall (fo : nat -> formed) (gu : bool) (p p1 : problem) (cs : nat -> constr) (nv : nat) (l0 l1 : level) (s0 : qpo) (x : nat -> R),
  preach p -> pb_formHierarchy fo gu p = Ok p1 -> described_problem cs fo nv p -> qp_hierarchy p l0 l1 ->
  satisfies_level cs l0 x -> (forall i, In i (lv_tasks l0) -> within_infinity (cs (tk_id (ti_task i))) x) ->
  (forall v, (v < nv)%nat -> - g_infinity <= x v <= g_infinity) ->
  exists s, qpo_initialize cs (pb_levels p1) nv s0 = Ok s /\ qo_nv s = nv /\ qo_guess s = None.
Proof. exact bridge_initialize. Qed.
(** C84. What getActiveSet() reports for every row of every task *)
Theorem C84_reported : forall (fo : nat -> formed) (gu : bool) (p p1 : problem) (cs : nat -> constr) (nv : nat) (l0 l1 : level)
    (s0 s : qpo) (wsb wsc : nat -> R),
  preach p -> pb_formHierarchy fo gu p = Ok p1 -> described_problem cs fo nv p -> qp_hierarchy p l0 l1 ->
  qpo_initialize cs (pb_levels p1) nv s0 = Ok s -> working (qo_nc s) wsc -> working nv wsb ->
  exists v0 v1, qpo_getActiveSet wsb wsc s p1 = Ok [v0; v1] /\ fits [v0; v1] p1 /\ Forall (eq EQUALITY) v1 /\
    forall l i j, nth_error (pb_levels p1) 0 = Some l -> In i (lv_tasks l) -> (j < len (ti_loc i))%nat ->
      exists t, nth_error v0 (offset (ti_loc i) + j) = Some t /\ reports cs l wsb wsc i j t.
Proof. exact bridge_reports. Qed.
(** C84. If the library tells the truth about the point, the active sets in the tasks are true *)
Theorem C84_true : forall (fo : nat -> formed) (gu : bool) (p p1 : problem) (cs : nat -> constr) (nv : nat) (l0 l1 : level)
    (s0 s : qpo) (wsb wsc x : nat -> R),
  preach p -> pb_formHierarchy fo gu p = Ok p1 -> described_problem cs fo nv p -> qp_hierarchy p l0 l1 ->
  qpo_initialize cs (pb_levels p1) nv s0 = Ok s -> working (qo_nc s) wsc -> working nv wsb ->
  truthful (qo_con s) wsb wsc x ->
  (forall i j, In i (lv_tasks l0) -> - g_infinity < row_value (cs (tk_id (ti_task i))) j x < g_infinity) ->
  exists a p2, qpo_getActiveSet wsb wsc s p1 = Ok a /\ pb_processActiveSet p1 a = Ok p2 /\
    (forall l i, nth_error (pb_levels p2) 0 = Some l -> In i (lv_tasks l) ->
       length (tk_actual (ti_task i)) = getNumberOfConstraints (cs (tk_id (ti_task i))) /\
       forall j t, nth_error (tk_actual (ti_task i)) j = Some t -> status_true (cs (tk_id (ti_task i))) x j t) /\
    (forall l i, nth_error (pb_levels p2) 1 = Some l -> In i (lv_tasks l) -> Forall (eq EQUALITY) (tk_actual (ti_task i))).
Proof. exact bridge_true. Qed.
(** C84. No active bound is lost *)
Theorem C84_complete : forall (fo : nat -> formed) (gu : bool) (p p1 : problem) (cs : nat -> constr) (nv : nat) (l0 l1 : level)
    (s0 s : qpo) (wsb wsc : nat -> R) (v : aset) (rest : asets),
  preach p -> pb_formHierarchy fo gu p = Ok p1 -> described_problem cs fo nv p -> qp_hierarchy p l0 l1 ->
  qpo_initialize cs (pb_levels p1) nv s0 = Ok s -> working (qo_nc s) wsc -> working nv wsb ->
  qpo_getActiveSet wsb wsc s p1 = Ok (v :: rest) ->
  forall l y, nth_error (pb_levels p1) 0 = Some l -> bounded_variable cs l y ->
    (wsb y = -1 -> exists i j, In i (lv_tasks l) /\ bounds_variable (cs (tk_id (ti_task i))) j y /\ nth_error v (offset (ti_loc i) + j) = Some LOWER_BOUND) /\
    (wsb y = 1 -> exists i j, In i (lv_tasks l) /\ bounds_variable (cs (tk_id (ti_task i))) j y /\ nth_error v (offset (ti_loc i) + j) = Some UPPER_BOUND).
Proof. exact bridge_complete. Qed.
(** C84. What setActiveSet() gives to the library *)
Theorem C84_guess : forall (fo : nat -> formed) (gu : bool) (p p1 : problem) (cs : nat -> constr) (nv : nat) (l0 l1 : level) (s0 s : qpo) (a : asets),
  preach p -> pb_formHierarchy fo gu p = Ok p1 -> described_problem cs fo nv p -> qp_hierarchy p l0 l1 ->
  qpo_initialize cs (pb_levels p1) nv s0 = Ok s -> fits a p1 ->
  forall v, nth_error a 0 = Some v ->
  (~ In UNDEFINED v -> exists gb gc s', qpo_setActiveSet a s = Ok s' /\ qo_guess s' = Some (gb, gc) /\ qo_obj s' = qo_obj s /\ qo_con s' = qo_con s /\
     length gc = mrows (alu_A (q_general (qo_con s))) /\ length gb = nv /\
     forall l, nth_error (pb_levels p1) 0 = Some l ->
       (forall i j, In i (lv_tasks l) -> (j < len (ti_loc i))%nat -> simple_task (ti_task i) = false ->
          exists t q, nth_error v (offset (ti_loc i) + j) = Some t /\ nth_error gc (offset (ti_loc i) + j) = Some q /\ guess_means t q) /\
       (forall y, (y < nv)%nat -> exists q, nth_error gb y = Some q /\ last_active cs l v y q)) /\
  (In UNDEFINED v -> qpo_setActiveSet a s = Throw).
Proof. exact bridge_guess. Qed.
(** C84. A reported active set used as a guess is the working set of the library *)
Theorem C84_round_trip : forall (fo : nat -> formed) (gu : bool) (p p1 : problem) (cs : nat -> constr) (nv : nat) (l0 l1 : level)
    (s0 s : qpo) (wsb wsc : nat -> R),
  preach p -> pb_formHierarchy fo gu p = Ok p1 -> described_problem cs fo nv p -> qp_hierarchy p l0 l1 ->
  qpo_initialize cs (pb_levels p1) nv s0 = Ok s -> working (qo_nc s) wsc -> working nv wsb ->
  exists a gb gc s', qpo_getActiveSet wsb wsc s p1 = Ok a /\ qpo_setActiveSet a s = Ok s' /\ qo_guess s' = Some (gb, gc) /\
    length gc = qo_nc s /\ length gb = nv /\
    (forall r, (r < qo_nc s)%nat -> exists q, nth_error gc r = Some q /\ qstatus_of (wsc r) q) /\
    (forall l y, nth_error (pb_levels p1) 0 = Some l -> (y < nv)%nat -> exists q, nth_error gb y = Some q /\
       (bounded_variable cs l y -> qstatus_of (wsb y) q) /\
       ((forall i j, In i (lv_tasks l) -> ~ bounds_variable (cs (tk_id (ti_task i))) j y) -> q = ST_INACTIVE)).
Proof. exact bridge_round_trip. Qed.
(** C84. A problem of one level with a new solver: only equalities *)
Theorem C84_one_level : forall (fo : nat -> formed) (gu : bool) (p p1 : problem) (cs : nat -> constr) (nv : nat) (l : level) (wsb wsc : nat -> R),
  preach p -> pb_formHierarchy fo gu p = Ok p1 -> described_problem cs fo nv p -> pb_levels p = [l] -> equality_level l ->
  exists s v, qpo_initialize cs (pb_levels p1) nv qpo_new = Ok s /\ qpo_getActiveSet wsb wsc s p1 = Ok [v] /\ fits [v] p1 /\ Forall (eq EQUALITY) v.
Proof. exact bridge_one_level. Qed.
(** C84. A solver used again, for a problem of one level after a problem of two levels, keeps the old constraints and never reports an active set *)
Theorem C84_reuse_refuted : forall (fo fo' : nat -> formed) (gu gu' : bool) (p p1 p' p1' : problem) (cs cs' : nat -> constr) (nv nv' : nat) (l0 l1 l' : level)
    (s0 s s' : qpo) (wsb wsc : nat -> R) (a : asets),
  preach p -> pb_formHierarchy fo gu p = Ok p1 -> described_problem cs fo nv p -> qp_hierarchy p l0 l1 -> qpo_initialize cs (pb_levels p1) nv s0 = Ok s ->
  preach p' -> pb_formHierarchy fo' gu' p' = Ok p1' -> pb_levels p' = [l'] -> qpo_initialize cs' (pb_levels p1') nv' s = Ok s' ->
  qo_con s' = qo_con s /\ qpo_getActiveSet wsb wsc s' p1' <> Ok a.
Proof. exact bridge_reuse_throws. Qed.
(** C84. For a problem of one level with a new solver the guess for the bounds of [nv] variables is empty *)
Theorem C84_one_level_guess_refuted : forall (fo : nat -> formed) (gu : bool) (p p1 : problem) (cs : nat -> constr) (nv : nat) (l : level) (a : asets),
  preach p -> pb_formHierarchy fo gu p = Ok p1 -> described_problem cs fo nv p -> pb_levels p = [l] -> equality_level l ->
  exists s s', qpo_initialize cs (pb_levels p1) nv qpo_new = Ok s /\ qpo_setActiveSet a s = Ok s' /\ qo_nv s' = nv /\ qo_guess s' = Some ([], []).
Proof. exact bridge_one_level_guess. Qed.

(** C85. QuadProg++ gets the problem of the hierarchy *)
Theorem C85_quadprogpp : forall (fo : nat -> formed) (gu : bool) (p p1 : problem) (cs : nat -> constr) (nv : nat) (l0 l1 : level) (f : R)
    (qp : objective * qpc_AB_AL),
  preach p -> pb_formHierarchy fo gu p = Ok p1 -> described_problem cs fo nv p -> pb_levels p = [l0; l1] -> equality_level l1 -> 0 <= f ->
  exists a, quadprogpp_call cs (pb_levels p1) nv f qp = Ok a /\ mrows (qg_G a) = nv /\ mcols (qg_G a) = nv /\
    forall x, minimum (quadprogpp_cost a) (quadprogpp_feasible a) x <->
              minimum (regularized_cost cs l1 nv f) (satisfies_level cs l0) x.
Proof. exact quadprogpp_solves. Qed.
(** C85. qpmad gets the problem of the hierarchy *)
Theorem C85_qpmad : forall (fo : nat -> formed) (gu : bool) (p p1 : problem) (cs : nat -> constr) (nv : nat) (l0 l1 : level) (f : R)
    (qp : objective * qpc_ILU_ALU),
  preach p -> pb_formHierarchy fo gu p = Ok p1 -> described_problem cs fo nv p -> qp_hierarchy p l0 l1 -> 0 <= f ->
  ((exists x, reasonable cs l0 nv x /\ satisfies_level cs l0 x) -> exists a, qpmad_call cs (pb_levels p1) nv f qp = Ok a) /\
  forall a, qpmad_call cs (pb_levels p1) nv f qp = Ok a ->
    (forall x, minimum (qpmad_cost a) (qpmad_feasible a) x ->
       satisfies_level cs l0 x /\
       forall y, reasonable cs l0 nv y -> satisfies_level cs l0 y -> regularized_cost cs l1 nv f x <= regularized_cost cs l1 nv f y) /\
    (forall x, reasonable cs l0 nv x -> minimum (regularized_cost cs l1 nv f) (satisfies_level cs l0) x ->
       minimum (qpmad_cost a) (qpmad_feasible a) x).
Proof. exact qpmad_solves. Qed.
(** C85. qpOASES gets the problem of the hierarchy *)
Theorem C85_qpoases : forall (fo : nat -> formed) (gu : bool) (p p1 : problem) (cs : nat -> constr) (nv : nat) (l0 l1 : level) (s0 s : qpo),
  preach p -> pb_formHierarchy fo gu p = Ok p1 -> described_problem cs fo nv p -> qp_hierarchy p l0 l1 ->
  qpo_initialize cs (pb_levels p1) nv s0 = Ok s ->
  (forall x, minimum (qpoases_cost (qpoases_call s)) (qpoases_feasible (qpoases_call s)) x ->
     satisfies_level cs l0 x /\
     forall y, reasonable cs l0 nv y -> satisfies_level cs l0 y -> level_cost cs l1 x <= level_cost cs l1 y) /\
  (forall x, reasonable cs l0 nv x -> minimum (level_cost cs l1) (satisfies_level cs l0) x ->
     minimum (qpoases_cost (qpoases_call s)) (qpoases_feasible (qpoases_call s)) x).
Proof. exact qpoases_solves. Qed.
(** C85. Problems of one level with new solvers *)
Theorem C85_one_level : forall (fo : nat -> formed) (gu : bool) (p p1 : problem) (cs : nat -> constr) (nv : nat) (l : level) (f : R) (o : objective),
  preach p -> pb_formHierarchy fo gu p = Ok p1 -> described_problem cs fo nv p -> pb_levels p = [l] -> equality_level l -> 0 <= f ->
  (exists s, qpo_initialize cs (pb_levels p1) nv qpo_new = Ok s /\
     forall x, minimum (qpoases_cost (qpoases_call s)) (qpoases_feasible (qpoases_call s)) x <-> minimum (level_cost cs l) (fun _ => True) x) /\
  (exists a, quadprogpp_call cs (pb_levels p1) nv f (o, empty_AB_AL) = Ok a /\
     forall x, minimum (quadprogpp_cost a) (quadprogpp_feasible a) x <-> minimum (regularized_cost cs l nv f) (fun _ => True) x) /\
  (exists a, qpmad_call cs (pb_levels p1) nv f (o, empty_ILU_ALU) = Ok a /\
     forall x, minimum (qpmad_cost a) (qpmad_feasible a) x <-> minimum (regularized_cost cs l nv f) (fun _ => True) x).
Proof. exact one_level_solves. Qed.
(** C85. A negative regularization factor is refused *)
Theorem C85_negative_factor : forall (cs : nat -> constr) (levels : list level) (nv : nat) (f : R) (qp : objective * qpc_AB_AL) (qp' : objective * qpc_ILU_ALU),
  f < 0 -> (forall a, quadprogpp_call cs levels nv f qp <> Ok a) /\ (forall a, qpmad_call cs levels nv f qp' <> Ok a).
Proof. exact negative_factor. Qed.

(** a general constraint 0 <= x0 + x1 <= 4, bounds -1 <= x1 <= 1 and x1 >= -2, and the objective |x - (3, 3)|^2 *)
Definition br_t1 := mkTask 1 ALU 0 true [] [].
Definition br_t2 := mkTask 2 ILU 0 true [] [].
Definition br_t3 := mkTask 3 IL 0 true [] [].
Definition br_t4 := mkTask 4 AB 0 true [] [].
Definition br_cs (i : nat) : constr :=
  match i with
  | 1%nat => mkConstr 2 (BodyA (mkMat 1 2 (fun _ _ => 1))) (BoundsLU (mkVec 1 (fun _ => 0)) (mkVec 1 (fun _ => 4)))
  | 2%nat => mkConstr 2 (BodyI [1%nat]) (BoundsLU (mkVec 1 (fun _ => -1)) (mkVec 1 (fun _ => 1)))
  | 3%nat => mkConstr 2 (BodyI [1%nat]) (BoundsL (mkVec 1 (fun _ => -2)))
  | _ => mkConstr 2 (BodyA (mid 2)) (BoundsB (mkVec 2 (fun _ => 3)))
  end.
Definition br_fo (i : nat) := mkFormed (getNumberOfConstraints (br_cs i)) true true None.
Definition br_tasks := [(br_t2, 0%nat); (br_t1, 0%nat); (br_t3, 0%nat); (br_t4, 1%nat)].
Lemma br_satisfied : forall i, (i = 1 \/ i = 2 \/ i = 3)%nat -> satisfies (br_cs i) (fun _ => 0) /\ within_infinity (br_cs i) (fun _ => 0).
Proof.
  assert (G : 0 < g_infinity) by (unfold g_infinity; lra).
  intros i [-> | [-> | ->]]; (split; [intros r Hr; unfold at_least, at_most, row_value, coef, lower, upper; cbn; lra|]);
    intros r Hr _; unfold row_value, coef; cbn; lra.
Qed.
Example C84_case :
  exists q q1 l0 l1 s, push_all 2 br_tasks pb_new = Ok q /\ preach q /\ pb_formHierarchy br_fo false q = Ok q1 /\
    described_problem br_cs br_fo 2 q /\ qp_hierarchy q l0 l1 /\ qpo_initialize br_cs (pb_levels q1) 2 qpo_new = Ok s /\
    length (lv_tasks l0) = 3%nat /\ bounded_variable br_cs l0 1 /\
    working (qo_nc s) (fun _ => 0) /\ working 2 (fun v => if (v =? 1)%nat then -1 else 0).
Proof.
  assert (R : preach match push_all 2 br_tasks pb_new with Ok q => q | _ => pb_new end).
  { eapply push_all_reach with (n := 2%nat) (ts := br_tasks) (p := pb_new); [apply pr_new|reflexivity]. }
  set (q := match push_all 2 br_tasks pb_new with Ok q => q | _ => pb_new end) in *.
  assert (D : described_problem br_cs br_fo 2 q).
  { constructor; [|constructor; [|constructor]]; intros i Hi; cbn in Hi.
    - destruct Hi as [<-|[<-|[<-|[]]]]; (split; [reflexivity|split; [reflexivity|split; [reflexivity|split; [reflexivity|cbn; repeat constructor]]]]).
    - destruct Hi as [<-|[]]; (split; [reflexivity|split; [reflexivity|split; [reflexivity|split; [reflexivity|cbn; repeat constructor]]]]). }
  destruct (pb_formHierarchy br_fo false q) as [q1| |] eqn:F; [|vm_compute in F; discriminate|vm_compute in F; discriminate].
  assert (T : exists l0 l1, qp_hierarchy q l0 l1 /\ map (fun i => tk_id (ti_task i)) (lv_tasks l0) = [1%nat; 2%nat; 3%nat]).
  { do 2 eexists. split; [split; [reflexivity|split]|reflexivity].
    - intros i Hi. cbn in Hi. destruct Hi as [<-|[]]. cbn. split; [reflexivity|discriminate].
    - intros i Hi. cbn in Hi. destruct Hi as [<-|[<-|[<-|[]]]]; reflexivity. }
  destruct T as (l0 & l1 & T & TL).
  assert (ID : forall i, In i (lv_tasks l0) -> (tk_id (ti_task i) = 1 \/ tk_id (ti_task i) = 2 \/ tk_id (ti_task i) = 3)%nat).
  { intros i Hi. apply (in_map (fun i => tk_id (ti_task i))) in Hi. rewrite TL in Hi. cbn in Hi. lia. }
  assert (G : 2 < g_infinity) by (unfold g_infinity; lra).
  destruct (bridge_initialize br_fo false q q1 br_cs 2 l0 l1 qpo_new (fun _ => 0) R F D T) as (s & I & _).
  { intros i Hi. apply br_satisfied, ID, Hi. } { intros i Hi. apply br_satisfied, ID, Hi. } { intros v _. lra. }
  exists q, q1, l0, l1, s. split; [reflexivity|]. split; [exact R|]. split; [exact F|]. split; [exact D|]. split; [exact T|]. split; [exact I|].
  split; [erewrite <- map_length, TL; reflexivity|]. split; [|split].
  - split.
    + assert (H2 : In 2%nat (map (fun i => tk_id (ti_task i)) (lv_tasks l0))) by (rewrite TL; cbn; auto).
      apply in_map_iff in H2. destruct H2 as (i & Ei & Hi). exists i, 0%nat. split; [exact Hi|]. rewrite Ei. reflexivity.
    + intros i j Hi B. destruct (ID i Hi) as [E|[E|E]]; rewrite E in B |- *; cbn in B; [contradiction| |];
        unfold lower_or_inf, upper_or_inf, lower, upper; cbn; lra.
  - intros r _. right. left. reflexivity.
  - intros r _. destruct (r =? 1)%nat; [left; reflexivity|right; left; reflexivity].
Qed.

Definition br_problem := match push_all 2 br_tasks pb_new with Ok q => q | _ => pb_new end.
Example C85_case : exists l0 l1, qp_hierarchy br_problem l0 l1 /\
  let x := fun v => if (v =? 1)%nat then 1 else 3 in
  reasonable br_cs l0 2 x /\ minimum (level_cost br_cs l1) (satisfies_level br_cs l0) x /\ level_cost br_cs l1 x = 4.
Proof.
  assert (G : 10 < g_infinity) by (unfold g_infinity; lra).
  do 2 eexists. split; [split; [reflexivity|split]|].
  - intros i Hi. cbn in Hi. destruct Hi as [<-|[]]. cbn. split; [reflexivity|discriminate].
  - intros i Hi. cbn in Hi. destruct Hi as [<-|[<-|[<-|[]]]]; reflexivity.
  - cbv zeta. split; [|split; [split|]].
    + split; [|intros v _; destruct (v =? 1)%nat; lra]. intros i Hi. cbn in Hi.
      destruct Hi as [<-|[<-|[<-|[]]]]; intros r Hr _; unfold row_value, coef; cbn in *; assert (r = 0%nat) by lia; subst r; cbn; lra.
    + intros i Hi. cbn in Hi. destruct Hi as [<-|[<-|[<-|[]]]]; intros r Hr; unfold at_least, at_most, row_value, coef, lower, upper; cbn in *;
        assert (r = 0%nat) by lia; subst r; cbn; lra.
    + intros y Sy. assert (Y : y 1%nat <= 1).
      { specialize (Sy (mkTInfo br_t2 (mkLoc 0 0))). cbn in Sy. specialize (Sy (or_intror (or_introl eq_refl)) 0%nat (le_n _)).
        unfold at_least, at_most, row_value, coef, lower, upper in Sy. cbn in Sy. lra. }
      unfold level_cost, squared_residuals, residual, rhs, row_value, coef, lower; cbn.
      match goal with |- ?l <= ?r => replace r with ((y 0%nat - 3) * (y 0%nat - 3) + (y 1%nat - 3) * (y 1%nat - 3)) by ring; replace l with 4 by ring end.
      pose proof (Rle_0_sqr (y 0%nat - 3)) as Q. unfold Rsqr in Q. assert (4 <= (y 1%nat - 3) * (y 1%nat - 3)) by nra. lra.
    + unfold level_cost, squared_residuals, residual, rhs, row_value, coef, lower; cbn. lra.
Qed.

Print Assumptions C84_initialize. Print Assumptions C84_reported. Print Assumptions C84_true. Print Assumptions C84_complete. Print Assumptions C84_guess. Print Assumptions C84_round_trip. Print Assumptions C84_one_level. Print Assumptions C84_reuse_refuted. Print Assumptions C84_one_level_guess_refuted. Print Assumptions C85_quadprogpp. Print Assumptions C85_qpmad. Print Assumptions C85_qpoases. Print Assumptions C85_one_level. Print Assumptions C85_negative_factor.
