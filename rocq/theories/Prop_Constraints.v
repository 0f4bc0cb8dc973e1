(** * Properties C10, C11 and C12 (and the link between C04, C05 and the rows of the constraints).
    Vocabulary in ConstraintsSpec.v. *)
From Coq Require Import List Arith Reals Lra Lia.
From Verif Require Import Base Matrix ConstraintType HierarchyLevel HierarchySpec HierarchyFacts Constraints ConstraintsSpec ConstraintsFacts ContainerRefuse.
Import ListNotations.
Open Scope R_scope.

(** C04. The product used to determine active sets is the value of the row. *)
Theorem C04_product_is_row_value :
  forall (nv : nat) (c : constr) (i : nat) (x : nat -> R),
  usable nv c -> (i < getNumberOfConstraints c)%nat -> getProduct c i (mkVec nv x) = row_value c i x.
Proof. exact getProduct_row. Qed.
Print Assumptions C04_product_is_row_value.

(** C05. The product used to compute violations is the value of the row. *)
Theorem C05_product_is_row_value :
  forall (nv : nat) (c : constr) (i : nat) (x : nat -> R),
  usable nv c -> (i < getNumberOfConstraints c)%nat -> getProduct c i (mkVec nv x) = row_value c i x.
Proof. exact getProduct_row. Qed.
Print Assumptions C05_product_is_row_value.

(** C10. Whatever the containers contained before *)
Theorem C10_equality_inequality_form :
  forall fo gu l l' cs nv kab kal,
  lreach l -> level_form fo gu l = Ok l' -> described cs fo nv l ->
  exists ab al, getEqualityConstraints cs l' kab nv = Ok ab /\ getInequalityConstraints cs l' kal nv = Ok al /\
    shape_AB ab (n_equality l') nv /\ shape_AL al (level_getNumberOfInequalityConstraintsOneSided l') nv /\
    forall x, (sat_AB ab x /\ sat_AL al x) <-> satisfies_level cs l x.
Proof. exact AB_AL_equiv. Qed.
Print Assumptions C10_equality_inequality_form.

(** C10. Constraints are refused, with an exception, by a container of another kind: inequalities by a container of equalities, and the other way round *)
Theorem C10_other_container_refused :
  forall (c : constr) (off : nat),
  (ct_isEquality (getType c) = false -> forall k : contAB, copyTo_AB c k off = Throw) /\
  (ct_isEquality (getType c) = true -> forall k : contAL, copyTo_AL c k off = Throw).
Proof. exact other_container_refused. Qed.
Print Assumptions C10_other_container_refused.

(** C11. A container of bounds refuses, with an exception, constraints which are not bounds of variables without gains *)
Theorem C11_other_container_refused :
  forall (c : constr) (off : nat) (k : contILU),
  ct_isSimple (getType c) = false \/ has_gains (getType c) = true -> copyTo_ILU c k off = Throw.
Proof. exact bounds_container_refused. Qed.
Print Assumptions C11_other_container_refused.
(** a lower bound with a gain on the second of two variables is an inequality, an equation of a matrix is not a bound *)
Example C11_refused_case :
  (let c := mkConstr 2 (BodyGI [1%nat] (vconst 1 3)) (BoundsL (vconst 1 5)) in ct_isEquality (getType c) = false /\ has_gains (getType c) = true) /\
  (let c := mkConstr 2 (BodyA (mkMat 1 2 (fun _ _ => 1))) (BoundsB (vconst 1 5)) in ct_isEquality (getType c) = true /\ ct_isSimple (getType c) = false).
Proof. repeat split; reflexivity. Qed.

(** C11. Levels without index constraints with gains (GILU, GIL, GIU, GIB, GIB0) *)
Theorem C11_bounds_general_form :
  forall fo gu l l' cs nv kalu kilu,
  lreach l -> level_form fo gu l = Ok l' -> described cs fo nv l ->
  (forall i, In i (lv_tasks l) -> has_gains (tk_type (ti_task i)) = false) ->
  exists alu ilu, getGeneralConstraints cs l' kalu nv = Ok alu /\ getSimpleConstraints cs l' kilu nv = Ok ilu /\
    shape_ALU alu (n_general l') nv /\ shape_ILU ilu (n_simple l') nv /\
    forall x, (forall i, In i (lv_tasks l) -> within_infinity (cs (tk_id (ti_task i))) x) ->
      ((sat_ALU alu x /\ sat_ILU ilu x) <-> satisfies_level cs l x).
Proof. exact ILU_ALU_equiv. Qed.
Print Assumptions C11_bounds_general_form.

(** C11. The form with all constraints in one container supports all classes *)
Theorem C11_all_constraints_form :
  forall fo gu l l' cs nv k,
  lreach l -> level_form fo gu l = Ok l' -> described cs fo nv l ->
  exists r, getAllConstraints cs l' k nv = Ok r /\ shape_ALU r (level_getNumberOfConstraints l') nv /\
    forall x, (forall i, In i (lv_tasks l) -> within_infinity (cs (tk_id (ti_task i))) x) ->
      (sat_ALU r x <-> satisfies_level cs l x).
Proof. exact ALU_equiv. Qed.
Print Assumptions C11_all_constraints_form.

(** C11. Index constraints with gains are counted as simple but cannot be extracted as such *)
Theorem C11_gains_throw :
  forall fo gu l l' cs nv k,
  lreach l -> level_form fo gu l = Ok l' -> described cs fo nv l -> (0 < n_simple l')%nat ->
  (exists i, In i (lv_tasks l) /\ has_gains (tk_type (ti_task i)) = true) ->
  getSimpleConstraints cs l' k nv = Throw.
Proof. exact ILU_gains_throw. Qed.
Print Assumptions C11_gains_throw.

(** C12. The tightest bounds; rejected exactly when some variable has an empty interval *)
Theorem C12_tightest_bounds :
  forall k, indices_in_range k -> (0 < length (ilu_I k))%nat ->
  ((exists v, (v < ilu_nvars k)%nat /\ empty_interval k v) <-> initializeSolutionBounds k = Throw) /\
  ((forall v, (v < ilu_nvars k)%nat -> ~ empty_interval k v) ->
   exists lb ub, initializeSolutionBounds k = Ok (lb, ub) /\ vlen lb = ilu_nvars k /\ vlen ub = ilu_nvars k /\
     forall v, (v < ilu_nvars k)%nat -> is_max (lower_of k v) (vget lb v) /\ is_min (upper_of k v) (vget ub v)).
Proof. exact solution_bounds. Qed.
Print Assumptions C12_tightest_bounds.

(** C12. The vectors describe the same points as the container *)
Theorem C12_same_points :
  forall k b x, indices_in_range k -> initializeSolutionBounds k = Ok b ->
  (forall v, (v < ilu_nvars k)%nat -> - g_infinity <= x v <= g_infinity) ->
  (sat_bounds b x <-> sat_ILU k x).
Proof. exact solution_bounds_points. Qed.
Print Assumptions C12_same_points.

(** ** Concrete cases *)
Definition ex_cs (i : nat) : constr :=
  match i with
  | 1%nat => mkConstr 2 (BodyAS (mkMat 1 1 (fun _ _ => 2)) 1) (BoundsLU (vconst 1 (-1)) (vconst 1 3))
  | 2%nat => mkConstr 2 (BodyA (mkMat 1 2 (fun _ _ => 1))) (BoundsB (vconst 1 4))
  | 3%nat => mkConstr 2 (BodyI [1; 0]%nat) (BoundsU (vconst 2 7))
  | _ => mkConstr 2 (BodyGI [0]%nat (vconst 1 5)) (BoundsL (vconst 1 0))
  end.
Definition ex_fo (i : nat) : formed := mkFormed (getNumberOfConstraints (ex_cs i)) true true None.
Definition ex_t1 := mkTask 1 ASLU 0 true [] [].
Definition ex_t2 := mkTask 2 AB 0 true [] [].
Definition ex_t3 := mkTask 3 IU 0 true [] [].
Definition ex_t4 := mkTask 4 GIL 0 true [] [].

Lemma ex_described : described ex_cs ex_fo 2 (pushed [ex_t1; ex_t2; ex_t3; ex_t4]).
Proof.
  intros i Hi. simpl in Hi. destruct Hi as [<-|[<-|[<-|[<-|[]]]]]; simpl; repeat split; repeat constructor; lia.
Qed.

Example C10_case :
  lreach (pushed [ex_t1; ex_t2; ex_t3; ex_t4]) /\ described ex_cs ex_fo 2 (pushed [ex_t1; ex_t2; ex_t3; ex_t4]) /\
  exists l', level_form ex_fo true (pushed [ex_t1; ex_t2; ex_t3; ex_t4]) = Ok l' /\ n_equality l' = 1%nat /\
    level_getNumberOfInequalityConstraintsOneSided l' = 5%nat /\
    satisfies_level ex_cs (pushed [ex_t1; ex_t2; ex_t3; ex_t4]) (fun i => match i with O => 3 | _ => 1 end).
Proof.
  split; [apply pushed_reach|]. split; [apply ex_described|]. eexists. split; [vm_compute; reflexivity|].
  split; [vm_compute; reflexivity|]. split; [vm_compute; reflexivity|].
  intros i Hi. simpl in Hi. destruct Hi as [<-|[<-|[<-|[<-|[]]]]]; intros r Hr; simpl in Hr;
    cbn in Hr; destruct r as [|[|r]]; try (exfalso; lia);
    cbv [row_value RSum.Rsum coef lower upper at_least at_most ex_cs c_body c_bounds c_nvars mget mcols vget vconst]; simpl; lra.
Qed.

Example C11_case :
  described ex_cs ex_fo 2 (pushed [ex_t1; ex_t2; ex_t3]) /\
  (forall i, In i (lv_tasks (pushed [ex_t1; ex_t2; ex_t3])) -> has_gains (tk_type (ti_task i)) = false) /\
  (exists l', level_form ex_fo true (pushed [ex_t1; ex_t2; ex_t3]) = Ok l' /\ n_general l' = 2%nat /\ n_simple l' = 2%nat) /\
  (exists l', level_form ex_fo true (pushed [ex_t1; ex_t4]) = Ok l' /\ (0 < n_simple l')%nat).
Proof.
  split; [|split; [|split; (eexists; split; [vm_compute; reflexivity|]; vm_compute; try split; try reflexivity; lia)]].
  - intros i Hi. simpl in Hi. destruct Hi as [<-|[<-|[<-|[]]]]; simpl; repeat split; repeat constructor; lia.
  - intros i Hi. simpl in Hi. destruct Hi as [<-|[<-|[<-|[]]]]; reflexivity.
Qed.

Example C12_case :
  let k := mkILU 2 [1; 1]%nat (mkVec 2 (fun i => INR i)) (mkVec 2 (fun _ => 3)) in
  indices_in_range k /\ ~ empty_interval k 0 /\ ~ empty_interval k 1 /\
  empty_interval (mkILU 2 [1; 1]%nat (mkVec 2 (fun i => 4 * INR i)) (mkVec 2 (fun _ => 3))) 1.
Proof.
  assert (G : 10 <= g_infinity) by (unfold g_infinity; lra).
  split; [repeat constructor|]. split; [|split].
  - intros E. apply (E 0). split.
    + intros b [->|(r & Hr & N & _)]; [lra|]. simpl in Hr. destruct r as [|[|r]]; simpl in N; try discriminate; lia.
    + intros b [->|(r & Hr & N & _)]; [lra|]. simpl in Hr. destruct r as [|[|r]]; simpl in N; try discriminate; lia.
  - intros E. apply (E 2). split.
    + intros b [->|(r & Hr & N & ->)]; [lra|]. simpl in *. destruct r as [|[|r]]; simpl; try lra; lia.
    + intros b [->|(r & Hr & N & ->)]; simpl; lra.
  - intros y [A B]. specialize (A 4). specialize (B 3).
    assert (4 <= y) by (apply A; right; exists 1%nat; simpl; repeat split; try lia; lra).
    assert (y <= 3) by (apply B; right; exists 1%nat; simpl; repeat split; try lia; lra). lra.
Qed.
