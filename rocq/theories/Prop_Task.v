(** * Properties C17 and C63. Vocabulary in TaskSpec.v. *)
From Coq Require Import String List Arith Reals Bool Lra Lia.
From Verif Require Import Base RSum Matrix Solution SolutionSpec Constraints ConstraintsSpec Task TaskSpec TaskFacts.
Import ListNotations.
Open Scope R_scope.

(** C17. Task on selected variables: the constraints are always those of the current gain *)
Theorem C17_selected_variables :
  forall ix g0 os s, Forall (fun j => (j < Solution.getNumberOfVariables s)%nat) ix ->
  demands (st_constr (fold_left selected_op (os ++ [Form s]) (selected_new ix g0))) (last_gain g0 os) ix.
Proof. exact selected_current. Qed.
Print Assumptions C17_selected_variables.

(** C17. Task on a part of the solution: the variables are always right; the gain is the current one if the variables
    changed since the last formation (missing for the full property: the gain when they did not) *)
Theorem C17_zero_variables_partial :
  forall g0 id os ps, let t := fold_left zero_op (os ++ [Form (added ps)]) (zero_new g0 id) in
  exists g, demands (zt_constr t) g (variables (zero_location (added ps) t)) /\
    (zero_location (added ps) t <> zt_location (fold_left zero_op os (zero_new g0 id)) -> g = last_gain g0 os /\ zt_modified t = true).
Proof. exact zero_variables. Qed.
Print Assumptions C17_zero_variables_partial.

(** C17. ... and if they did not change, the new gain is ignored and the task claims to be unmodified *)
Theorem C17_gain_ignored :
  forall g0 id os ps g, let t0 := fold_left zero_op os (zero_new g0 id) in
  zero_location (added ps) t0 = zt_location t0 ->
  c_body (zt_constr (fold_left zero_op [SetGain g; Form (added ps)] t0)) = c_body (zt_constr t0) /\
  zt_modified (fold_left zero_op [SetGain g; Form (added ps)] t0) = false.
Proof. exact zero_stale. Qed.
Print Assumptions C17_gain_ignored.

(** C17 fails: form with gain 2, set the gain 5, form again: the constraint still has the gain 2 *)
Lemma stale_gain : exists ps g0 id os, os = [Form (added ps); SetGain 5] /\ last_gain g0 os = 5 /\
  let t := fold_left zero_op (os ++ [Form (added ps)]) (zero_new g0 id) in
  ~ demands (zt_constr t) (last_gain g0 os) (variables (zero_location (added ps) t)) /\
  demands (zt_constr t) 2 (variables (zero_location (added ps) t)).
Proof.
  exists [("x", 1%nat)]%string, 2, ""%string, [Form (added [("x", 1%nat)]%string); SetGain 5].
  split; [reflexivity|]. split; [reflexivity|]. cbv zeta.
  assert (T : zt_constr (fold_left zero_op ([Form (added [("x", 1%nat)]%string); SetGain 5] ++ [Form (added [("x", 1%nat)]%string)]) (zero_new 2 ""))
    = mkConstr 1 (BodyGI [0]%nat (vconst 1 2)) BoundsB0) by reflexivity.
  rewrite T. clear T. simpl. split.
  - intros [_ D]. destruct (D 0%nat (fun _ => 1) (le_n 1)) as [D1 _]. unfold row_value, coef in D1. simpl in D1. lra.
  - split; [reflexivity|]. intros r x Hr. simpl in Hr. destruct r as [|r]; [|exfalso; lia]. unfold row_value, coef, lower, upper. simpl.
    repeat split; lra.
Qed.
Theorem C17_stale_gain_refuted : exists ps g0 id os, os = [Form (added ps); SetGain 5] /\ last_gain g0 os = 5 /\
  let t := fold_left zero_op (os ++ [Form (added ps)]) (zero_new g0 id) in
  ~ demands (zt_constr t) (last_gain g0 os) (variables (zero_location (added ps) t)) /\
  demands (zt_constr t) 2 (variables (zero_location (added ps) t)).
Proof. exact stale_gain. Qed.
Print Assumptions C17_stale_gain_refuted.

(** C63. The infeasible task excludes every point *)
Theorem C63_infeasible :
  forall os s x, (0 < Solution.getNumberOfVariables s)%nat ->
  ~ satisfies (it_constr (fold_left infeasible_op (os ++ [Form s]) infeasible_new)) x.
Proof. exact infeasible_always. Qed.
Print Assumptions C63_infeasible.

(** ** Concrete cases *)
Example C17_case :
  let s := added [("a", 2%nat); ("b", 3%nat)]%string in
  Forall (fun j => (j < Solution.getNumberOfVariables s)%nat) [0; 4; 4]%nat /\
  zero_location s (zero_new 1 "b") = mkLoc 2 3 /\ zt_location (zero_new 1 "b") = mkLoc 0 0.
Proof. cbv. repeat split; repeat constructor. Qed.
Example C17_ignored_case :
  let s := added [("a", 2%nat); ("b", 3%nat)]%string in
  let t0 := fold_left zero_op [Form s] (zero_new 1 "b") in zero_location s t0 = zt_location t0.
Proof. reflexivity. Qed.
Example C63_case : (0 < Solution.getNumberOfVariables (added [("a", 2%nat)]%string))%nat.
Proof. cbv. lia. Qed.
