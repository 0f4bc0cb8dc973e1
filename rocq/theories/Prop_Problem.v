(** * Properties C82 and C83: a whole hierarchy. Vocabulary in ProblemSpec.v. *)
From Coq Require Import List Arith Bool Reals Lra.
From Verif Require Import Base ActiveSet Mixins MixinsSpec ConstraintType HierarchyLevel HierarchySpec RSum Matrix Constraints ConstraintsSpec
  Problem ProblemSpec ProblemFacts ProblemFacts2 ProblemReset.
Import ListNotations.
Local Open Scope nat_scope.

(** C82. After reset(n) and pushes to levels below n, level i has exactly the tasks pushed to it *)
Theorem C82_built : forall (n : nat) (ts : list (task * nat)) (p : problem),
  Forall (fun ti => snd ti < n) ts ->
  exists q, push_all n ts p = Ok q /\ pb_getNumberOfLevels q = n /\
    forall i, i < n -> nth_error (pb_levels q) i = Some (pushed (map fst (filter (fun ti => snd ti =? i) ts))).
Proof. exact problem_built. Qed.
(** C82. A push changes only its level; a push to a missing level is refused *)
Theorem C82_push : forall (p : problem) (t : task) (i : nat),
  (pb_getNumberOfLevels p <= i -> pb_pushTask p t i = Throw) /\
  (i < pb_getNumberOfLevels p -> exists l p', nth_error (pb_levels p) i = Some l /\ pb_pushTask p t i = Ok p' /\
     pb_getNumberOfLevels p' = pb_getNumberOfLevels p /\ nth_error (pb_levels p') i = Some (level_pushTask l t) /\
     forall k, k <> i -> nth_error (pb_levels p') k = nth_error (pb_levels p) k).
Proof. exact problem_push. Qed.
(** C82. After any history form() succeeds exactly if there are levels and each of them can be formed; otherwise it throws *)
Theorem C82_form_accepted : forall (fo : nat -> formed) (gu : bool) (p : problem),
  preach p ->
  ((exists p', pb_formHierarchy fo gu p = Ok p') <-> 0 < pb_getNumberOfLevels p /\ Forall (level_formable fo gu) (pb_levels p)) /\
  ((forall k g t, f_guess (fo k) = Some g -> g t <> UB) -> pb_formHierarchy fo gu p <> UB).
Proof. exact problem_form_accepted. Qed.
(** C82. What form() does: every level is formed from its own tasks; sizes of active sets are the numbers of constraints *)
Theorem C82_form_effect : forall (fo : nat -> formed) (gu : bool) (p p' : problem),
  preach p -> pb_formHierarchy fo gu p = Ok p' ->
  pb_getNumberOfLevels p' = pb_getNumberOfLevels p /\
  (forall i l, nth_error (pb_levels p) i = Some l -> exists l',
     nth_error (pb_levels p') i = Some l' /\ level_form fo gu l = Ok l' /\ task_ids l' = task_ids l /\
     level_getNumberOfConstraints l' = rows_of fo l) /\
  pb_initializeActiveSet p' = Ok (map (fun l => repeat UNDEFINED (rows_of fo l)) (pb_levels p)).
Proof. exact problem_form_effect. Qed.
(** C82. The guess returned by form(): the guesses of all tasks of all levels, each at its place *)
Theorem C82_guess : forall (fo : nat -> formed) (p p' : problem),
  (forall k, full_guess (fo k)) -> preach p -> pb_formHierarchy fo true p = Ok p' ->
  exists s, pb_form_guess fo p = Ok (p', s) /\ length s = pb_getNumberOfLevels p /\
    forall i l, nth_error (pb_levels p') i = Some l ->
      exists a, nth_error s i = Some a /\ length a = level_getNumberOfConstraints l /\
        forall k, In k (lv_tasks l) ->
          segment a (offset (ti_loc k)) (len (ti_loc k)) = tk_guess (ti_task k) /\
          (f_guess (fo (tk_id (ti_task k))) = None -> f_unmodified (fo (tk_id (ti_task k))) = false -> tk_guess (ti_task k) =
             repeat (if ct_isEquality (tk_type (ti_task k)) then EQUALITY else INACTIVE) (len (ti_loc k))).
Proof. exact problem_guess. Qed.
(** C82. processActiveSet(): every task gets its part of its level; wrong sizes are refused *)
Theorem C82_process : forall (fo : nat -> formed) (gu : bool) (p p1 : problem) (s : asets),
  preach p -> pb_formHierarchy fo gu p = Ok p1 ->
  (fits s p1 -> exists p2, pb_processActiveSet p1 s = Ok p2 /\ pb_getNumberOfLevels p2 = pb_getNumberOfLevels p1 /\
     forall i l a, nth_error (pb_levels p1) i = Some l -> nth_error s i = Some a -> exists l2,
       nth_error (pb_levels p2) i = Some l2 /\ task_ids l2 = task_ids l /\ map ti_loc (lv_tasks l2) = map ti_loc (lv_tasks l) /\
       forall k, In k (lv_tasks l2) -> tk_actual (ti_task k) = segment a (offset (ti_loc k)) (len (ti_loc k))) /\
  (length s <> pb_getNumberOfLevels p1 -> pb_processActiveSet p1 s = Throw) /\
  ((exists i l a, nth_error (pb_levels p1) i = Some l /\ nth_error s i = Some a /\ length a < level_getNumberOfConstraints l) ->
     pb_processActiveSet p1 s = Throw).
Proof. exact problem_process. Qed.
(** C82. An active set given to processActiveSet() is the guess of the next form() with unmodified tasks *)
Theorem C82_round_trip : forall (fo : nat -> formed) (gu : bool) (fo2 : nat -> formed) (p p1 : problem) (s : asets),
  preach p -> pb_formHierarchy fo gu p = Ok p1 -> fits s p1 ->
  (forall l k, In l (pb_levels p1) -> In k (lv_tasks l) -> let f := fo2 (tk_id (ti_task k)) in
      f_n f = tk_n (ti_task k) /\ f_consistent f = true /\ f_unmodified f = true /\ f_guess f = None) ->
  exists p2 p3, pb_processActiveSet p1 s = Ok p2 /\ pb_form_guess fo2 p2 = Ok (p3, s).
Proof. exact problem_round_trip. Qed.
(** C82. After reset() an empty level has the size of the old one until form() is called *)
Theorem C82_stale_sizes_refuted : exists (fo : nat -> formed) (t : task) (p0 p1 : problem) (s : asets),
  pb_pushTask (pb_reset 1 pb_new) t 0 = Ok p0 /\ pb_formHierarchy fo false p0 = Ok p1 /\
  pb_levels (pb_reset 1 p1) = [level_new] /\ level_getNumberOfConstraints level_new = 0 /\
  pb_initializeActiveSet (pb_reset 1 p1) = Ok s /\ s = [[UNDEFINED; UNDEFINED; UNDEFINED]].
Proof. exact stale_sizes_refuted. Qed.
(** C82. After reset(n) a level which existed has the size it had before, until form() is called; a level which did not exist, and every level of a new hierarchy, is empty *)
Theorem C82_reset_sizes : forall (n : nat) (p : problem),
  preach p ->
  pb_initializeActiveSet (pb_reset n pb_new) = Ok (repeat [] n) /\
  exists s0 s, pb_initializeActiveSet p = Ok s0 /\ pb_initializeActiveSet (pb_reset n p) = Ok s /\ length s0 = pb_getNumberOfLevels p /\ length s = n /\
  forall i, i < n -> nth i s [] = nth i s0 [].
Proof. exact reset_sizes. Qed.

Definition ta := mkTask 1 ILU 0 true [] [].
Definition tb := mkTask 2 AB 0 true [] [].
Definition tc := mkTask 3 AB 0 true [] [].
Definition fo_case (i : nat) := mkFormed i true true None.
Example C82_case :
  exists q q1 q2 q3 s0, push_all 2 [(ta, 0); (tb, 0); (tc, 1)] pb_new = Ok q /\
    pb_form_guess fo_case q = Ok (q1, s0) /\ s0 = [[EQUALITY; EQUALITY; INACTIVE]; [EQUALITY; EQUALITY; EQUALITY]] /\
    pb_processActiveSet q1 [[EQUALITY; EQUALITY; UPPER_BOUND]; [EQUALITY; EQUALITY; EQUALITY]] = Ok q2 /\
    pb_form_guess fo_case q2 = Ok (q3, [[EQUALITY; EQUALITY; UPPER_BOUND]; [EQUALITY; EQUALITY; EQUALITY]]).
Proof. do 5 eexists. repeat apply conj; vm_compute; reflexivity. Qed.

(** C83. determineActiveSet(): the status of every row of every task of every level means what it should *)
Theorem C83_determine : forall (fo : nat -> formed) (gu : bool) (p p1 : problem) (cs : nat -> constr) (nv : nat) (x : nat -> R),
  preach p -> pb_formHierarchy fo gu p = Ok p1 -> described_problem cs fo nv p ->
  exists s, pb_determineActiveSet cs (mkVec nv x) p1 = Ok s /\ fits s p1 /\
    forall i l a, nth_error (pb_levels p1) i = Some l -> nth_error s i = Some a ->
      forall k j, In k (lv_tasks l) -> j < len (ti_loc k) ->
        exists t, nth_error a (offset (ti_loc k) + j) = Some t /\ status_means (cs (tk_id (ti_task k))) x j t.
Proof. exact problem_determine. Qed.
(** C83. ... also in the tasks after processActiveSet() *)
Theorem C83_determined_tasks : forall (fo : nat -> formed) (gu : bool) (p p1 : problem) (cs : nat -> constr) (nv : nat) (x : nat -> R),
  preach p -> pb_formHierarchy fo gu p = Ok p1 -> described_problem cs fo nv p ->
  exists s p2, pb_determineActiveSet cs (mkVec nv x) p1 = Ok s /\ pb_processActiveSet p1 s = Ok p2 /\
    forall l k, In l (pb_levels p2) -> In k (lv_tasks l) ->
      length (tk_actual (ti_task k)) = getNumberOfConstraints (cs (tk_id (ti_task k))) /\
      forall j, j < length (tk_actual (ti_task k)) ->
        exists t, nth_error (tk_actual (ti_task k)) j = Some t /\ status_means (cs (tk_id (ti_task k))) x j t.
Proof. exact determined_tasks. Qed.
(** C83. computeViolations(): the same for violations, whatever was in the memory before *)
Theorem C83_violations : forall (junk : nat -> R) (fo : nat -> formed) (gu : bool) (p p1 : problem) (cs : nat -> constr) (nv : nat) (x : nat -> R),
  preach p -> pb_formHierarchy fo gu p = Ok p1 -> described_problem cs fo nv p ->
  exists vs, pb_computeViolations junk cs (mkVec nv x) p1 = Ok vs /\ length vs = pb_getNumberOfLevels p1 /\
    forall i l v, nth_error (pb_levels p1) i = Some l -> nth_error vs i = Some v ->
      consistent v /\ viol_size v = level_getNumberOfConstraints l /\
      forall k j, In k (lv_tasks l) -> j < len (ti_loc k) ->
        exists w, viol_get v (offset (ti_loc k) + j) = Ok w /\ violation_means (cs (tk_id (ti_task k))) x j w.
Proof. exact problem_violations. Qed.
(** C83. All violations are zero exactly if the solution satisfies the constraints of all tasks *)
Theorem C83_zero_iff_satisfied : forall (junk : nat -> R) (fo : nat -> formed) (gu : bool) (p p1 : problem) (cs : nat -> constr) (nv : nat) (x : nat -> R),
  preach p -> pb_formHierarchy fo gu p = Ok p1 -> described_problem cs fo nv p ->
  exists vs, pb_computeViolations junk cs (mkVec nv x) p1 = Ok vs /\
    ((forall v r w, In v vs -> viol_get v r = Ok w -> w = 0%R) <-> satisfies_problem cs p x).
Proof. exact violations_zero_iff. Qed.

Local Open Scope R_scope.
Definition cs_case (i : nat) : constr :=
  if (i =? 1)%nat then mkConstr 2 (BodyI [1%nat]) (BoundsLU (mkVec 1 (fun _ => -1)) (mkVec 1 (fun _ => 1)))
  else mkConstr 2 (BodyA (mkMat i 2 (fun r c => if (c =? 0)%nat then 1 else 0))) (BoundsB (mkVec i (fun _ => 3))).
Example C83_case :
  exists q q1, push_all 2 [(ta, 0%nat); (tb, 0%nat); (tc, 1%nat)] pb_new = Ok q /\ preach q /\
    pb_formHierarchy fo_case false q = Ok q1 /\ described_problem cs_case fo_case 2 q /\
    satisfies_problem cs_case q (fun i => if (i =? 0)%nat then 3 else 1) /\
    ~ satisfies_problem cs_case q (fun i => if (i =? 0)%nat then 3 else 2).
Proof.
  eexists. eexists. split; [reflexivity|]. split.
  { eapply push_all_reach with (n := 2%nat) (ts := [(ta, 0%nat); (tb, 0%nat); (tc, 1%nat)]) (p := pb_new); [apply pr_new|reflexivity]. }
  split; [vm_compute; reflexivity|]. split.
  { constructor; [|constructor; [|constructor]]; intros i Hi; cbn in Hi.
    - destruct Hi as [<-|[<-|[]]]; (split; [reflexivity|split; [reflexivity|split; [reflexivity|split; [reflexivity|cbn; repeat constructor]]]]).
    - destruct Hi as [<-|[]]; (split; [reflexivity|split; [reflexivity|split; [reflexivity|split; [reflexivity|cbn; repeat constructor]]]]). }
  split.
  - constructor; [|constructor; [|constructor]]; intros i Hi; cbn in Hi; (destruct Hi as [<-|Hi]; [|destruct Hi as [<-|[]] || destruct Hi]);
      intros r Hr; unfold row_value, coef, lower, upper, at_least, at_most, cs_case; cbn in *;
      try (destruct r as [|r]; [|exfalso; clear - Hr; apply Nat.lt_1_r in Hr; discriminate]); cbn; lra.
  - intros H. inversion H as [|l0 r0 H0 _ E0]. specialize (H0 (mkTInfo ta (mkLoc 0 0))). cbn in H0.
    specialize (H0 (or_intror (or_introl eq_refl)) 0%nat). cbn in H0. specialize (H0 (le_n _)).
    unfold row_value, coef, lower, upper, at_least, at_most, cs_case in H0. cbn in H0. lra.
Qed.

Print Assumptions C82_built. Print Assumptions C82_push. Print Assumptions C82_form_accepted. Print Assumptions C82_form_effect. Print Assumptions C82_guess. Print Assumptions C82_process. Print Assumptions C82_round_trip. Print Assumptions C82_stale_sizes_refuted. Print Assumptions C82_reset_sizes. Print Assumptions C83_determine. Print Assumptions C83_determined_tasks. Print Assumptions C83_violations. Print Assumptions C83_zero_iff_satisfied.
