(** * The walking program: the problem of an iteration *)
From Coq Require Import String List Reals Arith Bool ZArith Lra Lia.
From Verif Require Import Base BaseFacts RSum BoxMinimum Matrix Mat2 Mat3 ActiveSet Mixins ConstraintType HierarchyLevel HierarchySpec Constraints ConstraintsSpec QP QPSpec Problem ProblemSpec LeftRight FootParameters FootTrajectory
  PointMass6z PointMass6zSpec Solution Task MpcGuess MpcGuessFacts PepperTasksSpec StanceFSM StanceSpec WalkPreview WalkPreviewSpec WalkPreviewFacts WalkMpc WalkModel WalkModelSpec WalkProfiles WalkProfilesSpec WalkTasks WalkTasksSpec WalkTasksFacts2
  QpoasesBridge QpoasesBridgeSpec Backends BackendsSpec Solver SolverLife SolverLifeSpec SolverLifeFacts WalkLoop WalkLoopSpec WalkLoopFacts WalkLoopFacts2 WalkLoopFacts3 WalkLoopFacts4 WalkLoopFacts5 WalkLoopFacts6 WalkLoopFacts8
  WalkProgram WalkProgramSpec WalkProgramFacts WalkProgramFacts2 WalkProgramFacts3.
Import ListNotations.
Local Open Scope R_scope.

Lemma satisfies_two f p l0 l1 x : shape p l0 l1 -> (satisfies_level (constraints_of f) l0 x <-> satisfies (ft_steps f) x /\ satisfies (ft_cop f) x).
Proof.
  intros (_ & I0 & _). rewrite satisfies_ids, I0. split.
  - intros H. split; [exact (H (STEPS, ILU) (or_introl eq_refl))|exact (H (COPS, ILU) (or_intror (or_introl eq_refl)))].
  - intros [A B] k [<-|[<-|[]]]; assumption.
Qed.
Lemma cost_three f p l0 l1 x : shape p l0 l1 -> level_cost (constraints_of f) l1 x =
  squared_residuals (ft_copvel f) x + (squared_residuals (ft_comvel f) x + (squared_residuals (zt_constr (ft_centering f)) x + 0)).
Proof. intros (_ & _ & I1). rewrite cost_ids, I1. reflexivity. Qed.

Section Problem.
Variables (fuel : nat) (junk : nat -> nat -> nat -> R) (nan : R) (se : settings) (centering : R) (mp : mpc_params) (ly ry inc : R) (fs : fsm) (pr : primary).
Variables (h : horizon) (H : R) (rs : list nat) (support cstate : vec) (M : walk_matrices) (f : formed_tasks) (p : problem) (l0 l1 : level).
Notation N := (horizon_length mp).
Notation n := (length (h_steps h)).
Notation cs := (constraints_of f).
Hypothesis (F : form fuel mp ly ry inc fs = Finished (Ok (Some h))) (WF : well_formed junk nan se centering N h H rs support cstate M f) (Sh : shape p l0 l1).
Hypothesis (Sen : WalkLoopSpec.sensible pr) (Mo : moderate pr) (Fe : se_feet se = finalize pr).

Lemma wf_nvars k : In k (ids0 ++ ids1) -> c_nvars (cs (fst k)) = (2 * N + 2 * n)%nat.
Proof. intros I. destruct (wf_objects _ _ _ _ _ _ _ _ _ _ _ _ WF k I) as (_ & U & _). exact U. Qed.
Lemma point_admissible sol : fitting N n sol -> satisfies_level cs l0 (point sol) <-> admissible nan se N h sol.
Proof. intros Fi. rewrite (satisfies_two f p l0 l1 _ Sh). apply (wf_admissible _ _ _ _ _ _ _ _ _ _ _ _ WF sol Fi). Qed.
Lemma level_ext x y : (forall i, (i < 2 * N + 2 * n)%nat -> x i = y i) -> satisfies_level cs l0 x -> satisfies_level cs l0 y.
Proof.
  intros E S. rewrite satisfies_ids in *. intros k I. apply (satisfies_ext _ x y); [|apply S; exact I]. intros j J. apply E.
  rewrite wf_nvars in J by (apply in_or_app; left; destruct Sh as (_ & I0 & _); rewrite <- I0; exact I). exact J.
Qed.
Lemma cost_ext x y : (forall i, (i < 2 * N + 2 * n)%nat -> x i = y i) -> level_cost cs l1 x = level_cost cs l1 y.
Proof.
  intros E. rewrite !cost_ids. f_equal. apply map_ext_in. intros k I. apply squared_ext. intros j J. apply E.
  rewrite wf_nvars in J by (apply in_or_app; right; destruct Sh as (_ & _ & I1); rewrite <- I1; exact I). exact J.
Qed.
Lemma level_inside x : satisfies_level cs l0 x <-> inside (se_fixed se) N (h_steps h) (indices_of h) (bounds_of nan (se_feet se) h) x.
Proof.
  assert (E : satisfies_level cs l0 x <-> satisfies_level cs l0 (point (as_solution N n x))).
  { split; apply level_ext; intros i L; rewrite as_point by exact L; reflexivity. }
  rewrite E, point_admissible by apply as_fitting. unfold admissible, inside. pose proof (steps_below _ _ _ _ _ _ _ F) as Fo.
  assert (C : forall k a, (k < N)%nat -> cop_local (as_solution N n x) k a = x (2 * k + axis_index a)%nat).
  { intros k a L. apply (as_point N n x (2 * k + axis_index a)). destruct a; cbn [axis_index]; lia. }
  assert (D : forall j k a, nth_error (h_steps h) j = Some k -> step_local N (as_solution N n x) j a = x (2 * N + 2 * j + axis_index a)%nat).
  { intros j k a L. apply (as_point N n x (2 * N + 2 * j + axis_index a)). assert (j < n)%nat by (apply nth_error_Some; congruence). destruct a; cbn [axis_index]; lia. }
  split; intros [A B]; (split; [intros k w a L S; specialize (A k w a L S); rewrite C in * by exact L; exact A|intros j k w a L S; specialize (B j k w a L S); rewrite (D j k a L) in *; exact B]).
Qed.
Lemma level_box : let lo := side_value false (se_fixed se) N (h_steps h) (indices_of h) (bounds_of nan (se_feet se) h) in
  let hi := side_value true (se_fixed se) N (h_steps h) (indices_of h) (bounds_of nan (se_feet se) h) in
  (forall i, (i < 2 * N + 2 * n)%nat -> lo i <= hi i /\ - g_infinity <= lo i /\ hi i <= g_infinity) /\ forall y, satisfies_level cs l0 y <-> box (2 * N + 2 * n) lo hi y.
Proof.
  intros lo hi. set (index := indices_of h) in *. set (states := bounds_of nan (se_feet se) h) in *. assert (Ix : indexed N index states) by (eapply form_indexed; exact F).
  pose proof (steps_below _ _ _ _ _ _ _ F) as Fo. split.
  - intros i L. split.
    + apply (side_ordered (se_fixed se) N (h_steps h) index states Ix Fo i); [|exact L]. intros w a I. apply (bounds_ordered nan pr h); [exact Sen|]. rewrite <- Fe. exact I.
    + apply (side_below (se_fixed se) N (h_steps h) index states Ix Fo i); [|exact L]. intros k w K W. unfold states in W. rewrite Fe in W. exact (form_below _ _ _ _ _ _ _ nan pr k w F Sen Mo K W).
  - intros y. rewrite level_inside. symmetry. exact (box_inside (se_fixed se) N (h_steps h) index states Ix Fo y).
Qed.
Lemma satisfying_reasonable x : satisfies_level cs l0 x -> reasonable cs l0 (2 * N + 2 * n) x.
Proof.
  intros S. destruct level_box as [O B]. apply B in S. split.
  - intros i I q _ [E|E]; exfalso; apply in_ids in I; destruct Sh as (_ & I0 & _); rewrite I0 in I; destruct (wf_two _ _ _ _ _ _ _ _ _ _ _ _ WF) as [W0 W1]; cbn in I;
      destruct I as [I|[I|[]]]; injection I as I _; rewrite <- I in E; cbn [constraints_of STEPS COPS] in E; revert E; solve [apply W0|apply W1].
  - intros v L. specialize (S v L). destruct (O v L) as (_ & O1). generalize dependent g_infinity. intros g. intros. lra.
Qed.
Lemma solvable : exists x, reasonable cs l0 (2 * N + 2 * n) x /\ minimum (level_cost cs l1) (satisfies_level cs l0) x.
Proof.
  destruct level_box as [O B].
  set (lo := side_value false (se_fixed se) N (h_steps h) (indices_of h) (bounds_of nan (se_feet se) h)) in *. set (hi := side_value true (se_fixed se) N (h_steps h) (indices_of h) (bounds_of nan (se_feet se) h)) in *.
  assert (T : tame (2 * N + 2 * n) lo hi (level_cost cs l1)).
  { apply tame_level. intros k I. apply wf_nvars. apply in_or_app. right. destruct Sh as (_ & _ & I1). rewrite <- I1. exact I. }
  destruct (box_minimum _ lo hi _ (fun i L => proj1 (O i L)) T) as (x & X1 & X2). exists x.
  split; [apply satisfying_reasonable; apply B; exact X1|]. split; [apply B; exact X1|]. intros y Y. apply X2. apply B. exact Y.
Qed.
End Problem.
