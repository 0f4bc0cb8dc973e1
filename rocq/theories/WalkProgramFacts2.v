(** * The walking program: the optimization problem of an iteration *)
From Coq Require Import String List Reals Arith Bool ZArith Lra Lia.
From Verif Require Import Base BaseFacts RSum BoxMinimum Matrix Mat2 Mat3 ActiveSet Mixins ConstraintType HierarchyLevel HierarchySpec Constraints ConstraintsSpec QP QPSpec Problem ProblemSpec LeftRight FootParameters FootTrajectory
  PointMass6z PointMass6zSpec Solution Task MpcGuess MpcGuessFacts PepperTasksSpec StanceFSM StanceSpec WalkPreview WalkPreviewSpec WalkPreviewFacts WalkMpc WalkModel WalkModelSpec WalkProfiles WalkProfilesSpec WalkTasks WalkTasksSpec WalkTasksFacts2
  QpoasesBridge QpoasesBridgeSpec Backends BackendsSpec Solver SolverLife SolverLifeSpec WalkLoop WalkLoopSpec WalkLoopFacts WalkLoopFacts6 WalkLoopFacts8 WalkProgram WalkProgramSpec WalkProgramFacts.
Import ListNotations.
Local Open Scope R_scope.

(** ** points and solutions *)
Definition as_solution (N n : nat) (x : nat -> R) : solution := mkSolution (structure_wpg N n) (map x (seq 0 (2 * N + 2 * n))).
Lemma as_point N n x i : (i < 2 * N + 2 * n)%nat -> point (as_solution N n x) i = x i.
Proof.
  intros H. unfold point, as_solution. cbn [sol_x]. rewrite nth_indep with (d' := x 0%nat) by (rewrite map_length, seq_length; exact H).
  rewrite map_nth, seq_nth by exact H. reflexivity.
Qed.
Lemma as_length N n x : length (sol_x (as_solution N n x)) = (2 * N + 2 * n)%nat.
Proof. cbn [as_solution sol_x]. rewrite map_length, seq_length. reflexivity. Qed.
Lemma row_ext c i x y : (forall j, (j < c_nvars c)%nat -> x j = y j) -> row_value c i x = row_value c i y.
Proof. intros H. unfold row_value. apply Rsum_ext. intros j Hj. rewrite H by exact Hj. reflexivity. Qed.
Lemma satisfies_ext c x y : (forall j, (j < c_nvars c)%nat -> x j = y j) -> satisfies c x -> satisfies c y.
Proof. intros H S i Hi. specialize (S i Hi). rewrite (row_ext c i x y H) in S. exact S. Qed.
Lemma squared_ext c x y : (forall j, (j < c_nvars c)%nat -> x j = y j) -> squared_residuals c x = squared_residuals c y.
Proof. intros H. unfold squared_residuals, QPSpec.residual. apply Rsum_ext. intros r _. rewrite (row_ext c r x y H). reflexivity. Qed.
Lemma squared_pairs N c x (e : nat -> axis -> R) : getNumberOfConstraints c = (2 * N)%nat -> (forall k a, (k < N)%nat -> residual c (2 * k + axis_index a) x (e k a)) ->
  squared_residuals c x = Rsum N (fun k => Rsqr (e k AxisX) + Rsqr (e k AxisY)).
Proof.
  intros E H. unfold squared_residuals. rewrite E, (Nat.mul_comm 2 N), Rsum_blocks. apply Rsum_ext. intros k Hk.
  assert (V : forall a, QPSpec.residual c (k * 2 + axis_index a) x = e k a).
  { intros a. destruct (H k a Hk) as (b & B1 & B2 & B3). rewrite (Nat.mul_comm k 2). unfold QPSpec.residual, rhs. rewrite B1. exact B3. }
  pose proof (V AxisX) as VX. pose proof (V AxisY) as VY. cbn [axis_index] in VX, VY. unfold Rsqr. rewrite !Rsum_first. cbn [Rsum]. rewrite VX, VY. ring.
Qed.

(** ** a level is continuous *)
Lemma tame_row nv lo hi c i : c_nvars c = nv -> tame nv lo hi (fun x => row_value c i x).
Proof.
  intros E. unfold row_value. rewrite E. apply (tame_sum nv lo hi nv (fun j x => coef c i j * x j)). intros j Hj.
  apply (tame_mult nv lo hi (fun _ => coef c i j) (fun x => x j)); [apply tame_const|apply tame_coord; exact Hj].
Qed.
Lemma tame_squared nv lo hi c : c_nvars c = nv -> tame nv lo hi (squared_residuals c).
Proof.
  intros E. unfold squared_residuals. apply (tame_sum nv lo hi (getNumberOfConstraints c) (fun r x => QPSpec.residual c r x * QPSpec.residual c r x)). intros r _.
  assert (T : tame nv lo hi (fun x => QPSpec.residual c r x)).
  { unfold QPSpec.residual. apply (tame_plus nv lo hi (fun x => row_value c r x) (fun _ => - rhs c r)); [apply tame_row; exact E|apply tame_const]. }
  apply tame_mult; exact T.
Qed.
Lemma tame_list nv lo hi (cs : list constr) : (forall c, In c cs -> c_nvars c = nv) -> tame nv lo hi (fun x => sum_list (map (fun c => squared_residuals c x) cs)).
Proof.
  induction cs as [|c r IH]; intros H; cbn [map sum_list]; [apply (tame_const nv lo hi 0)|].
  apply (tame_plus nv lo hi (fun x => squared_residuals c x) (fun x => sum_list (map (fun c => squared_residuals c x) r))); [apply tame_squared, H; left; reflexivity|].
  apply IH. intros c' H'. apply H. right. exact H'.
Qed.
Lemma tame_level nv lo hi cs l : (forall k, In k (task_ids l) -> c_nvars (cs (fst k)) = nv) -> tame nv lo hi (level_cost cs l).
Proof.
  intros H. apply (tame_ext nv lo hi (fun x => sum_list (map (fun c => squared_residuals c x) (map (fun k => cs (fst k)) (task_ids l))))).
  - intros x. rewrite cost_ids, map_map. reflexivity.
  - apply tame_list. intros c I. apply in_map_iff in I. destruct I as (k & <- & K). exact (H k K).
Qed.

(** ** the bounds are a box *)
Definition bound_of (up : bool) (b : m2) (a : axis) : R := if up then upper_bound b a else lower_bound b a.
Definition side_value (up : bool) (fixed : bool) (N : nat) (steps index : list nat) (states : list walk_bounds) (v : nat) : R :=
  if (v <? 2 * N)%nat then match state_bounds index states (v / 2) with Some w => bound_of up (wb_cop w) (axis_of v) | None => 0 end
  else match nth_error steps ((v - 2 * N) / 2) with
       | Some i => match state_bounds index states i with
                   | Some w => if fixed then fixed_step w (axis_of (v - 2 * N)) else bound_of up (wb_fd w) (axis_of (v - 2 * N))
                   | None => 0 end
       | None => 0 end.
Lemma half_of v : exists k a, v = (2 * k + axis_index a)%nat.
Proof.
  exists (v / 2)%nat, (if (v mod 2 =? 0)%nat then AxisX else AxisY). pose proof (Nat.div_mod v 2 ltac:(lia)). pose proof (Nat.mod_upper_bound v 2 ltac:(lia)).
  destruct (Nat.eqb_spec (v mod 2) 0); cbn [axis_index]; lia.
Qed.
Section Box.
Variables (fixed : bool) (N : nat) (steps index : list nat) (states : list walk_bounds).
Hypothesis (Ix : indexed N index states) (Fo : forall s, In s steps -> (s < N)%nat).
Notation side := (fun up => side_value up fixed N steps index states).
Lemma bounds_at k : (k < N)%nat -> exists w, state_bounds index states k = Some w.
Proof.
  intros H. destruct Ix as [L I]. unfold state_bounds. destruct (nth_error index k) as [s|] eqn:E; [|apply nth_error_None in E; lia].
  destruct (nth_error states s) as [w|] eqn:E2; [exists w; reflexivity|]. apply nth_error_None in E2. specialize (I s (nth_error_In _ _ E)). lia.
Qed.
Lemma side_cop up k a w : (k < N)%nat -> state_bounds index states k = Some w -> side up (2 * k + axis_index a)%nat = bound_of up (wb_cop w) a.
Proof.
  intros L S. assert (axis_index a < 2)%nat by (destruct a; cbn; lia). unfold side_value. destruct (Nat.ltb_spec (2 * k + axis_index a) (2 * N)); [|lia].
  destruct (half_axis k a) as [-> ->]. rewrite S. reflexivity.
Qed.
Lemma side_step up j i a w : nth_error steps j = Some i -> state_bounds index states i = Some w ->
  side up (2 * N + 2 * j + axis_index a)%nat = if fixed then fixed_step w a else bound_of up (wb_fd w) a.
Proof.
  intros E S. unfold side_value. destruct (Nat.ltb_spec (2 * N + 2 * j + axis_index a) (2 * N)); [lia|].
  replace (2 * N + 2 * j + axis_index a - 2 * N)%nat with (2 * j + axis_index a)%nat by lia. destruct (half_axis j a) as [-> ->]. rewrite E, S. reflexivity.
Qed.
(** each variable is a coordinate of the CoP or of a step *)
Lemma variable v : (v < 2 * N + 2 * length steps)%nat ->
  (exists k a w, (k < N)%nat /\ state_bounds index states k = Some w /\ v = (2 * k + axis_index a)%nat) \/
  (exists j i a w, nth_error steps j = Some i /\ state_bounds index states i = Some w /\ v = (2 * N + 2 * j + axis_index a)%nat).
Proof.
  intros H. destruct (Nat.lt_ge_cases v (2 * N)) as [L|L].
  - left. destruct (half_of v) as (k & a & E). assert (K : (k < N)%nat) by lia. destruct (bounds_at k K) as [w W]. exists k, a, w. auto.
  - right. destruct (half_of (v - 2 * N)) as (j & a & E). assert (K : (j < length steps)%nat) by lia. destruct (nth_error steps j) as [i|] eqn:Ei; [|apply nth_error_None in Ei; lia].
    destruct (bounds_at i (Fo i (nth_error_In _ _ Ei))) as [w W]. exists j, i, a, w. split; [exact Ei|]. split; [exact W|]. lia.
Qed.
Definition inside (q : nat -> R) : Prop :=
  (forall k w a, (k < N)%nat -> state_bounds index states k = Some w -> within (wb_cop w) a (q (2 * k + axis_index a)%nat)) /\
  (forall j k w a, nth_error steps j = Some k -> state_bounds index states k = Some w ->
     if fixed then q (2 * N + 2 * j + axis_index a)%nat = fixed_step w a else within (wb_fd w) a (q (2 * N + 2 * j + axis_index a)%nat)).
Lemma box_inside x : box (2 * N + 2 * length steps) (side false) (side true) x <-> inside x.
Proof.
  split.
  - intros B. split.
    + intros k w a L S. assert (axis_index a < 2)%nat by (destruct a; cbn; lia). specialize (B (2 * k + axis_index a)%nat ltac:(lia)). cbv beta in B.
      rewrite (side_cop false k a w L S), (side_cop true k a w L S) in B. exact B.
    + intros j k w a E S. assert (axis_index a < 2)%nat by (destruct a; cbn; lia). assert (j < length steps)%nat by (apply nth_error_Some; congruence).
      specialize (B (2 * N + 2 * j + axis_index a)%nat ltac:(lia)). cbv beta in B. rewrite (side_step false j k a w E S), (side_step true j k a w E S) in B.
      destruct fixed; [lra|exact B].
  - intros [A B] v Hv. destruct (variable v Hv) as [(k & a & w & L & S & ->)|(j & i & a & w & E & S & ->)].
    + cbv beta. rewrite (side_cop false k a w L S), (side_cop true k a w L S). exact (A k w a L S).
    + cbv beta. rewrite (side_step false j i a w E S), (side_step true j i a w E S). specialize (B j i w a E S). destruct fixed; [rewrite B; lra|exact B].
Qed.
Lemma side_ordered v : (forall w a, In w states -> lower_bound (wb_cop w) a <= upper_bound (wb_cop w) a /\ lower_bound (wb_fd w) a <= upper_bound (wb_fd w) a) ->
  (v < 2 * N + 2 * length steps)%nat -> side false v <= side true v.
Proof.
  intros O Hv. destruct (variable v Hv) as [(k & a & w & L & S & ->)|(j & i & a & w & E & S & ->)]; pose proof (O w a (state_bounds_in _ _ _ _ S)) as [O1 O2].
  - cbv beta. rewrite (side_cop false k a w L S), (side_cop true k a w L S). exact O1.
  - cbv beta. rewrite (side_step false j i a w E S), (side_step true j i a w E S). destruct fixed; [lra|exact O2].
Qed.
Definition below (b : m2) : Prop := forall a, - g_infinity <= lower_bound b a /\ upper_bound b a <= g_infinity /\ lower_bound b a <= upper_bound b a.
Lemma side_below v : (forall k w, (k < N)%nat -> state_bounds index states k = Some w -> below (wb_cop w) /\ below (wb_fd w)) ->
  (v < 2 * N + 2 * length steps)%nat -> - g_infinity <= side false v /\ side true v <= g_infinity.
Proof.
  intros O Hv. destruct (variable v Hv) as [(k & a & w & L & S & ->)|(j & i & a & w & E & S & ->)].
  - cbv beta. rewrite (side_cop false k a w L S), (side_cop true k a w L S). destruct (O k w L S) as [O1 _]. specialize (O1 a). cbn [bound_of]. lra.
  - cbv beta. rewrite (side_step false j i a w E S), (side_step true j i a w E S). destruct (O i w (Fo i (nth_error_In _ _ E)) S) as [_ O1]. specialize (O1 a).
    pose proof (fixed_step_within w a ltac:(lra)) as Q. unfold within in Q. destruct fixed; cbn [bound_of]; lra.
Qed.
End Box.
