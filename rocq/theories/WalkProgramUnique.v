(** * The walking program: the minimum is unique, the run does not depend on the library *)
From Coq Require Import String List Reals Arith Bool ZArith Lra Lia Sorting.Sorted.
From Verif Require Import Base BaseFacts RSum Matrix Mat2 Mat3 ActiveSet Mixins ConstraintType HierarchyLevel HierarchySpec Constraints ConstraintsSpec QP QPSpec Problem ProblemSpec LeftRight FootParameters FootTrajectory
  PointMass6z PointMass6zSpec PointMass6zFacts Solution Task MpcGuess MpcGuessFacts PepperTasksSpec StanceFSM StanceSpec StanceFSMFacts StanceFSMFacts2 StanceTimeFacts WalkPreview WalkPreviewSpec WalkPreviewFacts WalkMpc WalkModel WalkModelSpec WalkProfiles WalkProfilesSpec WalkProfilesFacts2 WalkTasks WalkTasksSpec WalkTasksFacts2
  QpoasesBridge QpoasesBridgeSpec Backends BackendsSpec Solver SolverLife SolverLifeSpec SolverLifeFacts WalkLoop WalkLoopSpec WalkPreviewFacts2 WalkMpcFacts WalkLoopFacts WalkLoopFacts2 WalkLoopFacts3 WalkLoopFacts6 WalkLoopFacts10
  WalkProgram WalkProgramSpec WalkProgramFacts WalkProgramFacts2 WalkProgramFacts3 WalkProgramFacts4 WalkProgramFacts5 WalkProgramFacts6 WalkProgramFacts7.
Import ListNotations.
Local Open Scope R_scope.

(** ** two minima of a sum of squares *)
Lemma Rsum_all_zero n f : (forall i, (i < n)%nat -> 0 <= f i) -> Rsum n f = 0 -> forall i, (i < n)%nat -> f i = 0.
Proof.
  induction n as [|n IH]; intros P S i L; [lia|]. cbn [Rsum] in S. pose proof (P n ltac:(lia)). pose proof (Rsum_nonneg n f ltac:(intros; apply P; lia)).
  destruct (Nat.eq_dec i n) as [-> |D]; [lra|]. apply IH; [intros; apply P; lia|lra|lia].
Qed.
Definition six (q : axis -> nat -> R) : R := (Rsqr (q AxisX 0%nat) + Rsqr (q AxisY 0%nat)) + (Rsqr (q AxisX 1%nat) + Rsqr (q AxisY 1%nat)) + (Rsqr (q AxisX 2%nat) + Rsqr (q AxisY 2%nat)).
Lemma six_nonneg q : 0 <= six q.
Proof. unfold six. pose proof (Rle_0_sqr (q AxisX 0%nat)). pose proof (Rle_0_sqr (q AxisY 0%nat)). pose proof (Rle_0_sqr (q AxisX 1%nat)). pose proof (Rle_0_sqr (q AxisY 1%nat)). pose proof (Rle_0_sqr (q AxisX 2%nat)). pose proof (Rle_0_sqr (q AxisY 2%nat)). lra. Qed.
Lemma six_zero q : six q = 0 -> forall a i, (i < 3)%nat -> q a i = 0.
Proof.
  unfold six. pose proof (Rle_0_sqr (q AxisX 0%nat)). pose proof (Rle_0_sqr (q AxisY 0%nat)). pose proof (Rle_0_sqr (q AxisX 1%nat)). pose proof (Rle_0_sqr (q AxisY 1%nat)). pose proof (Rle_0_sqr (q AxisX 2%nat)). pose proof (Rle_0_sqr (q AxisY 2%nat)).
  intros E a i L. apply Rsqr_0_uniq. destruct i as [|[|[|i]]]; [| | |lia]; destruct a; lra.
Qed.
Lemma middle N (q1 q2 qm : nat -> axis -> nat -> R) : (forall k a i, (k < N)%nat -> (i < 3)%nat -> qm k a i = (q1 k a i + q2 k a i) / 2) ->
  Rsum N (fun k => six (q1 k)) <= Rsum N (fun k => six (qm k)) -> Rsum N (fun k => six (q2 k)) <= Rsum N (fun k => six (qm k)) ->
  forall k a i, (k < N)%nat -> (i < 3)%nat -> q1 k a i = q2 k a i.
Proof.
  intros M L1 L2. set (d := fun k a i => q1 k a i - q2 k a i).
  assert (E : Rsum N (fun k => six (qm k)) = (Rsum N (fun k => six (q1 k)) + Rsum N (fun k => six (q2 k))) / 2 - Rsum N (fun k => six (d k)) / 4).
  { rewrite <- Rsum_plus. unfold Rdiv. rewrite <- !Rsum_scal_r.
    assert (X : forall f g, Rsum N (fun k => f k - g k) = Rsum N f - Rsum N g).
    { intros f g. clear. induction N as [|n IH]; cbn [Rsum]; [ring|]. rewrite IH. ring. }
    rewrite <- X. apply Rsum_ext. intros k Hk. unfold six, d. rewrite !(M k) by lia. unfold Rsqr. field. }
  assert (P : forall k, (k < N)%nat -> 0 <= six (d k)) by (intros; apply six_nonneg). pose proof (Rsum_nonneg N _ P).
  assert (Z : Rsum N (fun k => six (d k)) = 0) by lra. intros k a i Hk Hi. pose proof (six_zero _ (Rsum_all_zero N _ P Z k Hk) a i Hi). unfold d in *. lra.
Qed.

(** ** the CoP and the steps are found from the velocity of the CoP and from its position with respect to the support *)
Lemma from_frame_inj th x y x' y' : (forall a, from_frame (rot2 th) x y a = from_frame (rot2 th) x' y' a) -> x = x' /\ y = y'.
Proof.
  intros E. pose proof (frame_id th x y (fun a => from_frame (rot2 th) x y a)) as A. pose proof (frame_id th x' y' (fun a => from_frame (rot2 th) x y a)) as B. split.
  - rewrite <- (A AxisX ltac:(reflexivity)). apply (B AxisX). exact E.
  - rewrite <- (A AxisY ltac:(reflexivity)). apply (B AxisY). exact E.
Qed.
Lemma strictly_nth l j : StronglySorted lt l -> (j + 1 < length l)%nat -> (nth j l 0 < nth (j + 1) l 0)%nat.
Proof.
  intros H. revert j. induction H as [|a l H IH F]; intros j L; [cbn in L; lia|]. cbn [length] in L. destruct j as [|j].
  - cbn [Nat.add nth]. rewrite Forall_forall in F. apply F. apply nth_In. lia.
  - cbn [Nat.add nth]. apply IH. lia.
Qed.
Lemma made_at l j : StronglySorted lt l -> (j < length l)%nat -> steps_made l (nth j l 0%nat) = (j + 1)%nat.
Proof.
  intros H L. pose proof (sorted_lt_le _ H) as H'. pose proof (proj1 (steps_made_iff l (nth j l 0%nat) j H' L) (Nat.le_refl _)). pose proof (steps_made_le l (nth j l 0%nat)).
  destruct (Nat.le_gt_cases (steps_made l (nth j l 0%nat)) (j + 1)) as [C|C]; [lia|exfalso].
  pose proof (proj2 (steps_made_iff l (nth j l 0%nat) (j + 1) H' ltac:(lia)) C). pose proof (strictly_nth l j H ltac:(lia)). lia.
Qed.
Section Unique.
Variables (junk : nat -> nat -> nat -> R) (N : nat) (iv : list walk_interval) (Rhs : list m2) (steps : list nat) (Rs : list m2) (support cstate : vec) (H : R) (M : walk_matrices).
Notation solved := (walk_solved junk N iv Rhs steps Rs support cstate).
Hypothesis (HI : forall v, In v iv -> wi_height v = H) (LI : length iv = N) (SS : StronglySorted lt steps) (BE : forall s, In s steps -> (s < N)%nat).
Hypothesis (RO : forall j, (j < length steps)%nat -> exists th, nth j Rs m2id = rot2 th).

Lemma rates_determine sol1 p1 sol2 p2 : solved sol1 M p1 -> solved sol2 M p2 ->
  (forall k a, (k < N)%nat -> vget (wp_dcop p1) (2 * k + axis_index a) = vget (wp_dcop p2) (2 * k + axis_index a)) ->
  forall k a, (k < N)%nat -> commanded_cop N steps Rs Rhs support sol1 k a = commanded_cop N steps Rs Rhs support sol2 k a.
Proof.
  intros S1 S2 D k a. assert (G0 : gravity <> 0) by (unfold gravity; lra).
  assert (X : forall k v k0, nth_error iv k = Some v -> is_cop H (state_of (cstate_at cstate p1 k) H) a k0 -> is_cop H (state_of (cstate_at cstate p2 k) H) a k0 ->
    commanded_cop N steps Rs Rhs support sol1 k a = commanded_cop N steps Rs Rhs support sol2 k a).
  { intros j v k0 V C1 C2. pose proof (HI v (nth_error_In _ _ V)) as Ev. destruct (formed_interval _ _ _ _ _ _ _ _ _ (proj1 S1) V) as (Hj & HT & _ & _).
    pose proof (walk_rate _ _ _ _ _ _ _ _ _ _ _ j v a k0 S1 V ltac:(rewrite Ev; exact C1)) as E1. pose proof (walk_rate _ _ _ _ _ _ _ _ _ _ _ j v a k0 S2 V ltac:(rewrite Ev; exact C2)) as E2.
    rewrite (D j a Hj), E2 in E1. apply (Rmult_eq_compat_r (wi_T v)) in E1. unfold Rdiv in E1. rewrite !Rmult_assoc, Rinv_l, !Rmult_1_r in E1 by exact HT. lra. }
  induction k as [|k IH]; intros L.
  - destruct (nth_error iv 0) as [v|] eqn:V; [|apply nth_error_None in V; lia].
    set (k0 := along a (pm_position (state_of cstate H)) - H * along a (pm_acceleration (state_of cstate H)) / gravity).
    assert (K : is_cop H (state_of cstate H) a k0) by (unfold is_cop, k0; field; exact G0). apply (X 0%nat v k0 V); exact K.
  - specialize (IH ltac:(lia)). destruct (nth_error iv (S k)) as [v|] eqn:V; [|apply nth_error_None in V; lia]. destruct (nth_error iv k) as [u|] eqn:U; [|apply nth_error_None in U; lia].
    pose proof (HI u (nth_error_In _ _ U)) as Eu. pose proof (walk_is_cop _ _ _ _ _ _ _ _ _ _ _ k u a S1 U) as C1. pose proof (walk_is_cop _ _ _ _ _ _ _ _ _ _ _ k u a S2 U) as C2.
    rewrite Eu in C1, C2. replace (k + 1)%nat with (S k) in C1, C2 by lia. rewrite <- IH in C2. exact (X (S k) v _ V C1 C2).
Qed.
Lemma supports_determine sol1 sol2 : (forall k a, (k < N)%nat -> cop_local sol1 k a = cop_local sol2 k a) ->
  (forall k a, (k < N)%nat -> commanded_cop N steps Rs Rhs support sol1 k a = commanded_cop N steps Rs Rhs support sol2 k a) ->
  forall j a, (j < length steps)%nat -> step_local N sol1 j a = step_local N sol2 j a.
Proof.
  intros C D. assert (A : forall j a, (j <= length steps)%nat -> support_after N Rs support sol1 j a = support_after N Rs support sol2 j a).
  { intros j a L. destruct j as [|j]; [reflexivity|]. pose proof (made_at steps j SS ltac:(lia)) as Ma. pose proof (BE _ (nth_In steps 0%nat (n := j) ltac:(lia))) as B.
    specialize (D (nth j steps 0%nat) a B). unfold commanded_cop in D. rewrite Ma in D. rewrite !(C _ _ B) in D. replace (S j) with (j + 1)%nat by lia. lra. }
  intros j a L. destruct (RO j L) as (th & E).
  assert (F : forall b, from_frame (rot2 th) (step_local N sol1 j AxisX) (step_local N sol1 j AxisY) b = from_frame (rot2 th) (step_local N sol2 j AxisX) (step_local N sol2 j AxisY) b).
  { intros b. pose proof (A (S j) b ltac:(lia)) as X. cbn [support_after] in X. rewrite (A j b) in X by lia. rewrite E in X. lra. }
  destruct (from_frame_inj _ _ _ _ _ F). destruct a; assumption.
Qed.
End Unique.
Lemma solution_equal N n sol1 sol2 : fitting N n sol1 -> fitting N n sol2 -> (forall k a, (k < N)%nat -> cop_local sol1 k a = cop_local sol2 k a) ->
  (forall j a, (j < n)%nat -> step_local N sol1 j a = step_local N sol2 j a) -> sol1 = sol2.
Proof.
  intros [E1 L1] [E2 L2] C S. destruct sol1 as [t1 x1], sol2 as [t2 x2]. cbn [sol_structure sol_x] in *. subst t1 t2. f_equal.
  apply (nth_ext x1 x2 0 0); [congruence|]. intros i Hi. rewrite L1 in Hi. unfold cop_local, step_local in C, S. cbn [sol_x] in C, S.
  assert (D : exists q r, i = (2 * q + r)%nat /\ (r < 2)%nat) by (exists (i / 2)%nat, (i mod 2)%nat; split; [apply Nat.div_mod; lia|apply Nat.mod_upper_bound; lia]).
  destruct D as (q & r & -> & Hr). destruct (Nat.lt_ge_cases q N) as [Q|Q].
  - destruct r as [|[|r]]; [exact (C q AxisX Q)|exact (C q AxisY Q)|lia].
  - replace (2 * q + r)%nat with (2 * N + 2 * (q - N) + r)%nat by lia. destruct r as [|[|r]]; [exact (S (q - N)%nat AxisX ltac:(lia))|exact (S (q - N)%nat AxisY ltac:(lia))|lia].
Qed.

(** ** the solution in the middle of two others *)
Definition midpoint (N n : nat) (sol1 sol2 : solution) : solution := as_solution N n (fun j => (point sol1 j + point sol2 j) / 2).
Lemma midpoint_point N n sol1 sol2 j : fitting N n sol1 -> fitting N n sol2 -> point (midpoint N n sol1 sol2) j = (point sol1 j + point sol2 j) / 2.
Proof.
  intros [_ L1] [_ L2]. destruct (Nat.lt_ge_cases j (2 * N + 2 * n)) as [L|L]; [apply as_point; exact L|].
  assert (Z : forall s, length (sol_x s) = (2 * N + 2 * n)%nat -> point s j = 0) by (intros s E; unfold point; apply nth_overflow; lia).
  rewrite !Z by solve [assumption | apply as_length]. field.
Qed.
Lemma residual_mid c i x y z r s t : (forall j, z j = (x j + y j) / 2) -> PepperTasksSpec.residual c i x r -> PepperTasksSpec.residual c i y s -> PepperTasksSpec.residual c i z t -> t = (r + s) / 2.
Proof.
  intros Z (b & B1 & _ & <-) (b' & B2 & _ & <-) (b'' & B3 & _ & <-). rewrite B1 in B2, B3. injection B2 as <-. injection B3 as <-.
  assert (E : row_value c i z = (row_value c i x + row_value c i y) / 2).
  { unfold row_value, Rdiv. rewrite <- Rsum_plus, <- Rsum_scal_r. apply Rsum_ext. intros j Hj. rewrite Z. field. }
  rewrite E. field.
Qed.
Lemma admissible_mid nan se N h sol1 sol2 : fitting N (length (h_steps h)) sol1 -> fitting N (length (h_steps h)) sol2 ->
  admissible nan se N h sol1 -> admissible nan se N h sol2 -> admissible nan se N h (midpoint N (length (h_steps h)) sol1 sol2).
Proof.
  intros F1 F2 [A1 B1] [A2 B2]. split.
  - intros k w a L S. specialize (A1 k w a L S). specialize (A2 k w a L S). pose proof (midpoint_point N _ sol1 sol2 (2 * k + axis_index a) F1 F2) as E.
    change (cop_local (midpoint N (length (h_steps h)) sol1 sol2) k a = (cop_local sol1 k a + cop_local sol2 k a) / 2) in E. rewrite E. unfold within in *. lra.
  - intros j k w a L S. specialize (B1 j k w a L S). specialize (B2 j k w a L S). pose proof (midpoint_point N _ sol1 sol2 (2 * N + 2 * j + axis_index a) F1 F2) as E.
    change (step_local N (midpoint N (length (h_steps h)) sol1 sol2) j a = (step_local N sol1 j a + step_local N sol2 j a) / 2) in E. rewrite E. destruct (se_fixed se); [|unfold within in *]; lra.
Qed.
Definition terms (se : settings) (centering : R) (h : horizon) (H : R) (cstate : vec) (sol : solution) (pf : walk_profiles) (k : nat) (a : axis) (i : nat) : R :=
  match nth_error (intervals_of h H) k, nth_error (references_of (se_velocities se) h) k with
  | Some v, Some r => match i with
      | O => se_comvel se * (com_velocity cstate pf k v a - component r a)
      | 1%nat => se_copvel se * vget (wp_dcop pf) (2 * k + axis_index a)
      | _ => centering * cop_local sol k a
      end
  | _, _ => 0
  end.
Lemma cost_terms se centering N h H cstate sol pf : cost_of se centering N h H cstate sol pf = Rsum N (fun k => six (terms se centering h H cstate sol pf k)).
Proof.
  unfold cost_of. apply Rsum_ext. intros k _. unfold six, terms. destruct (nth_error (intervals_of h H) k); [|unfold Rsqr; ring]. destruct (nth_error (references_of (se_velocities se) h) k); [reflexivity|unfold Rsqr; ring].
Qed.
Lemma rotations_are h rs : form_rotations h = Ok rs -> length rs = length (h_steps h) -> forall j, (j < length (h_steps h))%nat -> exists th, nth j (step_rotations h rs) m2id = rot2 th.
Proof.
  intros F L j Hj. unfold form_rotations in F. unfold assert_then in F. destruct (_ <=? _)%nat; [|discriminate F]. injection F as F.
  unfold step_rotations. destruct (nth_error rs j) as [k|] eqn:E; [|apply nth_error_None in E; lia].
  assert (I : In k rs) by (eapply nth_error_In; exact E). rewrite <- F in I. unfold rotation_states in I. apply filter_In in I. destruct I as [I1 I2].
  destruct (nth_error (h_states h) k) as [w|] eqn:W; [|discriminate I2]. exists (ws_theta w). apply nth_error_nth. rewrite nth_error_map.
  replace (nth_error (seq 0 (length (h_steps h))) j) with (Some j).
  - cbn [option_map]. rewrite E. unfold rotation_of. rewrite W. reflexivity.
  - symmetry. rewrite (nth_error_nth' _ 0%nat) by (rewrite seq_length; exact Hj). rewrite seq_nth by exact Hj. reflexivity.
Qed.
Lemma minimum_unique fuel junk nan se centering mp ly ry inc fs h H rs support cstate M sol1 p1 sol2 p2 :
  form fuel mp ly ry inc fs = Finished (Ok (Some h)) -> (Z.of_nat (6 * horizon_length mp) < 2 ^ 53)%Z -> form_rotations h = Ok rs -> length rs = length (h_steps h) ->
  let solved := walk_solved junk (horizon_length mp) (intervals_of h H) (interval_rotations h) (h_steps h) (step_rotations h rs) support cstate in
  solved sol1 M p1 -> solved sol2 M p2 -> admissible nan se (horizon_length mp) h sol1 -> admissible nan se (horizon_length mp) h sol2 -> se_copvel se <> 0%R -> centering <> 0%R ->
  (forall sol', fitting (horizon_length mp) (length (h_steps h)) sol' -> exists pf', solved sol' M pf') ->
  (forall sol' pf', solved sol' M pf' -> admissible nan se (horizon_length mp) h sol' ->
     cost_of se centering (horizon_length mp) h H cstate sol1 p1 <= cost_of se centering (horizon_length mp) h H cstate sol' pf' /\
     cost_of se centering (horizon_length mp) h H cstate sol2 p2 <= cost_of se centering (horizon_length mp) h H cstate sol' pf') ->
  sol1 = sol2.
Proof.
  intros F H53 Ro Lr solved S1 S2 A1 A2 G1 G2 So Mi. set (N := horizon_length mp) in *. set (n := length (h_steps h)) in *.
  assert (F1 : fitting N n sol1) by (split; apply S1). assert (F2 : fitting N n sol2) by (split; apply S2).
  assert (LI : length (intervals_of h H) = N) by (unfold intervals_of; rewrite map_length; exact (intervals_length _ _ _ _ _ _ _ F)).
  assert (LR : length (references_of (se_velocities se) h) = N) by (unfold references_of; rewrite map_length; exact (intervals_length _ _ _ _ _ _ _ F)).
  destruct (So (midpoint N n sol1 sol2) (as_fitting N n _)) as (pm & Sm). pose proof (admissible_mid nan se N h sol1 sol2 F1 F2 A1 A2) as Am.
  destruct (Mi _ _ Sm Am) as (M1 & M2). rewrite !cost_terms in M1, M2.
  assert (Zp : forall j, point (midpoint N n sol1 sol2) j = (point sol1 j + point sol2 j) / 2) by (intros j; apply midpoint_point; assumption).
  assert (T : forall k a i, (k < N)%nat -> (i < 3)%nat -> terms se centering h H cstate sol1 p1 k a i = terms se centering h H cstate sol2 p2 k a i).
  { apply (middle N _ _ (terms se centering h H cstate (midpoint N n sol1 sol2) pm)); [|exact M1|exact M2]. intros k a i Hk Hi. unfold terms.
    destruct (nth_error (intervals_of h H) k) as [v|] eqn:Ev; [|apply nth_error_None in Ev; lia]. destruct (nth_error (references_of (se_velocities se) h) k) as [r|] eqn:Er; [|apply nth_error_None in Er; lia].
    destruct i as [|[|[|i]]]; [| | |lia].
    - destruct (task_com_velocity _ _ _ _ _ _ _ _ _ _ _ (fun _ _ => 0) (se_comvel se) (references_of (se_velocities se) h) S1 H53 LR) as (c & C1 & _ & R1).
      destruct (task_com_velocity _ _ _ _ _ _ _ _ _ _ _ (fun _ _ => 0) (se_comvel se) (references_of (se_velocities se) h) S2 H53 LR) as (c' & C2 & _ & R2).
      destruct (task_com_velocity _ _ _ _ _ _ _ _ _ _ _ (fun _ _ => 0) (se_comvel se) (references_of (se_velocities se) h) Sm H53 LR) as (c'' & C3 & _ & R3).
      rewrite C1 in C2, C3. injection C2 as <-. injection C3 as <-. exact (residual_mid _ _ _ _ _ _ _ _ Zp (R1 k v r a Ev Er) (R2 k v r a Ev Er) (R3 k v r a Ev Er)).
    - destruct (task_cop_velocity _ _ _ _ _ _ _ _ _ _ _ (fun _ _ => 0) (se_copvel se) S1) as (c & C1 & _ & R1).
      destruct (task_cop_velocity _ _ _ _ _ _ _ _ _ _ _ (fun _ _ => 0) (se_copvel se) S2) as (c' & C2 & _ & R2). destruct (task_cop_velocity _ _ _ _ _ _ _ _ _ _ _ (fun _ _ => 0) (se_copvel se) Sm) as (c'' & C3 & _ & R3).
      rewrite C1 in C2, C3. injection C2 as <-. injection C3 as <-. exact (residual_mid _ _ _ _ _ _ _ _ Zp (R1 k a Hk) (R2 k a Hk) (R3 k a Hk)).
    - pose proof (Zp (2 * k + axis_index a)%nat) as E. change (cop_local (midpoint N n sol1 sol2) k a = (cop_local sol1 k a + cop_local sol2 k a) / 2) in E. rewrite E. field. }
  assert (C : forall k a, (k < N)%nat -> cop_local sol1 k a = cop_local sol2 k a).
  { intros k a Hk. specialize (T k a 2%nat Hk ltac:(lia)). unfold terms in T.
    destruct (nth_error (intervals_of h H) k) as [v|] eqn:Ev; [|apply nth_error_None in Ev; lia]. destruct (nth_error (references_of (se_velocities se) h) k) as [r|] eqn:Er; [|apply nth_error_None in Er; lia].
    exact (Rmult_eq_reg_l _ _ _ T G2). }
  assert (D : forall k a, (k < N)%nat -> vget (wp_dcop p1) (2 * k + axis_index a) = vget (wp_dcop p2) (2 * k + axis_index a)).
  { intros k a Hk. specialize (T k a 1%nat Hk ltac:(lia)). unfold terms in T.
    destruct (nth_error (intervals_of h H) k) as [v|] eqn:Ev; [|apply nth_error_None in Ev; lia]. destruct (nth_error (references_of (se_velocities se) h) k) as [r|] eqn:Er; [|apply nth_error_None in Er; lia].
    exact (Rmult_eq_reg_l _ _ _ T G1). }
  destruct (form_filled _ _ _ _ _ _ _ F) as ((_ & _ & SS & _ & _) & _). pose proof (steps_below _ _ _ _ _ _ _ F) as Fo.
  apply (solution_equal N n); [exact F1|exact F2|exact C|].
  apply (supports_determine N (intervals_of h H) (interval_rotations h) (h_steps h) (step_rotations h rs) support LI SS Fo (rotations_are h rs Ro Lr) sol1 sol2 C).
  apply (rates_determine junk N (intervals_of h H) (interval_rotations h) (h_steps h) (step_rotations h rs) support cstate H M) with (p1 := p1) (p2 := p2); try assumption.
  intros v I. unfold intervals_of in I. apply in_map_iff in I. destruct I as (o & <- & _). reflexivity.
Qed.

(** ** the run is determined *)
Lemma step_determined p s0 fuel junk nan se hs pr par par' centering details details' w w' s s' es es' n x x' y y' : (stances_left (wl_fsm s0) + 1 <= fuel)%nat ->
  launched p s0 pr se par centering details w s -> launched p s0 pr (with_start se hs) par' centering details' w' s' -> understood fuel junk nan se es s -> understood fuel junk nan (with_start se hs) es' s' -> pr_crash par = true -> pr_crash par' = true ->
  library_is sound_answer fuel junk nan se es s -> library_is sound_answer fuel junk nan (with_start se hs) es' s' -> se_copvel se <> 0%R -> centering <> 0%R ->
  steps_to fuel junk nan se es s n x x' -> steps_to fuel junk nan (with_start se hs) es' s' n y y' -> pg_loop x = pg_loop y -> pg_loop x' = pg_loop y' /\ last_solution x' = last_solution y'.
Proof.
  intros FU La La' Un Un' Cr Cr' Li Li' G1 G2 St St' E. pose proof La as (Reg & Sta & H53 & _).
  destruct (stepped p s0 fuel junk nan se pr par centering details w s FU La es Un n x x' St) as (Gx & _ & g & f & q & so & h & rs & M & l0 & l1 & t & k & pf & P & _ & _ & _ & _ & C & Fi & Gw & _ & _ & Ws & _).
  destruct (stepped p s0 fuel junk nan (with_start se hs) pr par' centering details' w' s' FU La' es' Un' n y y' St') as (_ & _ & g' & f' & q' & so' & h' & rs' & M' & l0' & l1' & t' & k' & pf' & P' & _ & _ & _ & _ & C' & Fi' & Gw' & _ & _ & Ws' & _).
  change (se_inc (with_start se hs)) with (se_inc se) in C'.
  destruct P as (_ & _ & _ & _ & F & Ro & So & _). destruct P' as (_ & _ & _ & _ & F' & Ro' & _). change (se_inc (with_start se hs)) with (se_inc se) in F'. rewrite <- E in F', C', Ws'. rewrite F in F'. injection F' as <-. rewrite Ro in Ro'. injection Ro' as <-.
  assert (M' = M). { destruct Ws as (_ & _ & _ & X & _). destruct Ws' as (_ & _ & _ & X' & _). congruence. } subst M'.
  pose proof (i_height _ _ _ _ _ _ _ (go_loop _ _ _ _ _ _ _ _ _ _ _ Gx)) as EH.
  destruct (sound_optimal p s0 fuel junk nan se pr par centering details w s es FU La Un n x x' Cr Li St) as (_ & A1 & _ & O1).
  destruct (sound_optimal p s0 fuel junk nan (with_start se hs) pr par' centering details' w' s' es' FU La' Un' n y y' Cr' Li' St') as (_ & A2 & _ & O2). change (admissible nan (with_start se hs)) with (admissible nan se) in A2, O2. change (walk_cost (with_start se hs)) with (walk_cost se) in O2.
  rewrite Gw in A1, O1. rewrite Gw' in A2, O2. unfold fits_walk in O1, O2. cbn [wg_horizon wg_par wg_profiles] in A1, A2, O1, O2.
  assert (Q : last_solution x' = last_solution y').
  { apply (minimum_unique fuel junk nan se centering (wg_par (wl_wpg s0)) _ _ _ _ h (height_of (wl_model s0)) rs (support_of nan (wl_model (pg_loop x))) (cstate_of (wl_model (pg_loop x))) M _ pf _ pf' F H53 Ro); try assumption.
    - destruct Sta as (Ini & _ & _ & _ & HH). eapply all_rotations; [exact Reg|exact Ini|exact (go_loop _ _ _ _ _ _ _ _ _ _ _ Gx)|exact HH|exact F|exact Ro].
    - intros sol' qf K Ad. assert (Fs : fitting (horizon_length (wg_par (wl_wpg s0))) (length (h_steps h)) sol') by (split; apply K). split.
      + destruct (O1 sol' Fs Ad) as (_ & O1'). specialize (O1' qf). rewrite !walk_cost_is in O1'. unfold predicted in O1'. rewrite Gw in O1'. cbn [wg_horizon wg_par wg_matrices] in O1'. rewrite EH in O1'. apply O1'. exists rs. split; assumption.
      + destruct (O2 sol' Fs Ad) as (_ & O2'). specialize (O2' qf). rewrite !walk_cost_is in O2'. unfold predicted in O2'. rewrite Gw', <- E in O2'. cbn [wg_horizon wg_par wg_matrices] in O2'. rewrite EH in O2'. apply O2'. exists rs. split; assumption. }
  split; [|exact Q]. rewrite <- Q in C'. rewrite C in C'. injection C' as C'. exact C'.
Qed.
Theorem program_determined : forall p s0, exists F, forall fuel junk nan se hs pr par par' centering details details' w w' s s' es es', (F <= fuel)%nat ->
  launched p s0 pr se par centering details w s -> launched p s0 pr (with_start se hs) par' centering details' w' s' -> understood fuel junk nan se es s -> understood fuel junk nan (with_start se hs) es' s' -> pr_crash par = true -> pr_crash par' = true ->
  library_is sound_answer fuel junk nan se es s -> library_is sound_answer fuel junk nan (with_start se hs) es' s' -> se_copvel se <> 0%R -> centering <> 0%R ->
  forall n x y, pg_after fuel junk nan se es s n = Finished (Ok (Some x)) -> pg_after fuel junk nan (with_start se hs) es' s' n = Finished (Ok (Some y)) ->
  pg_loop x = pg_loop y /\ ((0 < n)%nat -> last_solution x = last_solution y).
Proof.
  intros p s0. exists (stances_left (wl_fsm s0) + 1)%nat. intros fuel junk nan se hs pr par par' centering details details' w w' s s' es es' FU La La' Un Un' Cr Cr' Li Li' G1 G2.
  induction n as [|n IH]; intros x' y' A B.
  - cbn [pg_after] in A, B. injection A as <-. injection B as <-. split; [|lia].
    destruct (start_good p s0 nan _ _ _ _ _ _ s La) as (_ & E & _). destruct (start_good p s0 nan _ _ _ _ _ _ s' La') as (_ & E' & _). congruence.
  - pose proof A as A'. pose proof B as B'. cbn [pg_after] in A, B. apply rbind_ok in A. destruct A as ([x|] & A & K1); [|discriminate K1]. apply rbind_ok in B. destruct B as ([y|] & B & K2); [|discriminate K2].
    destruct (IH x y A B) as (E & _).
    destruct (step_determined p s0 fuel junk nan se hs pr par par' centering details details' w w' s s' es es' n x x' y y' FU La La' Un Un' Cr Cr' Li Li' G1 G2 (conj A A') (conj B B') E) as (X & Y). split; [exact X|intros _; exact Y].
Qed.
