(** * C100: an example of a loop which reaches a reference configuration *)
From Coq Require Import String List Reals Arith Lra Lia Bool ZArith.
From Verif Require Import Base BaseFacts RSum Matrix Mat3 ConstraintType Constraints ConstraintsSpec ConstraintsFacts Solution Condense SpatialTransform PepperMpc PepperTasksSpec
  RotarySpec Rotary RotaryFacts Euler EulerSpec EulerFacts Rbdl RbdlSpec RbdlFacts RbdlComFacts PepperIk PepperIkSpec PepperIkFacts PepperIkExample PepperIkTasks PepperIkTasksSpec PepperIkTasksFacts
  PepperIkCommandFacts PepperIkMotion PepperIkTasksExample PepperIkLoop PepperIkLoopSpec PepperIkLoopFacts PepperIkLoopRun PepperIkLoopWitness.
Import ListNotations.
Local Open Scope R_scope.

(** the head turns by half of the remaining angle in each iteration *)
Definition ex_halves (turn : R) (k : nat) : solution := ex_turn (1 / 2 * (1 / 2) ^ k * turn).
Definition ex_reference (turn : R) : list R := update (gc_joints (gc_default (fun _ => 0) ROOT_PLANAR)) 3 (rest_angle HeadYaw + turn).
Lemma ex_reference_angle turn j : angle_in ROOT_PLANAR (ex_reference turn) j = rest_angle j + match j with HeadYaw => turn | _ => 0 end.
Proof.
  pose proof (fun j => proj1 (proj2 (ik_default (fun _ => 0) ROOT_PLANAR j))) as D. pose proof (D j) as DJ. clear D. unfold angle, angle_in in *.
  unfold ex_reference. destruct j; cbn in DJ |- *; lra.
Qed.
Lemma halves_sum turn k : Rsum k (fun i => 1 / 2 * (1 / 2) ^ i * turn) = (1 - (1 / 2) ^ k) * turn.
Proof. induction k as [|k IH]; cbn [Rsum pow]; [ring|]. rewrite IH. field. Qed.
Lemma halves_angle eig m w mp turn st k : reachable eig ROOT_PLANAR ex_pepper m -> (forall j, angle ROOT_PLANAR (ik_gc m) j = rest_angle j) ->
  states ROOT_PLANAR ex_pepper mp (ex_halves turn) (mkIkloop m w) st ->
  forall j, angle ROOT_PLANAR (ik_gc (lk_model (st k))) j = rest_angle j + match j with HeadYaw => (1 - (1 / 2) ^ k) * turn | _ => 0 end.
Proof.
  intros RC REST ST. destruct (states_exist eig ROOT_PLANAR ex_pepper mp (ex_halves turn) (mkIkloop m w) pepper_kinematics RC (fun k => ex_turn_answers _)) as (ST' & P).
  rewrite (states_unique _ _ _ _ _ _ _ ST ST'). destruct (P k) as (R1 & _ & V).
  destruct (reachable_good eig ROOT_PLANAR ex_pepper _ pepper_kinematics R1) as (f1 & _ & ((SZ & _) & _)). destruct (reachable_good eig ROOT_PLANAR ex_pepper _ pepper_kinematics RC) as (f2 & _ & ((SZ0 & _) & _)).
  set (s' := st_of _ _ _ _ _ k) in *. unfold configuration in V. cbn [lk_model] in V.
  assert (SUM : forall i, (i < 18)%nat -> Rsum k (fun j => nth i (sol_x (ex_halves turn j)) 0) = if (i =? 6)%nat then (1 - (1 / 2) ^ k) * turn else 0).
  { intros i Hi. rewrite <- halves_sum. destruct (i =? 6)%nat eqn:E; [|apply Rsum_zero; intros q _]; [apply Rsum_ext; intros q _|]; unfold ex_halves; rewrite ex_turn_x by exact Hi; rewrite E; reflexivity. }
  intros j. pose proof (joint_id_lt ROOT_PLANAR j) as JL. specialize (V (3 + joint_id ROOT_PLANAR j)%nat ltac:(unfold DOF_NUMBER; cbn [ROOT_DOF_NUMBER]; lia)).
  rewrite SUM in V by (unfold JOINTS_DOF_NUMBER in JL; lia). unfold asVector in V. rewrite !app_nth2 in V by (rewrite ?(proj1 SZ), ?(proj1 SZ0); cbn [ROOT_DOF_NUMBER]; lia).
  rewrite (proj1 SZ), (proj1 SZ0) in V. cbn [ROOT_DOF_NUMBER] in V. replace (3 + joint_id ROOT_PLANAR j - 3)%nat with (joint_id ROOT_PLANAR j) in V by lia.
  unfold angle, angle_in. rewrite V. pose proof (REST j) as RJ. unfold angle, angle_in in RJ. rewrite RJ. f_equal. destruct j; reflexivity.
Qed.
Lemma halves_obey eig m w mp turn st : reachable eig ROOT_PLANAR ex_pepper m -> (forall j, angle ROOT_PLANAR (ik_gc m) j = rest_angle j) ->
  states ROOT_PLANAR ex_pepper mp (ex_halves turn) (mkIkloop m w) st ->
  (forall k, answers ROOT_PLANAR (ex_halves turn k)) /\ length (ex_reference turn) = JOINTS_DOF_NUMBER /\
  (forall k, obeys_reference ROOT_PLANAR 1 (1 / 2) (ex_reference turn) mp (st k) (ex_halves turn k)) /\
  (forall k i, (i < ROOT_DOF_NUMBER ROOT_PLANAR)%nat -> nth i (sol_x (ex_halves turn k)) 0 = 0) /\
  (turn = 0.1 -> first_small 1e-2 (ex_halves turn) 3 /\
     forall maximum, (3 < maximum)%nat -> ik_iterations ROOT_PLANAR ex_pepper 1e-2 mp (ex_halves turn) maximum 0 (mkIkloop m w) = Ok (4%nat, st 4%nat)).
Proof.
  intros RC REST ST. assert (AN : forall k, answers ROOT_PLANAR (ex_halves turn k)) by (intros k; apply ex_turn_answers). split; [exact AN|]. split; [reflexivity|]. split; [|split].
  - intros k. apply (reference_step eig ROOT_PLANAR ex_pepper mp (ex_halves turn) (mkIkloop m w) st 1 (1 / 2) (ex_reference turn) k pepper_kinematics RC AN ST eq_refl ltac:(lra)).
    intros j. rewrite !(halves_angle eig m w mp turn st _ RC REST ST), ex_reference_angle. destruct j; cbn [pow]; try ring. field.
  - intros k i Hi. cbn in Hi. unfold ex_halves. rewrite ex_turn_x by lia. destruct i as [|[|[|]]]; [reflexivity..|lia].
  - intros ->. assert (F : first_small 1e-2 (ex_halves 0.1) 3).
    { split.
      - apply (proj2 (ex_turn_small _ 1e-2 ltac:(lra))). rewrite Rabs_pos_eq; cbn [pow]; lra.
      - intros k Hk S. apply (proj1 (ex_turn_small _ 1e-2 ltac:(lra))) in S. revert S. destruct k as [|[|[|]]]; [| | |lia]; rewrite Rabs_pos_eq; cbn [pow]; lra. }
    split; [exact F|]. intros maximum HM.
    destruct (iterations_outcome ROOT_PLANAR ex_pepper 1e-2 mp (ex_halves 0.1) (mkIkloop m w) st AN ST maximum 0) as [(n' & Hn & A & B & C)|(A & _)]; [|destruct (A 3%nat ltac:(lia) (proj1 F))].
    destruct ST as (S0 & _). rewrite S0 in C.
    assert (n' = 3%nat) as -> by (destruct (Nat.lt_trichotomy n' 3) as [L|[L|L]]; [destruct (proj2 F n' L A)|exact L|destruct (B 3%nat ltac:(lia) (proj1 F))]). exact C.
Qed.
