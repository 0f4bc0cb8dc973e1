(** * Proofs for C100: the loop stops when only the reference configuration has to be reached *)
From Coq Require Import String List Reals Arith Lra Lia Bool ZArith.
From Verif Require Import Base BaseFacts RSum Matrix Mat3 ConstraintType Constraints ConstraintsSpec ConstraintsFacts Solution Condense SpatialTransform PepperMpc PepperTasksSpec
  RotarySpec Rotary RotaryFacts Euler EulerSpec EulerFacts Rbdl RbdlSpec RbdlFacts RbdlComFacts PepperIk PepperIkSpec PepperIkFacts PepperIkTasks PepperIkTasksSpec PepperIkTasksFacts
  PepperIkCommandFacts PepperIkLoop PepperIkLoopSpec PepperIkLoopFacts.
Import ListNotations.
Local Open Scope R_scope.

Lemma first_exists f t sols N : (forall k, answers f (sols k)) -> small t (sols N) -> exists n, (n <= N)%nat /\ first_small t sols n.
Proof.
  intros AN. induction N as [N IH] using lt_wf_ind. intros S.
  assert (D : (exists k, (k < N)%nat /\ small t (sols k)) \/ forall k, (k < N)%nat -> ~ small t (sols k)).
  { clear IH S. induction N as [|N IH]; [right; intros k Hk; lia|]. destruct IH as [(k & Hk & S)|A]; [left; exists k; split; [lia|exact S]|].
    destruct (Rlt_dec (norm_inf (sol_x (sols N))) t) as [H|H]; rewrite (small_norm f _ t (AN N)) in H; [left; exists N; split; [lia|exact H]|].
    right. intros k Hk. destruct (Nat.eq_dec k N) as [-> |]; [exact H|apply A; lia]. }
  destruct D as [(k & Hk & S')|A]; [|exists N; split; [lia|split; assumption]].
  destruct (IH k Hk S') as (n & Hn & F). exists n. split; [lia|exact F].
Qed.
Theorem loop_converges (eig : m3 -> euler_type -> v3) (f : features) (fk : list R -> rb) (mp : motion_parameters) (sols : nat -> solution) (s : ikloop) (st : nat -> ikloop)
  (gain kp tolerance : R) (reference : list R) :
  kinematics f fk -> reachable eig f fk (lk_model s) -> (forall k, answers f (sols k)) -> states f fk mp sols s st ->
  length reference = JOINTS_DOF_NUMBER -> gain <> 0 -> 0 < kp < 2 -> 0 < tolerance ->
  (forall k, obeys_reference f gain kp reference mp (st k) (sols k)) -> (forall k i, (i < ROOT_DOF_NUMBER f)%nat -> nth i (sol_x (sols k)) 0 = 0) ->
  exists n, first_small tolerance sols n /\
    (forall j, Rabs (angle f (ik_gc (lk_model (st (S n)))) j - angle_in f reference j) <= Rabs (1 - kp) / kp * tolerance) /\
    forall maximum, (n < maximum)%nat -> ik_iterations f fk tolerance mp sols maximum 0 s = Ok (S n, st (S n)).
Proof.
  intros K RC AN ST LR G KP T OB RZ.
  pose proof (fun n => loop_reference eig f fk mp sols s st gain kp reference n K RC AN ST LR G (fun k _ => OB k)) as REF.
  pose proof (fun n => proj1 (reference_step eig f fk mp sols s st gain kp reference n K RC AN ST LR G) (OB n)) as STEP.
  destruct (states_exist eig f fk mp sols s K RC AN) as (ST' & P). pose proof (states_unique _ _ _ _ _ _ _ ST ST') as EQ.
  set (d := fun j => angle_in f reference j - angle f (ik_gc (lk_model s)) j) in *.
  assert (JS : forall n j, nth (ROOT_DOF_NUMBER f + joint_id f j) (sol_x (sols n)) 0 = kp * (1 - kp) ^ n * d j).
  { intros n j. destruct (P n) as (R1 & _). rewrite <- EQ in R1. destruct (reachable_good eig f fk _ K R1) as (file & D & GD). pose proof GD as ((SZ & _) & _).
    destruct (iteration_ok eig f fk mp (sols n) (st n) K R1 (AN n)) as (s' & E & _ & _ & NX & _). destruct ST as (_ & ST2). rewrite ST2 in E. injection E as <-.
    rewrite (next_angle f mp (lk_wbc (st n)) (lk_model (st n)) (sols n) _ _ SZ (AN n mp (lk_wbc (st n))) NX j).
    rewrite STEP. specialize (REF n j). unfold d.
    replace (angle f (ik_gc (lk_model (st n))) j) with (angle_in f reference j + (1 - kp) ^ n * (angle f (ik_gc (lk_model s)) j - angle_in f reference j)) by lra. ring. }
  assert (LN : forall n, length (sol_x (sols n)) = DOF_NUMBER f) by (intros n; apply (AN n (mkMP v3zero v3zero v3zero) (lk_wbc s))).
  assert (SM : forall n, small tolerance (sols n) <-> forall j, Rabs (kp * (1 - kp) ^ n * d j) < tolerance).
  { intros n. split.
    - intros S j. rewrite <- JS. apply S. rewrite LN. pose proof (joint_id_lt f j). unfold DOF_NUMBER. lia.
    - intros S i Hi. rewrite LN in Hi. unfold DOF_NUMBER in Hi. destruct (Nat.lt_ge_cases i (ROOT_DOF_NUMBER f)) as [H|H]; [rewrite RZ, Rabs_R0 by exact H; exact T|].
      assert (A : forall k, (k < JOINTS_DOF_NUMBER)%nat -> Rabs (nth (ROOT_DOF_NUMBER f + k) (sol_x (sols n)) 0) < tolerance).
      { apply (all_joints f (fun k => Rabs (nth (ROOT_DOF_NUMBER f + k) (sol_x (sols n)) 0) < tolerance)). intros j. rewrite JS. apply S. }
      replace i with (ROOT_DOF_NUMBER f + (i - ROOT_DOF_NUMBER f))%nat by lia. apply A. lia. }
  assert (EB : exists B, 0 < B /\ forall j, Rabs (d j) <= B).
  { exists (1 + Rsum 15 (fun i => Rabs (nth i reference 0 - nth i (gc_joints (ik_gc (lk_model s))) 0))).
    split; [pose proof (Rsum_nonneg 15 (fun i => Rabs (nth i reference 0 - nth i (gc_joints (ik_gc (lk_model s))) 0)) (fun i _ => Rabs_pos _)); lra|].
    intros j. unfold d, angle, angle_in. pose proof (joint_id_lt f j) as JL. unfold JOINTS_DOF_NUMBER in JL.
    set (u := fun i => Rabs (nth i reference 0 - nth i (gc_joints (ik_gc (lk_model s))) 0)). change (u (joint_id f j) <= 1 + Rsum 15 u).
    assert (U : forall i, 0 <= u i) by (intros i; apply Rabs_pos). revert JL. generalize (joint_id f j) as q. generalize 15%nat as N. induction N as [|N IH]; intros q Hq; [lia|]. cbn [Rsum].
    pose proof (U N). pose proof (Rsum_nonneg N u (fun i _ => U i)). destruct (Nat.eq_dec q N) as [-> |]; [lra|]. specialize (IH q ltac:(lia)). lra. }
  destruct EB as (B & BP & BD).
  assert (C1 : Rabs (1 - kp) < 1) by (apply Rabs_def1; lra).
  destruct (pow_lt_1_zero (1 - kp) C1 (tolerance / (kp * B)) ltac:(apply Rdiv_lt_0_compat; nra)) as (N & HN). specialize (HN N (le_n N)).
  assert (SN : small tolerance (sols N)).
  { apply SM. intros j. rewrite !Rabs_mult. rewrite (Rabs_pos_eq kp) by lra. specialize (BD j). pose proof (Rabs_pos (d j)). pose proof (Rabs_pos ((1 - kp) ^ N)).
    apply Rle_lt_trans with (kp * Rabs ((1 - kp) ^ N) * B); [apply Rmult_le_compat_l; [nra|exact BD]|].
    apply Rlt_le_trans with (kp * (tolerance / (kp * B)) * B); [|right; field; lra]. apply Rmult_lt_compat_r; [exact BP|]. apply Rmult_lt_compat_l; lra. }
  destruct (first_exists f tolerance sols N AN SN) as (n & _ & F). exists n. split; [exact F|]. split.
  - intros j. rewrite REF. cbn [pow]. destruct F as (S & _). rewrite SM in S. specialize (S j).
    replace ((1 - kp) * (1 - kp) ^ n * (angle f (ik_gc (lk_model s)) j - angle_in f reference j)) with (- ((1 - kp) / kp * (kp * (1 - kp) ^ n * d j))) by (unfold d; field; lra).
    rewrite Rabs_Ropp, Rabs_mult. unfold Rdiv. rewrite Rabs_mult, Rabs_inv, (Rabs_pos_eq kp) by lra. apply Rmult_le_compat_l; [|lra].
    apply Rmult_le_pos; [apply Rabs_pos|left; apply Rinv_0_lt_compat; lra].
  - intros maximum HM. destruct (iterations_outcome f fk tolerance mp sols s st AN ST maximum 0) as [(n' & Hn & A & BB & C)|(A & _)].
    + destruct ST as (S0 & _). rewrite S0 in C. destruct F as (S & FF).
      assert (n' = n) as -> by (destruct (Nat.lt_trichotomy n' n) as [L|[L|L]]; [destruct (FF n' L A)|exact L|destruct (BB n ltac:(lia) S)]). exact C.
    + destruct (A n ltac:(lia) (proj1 F)).
Qed.
