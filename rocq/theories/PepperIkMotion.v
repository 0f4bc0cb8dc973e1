(** * Motions of the robot of PepperIkExample.v *)
From Coq Require Import String List Reals Arith Lra Lia Bool.
From Verif Require Import Base BaseFacts Mat3 RSum Matrix RotarySpec SpatialTransform Rbdl PepperTasksSpec RbdlSpec RbdlFacts RbdlExample PepperIk PepperIkSpec PepperIkFacts
  PepperIkExample PepperIkTasks PepperIkTasksSpec PepperIkTasksFacts.
Import ListNotations.
Open Scope R_scope.

(** each coordinate moves with its velocity *)
Definition ex_move (q : list R) (x : nat -> R) (s : R) : list R := map (fun i => nth i q 0 + s * x i) (seq 0 18).
Lemma ex_move_nth q x s i : (i < 18)%nat -> nth i (ex_move q x s) 0 = nth i q 0 + s * x i.
Proof.
  intros H. unfold ex_move. set (g := fun i => nth i q 0 + s * x i). rewrite (nth_indep _ 0 (g 0%nat)) by (rewrite map_length, seq_length; exact H).
  rewrite (map_nth g), seq_nth by exact H. reflexivity.
Qed.
Lemma ex_move_length q x s : length (ex_move q x s) = 18%nat.
Proof. unfold ex_move. rewrite map_length, seq_length. reflexivity. Qed.
Lemma ex_move_start q x : length q = 18%nat -> ex_move q x 0 = q.
Proof.
  intros L. apply (nth_ext _ _ 0 0); [rewrite ex_move_length; auto|]. rewrite ex_move_length. intros i H. rewrite ex_move_nth by exact H. ring.
Qed.
Ltac mring := unfold m3app, m3mul, m3trans, m3id, v3sub, v3zero, Rz; cbn; f_equal; ring.
Lemma d_affine a b : derivable_pt_lim (fun s => a + s * b) 0 b.
Proof.
  eapply d_eq; [exact (derivable_pt_lim_plus (fun _ => a) (fun s => s * b) 0 0 _ (derivable_pt_lim_const a 0)
    (derivable_pt_lim_mult id (fun _ => b) 0 1 0 (derivable_pt_lim_id 0) (derivable_pt_lim_const b 0)))|unfold id; ring].
Qed.
Lemma Rz_derivative a b : m3_derivative (fun s => Rz (a + s * b)) 0 (m3mul (Rz (a + 0 * b)) (skew (V3 0 0 b))).
Proof.
  pose proof (derivable_pt_lim_comp (fun s => a + s * b) cos 0 b _ (d_affine a b) (derivable_pt_lim_cos _)) as C.
  pose proof (derivable_pt_lim_comp (fun s => a + s * b) sin 0 b _ (d_affine a b) (derivable_pt_lim_sin _)) as S. unfold comp in C, S.
  unfold Rz, m3_derivative, m3mul, skew; cbn.
  repeat split; (eapply d_eq; [first [apply derivable_pt_lim_const|exact C|exact S|apply (derivable_pt_lim_opp _ 0 _ S)]|ring]).
Qed.
Lemma ex_joint k q r x : (k < 6)%nat -> joint_velocity (mkJoint false 1 q (ex_S k)) (mkVec 18 x) r = if (r =? k)%nat then x q else 0.
Proof. intros H. unfold joint_velocity. cbn. rewrite Nat.add_0_r. destruct (r =? k)%nat; ring. Qed.
Lemma Rz_inverse a b : m3mul (m3trans (Rz a)) (Rz (a + b)) = Rz b.
Proof.
  pose proof (sin2_cos2 a) as H. unfold Rsqr in H. unfold m3mul, m3trans, Rz; cbn. rewrite cos_plus, sin_plus.
  f_equal; try ring; [transitivity (cos b * (sin a * sin a + cos a * cos a))|transitivity (- sin b * (sin a * sin a + cos a * cos a))|
    transitivity (sin b * (sin a * sin a + cos a * cos a))|transitivity (cos b * (sin a * sin a + cos a * cos a))]; try ring; rewrite H; ring.
Qed.
Lemma ex_moves q x : motion (fun s => ex_pepper (ex_move q x s)) 0 (mkVec 18 x).
Proof.
  split; [intros s; split; [apply pepper_tree|repeat split]|]. split; [reflexivity|].
  intros i p j O Op o op I Ep Ej Fi Fp.
  set (M := fun s => ex_pepper (ex_move q x s)) in *.
  assert (FI : forall k Q r, (k < 19)%nat -> (forall s, frame (M s) k (Q s) (r s)) ->
                forall s, exists X, nth_error (rb_X (M s)) k = Some X /\ Q s = m3trans (sx_E X) /\ r s = sx_r X).
  { intros k Q r Hk F s. specialize (F s). assert (MV : movable (M s) k) by (unfold movable, M, ex_pepper; cbn [rb_bodies]; rewrite app_length, arms_length; cbn; lia).
    inversion F as [X _ E1|pp X OO oo (B & _) ]; [exists X; auto|]. subst. unfold M, ex_pepper in B. cbn in B. lia. }
  assert (ID : m3trans m3id = m3id) by reflexivity.
  unfold joint_angular, joint_linear.
  destruct i as [|[|[|[|i]]]]; [lia|..]; cbn [nth_error app rb_lambda rb_joints ex_pepper M] in Ep, Ej.
  - injection Ep as <-. injection Ej as <-. rewrite !ex_joint by lia. cbn [Nat.eqb].
    pose proof (FI 1%nat O o ltac:(lia) Fi) as E1. pose proof (FI 0%nat Op op ltac:(lia) Fp) as E0.
    assert (Q1 : forall s, O s = m3id /\ o s = V3 (nth 0 q 0 + s * x 0%nat) 0 0).
    { intros s. destruct (E1 s) as (X & EX & -> & ->). cbn in EX. injection EX as <-. cbn [sx_E sx_r]. auto. }
    assert (Q0 : forall s, Op s = m3id /\ op s = v3zero).
    { intros s. destruct (E0 s) as (X & EX & -> & ->). cbn in EX. injection EX as <-. cbn [sx_E sx_r]. auto. }
    split.
    + eapply m3d_ext with (G := fun _ => m3id); [| |apply m3d_const].
      * intros s. rewrite (proj1 (Q1 s)), (proj1 (Q0 s)). unfold m3mul, m3trans, m3id; cbn. f_equal; ring.
      * rewrite (proj1 (Q1 0)), (proj1 (Q0 0)). unfold m3mul, m3trans, m3id, skew; cbn. f_equal; ring.
    + eapply v3d_ext with (g := fun s => V3 (nth 0 q 0 + s * x 0%nat) 0 0) (d' := V3 (x 0%nat) 0 0).
      * intros s. rewrite (proj1 (Q0 s)), (proj2 (Q1 s)), (proj2 (Q0 s)). mring.
      * rewrite (proj1 (Q1 0)), (proj1 (Q0 0)). mring.
      * split; [|split]; cbn; [apply d_affine|apply derivable_pt_lim_const|apply derivable_pt_lim_const].
  - injection Ep as <-. injection Ej as <-. rewrite !ex_joint by lia. cbn [Nat.eqb].
    pose proof (FI 2%nat O o ltac:(lia) Fi) as E1. pose proof (FI 1%nat Op op ltac:(lia) Fp) as E0.
    assert (Q1 : forall s, O s = m3id /\ o s = V3 (nth 0 q 0 + s * x 0%nat) (nth 1 q 0 + s * x 1%nat) 0).
    { intros s. destruct (E1 s) as (X & EX & -> & ->). cbn in EX. injection EX as <-. cbn [sx_E sx_r]. auto. }
    assert (Q0 : forall s, Op s = m3id /\ op s = V3 (nth 0 q 0 + s * x 0%nat) 0 0).
    { intros s. destruct (E0 s) as (X & EX & -> & ->). cbn in EX. injection EX as <-. cbn [sx_E sx_r]. auto. }
    split.
    + eapply m3d_ext with (G := fun _ => m3id); [| |apply m3d_const].
      * intros s. rewrite (proj1 (Q1 s)), (proj1 (Q0 s)). unfold m3mul, m3trans, m3id; cbn. f_equal; ring.
      * rewrite (proj1 (Q1 0)), (proj1 (Q0 0)). unfold m3mul, m3trans, m3id, skew; cbn. f_equal; ring.
    + eapply v3d_ext with (g := fun s => V3 0 (nth 1 q 0 + s * x 1%nat) 0) (d' := V3 0 (x 1%nat) 0).
      * intros s. rewrite (proj1 (Q0 s)), (proj2 (Q1 s)), (proj2 (Q0 s)). mring.
      * rewrite (proj1 (Q1 0)), (proj1 (Q0 0)). mring.
      * split; [|split]; cbn; [apply derivable_pt_lim_const|apply d_affine|apply derivable_pt_lim_const].
  - injection Ep as <-. injection Ej as <-. rewrite !ex_joint by lia. cbn [Nat.eqb].
    pose proof (FI 3%nat O o ltac:(lia) Fi) as E1. pose proof (FI 2%nat Op op ltac:(lia) Fp) as E0.
    assert (Q1 : forall s, O s = Rz (nth 2 q 0 + s * x 2%nat) /\ o s = V3 (nth 0 q 0 + s * x 0%nat) (nth 1 q 0 + s * x 1%nat) 0).
    { intros s. destruct (E1 s) as (X & EX & -> & ->). cbn in EX. injection EX as <-. cbn [sx_E sx_r]. auto. }
    assert (Q0 : forall s, Op s = m3id /\ op s = V3 (nth 0 q 0 + s * x 0%nat) (nth 1 q 0 + s * x 1%nat) 0).
    { intros s. destruct (E0 s) as (X & EX & -> & ->). cbn in EX. injection EX as <-. cbn [sx_E sx_r]. auto. }
    split.
    + eapply m3d_ext; [| |apply (Rz_derivative (nth 2 q 0) (x 2%nat))].
      * intros s. rewrite (proj1 (Q1 s)), (proj1 (Q0 s)). unfold m3mul, m3trans, m3id, Rz; cbn. f_equal; ring.
      * rewrite (proj1 (Q1 0)), (proj1 (Q0 0)). unfold m3mul, m3trans, m3id, skew, Rz; cbn. f_equal; ring.
    + eapply v3d_ext with (g := fun _ => v3zero) (d' := v3zero).
      * intros s. rewrite (proj1 (Q0 s)), (proj2 (Q1 s)), (proj2 (Q0 s)). mring.
      * mring.
      * apply v3d_const.
  - apply arms_some in Ep. destruct Ep as (Hi & ->). apply arms_some in Ej. destruct Ej as (_ & ->). rewrite !ex_joint by lia. cbn [Nat.eqb].
    pose proof (FI (S (S (S (S i)))) O o ltac:(lia) Fi) as E1. pose proof (FI 3%nat Op op ltac:(lia) Fp) as E0.
    set (a := fun s => nth 2 q 0 + s * x 2%nat).
    assert (Q1 : forall s, O s = Rz (a s + (nth (3 + i) q 0 + s * x (3 + i)%nat)) /\ o s = V3 (nth 0 q 0 + s * x 0%nat) (nth 1 q 0 + s * x 1%nat) 1).
    { intros s. destruct (E1 s) as (X & EX & -> & ->). unfold M, ex_pepper in EX. cbn [rb_X app nth_error] in EX. apply arms_some in EX. destruct EX as (_ & ->).
      cbn [sx_E sx_r]. rewrite !ex_move_nth by lia. auto. }
    assert (Q0 : forall s, Op s = Rz (a s) /\ op s = V3 (nth 0 q 0 + s * x 0%nat) (nth 1 q 0 + s * x 1%nat) 0).
    { intros s. destruct (E0 s) as (X & EX & -> & ->). cbn in EX. injection EX as <-. cbn [sx_E sx_r]. auto. }
    split.
    + eapply m3d_ext; [| |apply (Rz_derivative (nth (3 + i) q 0) (x (3 + i)%nat))].
      * intros s. rewrite (proj1 (Q1 s)), (proj1 (Q0 s)). apply Rz_inverse.
      * rewrite (proj1 (Q1 0)), (proj1 (Q0 0)). rewrite Rz_inverse. reflexivity.
    + eapply v3d_ext with (g := fun _ => V3 0 0 1) (d' := v3zero).
      * intros s. rewrite (proj1 (Q0 s)), (proj2 (Q1 s)), (proj2 (Q0 s)). mring.
      * mring.
      * apply v3d_const.
Qed.
(** every velocity is the velocity of a motion *)
Lemma pepper_moving eig m x : reachable eig ROOT_PLANAR ex_pepper m ->
  exists MS, moving ROOT_PLANAR ex_pepper m (fun s => ex_pepper (ex_move (asVector (ik_gc m)) x s)) MS x.
Proof.
  intros RC. destruct (reachable_good eig _ _ m pepper_kinematics RC) as (file & D & GD). pose proof GD as ((SZ & U & _) & _).
  pose proof (sized_vector _ _ SZ) as L. change (DOF_NUMBER ROOT_PLANAR) with 18%nat in L.
  set (q := asVector (ik_gc m)) in *.
  exists (fun s => if Req_EM_T s 0 then ik_rbdl m else match rm_update (ex_pepper (ex_move q x s)) (ik_rbdl m) with Ok r => r | _ => ik_rbdl m end).
  split; [exact (ex_moves q x)|]. split; [rewrite ex_move_start by exact L; reflexivity|]. split; [destruct (Req_EM_T 0 0); [reflexivity|congruence]|].
  intros s. destruct (Req_EM_T s 0) as [->|N]; [rewrite ex_move_start by exact L; exact U|].
  destruct (update_again _ (ex_pepper (ex_move q x s)) _ U) as (r & ER & U2); [apply pepper_tree|apply pepper_tree|repeat split|]. rewrite ER. exact U2.
Qed.
