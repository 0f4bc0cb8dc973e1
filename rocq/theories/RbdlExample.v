(** * A robot for the examples of C86, C87: an arm which turns about the vertical axis and stretches, with a fixed tool *)
From Coq Require Import String List Reals Arith Lra Lia Bool.
From Verif Require Import Base BaseFacts Mat3 RSum Matrix RotarySpec SpatialTransform Rbdl RbdlSpec RbdlFacts.
Import ListNotations.
Open Scope R_scope.

Definition ex_S (k : nat) : mat := mkMat 6 1 (fun r _ => if (r =? k)%nat then 1 else 0).
Definition ex_robot (s : R) : rb :=
  mkRb [(0, v3zero); (2, v3zero); (1, V3 (1 / 2) 0 0)]
       [SX m3id v3zero; SX (m3trans (Rz s)) v3zero; SX (m3trans (Rz s)) (V3 ((1 + s) * cos s) ((1 + s) * sin s) 0)]
       [mkJoint false 0 0 (mzero 6 0); mkJoint false 1 0 (ex_S 2); mkJoint false 1 1 (ex_S 3)]
       [0%nat; 0%nat; 1%nat]
       [(2%nat, SX m3id (V3 0 0 1))] 10 20 2
       [("base"%string, 1%nat); ("arm"%string, 2%nat); ("tool"%string, 10%nat)].
Definition ex_dq : vec := mkVec 2 (fun _ => 1).

Lemma Rz_rotation s : rotation (Rz s).
Proof.
  pose proof (sin2_cos2 s) as H. unfold Rsqr in H. unfold rotation, orthogonal, m3mul, m3trans, m3det, m3id, Rz; cbn.
  split; [split; f_equal; lra|lra].
Qed.
Lemma id_rotation : rotation m3id.
Proof. unfold rotation, orthogonal, m3mul, m3trans, m3det, m3id; cbn. split; [split; f_equal; lra|lra]. Qed.
Lemma ex_tree s : tree (ex_robot s).
Proof.
  unfold tree. cbn [rb_bodies rb_X rb_joints rb_lambda rb_fixed rb_disc rb_max rb_q ex_robot length].
  split; [lia|]. split; [reflexivity|]. split; [reflexivity|]. split; [reflexivity|]. split; [lia|]. split.
  { intros [|[|[|i]]] x E; cbn in E; [| | |destruct i; discriminate]; injection E as <-; cbn [sx_E]; [apply id_rotation| |]; apply rotation_trans, Rz_rotation. }
  split; [reflexivity|]. split.
  { intros [|[|[|i]]] p I E; cbn in E; [lia| | |destruct i; discriminate]; injection E as <-; lia. }
  split.
  { intros [|[|[|i]]] j I E; cbn in E; [lia| | |destruct i; discriminate]; injection E as <-; cbn; repeat split; auto; lia. }
  split.
  { intros j E. cbn in E. injection E as <-. split; reflexivity. }
  split.
  { intros [|[|[|i]]] [|[|[|k]]] a b c I Ea Eb; cbn in Ea, Eb; try lia; try (destruct k; discriminate); try (destruct i; discriminate).
    injection Ea as <-. injection Eb as <-. cbn. lia. }
  { intros [|i] p x E; cbn in E; [|destruct i; discriminate]. injection E as <- <-. split; [lia|apply id_rotation]. }
Qed.
Lemma d_lin1 t : derivable_pt_lim (fun s => 1 + s) t 1.
Proof.
  eapply d_eq; [exact (derivable_pt_lim_plus (fun _ => 1) id t 0 1 (derivable_pt_lim_const 1 t) (derivable_pt_lim_id t))|ring].
Qed.
Lemma ex_motion t : motion ex_robot t ex_dq.
Proof.
  split; [intros s; split; [apply ex_tree|repeat split]|]. split; [reflexivity|].
  intros i p j O Op o op I Ep Ej Fi Fp.
  assert (FI : forall k Q q, movable (ex_robot t) k -> (forall s, frame (ex_robot s) k (Q s) (q s)) ->
                forall s, Q s = body_O (ex_robot s) k /\ q s = body_o (ex_robot s) k).
  { intros k Q q M F s. apply t_frame_inv; [apply ex_tree|exact M|apply F]. }
  assert (J : forall k, (k < 6)%nat -> joint_velocity (mkJoint false 1 0 (ex_S 2)) ex_dq k = if (k =? 2)%nat then 1 else 0).
  { intros k Hk. unfold joint_velocity. cbn. destruct (k =? 2)%nat; ring. }
  assert (J' : forall k, (k < 6)%nat -> joint_velocity (mkJoint false 1 1 (ex_S 3)) ex_dq k = if (k =? 3)%nat then 1 else 0).
  { intros k Hk. unfold joint_velocity. cbn. destruct (k =? 3)%nat; ring. }
  destruct i as [|[|[|i]]]; [lia| | |destruct i; discriminate]; cbn in Ep, Ej; injection Ep as <-; injection Ej as <-.
  - assert (M1 : movable (ex_robot t) 1) by (unfold movable; cbn; lia). assert (M0 : movable (ex_robot t) 0) by (unfold movable; cbn; lia).
    pose proof (FI 1%nat O o M1 Fi) as E1. pose proof (FI 0%nat Op op M0 Fp) as E0. cbn in E1, E0.
    unfold joint_angular, joint_linear. rewrite !J by lia. cbn [Nat.eqb].
    rewrite (proj1 (E1 t)), (proj1 (E0 t)). split.
    + eapply m3d_ext with (G := Rz) (D' := m3mul (Rz t) (skew (V3 0 0 1))).
      * intros s. rewrite (proj1 (E1 s)), (proj1 (E0 s)). unfold Rz, m3mul, m3trans, m3id; cbn. f_equal; ring.
      * unfold Rz, m3mul, m3trans, m3id, skew; cbn. f_equal; ring.
      * unfold Rz, m3_derivative, m3mul, skew; cbn.
        repeat split; (eapply d_eq; [first [apply derivable_pt_lim_const|apply derivable_pt_lim_cos|apply derivable_pt_lim_sin|
          apply (derivable_pt_lim_opp sin t _ (derivable_pt_lim_sin t))]|ring]).
    + eapply v3d_ext with (g := fun _ => v3zero) (d' := v3zero).
      * intros s. rewrite (proj1 (E0 s)), (proj2 (E1 s)), (proj2 (E0 s)). v3ring.
      * v3ring.
      * apply v3d_const.
  - assert (M1 : movable (ex_robot t) 1) by (unfold movable; cbn; lia). assert (M2 : movable (ex_robot t) 2) by (unfold movable; cbn; lia).
    pose proof (FI 2%nat O o M2 Fi) as E1. pose proof (FI 1%nat Op op M1 Fp) as E0. cbn in E1, E0.
    unfold joint_angular, joint_linear. rewrite !J' by lia. cbn [Nat.eqb].
    assert (Id : forall s, m3mul (m3trans (Op s)) (O s) = m3id).
    { intros s. rewrite (proj1 (E1 s)), (proj1 (E0 s)). apply (Rz_rotation s). }
    split.
    + eapply m3d_ext with (G := fun _ => m3id); [exact Id| |apply m3d_const].
      rewrite Id. unfold m3mul, m3id, skew; cbn. f_equal; ring.
    + eapply v3d_ext with (g := fun s => V3 (1 + s) 0 0) (d' := V3 1 0 0).
      * intros s. rewrite (proj1 (E0 s)), (proj2 (E1 s)), (proj2 (E0 s)). pose proof (sin2_cos2 s) as H. unfold Rsqr in H.
        unfold m3app, m3trans, v3sub, v3zero; cbn. f_equal; [|ring..].
        transitivity ((1 + s) * (sin s * sin s + cos s * cos s)); [ring|rewrite H; ring].
      * rewrite Id, m3app_id. reflexivity.
      * split; [|split]; cbn; [apply d_lin1|apply derivable_pt_lim_const|apply derivable_pt_lim_const].
Qed.
Definition ex_empty : rmodel := mkRM (mkRb [] [] [] [] [] 0 0 0 []) 0 [].
Lemma ex_updated s : exists m, updated (ex_robot s) m.
Proof.
  destruct (updated_exists (ex_robot s) ex_empty (fun _ => (0%nat, mzero 0 0)) (ex_robot 0) (ex_tree s)) as (_ & m & _ & _ & U); [repeat split|].
  exists m. exact U.
Qed.
Definition ex_model (s : R) : rmodel :=
  match rm_load (fun _ => (0%nat, mzero 0 0)) (Some (ex_robot 0)) ex_empty with
  | Ok m1 => match rm_update (ex_robot s) m1 with Ok m => m | _ => ex_empty end
  | _ => ex_empty
  end.
Lemma ex_model_updated s : updated (ex_robot s) (ex_model s).
Proof.
  destruct (updated_exists (ex_robot s) ex_empty (fun _ => (0%nat, mzero 0 0)) (ex_robot 0) (ex_tree s)) as (m1 & m & E1 & E2 & U); [repeat split|].
  unfold ex_model. rewrite E1, E2. exact U.
Qed.
Lemma ex_tool_link s : link (ex_robot s) 10.
Proof.
  assert (M : movable (ex_robot s) 2) by (unfold movable; cbn; lia).
  do 2 eexists. apply (frame_fixed (ex_robot s) 10 2 (SX m3id (V3 0 0 1))); [split; [cbn; lia|reflexivity]|exact M|apply t_frame; [apply ex_tree|exact M]].
Qed.
