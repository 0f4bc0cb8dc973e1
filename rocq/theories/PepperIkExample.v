(** * A robot for the examples of C88-C92: a base which moves in the plane, with 15 bodies which turn about vertical axes *)
From Coq Require Import String List Reals Arith Lra Lia Bool.
From Verif Require Import Base BaseFacts Mat3 RSum Matrix RotarySpec SpatialTransform Rbdl RbdlSpec RbdlFacts RbdlExample PepperIk PepperIkSpec PepperIkFacts.
Import ListNotations.
Open Scope R_scope.

Definition arms {A} (f : nat -> A) : list A := map f (seq 0 15).
Lemma arms_length {A} (f : nat -> A) : length (arms f) = 15%nat.
Proof. unfold arms. rewrite map_length, seq_length. reflexivity. Qed.
Lemma arms_some {A} (f : nat -> A) k y : nth_error (arms f) k = Some y -> (k < 15)%nat /\ y = f k.
Proof.
  intros H. assert (L : (k < length (arms f))%nat) by (apply nth_error_Some; congruence). rewrite arms_length in L.
  split; [exact L|]. unfold arms in H. rewrite (map_nth_error f k (seq 0 15) (d := k)) in H; [congruence|].
  rewrite (nth_error_nth' _ 0%nat) by (rewrite seq_length; exact L). rewrite seq_nth by exact L. reflexivity.
Qed.
Lemma arms_at {A} (f : nat -> A) k : (k < 15)%nat -> nth_error (arms f) k = Some (f k).
Proof.
  intros L. unfold arms. rewrite (map_nth_error f k (seq 0 15) (d := k)); [reflexivity|].
  rewrite (nth_error_nth' _ 0%nat) by (rewrite seq_length; exact L). rewrite seq_nth by exact L. reflexivity.
Qed.
Definition body_names : list string :=
  ["Head"; "Hip"; "LBicep"; "LElbow"; "LForeArm"; "LShoulder"; "Neck"; "Pelvis"; "RBicep"; "RElbow"; "RForeArm"; "RShoulder"; "l_wrist"; "r_wrist"; "torso"]%string.
Definition ex_pepper (q : list R) : rb :=
  let x := nth 0 q 0 in let y := nth 1 q 0 in let a := nth 2 q 0 in
  mkRb ([(0, v3zero); (0, v3zero); (0, v3zero); (10, V3 0 0 (1 / 2))] ++ arms (fun k => (1, V3 (1 / 4) 0 0)))
       ([SX m3id v3zero; SX m3id (V3 x 0 0); SX m3id (V3 x y 0); SX (m3trans (Rz a)) (V3 x y 0)] ++
          arms (fun k => SX (m3trans (Rz (a + nth (3 + k) q 0))) (V3 x y 1)))
       ([mkJoint false 0 0 (mzero 6 0); mkJoint false 1 0 (ex_S 3); mkJoint false 1 1 (ex_S 4); mkJoint false 1 2 (ex_S 2)] ++
          arms (fun k => mkJoint false 1 (3 + k) (ex_S 2)))
       ([0; 0; 1; 2]%nat ++ arms (fun k => 3%nat))
       [(3%nat, SX m3id v3zero)] 20 30 18
       ([("Tibia"%string, 3%nat); ("base_footprint"%string, 20%nat)] ++ combine body_names (seq 4 15)).
Lemma pepper_tree q : tree (ex_pepper q).
Proof.
  unfold tree, ex_pepper. cbn [rb_bodies rb_X rb_joints rb_lambda rb_fixed rb_disc rb_max rb_q].
  rewrite !app_length, !arms_length. cbn [length]. change (4 + 15)%nat with 19%nat.
  split; [lia|]. split; [reflexivity|]. split; [reflexivity|]. split; [reflexivity|]. split; [lia|]. split.
  { intros [|[|[|[|i]]]] x E; cbn [nth_error app] in E; [injection E as <-; cbn [sx_E]; first [apply id_rotation|apply rotation_trans, Rz_rotation]..|].
    apply arms_some in E. destruct E as (_ & ->). cbn [sx_E]. apply rotation_trans, Rz_rotation. }
  split; [reflexivity|]. split.
  { intros [|[|[|[|i]]]] p I E; cbn [nth_error app] in E; [lia|injection E as <-; lia..|]. apply arms_some in E. lia. }
  split.
  { intros [|[|[|[|i]]]] j I E; cbn [nth_error app] in E; [lia|injection E as <-; cbn; repeat split; auto; lia..|].
    apply arms_some in E. destruct E as (L & ->). cbn. repeat split; auto; lia. }
  split.
  { intros j E. cbn in E. injection E as <-. split; reflexivity. }
  split.
  { assert (Q : forall i j, (0 < i)%nat -> nth_error ([mkJoint false 0 0 (mzero 6 0); mkJoint false 1 0 (ex_S 3); mkJoint false 1 1 (ex_S 4); mkJoint false 1 2 (ex_S 2)] ++
          arms (fun k => mkJoint false 1 (3 + k) (ex_S 2))) i = Some j -> j_q j = (i - 1)%nat /\ j_dof j = 1%nat).
    { intros [|[|[|[|i]]]] j I E; cbn [nth_error app] in E; [lia|injection E as <-; cbn; lia..|]. apply arms_some in E. destruct E as (_ & ->). cbn [j_q j_dof]. lia. }
    intros i k a b c I Ea Eb. apply Q in Ea; [|lia]. apply Q in Eb; [|lia]. lia. }
  { intros [|i] p x E; cbn in E; [|destruct i; discriminate]. injection E as <- <-. split; [lia|apply id_rotation]. }
Qed.
Lemma pepper_kinematics : kinematics ROOT_PLANAR ex_pepper.
Proof.
  intros q p _ _. split; [apply pepper_tree|]. split; [repeat split|reflexivity].
Qed.
Lemma pepper_describes : describes ROOT_PLANAR ex_pepper (ex_pepper []).
Proof.
  split; [apply pepper_tree|]. split; [intros q _; repeat split|]. split.
  - repeat constructor; unfold movable, ex_pepper; cbn [rb_bodies]; rewrite app_length, arms_length; cbn; lia.
  - exists (m3mul (m3trans (m3trans (Rz 0))) (m3trans m3id)), (v3add (V3 0 0 0) (m3app (m3trans (m3trans (Rz 0))) v3zero)).
    assert (M : movable (ex_pepper []) 3) by (unfold movable, ex_pepper; cbn [rb_bodies]; rewrite app_length, arms_length; cbn; lia).
    change (getLinkId (ex_pepper []) "base_footprint") with 20%nat.
    apply (frame_fixed (ex_pepper []) 20 3 (SX m3id v3zero)); [split; [cbn; lia|reflexivity]|exact M|].
    exact (frame_movable (ex_pepper []) 3 (SX (m3trans (Rz 0)) (V3 0 0 0)) M eq_refl).
Qed.
Definition ex_junk (_ : nat) : joint_data := (0%nat, mzero 0 0).
Definition ex_start : ikmodel :=
  mkIK ([], 0) ([], 0) 0%nat 0%nat m3id None (gc_default (fun _ => 7) ROOT_PLANAR) ex_empty (limits_new (fun _ _ => 7) ROOT_PLANAR).
Lemma ex_start_constructed : constructed ROOT_PLANAR ex_start.
Proof. split; [exists (fun _ => 7); reflexivity|]. split; [reflexivity|exists (fun _ _ => 7); reflexivity]. Qed.
