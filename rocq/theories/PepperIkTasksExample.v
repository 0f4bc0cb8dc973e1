(** * Examples for C90-C93: motions of the robot of PepperIkExample.v *)
From Coq Require Import String List Reals Arith Lra Lia Bool ZArith.
From Verif Require Import Base BaseFacts RSum Matrix Mat3 ConstraintType Constraints ConstraintsSpec Solution SpatialTransform PepperMpc PepperTasksSpec
  RotarySpec Rotary RotaryFacts Euler EulerSpec EulerFacts Rbdl RbdlSpec RbdlFacts RbdlComFacts RbdlExample PepperIk PepperIkSpec PepperIkFacts PepperIkExample
  PepperIkTasks PepperIkTasksSpec PepperIkTasksFacts PepperIkMotion PepperIkCommandFacts.
Import ListNotations.
Local Open Scope R_scope.

Lemma pepper_at eig g : sized ROOT_PLANAR g -> exists m, reachable eig ROOT_PLANAR ex_pepper m /\ ik_gc m = g.
Proof.
  intros SZ. destruct (ik_loaded ex_junk ROOT_PLANAR ex_pepper (ex_pepper []) ex_start pepper_kinematics pepper_describes ex_start_constructed) as (m & E & _).
  assert (RC : reachable eig ROOT_PLANAR ex_pepper m) by exact (rc_load _ _ _ _ _ _ _ pepper_describes ex_start_constructed E).
  destruct (correct_ok eig _ _ m g (mkCommand [] v3zero v3zero 0) 0 pepper_kinematics RC SZ) as (A & _). destruct A as (_ & m' & _ & G & RC'); [lra|].
  exists m'. auto.
Qed.
(** the robot at (x, y), turned by the angle a, its joints at zero *)
Definition ex_pose (x y a : R) : gcoord := mkGC [x; y; a] (repeat 0 15).
Lemma ex_pose_sized x y a : sized ROOT_PLANAR (ex_pose x y a).
Proof. split; reflexivity. Qed.
Lemma pepper_link (q : list R) k : (k < 19)%nat ->
  frame (ex_pepper q) k (Rz (nth 2 q 0 + if (k <? 4)%nat then 0 else nth (k - 1) q 0)) (V3 (nth 0 q 0) (nth 1 q 0) (if (k <? 4)%nat then 0 else 1)) \/ (k < 3)%nat.
Proof.
  intros Hk. destruct (Nat.lt_ge_cases k 3) as [L|L]; [right; exact L|left].
  assert (MV : movable (ex_pepper q) k) by (unfold movable, ex_pepper; cbn [rb_bodies]; rewrite app_length, arms_length; cbn; lia).
  destruct (Nat.eq_dec k 3) as [->|N].
  - cbn [Nat.ltb Nat.leb]. rewrite Rplus_0_r. exact (frame_movable (ex_pepper q) 3 (SX (m3trans (Rz (nth 2 q 0))) (V3 (nth 0 q 0) (nth 1 q 0) 0)) MV eq_refl).
  - replace (k <? 4)%nat with false by (symmetry; apply Nat.ltb_ge; lia).
    assert (E : nth_error (rb_X (ex_pepper q)) k = Some (SX (m3trans (Rz (nth 2 q 0 + nth (k - 1) q 0))) (V3 (nth 0 q 0) (nth 1 q 0) 1))).
    { unfold ex_pepper. cbn [rb_X]. rewrite nth_error_app2 by (cbn; lia). cbn [length]. rewrite arms_at by lia. do 5 f_equal. replace (3 + (k - 4))%nat with (k - 1)%nat by lia. reflexivity. }
    exact (frame_movable (ex_pepper q) k _ MV E).
Qed.
Lemma pepper_base_root : base_is_root ex_pepper.
Proof.
  intros x y a q L. exists 0. change (getLinkId (ex_pepper ([x; y; a] ++ q)) "base_footprint") with 20%nat.
  assert (MV : movable (ex_pepper ([x; y; a] ++ q)) 3) by (unfold movable, ex_pepper; cbn [rb_bodies]; rewrite app_length, arms_length; cbn; lia).
  destruct (pepper_link ([x; y; a] ++ q) 3) as [F|F]; [lia| |lia]. cbn [Nat.ltb Nat.leb nth app] in F. rewrite Rplus_0_r in F.
  assert (FX : fixed_to (ex_pepper ([x; y; a] ++ q)) 20 3 (SX m3id v3zero)) by (split; cbn; lia || reflexivity).
  pose proof (frame_fixed (ex_pepper ([x; y; a] ++ q)) 20 3 (SX m3id v3zero) _ _ FX MV F) as G.
  replace (m3mul (Rz a) (m3trans (sx_E (SX m3id v3zero)))) with (Rz a) in G by (unfold m3mul, m3trans, Rz, m3id; cbn; f_equal; ring).
  replace (v3add (V3 x y 0) (m3app (Rz a) (sx_r (SX m3id v3zero)))) with (V3 x y 0) in G by (unfold v3add, m3app, v3zero; cbn; f_equal; ring).
  exact G.
Qed.
Lemma v3_unique f t a b : v3_derivative f t a -> v3_derivative f t b -> a = b.
Proof.
  intros (A1 & A2 & A3) (B1 & B2 & B3). destruct a, b; cbn in *. f_equal; eapply uniqueness_limite; eassumption.
Qed.
Lemma turns_unique O a b : rotation (O 0) -> turns_with O a -> turns_with O b -> a = b.
Proof.
  intros ((OO & _) & _) A B. assert (E : m3mul (skew a) (O 0) = m3mul (skew b) (O 0)).
  { destruct A as (A1 & A2 & A3 & A4 & A5 & A6 & A7 & A8 & A9). destruct B as (B1 & B2 & B3 & B4 & B5 & B6 & B7 & B8 & B9).
    destruct (m3mul (skew a) (O 0)), (m3mul (skew b) (O 0)); cbn in *. f_equal; eapply uniqueness_limite; eassumption. }
  assert (E2 : skew a = skew b).
  { rewrite <- (m3mul_id_r (skew a)), <- (m3mul_id_r (skew b)), <- OO, <- !m3mul_assoc, E. reflexivity. }
  unfold skew in E2. injection E2 as E1 E3 E4 E5 E6 E7. destruct a, b; cbn in *; f_equal; lra.
Qed.
(** links of the robot while it moves *)
Lemma pepper_path eig m x MS k : reachable eig ROOT_PLANAR ex_pepper m ->
  moving ROOT_PLANAR ex_pepper m (fun s => ex_pepper (ex_move (asVector (ik_gc m)) x s)) MS x -> (3 <= k < 19)%nat ->
  let q := asVector (ik_gc m) in
  forall s, position_link (MS s) k = Ok (V3 (nth 0 q 0 + s * x 0%nat) (nth 1 q 0 + s * x 1%nat) (if (k <? 4)%nat then 0 else 1)) /\
    orientation_link (MS s) k = Ok (Rz (nth 2 q 0 + s * x 2%nat + if (k <? 4)%nat then 0 else nth (k - 1) q 0 + s * x (k - 1)%nat)).
Proof.
  intros RC (_ & _ & _ & U) Hk q s. destruct (pepper_link (ex_move q x s) k) as [F|F]; [lia| |lia].
  destruct (tag_pose _ (MS s) k v3zero _ _ (pepper_tree _) (U s) F) as (A & B & _). fold q in U. rewrite A, B.
  destruct (Nat.ltb_spec k 4); rewrite !ex_move_nth by lia; auto.
Qed.
Lemma path_velocity a b c u v : v3_derivative (fun s => V3 (a + s * u) (b + s * v) c) 0 (V3 u v 0).
Proof. split; [|split]; cbn; [apply d_affine|apply d_affine|apply derivable_pt_lim_const]. Qed.
Lemma path_turns a b : turns_with (fun s => Rz (a + s * b)) (V3 0 0 b).
Proof.
  unfold turns_with. eapply m3d_ext; [intros s; reflexivity| |apply Rz_derivative].
  unfold m3mul, skew, Rz; cbn. f_equal; ring.
Qed.
Lemma path_turns2 O w : (exists a b, (forall s, O s = Rz (a + s * b)) /\ w = V3 0 0 b) -> turns_with O w.
Proof.
  intros (a & b & E & ->). unfold turns_with. eapply m3d_ext; [exact E| |apply Rz_derivative]. rewrite E. unfold m3mul, skew, Rz; cbn. f_equal; ring.
Qed.
(** a link found by its name moves and turns *)
Lemma pepper_tag eig m x MS name k P O v u : reachable eig ROOT_PLANAR ex_pepper m ->
  moving ROOT_PLANAR ex_pepper m (fun s => ex_pepper (ex_move (asVector (ik_gc m)) x s)) MS x -> (3 <= k < 19)%nat -> ik_getLinkTag m name = k ->
  (forall s, getTagPosition (at_time m MS s) (ik_getLinkTag m name) = Ok (P s) /\ getTagOrientation (at_time m MS s) (ik_getLinkTag m name) = Ok (O s)) ->
  turns_with O v -> v3_derivative P 0 u ->
  let q := asVector (ik_gc m) in
  u = V3 (x 0%nat) (x 1%nat) 0 /\ v = V3 0 0 (x 2%nat + if (k <? 4)%nat then 0 else x (k - 1)%nat) /\
  P 0 = V3 (nth 0 q 0) (nth 1 q 0) (if (k <? 4)%nat then 0 else 1) /\ O 0 = Rz (nth 2 q 0 + if (k <? 4)%nat then 0 else nth (k - 1) q 0).
Proof.
  intros RC MV Hk EN E TW DV q. pose proof (pepper_path eig m x MS k RC MV Hk) as PP. cbv zeta in PP. fold q in PP.
  assert (EQ : forall s, P s = V3 (nth 0 q 0 + s * x 0%nat) (nth 1 q 0 + s * x 1%nat) (if (k <? 4)%nat then 0 else 1) /\
                         O s = Rz (nth 2 q 0 + s * x 2%nat + if (k <? 4)%nat then 0 else nth (k - 1) q 0 + s * x (k - 1)%nat)).
  { intros s. destruct (PP s) as (A & B). destruct (E s) as (C & D). unfold getTagPosition, getTagOrientation, at_time, ik_set_rbdl in C, D. cbn [ik_rbdl] in C, D.
    rewrite EN, A in C. rewrite EN, B in D. injection C as C. injection D as D. auto. }
  assert (P0 : P 0 = V3 (nth 0 q 0) (nth 1 q 0) (if (k <? 4)%nat then 0 else 1)) by (rewrite (proj1 (EQ 0)); f_equal; ring).
  assert (O0 : O 0 = Rz (nth 2 q 0 + if (k <? 4)%nat then 0 else nth (k - 1) q 0)) by (rewrite (proj2 (EQ 0)); f_equal; destruct (k <? 4)%nat; ring).
  split; [|split; [|split; assumption]].
  - eapply v3_unique; [exact DV|]. eapply v3d_ext; [intros s; apply (proj1 (EQ s))|reflexivity|apply path_velocity].
  - apply (turns_unique O); [rewrite O0; apply rotZ|exact TW|]. apply path_turns2. exists (nth 2 q 0 + if (k <? 4)%nat then 0 else nth (k - 1) q 0).
    eexists. split; [|reflexivity]. intros s. rewrite (proj2 (EQ s)). f_equal. destruct (k <? 4)%nat; ring.
Qed.
Definition ex_motion_parameters : motion_parameters := mkMP (V3 2 0 0) (V3 2 0 1) (V3 0 0 (PI / 2)).
(** a controller with velocities and poses of tags *)
Definition ex_controller (velocity pose : list (string * (v3 * v3))) : wbc :=
  wbc_update ROOT_PLANAR ex_motion_parameters (mkWbc true (1 / 10) ex_motion_parameters velocity pose structure_reset).
Lemma ex_prepared velocity pose : prepared ROOT_PLANAR (ex_controller velocity pose).
Proof. eexists. eexists. reflexivity. Qed.
Lemma pepper_tags eig m : reachable eig ROOT_PLANAR ex_pepper m -> ik_getLinkTag m "Tibia" = 3%nat /\ ik_getLinkTag m "Head" = 4%nat /\
  has_link ex_pepper m "Tibia" /\ has_link ex_pepper m "Head".
Proof.
  intros RC. destruct (reachable_good eig _ _ m pepper_kinematics RC) as (file & D & GD). rewrite !(tag_id _ _ file m _ pepper_kinematics GD).
  split; [reflexivity|]. split; [reflexivity|]. unfold has_link. set (q := asVector (ik_gc m)).
  change (getLinkId (ex_pepper q) "Tibia") with 3%nat. change (getLinkId (ex_pepper q) "Head") with 4%nat.
  destruct (pepper_link q 3) as [F|F]; [lia| |lia]. destruct (pepper_link q 4) as [F'|F']; [lia| |lia]. split; eexists; eexists; eassumption.
Qed.
