(** * Counterexamples and examples for C90-C93, with the robot of PepperIkExample.v *)
From Coq Require Import String List Reals Arith Lra Lia Bool ZArith.
From Verif Require Import Base BaseFacts RSum Matrix Mat3 ConstraintType Constraints ConstraintsSpec Solution SpatialTransform PepperMpc PepperTasksSpec
  RotarySpec Rotary RotaryFacts Euler EulerSpec EulerFacts Rbdl RbdlSpec RbdlFacts RbdlComFacts RbdlExample PepperIk PepperIkSpec PepperIkFacts PepperIkExample
  PepperIkTasks PepperIkTasksSpec PepperIkTasksFacts PepperIkMotion PepperIkCommandFacts PepperIkTasksExample.
Import ListNotations.
Local Open Scope R_scope.

Definition ex_unit (i : nat) (j : nat) : R := if Nat.eqb i j then 1 else 0.

(** a task which is configured with the name of another link, after it was used *)
Theorem other_tag_ignored : ~ forall eig f fk t t1 t2 id gain k m w c c' M MS x O v,
  kinematics f fk -> reachable eig f fk m -> prepared f w -> has_link fk m (tt_id t) -> has_link fk m id -> gain <> 0 ->
  form_tagAngularVelocity t (w_structure w) m w = Ok (t1, c) ->
  form_tagAngularVelocity (tag_task_readConfig id gain k t1) (w_structure w) m w = Ok (t2, c') ->
  moving f fk m M MS x -> (forall s, getTagOrientation (at_time m MS s) (ik_getLinkTag m id) = Ok (O s)) -> turns_with O v ->
  satisfies c' x -> forall i, (i < 3)%nat -> component i v = k * component i (m3app (O 0) (snd (getTagVelocityInLocal w id))).
Proof.
  intros H. set (eig := ex_eig). destruct (pepper_at eig (ex_pose 0 0 0) (ex_pose_sized 0 0 0)) as (m & RC & G).
  destruct (pepper_tags eig m RC) as (TT & TH & LT & LH). set (w := ex_controller [] []). set (t := tag_task_new "Tibia" 1 1).
  assert (PR : prepared ROOT_PLANAR w) by apply ex_prepared.
  destruct (pepper_moving eig m (ex_unit 3) RC) as (MS & MV).
  destruct (tagAngularVelocity_tracks eig _ _ t m w pepper_kinematics RC PR LT (or_introl eq_refl)) as (c & EC & _ & _ & TR).
  destruct (tagAngularVelocity_tracks eig _ _ (tag_task_keep m t) m w pepper_kinematics RC PR LT (proj2 (proj2 (proj2 (tag_followed eig _ _ m m t pepper_kinematics RC RC (or_introl eq_refl)))))) as (c' & EC' & _ & _ & TR').
  assert (ES : form_tagAngularVelocity (tag_task_readConfig "Head" 1 1 (tag_task_keep m t)) (w_structure w) m w = Ok (tag_task_keep m (tag_task_readConfig "Head" 1 1 (tag_task_keep m t)), c')).
  { assert (LO : forall name, has_link ex_pepper m name -> exists o, getTagOrientation m (ik_getLinkTag m name) = Ok o).
    { intros name L. destruct (reachable_good eig _ _ m pepper_kinematics RC) as (file & D & GD). unfold has_link in L.
      rewrite <- (tag_id _ _ file m name pepper_kinematics GD) in L.
      destruct (link_pose _ _ _ (good_tree _ _ file m pepper_kinematics GD) (good_updated _ _ file m GD) L) as (_ & EO & _). eexists. exact EO. }
    destruct (LO _ LT) as (o & EO). destruct (LO _ LH) as (o' & EO').
    revert EC'. unfold form_tagAngularVelocity, tag_task_readConfig, tag_task_keep, tag_task_tag, getTagVelocityInGlobal_rotation. cbn [tt_tag tt_id tt_k tt_gain t tag_task_new].
    unfold getTagOrientation in EO, EO'. unfold getTagOrientation. rewrite EO, EO'. cbn [bind getTagVelocityInLocal w ex_controller wbc_update w_velocity tag_find snd].
    rewrite !m3app_zero. destruct (getTagOrientationJacobian m (ik_getLinkTag m "Tibia")) as [J| |]; cbn [bind]; intros E; [|discriminate E..]. injection E as <-. reflexivity. }
  destruct (TR' _ MS _ MV) as (O & v & EO & TW & (_ & _ & SAT)).
  assert (SV : satisfies c' (ex_unit 3)).
  { apply SAT; [cbn; lra|]. pose proof (pepper_path eig m _ MS 3 RC MV ltac:(lia)) as PP. cbv zeta in PP.
    assert (EQ : forall s, O s = Rz (nth 2 (asVector (ik_gc m)) 0 + s * 0)).
    { intros s. specialize (EO s). cbn [tag_task_keep tt_id t tag_task_new] in EO. rewrite TT in EO. unfold getTagOrientation, at_time, ik_set_rbdl in EO. cbn [ik_rbdl] in EO.
      rewrite (proj2 (PP s)) in EO. injection EO as <-. f_equal. cbn. ring. }
    assert (v = V3 0 0 0) as ->.
    { apply (turns_unique O); [rewrite EQ; apply rotZ|exact TW|]. apply path_turns2. exists (nth 2 (asVector (ik_gc m)) 0), 0. auto. }
    intros i Hi. cbn [tag_task_keep tt_id t tag_task_new getTagVelocityInLocal w ex_controller wbc_update w_velocity tag_find snd]. rewrite m3app_zero.
    destruct i as [|[|[|i]]]; cbn; [lra..|lia]. }
  pose proof (pepper_path eig m _ MS 4 RC MV ltac:(lia)) as PP. cbv zeta in PP.
  pose proof (H eig ROOT_PLANAR ex_pepper t _ _ "Head"%string 1 1 m w c c' _ MS (ex_unit 3) (fun s => Rz (0 + s * 1)) (V3 0 0 1)
    pepper_kinematics RC PR LT LH ltac:(lra) EC ES MV) as HH.
  assert (F : component 2 (V3 0 0 1) = 1 * component 2 (m3app (Rz (0 + 0 * 1)) (snd (getTagVelocityInLocal w "Head")))).
  { apply HH; [|apply path_turns|exact SV|lia]. intros s. rewrite TH. unfold getTagOrientation, at_time, ik_set_rbdl. cbn [ik_rbdl]. rewrite (proj2 (PP s)), G. cbn. do 2 f_equal. ring. }
  revert F. cbn. intros F. lra.
Qed.
(** the pose with 3 degrees of freedom: the axes left out are held *)
Lemma no_error o : rotation o -> orientation_error o o v3zero.
Proof. intros ((OO & _) & _). unfold orientation_error. rewrite OO. unfold skew, m3scale, m3add, m3trans, m3id, v3zero; cbn. f_equal; lra. Qed.
Lemma zyx_zero : rotation_zyx v3zero = Rz 0.
Proof. unfold rotation_zyx, v3zero, Rx, Ry, Rz, m3mul; cbn. rewrite cos_0, sin_0. f_equal; ring. Qed.
Lemma rz_zero a : rotation_zyx (V3 0 0 a) = Rz a.
Proof. unfold rotation_zyx, v3zero, Rx, Ry, Rz, m3mul; cbn. rewrite cos_0, sin_0. f_equal; ring. Qed.
Theorem pose3dof_holds_others : ~ forall eig f fk t rpy p m w c M MS x P O v u e,
  kinematics f fk -> reachable eig f fk m -> prepared f w -> has_link fk m (tt_id t) -> tt_tag t = None -> tt_gain t <> 0 ->
  tag_find (tt_id t) (w_pose w) = Some (rpy, p) -> form_tagPose3Dof t (w_structure w) m w = Ok (tag_task_keep m t, c) -> moving f fk m M MS x ->
  (forall s, getTagPosition (at_time m MS s) (ik_getLinkTag m (tt_id t)) = Ok (P s) /\
             getTagOrientation (at_time m MS s) (ik_getLinkTag m (tt_id t)) = Ok (O s)) ->
  turns_with O v -> v3_derivative P 0 u -> orientation_error (O 0) (rotation_zyx rpy) e ->
  vx v = tt_k t * vx e -> vy v = tt_k t * vy e -> vz u = tt_k t * vz (v3sub p (P 0)) -> satisfies c x.
Proof.
  intros H. set (eig := ex_eig). destruct (pepper_at eig (ex_pose 0 0 0) (ex_pose_sized 0 0 0)) as (m & RC & G).
  destruct (pepper_tags eig m RC) as (TT & _ & LT & _). set (w := ex_controller [] [("Tibia"%string, (v3zero, V3 1 0 0))]). set (t := tag_task_new "Tibia" 1 1).
  assert (PR : prepared ROOT_PLANAR w) by apply ex_prepared.
  destruct (pepper_moving eig m (ex_unit 0) RC) as (MS & MV).
  destruct (tagPose_tracks eig _ _ t v3zero (V3 1 0 0) m w pepper_kinematics RC PR LT (or_introl eq_refl) eq_refl) as (c0 & c & _ & _ & _ & EC & _ & _ & TR).
  destruct (TR _ MS _ MV) as (P & O & v & u & e & E & TW & DV & ER & _ & (_ & _ & SAT)).
  destruct (pepper_tag eig m _ MS "Tibia" 3 P O v u RC MV ltac:(lia) TT E TW DV) as (-> & -> & P0 & O0). rewrite G in P0, O0. cbn in P0, O0. rewrite Rplus_0_r in O0.
  assert (e = v3zero) as ->. { eapply error_unique; [exact ER|]. rewrite zyx_zero, O0. apply no_error, rotZ. }
  pose proof (H eig _ _ t v3zero (V3 1 0 0) m w c _ MS _ P O _ _ v3zero pepper_kinematics RC PR LT eq_refl ltac:(cbn; lra) eq_refl EC MV E TW DV ER) as S.
  rewrite P0 in S. cbn in S. specialize (S ltac:(lra) ltac:(lra) ltac:(lra)). rewrite SAT in S by (cbn; lra). specialize (S 3%nat ltac:(lia)). cbn in S. lra.
Qed.
(** velocities of tags which turn away from the origin of the world *)
Theorem velocity_wrong : ~ forall eig f fk t m w c M MS x P O v u,
  kinematics f fk -> reachable eig f fk m -> prepared f w -> has_link fk m (tt_id t) -> tt_tag t = None -> tt_gain t <> 0 ->
  form_tagCompleteVelocity t (w_structure w) m w = Ok (tag_task_keep m t, c) -> moving f fk m M MS x ->
  (forall s, getTagPosition (at_time m MS s) (ik_getLinkTag m (tt_id t)) = Ok (P s) /\
             getTagOrientation (at_time m MS s) (ik_getLinkTag m (tt_id t)) = Ok (O s)) ->
  turns_with O v -> v3_derivative P 0 u -> satisfies c x ->
  u = v3scale (tt_k t) (m3app (O 0) (fst (getTagVelocityInLocal w (tt_id t)))).
Proof.
  intros H. set (eig := ex_eig). destruct (pepper_at eig (ex_pose 1 0 0) (ex_pose_sized 1 0 0)) as (m & RC & G).
  destruct (pepper_tags eig m RC) as (TT & _ & LT & _). set (w := ex_controller [("Tibia"%string, (v3zero, V3 0 0 1))] []). set (t := tag_task_new "Tibia" 1 1).
  assert (PR : prepared ROOT_PLANAR w) by apply ex_prepared.
  set (x := fun i : nat => match i with 1%nat => -1 | 2%nat => 1 | _ => 0 end).
  destruct (pepper_moving eig m x RC) as (MS & MV).
  destruct (tagCompleteVelocity_does eig _ _ t m w pepper_kinematics RC PR LT (or_introl eq_refl)) as (c & EC & _ & _ & TR).
  destruct (TR _ MS _ MV) as (P & O & v & u & E & TW & DV & (_ & _ & SAT)).
  pose proof (H eig _ _ t m w c _ MS _ P O _ _ pepper_kinematics RC PR LT eq_refl ltac:(cbn; lra) EC MV E TW DV) as F.
  destruct (pepper_tag eig m _ MS "Tibia" 3 P O v u RC MV ltac:(lia) TT E TW DV) as (-> & -> & P0 & O0). rewrite G in P0, O0. cbn in P0, O0. rewrite Rplus_0_r in O0.
  rewrite P0, O0 in SAT. rewrite O0 in F.
  assert (S : satisfies c x).
  { apply SAT; [cbn; lra|]. unfold Rz, getTagVelocityInLocal. cbn. intros i Hi. rewrite cos_0, sin_0. destruct i as [|[|[|[|[|[|i]]]]]]; cbn; [lra..|lia]. }
  specialize (F S). unfold Rz, getTagVelocityInLocal in F. cbn in F. injection F as _ F _. rewrite cos_0, sin_0 in F. lra.
Qed.
(** poses computed for tags which turn in place *)
Theorem desired_position_wrong : ~ forall eig f fk m w w' name a P,
  documented_eulerAngles eig -> kinematics f fk -> reachable eig f fk m -> (forall name, In name (map fst (w_velocity w)) -> has_link fk m name) ->
  computeTagsDesiredPoseInGlobal eig m w = Ok w' -> tag_find name (w_velocity w) = Some (v3zero, a) ->
  getTagPosition m (ik_getLinkTag m name) = Ok P -> exists rpy, tag_find name (w_pose w') = Some (rpy, P).
Proof.
  intros H. set (eig := ex_eig). destruct (pepper_at eig (ex_pose 1 0 0) (ex_pose_sized 1 0 0)) as (m & RC & G).
  destruct (pepper_tags eig m RC) as (TT & _ & LT & _). set (w := ex_controller [("Tibia"%string, (v3zero, V3 0 0 1))] []).
  assert (LL : forall name, In name (map fst (w_velocity w)) -> has_link ex_pepper m name) by (intros name [<-|[]]; exact LT).
  destruct (desired_poses eig _ _ m w ex_eig_documented pepper_kinematics RC LL) as (w' & EW & _ & _ & _ & _ & D).
  destruct (D "Tibia"%string v3zero (V3 0 0 1) eq_refl) as (P & O & rpy & EP & EO & F & _).
  destruct (H eig _ _ m w w' "Tibia"%string (V3 0 0 1) P ex_eig_documented pepper_kinematics RC LL EW eq_refl EP) as (rpy' & F').
  destruct (pepper_moving eig m (fun _ => 0) RC) as (MS & MV). pose proof (pepper_path eig m _ MS 3 RC MV ltac:(lia) 0) as (A & B).
  destruct MV as (_ & _ & MS0 & _). rewrite MS0 in A, B. unfold getTagPosition in EP. unfold getTagOrientation in EO. rewrite TT in EP, EO. rewrite A in EP. rewrite B in EO.
  injection EP as <-. injection EO as <-. rewrite F' in F. injection F as _ _ F _. rewrite G in F. unfold v3add, v3scale, v3cross, m3app, Rz, v3zero in F. cbn in F.
  replace (0 + 0 * 0 + 0) with 0 in F by ring. rewrite cos_0, sin_0 in F. lra.
Qed.
(** the robot is at the origin; it is commanded to move by x and to turn *)
Lemma pepper_command x a : Rabs x <= 1 / 100 -> exists eig m0 m1 m2 m3 q c, documented_eulerAngles eig /\
  length q = JOINTS_DOF_NUMBER /\ reachable eig ROOT_PLANAR ex_pepper m0 /\ ik_gc m0 = mkGC [0; 0; 0] q /\ saveCurrentState m0 = Ok m1 /\
  updateState ex_pepper (mkGC [x; 0; a] q) m1 = Ok m2 /\ reachable eig ROOT_PLANAR ex_pepper m2 /\ getRobotCommand 1 m2 = Ok c /\
  correct_state eig ROOT_PLANAR ex_pepper (ik_gc m0) c 1 m2 = Ok m3.
Proof.
  intros HX. exists ex_eig. set (eig := ex_eig).
  destruct (ik_loaded ex_junk ROOT_PLANAR ex_pepper (ex_pepper []) ex_start pepper_kinematics pepper_describes ex_start_constructed) as (m & E & RD & WL & _).
  assert (RCm : reachable eig ROOT_PLANAR ex_pepper m) by exact (rc_load _ _ _ _ _ _ _ pepper_describes ex_start_constructed E).
  assert (SZ : forall x a, sized ROOT_PLANAR (mkGC [x; 0; a] (gc_joints (ik_gc m)))) by (intros x1 a1; split; [reflexivity|apply RD]).
  destruct (pepper_at eig _ (SZ 0 0)) as (m0 & RC & G0).
  destruct (state_saved eig _ _ m0 pepper_kinematics RC) as (m1 & p & o & E1 & EP & EO & S1 & G1 & _).
  assert (RC1 : reachable eig ROOT_PLANAR ex_pepper m1) by (eapply rc_save; eauto).
  set (g := mkGC [x; 0; a] (gc_joints (ik_gc m))).
  destruct (correct_ok eig _ _ m1 g (mkCommand [] v3zero v3zero 0) 0 pepper_kinematics RC1 (SZ x a)) as (U & _). destruct U as (_ & m2 & U & G2 & RC2); [lra|].
  assert (E2 : updateState ex_pepper g m1 = Ok m2) by (unfold correct_state in U; destruct (Rgt_dec 0 0); [lra|exact U]).
  assert (S2 : ik_saved m2 = Some (mkSaved p o (ik_gc m0))).
  { unfold updateState, ik_refresh in E2. destruct (rm_update _ _) as [r| |] in E2; cbn [bind] in E2; [|discriminate E2..]. injection E2 as <-. exact S1. }
  destruct (command_ok eig _ _ m2 _ 1 pepper_kinematics RC2 S2 ltac:(lra)) as (p' & o' & e & c & EP' & EO' & ER & CJ & CI & CB & WS & CMD).
  destruct (base_pose_root eig _ m0 pepper_kinematics RC pepper_base_root) as (z & BP & BO).
  destruct (base_pose_root eig _ m2 pepper_kinematics RC2 pepper_base_root) as (z' & BP' & BO').
  rewrite EP in BP. rewrite EO in BO. rewrite EP' in BP'. rewrite EO' in BO'. injection BP as ->. injection BO as ->. injection BP' as ->. injection BO' as ->.
  cbn [sv_position sv_orientation sv_gc] in *. rewrite G0, G2 in *. cbn in ER, CB, WS.
  assert (e = V3 0 0 (sin a)) as ->.
  { eapply error_unique; [exact ER|]. rewrite <- (Rminus_0_r a) at 2. rewrite <- (error_yaw 0 a). apply error_is. }
  assert (CB0 : cmd_base c = V3 x 0 (sin a)) by (rewrite CB; cbn; f_equal; field).
  specialize (WS a eq_refl). rewrite CB0 in WS. cbn in WS.
  assert (W0 : wheels_slow (cmd_wheels c)).
  { unfold wheel_speeds, wheels in WS. inversion WS as [|? ? ? ? W1 WS1]; subst. inversion WS1 as [|? ? ? ? W2 WS2]; subst. inversion WS2 as [|? ? ? ? W3 WS3]; subst.
    clear - W1 W2 W3 HX. unfold rolls in W1, W2, W3.
    assert (B : forall b w px py s, 0.07 * s = sin b * (cos a * x + sin a * 0 - w * py) - cos b * (cos a * 0 - sin a * x + w * px) ->
                  Rabs w <= 1 -> Rabs px <= 0.17 -> Rabs py <= 0.155 -> Rabs s <= 6.28319).
    { intros b w px py s EQ HW HP HY.
      assert (PB : forall u v B, Rabs u <= 1 -> Rabs v <= B -> - B <= u * v <= B).
      { intros u v B HU HV. pose proof (Rle_abs (u * v)) as A1. pose proof (Rle_abs (- (u * v))) as A2. rewrite Rabs_Ropp in A2. rewrite Rabs_mult in A1, A2. pose proof (Rabs_pos u). pose proof (Rabs_pos v). nra. }
      assert (SN : forall t, Rabs (sin t) <= 1) by (intros t; apply Rabs_le; pose proof (SIN_bound t); lra).
      assert (CS : forall t, Rabs (cos t) <= 1) by (intros t; apply Rabs_le; pose proof (COS_bound t); lra).
      pose proof (PB (cos a) x _ (CS a) HX). pose proof (PB (sin a) x _ (SN a) HX). pose proof (PB w px _ HW HP). pose proof (PB w py _ HW HY).
      assert (Q1 : Rabs (cos a * x + sin a * 0 - w * py) <= 0.165) by (apply Rabs_le; lra).
      assert (Q2 : Rabs (cos a * 0 - sin a * x + w * px) <= 0.18) by (apply Rabs_le; lra).
      pose proof (PB _ _ _ (SN b) Q1). pose proof (PB _ _ _ (CS b) Q2). apply Rabs_le. lra. }
    assert (SN : Rabs (sin a) <= 1) by (apply Rabs_le; pose proof (SIN_bound a); lra).
    split; [|split]; eapply B; eauto; apply Rabs_le; lra. }
  assert (C : getRobotCommand 1 m2 = Ok c).
  { destruct CMD as [(C & _)|(_ & N)]; [exact C|exfalso; apply N]. split; [|split; [|exact W0]].
    - intros j. specialize (WL j). unfold angle, angle_in in *. cbn. lra.
    - intros j. unfold angle, angle_in, g. cbn [gc_joints]. unfold Rminus. rewrite Rplus_opp_r, Rabs_R0. destruct j; cbn; lra. }
  destruct (correct_ok eig _ _ m2 (ik_gc m0) c 1 pepper_kinematics RC2 ltac:(rewrite G0; apply SZ)) as (_ & _ & X).
  destruct X as (_ & m3 & E3 & _ & MV); [lra|reflexivity|rewrite CJ; apply (SZ 0 0)|].
  exists m0, m1, m2, m3, (gc_joints (ik_gc m)), c. repeat (split; [first [exact ex_eig_documented|apply (SZ 0 0)|assumption]|]). rewrite G0 in E3 |- *. exact E3.
Qed.
(** half a turn is not commanded *)
Theorem turn_lost : ~ forall eig fk m0 m1 m2 m3 g dt c,
  kinematics ROOT_PLANAR fk -> base_is_root fk -> reachable eig ROOT_PLANAR fk m0 -> sized ROOT_PLANAR g -> 0 < dt ->
  saveCurrentState m0 = Ok m1 -> updateState fk g m1 = Ok m2 -> getRobotCommand dt m2 = Ok c ->
  correct_state eig ROOT_PLANAR fk (ik_gc m0) c dt m2 = Ok m3 -> exists k : Z, root_at (ik_gc m3) 2 = root_at g 2 + 2 * PI * IZR k.
Proof.
  intros H. destruct (pepper_command 0 PI ltac:(rewrite Rabs_R0; lra)) as (eig & m0 & m1 & m2 & m3 & q & c & _ & LQ & RC & G0 & E1 & E2 & _ & C & E3).
  assert (SZ : sized ROOT_PLANAR (mkGC [0; 0; PI] q)) by (split; [reflexivity|exact LQ]).
  destruct (command_followed eig _ m0 m1 m2 m3 _ 1 c pepper_kinematics pepper_base_root RC SZ ltac:(lra) E1 E2 C E3) as (_ & _ & _ & Y).
  destruct (H eig _ m0 m1 m2 m3 _ 1 c pepper_kinematics pepper_base_root RC SZ ltac:(lra) E1 E2 C E3) as (k & F).
  rewrite Y, G0 in F. cbn in F. rewrite Rminus_0_r, sin_PI in F. pose proof PI_RGT_0 as PP.
  assert (K : PI * (1 + 2 * IZR k) = PI * 0) by lra. apply Rmult_eq_reg_l in K; [|lra].
  assert (Z : IZR (1 + 2 * k) = IZR 0) by (rewrite plus_IZR, mult_IZR; lra). apply eq_IZR in Z. lia.
Qed.
(** the head is turned by the task of its orientation *)
Lemma head_turns : exists eig m w c MS, reachable eig ROOT_PLANAR ex_pepper m /\ prepared ROOT_PLANAR w /\ has_link ex_pepper m "Head" /\
  form_tagOrientation (tag_task_new "Head" 2 1) (V3 0 0 (PI / 2)) (w_structure w) m = Ok (tag_task_keep m (tag_task_new "Head" 2 1), c) /\
  moving ROOT_PLANAR ex_pepper m (fun s => ex_pepper (ex_move (asVector (ik_gc m)) (ex_unit 3) s)) MS (ex_unit 3) /\
  satisfies c (ex_unit 3) /\ ~ satisfies c (fun _ => 0).
Proof.
  set (eig := ex_eig). destruct (pepper_at eig (ex_pose 0 0 0) (ex_pose_sized 0 0 0)) as (m & RC & G).
  destruct (pepper_tags eig m RC) as (_ & TH & _ & LH). set (w := ex_controller [] []). set (t := tag_task_new "Head" 2 1).
  assert (PR : prepared ROOT_PLANAR w) by apply ex_prepared.
  destruct (tagOrientation_tracks eig _ _ t (V3 0 0 (PI / 2)) m w pepper_kinematics RC PR LH (or_introl eq_refl)) as (c & EC & _ & _ & TR).
  destruct (pepper_moving eig m (ex_unit 3) RC) as (MS & MV). exists eig, m, w, c, MS. do 5 (split; [assumption|]).
  assert (X : forall x MS, moving ROOT_PLANAR ex_pepper m (fun s => ex_pepper (ex_move (asVector (ik_gc m)) x s)) MS x -> x 2%nat = 0 -> satisfies c x <-> x 3%nat = 1).
  { intros x MS' MV' X2. destruct (TR _ MS' _ MV') as (O & v & e & E & TW & ER & (_ & _ & SAT)). rewrite SAT by (cbn; lra).
    pose proof (pepper_path eig m _ MS' 4 RC MV' ltac:(lia)) as PP. cbv zeta in PP.
    assert (EQ : forall s, O s = Rz (0 + s * x 3%nat)).
    { intros s. specialize (E s). change (tt_id t) with "Head"%string in E. rewrite TH in E. unfold getTagOrientation, at_time, ik_set_rbdl in E. cbn [ik_rbdl] in E.
      rewrite (proj2 (PP s)), G, X2 in E. injection E as <-. cbn. f_equal; ring. }
    assert (v = V3 0 0 (x 3%nat)) as ->.
    { apply (turns_unique O); [rewrite EQ; apply rotZ|exact TW|]. apply path_turns2. exists 0, (x 3%nat). auto. }
    assert (e = V3 0 0 1) as ->.
    { eapply error_unique; [exact ER|]. rewrite rz_zero, EQ, Rmult_0_l, Rplus_0_r. replace 1 with (sin (PI / 2 - 0)) by (rewrite Rminus_0_r; apply sin_PI2).
      rewrite <- error_yaw. apply error_is. }
    split; [intros S; specialize (S 2%nat ltac:(lia)); cbn in S; lra|]. intros S i Hi. destruct i as [|[|[|i]]]; cbn; [lra..|lia]. }
  split; [apply (X _ MS MV); reflexivity|]. destruct (pepper_moving eig m (fun _ => 0) RC) as (MS' & MV'). rewrite (X _ MS' MV' eq_refl). lra.
Qed.
(** the yaw of a base which is turned to the right *)
Theorem yaw_wrong : ~ forall eig fk m a, documented_eulerAngles eig -> kinematics ROOT_PLANAR fk -> reachable eig ROOT_PLANAR fk m ->
  getBaseOrientation m = Ok (Rz a) -> exists y (k : Z), getBaseYaw eig m = Ok y /\ y = a + 2 * PI * IZR k.
Proof.
  intros H. destruct (pepper_at ex_eig (ex_pose 0 0 (- (1 / 2))) (ex_pose_sized _ _ _)) as (m & RC & G).
  destruct (base_pose_root ex_eig _ m pepper_kinematics RC pepper_base_root) as (z & _ & O). rewrite G in O. cbn [root_at ex_pose gc_root nth] in O.
  destruct (base_yaw_negative ex_eig m ex_eig_documented O) as (y & EY & N).
  destruct (H ex_eig _ m _ ex_eig_documented pepper_kinematics RC O) as (y' & k & EY' & F). rewrite EY in EY'. injection EY' as <-. exact (N k F).
Qed.
Theorem root_yaw_wrong : ~ forall eig f rpy g g' rpy', documented_eulerAngles eig -> sized f g ->
  setRootOrientation eig f rpy g = Ok g' -> getRootOrientation eig f g' = Ok rpy' -> exists k : Z, vz rpy' = vz rpy + 2 * PI * IZR k.
Proof.
  intros H. assert (SZ : sized ROOT_TIBIA (mkGC (repeat 0 6) (repeat 0 15))) by (split; reflexivity).
  destruct (root_yaw_changed ex_eig _ ex_eig_documented SZ) as (g' & rpy & E1 & E2 & N).
  destruct (H ex_eig _ _ _ g' rpy ex_eig_documented SZ E1 E2) as (k & F). exact (N k F).
Qed.
