(** * C106: a robot for which the program works *)
From Coq Require Import String List Reals Arith Bool ZArith Lra Lia.
From Verif Require Import Base BaseFacts RSum Matrix Mat3 ConstraintType Constraints ConstraintsSpec ConstraintsFacts QP QPSpec Solution Condense PepperTasksSpec WalkProgramFacts2 RotarySpec Rotary RotaryFacts Euler EulerSpec EulerFacts
  Rbdl RbdlSpec RbdlFacts RbdlComFacts PepperIk PepperIkSpec PepperIkFacts PepperIkExample PepperIkTasks PepperIkTasksSpec PepperIkTasksFacts PepperIkCommandFacts PepperIkMotion PepperIkTasksExample PepperIkTasksWitness
  PepperIkLoop PepperIkLoopSpec PepperIkLoopFacts PepperIkLoopRun PepperIkLoopWitness KKT KKTSpec KKTPosedSpec KKTPosedFacts KKTGauss PepperIkProgram PepperIkProgramSpec PepperIkProgramFacts PepperIkProgramFacts2
  PepperIkProgramFacts3 PepperIkProgramRun.
Import ListNotations.
Local Open Scope R_scope.

(** the base of the example moves with its root *)
Lemma pepper_body3 q : bmass (ex_pepper q) 3 = 10 /\ bcom (ex_pepper q) 3 = V3 0 0 (1 / 2).
Proof. split; reflexivity. Qed.
Lemma base_tag eig m : reachable eig ROOT_PLANAR ex_pepper m -> ik_base_com m = ([3%nat], 10).
Proof.
  intros RC. destruct (reachable_good eig _ _ m pepper_kinematics RC) as (file & D & GD). pose proof GD as ((SZ & _) & EB & _). destruct D as (_ & SR & _).
  destruct (SR (asVector (ik_gc m)) (sized_vector _ _ SZ)) as (B & _ & _ & _ & MX & _ & NM & _).
  assert (L : getLinkId file "Tibia" = 3%nat) by (change 3%nat with (getLinkId (ex_pepper (asVector (ik_gc m))) "Tibia"); unfold getLinkId; rewrite ?NM, ?MX; reflexivity).
  unfold getCoMTag, getBaseLinksStringIds in EB. cbn [length for_up vec_at nth_error bind fst snd] in EB. rewrite L in EB. unfold vec_at in EB. rewrite <- B in EB. cbn in EB. injection EB as <-. f_equal. lra.
Qed.
Lemma base_com_path eig m x MS : reachable eig ROOT_PLANAR ex_pepper m -> moving ROOT_PLANAR ex_pepper m (fun s => ex_pepper (ex_move (asVector (ik_gc m)) x s)) MS x ->
  forall s, getBaseCoM (at_time m MS s) = Ok (V3 (nth 0 (asVector (ik_gc m)) 0 + s * x 0%nat) (nth 1 (asVector (ik_gc m)) 0 + s * x 1%nat) (1 / 2)).
Proof.
  intros RC MV s. pose proof MV as (_ & _ & _ & U). unfold getBaseCoM, at_time, ik_set_rbdl. cbn [ik_rbdl ik_base_com]. rewrite (base_tag eig m RC). set (q := ex_move (asVector (ik_gc m)) x s) in *.
  assert (MB : movable (ex_pepper q) 3) by (unfold movable, ex_pepper; cbn [rb_bodies]; rewrite app_length, arms_length; cbn; lia).
  rewrite (position_partial_ok (ex_pepper q) (MS s) ([3%nat], 10) (pepper_tree q) (U s)) by (constructor; [exact MB|constructor]). cbn [fst snd]. unfold Vids. cbn [length]. rewrite V3sum_S. cbn [nth].
  unfold term, bpos. destruct (pepper_body3 q) as (-> & ->). destruct (pepper_link q 3 ltac:(lia)) as [F|F]; [|lia]. destruct (link_frame_inv _ (pepper_tree q) 3 _ _ F) as (EO & Eo). rewrite <- EO, <- Eo.
  unfold q. rewrite !ex_move_nth by lia. f_equal. unfold V3sum, v3add, v3scale, m3app, Rz; cbn. f_equal; field.
Qed.
Lemma base_orientation_path eig m x MS : reachable eig ROOT_PLANAR ex_pepper m -> moving ROOT_PLANAR ex_pepper m (fun s => ex_pepper (ex_move (asVector (ik_gc m)) x s)) MS x ->
  forall s, getBaseOrientation (at_time m MS s) = Ok (Rz (nth 2 (asVector (ik_gc m)) 0 + s * x 2%nat)).
Proof.
  intros RC (_ & _ & _ & U) s. destruct (reachable_good eig _ _ m pepper_kinematics RC) as (file & D & GD). pose proof GD as ((SZ & _) & _ & _ & EO & _). destruct D as (_ & SR & _).
  destruct (SR (asVector (ik_gc m)) (sized_vector _ _ SZ)) as (_ & _ & _ & _ & MX & _ & NM & _).
  unfold getBaseOrientation, at_time, ik_set_rbdl. cbn [ik_rbdl ik_base_orientation]. rewrite EO. set (q := asVector (ik_gc m)) in *.
  assert (L : getLinkId file base_link = 20%nat) by (change 20%nat with (getLinkId (ex_pepper q) base_link); unfold getLinkId; rewrite ?NM, ?MX; reflexivity). rewrite L.
  destruct (pepper_base_root (nth 0 q 0 + s * x 0%nat) (nth 1 q 0 + s * x 1%nat) (nth 2 q 0 + s * x 2%nat) (map (fun i => nth i q 0 + s * x i) (seq 3 15))) as (z & F); [rewrite map_length, seq_length; reflexivity|].
  change ([nth 0 q 0 + s * x 0%nat; nth 1 q 0 + s * x 1%nat; nth 2 q 0 + s * x 2%nat] ++ map (fun i => nth i q 0 + s * x i) (seq 3 15)) with (ex_move q x s) in F.
  change (getLinkId (ex_pepper (ex_move q x s)) "base_footprint") with 20%nat in F. destruct (tag_pose _ (MS s) 20 v3zero _ _ (pepper_tree _) (U s) F) as (_ & E & _). exact E.
Qed.

(** rows of the tasks *)
Lemma row_zero c r : row_value c r (fun _ => 0) = 0.
Proof. destruct (residual_parts c r (fun _ => 0)) as (_ & H). lra. Qed.
Lemma drives_rows c x n g e e0 : drives c x n 1 e -> drives c (fun _ => 0) n 1 e0 -> weighted 1 g -> forall i, (i < n)%nat -> row_value c i x = e i - e0 i.
Proof.
  intros (_ & (g1 & W1 & H1) & _) (_ & (g2 & W2 & H2) & _) _ i Hi. destruct (H1 i Hi) as (b & L & _ & E). destruct (H2 i Hi) as (b' & L' & _ & E'). rewrite L in L'. injection L' as <-. rewrite row_zero in E'.
  unfold weighted in W1, W2. destruct Rlt_dec as [Q|Q]; subst g1 g2; [lra|]. replace (1 - 1) with 0 in Q by ring. rewrite Rabs_R0 in Q. lra.
Qed.
Lemma weighted1 : weighted 1 1.
Proof. unfold weighted. destruct Rlt_dec; reflexivity. Qed.
Section Rows.
  Variables (eig : m3 -> euler_type -> v3) (m : ikmodel) (mp : motion_parameters) (w0 : wbc).
  Hypothesis RC : reachable eig ROOT_PLANAR ex_pepper m.
  Let w := wbc_update ROOT_PLANAR mp w0.
  Lemma base_rows k old c : form_baseCoM ROOT_PLANAR 1 k old (w_structure w) m w = Ok c -> getNumberOfConstraints c = 2%nat /\ forall x i, (i < 2)%nat -> row_value c i x = x i.
  Proof.
    intros E. destruct (baseCoM_tracks eig _ _ 1 k old m w pepper_kinematics RC (w_prepared _ mp w0)) as (c' & E' & _ & _ & H). rewrite E in E'. apply ok_inj in E'. subst c'.
    assert (X : forall x, exists P0, drives c x 2 1 (fun i => component i (V3 (x 0%nat) (x 1%nat) 0) - k * (component i (mp_base_com (w_motion w)) - component i P0)) /\ getBaseCoM m = Ok P0).
    { intros x. destruct (pepper_moving eig m x RC) as (MS & MV). destruct (H _ MS x MV) as (P & v & EP & DV & DR). exists (P 0). split; [|].
      - rewrite <- (v3_same P (fun s => V3 (nth 0 (asVector (ik_gc m)) 0 + s * x 0%nat) (nth 1 (asVector (ik_gc m)) 0 + s * x 1%nat) (1 / 2)) 0 v _); [exact DR| |exact DV|apply path_velocity].
        intros s. pose proof (EP s) as Q. rewrite (base_com_path eig m x MS RC MV s) in Q. injection Q as Q. symmetry. exact Q.
      - pose proof (EP 0) as Q. pose proof MV as (_ & _ & M0 & _). unfold at_time in Q. rewrite M0 in Q. destruct m. exact Q. }
    destruct (X (fun _ => 0)) as (P0 & D0 & Q0). split; [apply D0|]. intros x i Hi. destruct (X x) as (P1 & D1 & Q1). rewrite Q0 in Q1. injection Q1 as <-.
    rewrite (drives_rows c x 2 1 _ _ D1 D0 weighted1 i Hi). destruct i as [|[|i]]; cbn [component vx vy]; [ring|ring|lia].
  Qed.
  Lemma turn_rows k c : form_baseOrientation ROOT_PLANAR 1 k (w_structure w) m w = Ok c -> getNumberOfConstraints c = 1%nat /\ forall x, row_value c 0 x = x 2%nat.
  Proof.
    intros E. destruct (baseOrientation_tracks eig _ _ 1 k m w pepper_kinematics RC (w_prepared _ mp w0)) as (c' & E' & _ & _ & H). rewrite E in E'. apply ok_inj in E'. subst c'.
    assert (X : forall x, exists O0 e, orientation_error O0 (rotation_zyx (mp_base_rpy (w_motion w))) e /\ drives c x 1 1 (fun _ => x 2%nat - k * vz e) /\ getBaseOrientation m = Ok O0).
    { intros x. destruct (pepper_moving eig m x RC) as (MS & MV). destruct (H _ MS x MV) as (O & v & e & EO & TW & ER & DR). exists (O 0), e. split; [exact ER|].
      assert (QO : forall s, O s = Rz (nth 2 (asVector (ik_gc m)) 0 + s * x 2%nat)) by (intros s; pose proof (EO s) as Q; rewrite (base_orientation_path eig m x MS RC MV s) in Q; injection Q as Q; symmetry; exact Q).
      assert (v = V3 0 0 (x 2%nat)) as ->.
      { apply (turns_unique O); [rewrite QO; apply rotZ|exact TW|]. apply path_turns2. exists (nth 2 (asVector (ik_gc m)) 0), (x 2%nat). auto. }
      split; [exact DR|]. pose proof (EO 0) as Q. pose proof MV as (_ & _ & M0 & _). unfold at_time in Q. rewrite M0 in Q. destruct m. exact Q. }
    destruct (X (fun _ => 0)) as (P0 & e0 & R0 & D0 & Q0). split; [apply D0|]. intros x. destruct (X x) as (P1 & e1 & R1 & D1 & Q1). rewrite Q0 in Q1. injection Q1 as <-. rewrite (error_unique _ _ _ _ R1 R0) in D1.
    rewrite (drives_rows c x 1 1 _ _ D1 D0 weighted1 0 ltac:(lia)). ring.
  Qed.
  Lemma reference_rows k ref : length ref = 15%nat -> let c := form_jointsReference 1 k ref (w_structure w) m in getNumberOfConstraints c = 15%nat /\ forall x i, (i < 15)%nat -> row_value c i x = x (3 + i)%nat.
  Proof.
    intros LR c. destruct (any_next eig ROOT_PLANAR ex_pepper m mp w0 pepper_kinematics RC (fun _ => 0)) as (sol & g & w' & _ & SF & NX).
    destruct (ik_reference ROOT_PLANAR m mp w0 sol g w' 1 k ref (size_ok eig _ _ m pepper_kinematics RC) SF NX LR) as (U & _ & N & _). fold w in U, N. fold c in U, N.
    split; [exact N|]. intros x i Hi. unfold c, form_jointsReference. rewrite (row_GI 18); [|exact U|cbn; exact Hi]. cbn [vconst vget]. 
    change (getSolutionPartLocation (w_structure w) JOINTS_VARIABLES_ID) with (mkLoc 3 15). cbn [offset len]. rewrite consecutive_nth by exact Hi. ring.
  Qed.
End Rows.

(** ** the settings of the example *)
Definition ex_hierarchy (reference : list R) : list ik_task * list ik_task := ([BaseCoM 1 1; BaseOrientation 1 1], [JointsReference 1 1 reference]).
Definition ex_set (method : kkt_method) (reference : list R) : ik_settings :=
  mkIkSet ROOT_PLANAR ex_pepper wbc_parameters_default (ex_hierarchy reference) (mkKKTP method 1e-3) gauss_lin gauss_lin.
Lemma ex_proper method reference : length reference = 15%nat -> proper_hierarchy (is_hierarchy (ex_set method reference)).
Proof. intros L. split; [discriminate|]. split; [discriminate|]. split; [constructor; [exact I|constructor; [exact I|constructor]]|constructor; [exact L|constructor]]. Qed.
Lemma ex_first_level eig method reference mp s : reachable eig ROOT_PLANAR ex_pepper (lk_model s) -> posed_first (ex_set method reference) mp s.
Proof.
  intros RC cs F. unfold constraints_of in F. cbn [is_features ex_set is_hierarchy ex_hierarchy fst snd] in F. inversion F as [|? c1 ? ? (o1 & E1) F1]; subst. inversion F1 as [|? c2 ? ? (o2 & E2) F2]; subst. inversion F2; subst.
  cbn [ik_form_task] in E1, E2. destruct (base_rows eig _ mp (lk_wbc s) RC 1 o1 c1 E1) as (N1 & R1). destruct (turn_rows eig _ mp (lk_wbc s) RC 1 c2 E2) as (N2 & R2).
  intros v. exists (fun i => match i with 2%nat => v 1%nat 0%nat | _ => v 0%nat i end). intros [|[|k]] c EC r Hr; cbn [nth_error] in EC; [injection EC as <-..|destruct k; discriminate].
  - rewrite N1 in Hr. rewrite R1 by exact Hr. destruct r as [|[|r]]; [reflexivity|reflexivity|lia].
  - rewrite N2 in Hr. assert (r = 0%nat) as -> by lia. apply R2.
Qed.
Lemma ex_posed eig method reference mp s : length reference = 15%nat -> reachable eig ROOT_PLANAR ex_pepper (lk_model s) -> posed (ex_set method reference) mp s.
Proof.
  intros LR RC. split; [exact (ex_first_level eig method reference mp s RC)|]. intros cs F. unfold constraints_of in F. cbn [is_features ex_set is_hierarchy ex_hierarchy fst snd app] in F.
  inversion F as [|? c1 ? ? (o1 & E1) F1]; subst. inversion F1 as [|? c2 ? ? (o2 & E2) F2]; subst. inversion F2 as [|? c3 ? ? (o3 & E3) F3]; subst. inversion F3; subst.
  cbn [ik_form_task] in E1, E2, E3. apply ok_inj in E3. destruct (base_rows eig _ mp (lk_wbc s) RC 1 o1 c1 E1) as (N1 & R1). destruct (turn_rows eig _ mp (lk_wbc s) RC 1 c2 E2) as (N2 & R2).
  destruct (reference_rows eig _ mp (lk_wbc s) RC 1 reference LR) as (N3 & R3). rewrite E3 in N3, R3. intros d H j Hj. change (DOF_NUMBER (is_features (ex_set method reference))) with 18%nat in Hj.
  destruct (Nat.lt_ge_cases j 2) as [L|L]; [rewrite <- (R1 d j L); apply H; [left; reflexivity|rewrite N1; exact L]|]. destruct (Nat.eq_dec j 2) as [-> |Q]; [rewrite <- R2; apply H; [right; left; reflexivity|rewrite N2; lia]|].
  replace j with (3 + (j - 3))%nat by lia. rewrite <- (R3 d (j - 3)%nat) by lia. apply H; [right; right; left; reflexivity|rewrite N3; lia].
Qed.
Theorem ex_solvable (eig : m3 -> euler_type -> v3) (method : kkt_method) (reference : list R) (mp : motion_parameters) (s : ikloop) : length reference = 15%nat -> reachable eig ROOT_PLANAR ex_pepper (lk_model s) -> method <> KKT_UNDEFINED ->
  solvable (ex_set method reference) mp (match method with CONSTRAINT_ELIMINATION_LLT => 1e-3 | _ => 0 end) s.
Proof.
  intros LR RC ME. destruct method; [right|left|left|destruct ME; reflexivity];
  try (split; [split; [cbn; auto|exact gauss_nonsingular]|split; [reflexivity|exact (ex_posed eig _ reference mp s LR RC)]]).
  split; [split; [reflexivity|]; split; [cbn; lra|]; split; [exact gauss_positive|constructor; [exact I|constructor]]|]. split; [reflexivity|exact (ex_first_level eig _ reference mp s RC)].
Qed.

(** ** the steps of the example: the base and the joints go to their references at once *)
Lemma sum_squares_nonneg e : 0 <= sum_list (map (fun u => u * u) e).
Proof. induction e as [|a e IH]; cbn [map sum_list]; [lra|]. pose proof (Rle_0_sqr a) as H. unfold Rsqr in H. lra. Qed.
Theorem ex_step (eig : m3 -> euler_type -> v3) (reference : list R) (mp : motion_parameters) (s : ik_program) (yaw : R) : length reference = 15%nat -> arrives eig (ex_set LU reference) s -> mp_base_rpy mp = V3 0 0 yaw ->
  let q := ik_gc (lk_model (ip_loop s)) in
  exists sol s', ik_step (ex_set LU reference) mp s = Ok (sol, s') /\ answers ROOT_PLANAR sol /\ ik_iteration ROOT_PLANAR ex_pepper mp sol (ip_loop s) = Ok (ip_loop s') /\
    point sol 0 = vx (mp_base_com mp) - root_at q 0 /\ point sol 1 = vy (mp_base_com mp) - root_at q 1 /\ point sol 2 = sin (yaw - root_at q 2) /\
    forall j, point sol (3 + joint_id ROOT_PLANAR j) = angle_in ROOT_PLANAR reference j - angle ROOT_PLANAR q j.
Proof.
  intros LR A YW q. set (se := ex_set LU reference). pose proof (ex_proper LU reference LR) as PH.
  destruct (arrives_sound eig se s pepper_kinematics PH A) as (RC & _). cbn [is_features is_kinematics se ex_set] in RC.
  destruct (program_step eig se mp 0 s pepper_kinematics PH A (ex_solvable eig LU reference mp (ip_loop s) LR RC ltac:(discriminate))) as (sol & s' & E & AN & EI & _ & BS).
  exists sol, s'. split; [exact E|]. split; [exact AN|]. split; [exact EI|].
  destruct (reachable_good eig _ _ _ pepper_kinematics RC) as (file & _ & ((SZ & _) & _)). fold q in SZ.
  set (m := lk_model (ip_loop s)) in *. 
  set (y := fun i => match i with 0%nat => vx (mp_base_com mp) - root_at q 0 | 1%nat => vy (mp_base_com mp) - root_at q 1 | 2%nat => sin (yaw - root_at q 2) | S (S (S i)) => nth i reference 0 - nth i (gc_joints q) 0 end).
  assert (Q : forall i, (i < 18)%nat -> y i = point sol i).
  { destruct (pepper_moving eig m (point sol) RC) as (MS & MV). destruct (pepper_moving eig m y RC) as (NS & NV).
    assert (GN : Forall (fun t => gain_of t <> 0) (fst (is_hierarchy se))) by (constructor; [cbn; lra|constructor; [cbn; lra|constructor]]).
    destruct (BS _ MS MV GN) as (_ & c & (qs & FQ & CQ) & BEST).
    assert (CN : 0 <= c).
    { rewrite CQ. clear - FQ. induction FQ as [|t v ts vs (e & g & _ & _ & ->) F IH]; cbn [sum_list]; [lra|]. pose proof (Rle_0_sqr g) as G. unfold Rsqr in G. pose proof (sum_squares_nonneg e). nra. }
    assert (AV : forall i, (i < 3)%nat -> nth i (asVector q) 0 = root_at q i) by (intros i Hi; unfold asVector; rewrite app_nth1 by (rewrite (proj1 SZ); exact Hi); reflexivity).
    destruct (BEST _ NS y 0 NV) as (_ & U).
    - intros t [<- |[<- |[]]]; cbn [errors].
      + eexists. split; [eexists _, _; split; [exact (base_com_path eig m y NS RC NV)|split; [apply path_velocity|reflexivity]]|]. fold q. rewrite !AV by lia. cbn [is_features se ex_set axes map component vx vy].
        constructor; [cbn [y]; ring|constructor; [cbn [y]; ring|constructor]].
      + eexists. split; [eexists _, _, _; split; [exact (base_orientation_path eig m y NS RC NV)|split; [apply path_turns|split; [rewrite YW, rz_zero; apply error_is|reflexivity]]]|]. fold q. rewrite !AV by lia. rewrite error_yaw.
        cbn [is_features se ex_set map component vz]. constructor; [|constructor]. cbn [y]. rewrite Rmult_0_l, Rplus_0_r. ring.
    - exists [0]. split; [|cbn; ring]. constructor; [|constructor]. eexists _, 1. split; [reflexivity|]. split; [reflexivity|].
      assert (Z : forall l : list joint, sum_list (map (fun u => u * u) (map (fun j => joint_rate ROOT_PLANAR y j - 1 * (angle_in ROOT_PLANAR reference j - angle ROOT_PLANAR (ik_gc m) j)) l)) = 0).
      { induction l as [|j l IH]; cbn [map sum_list]; [reflexivity|]. rewrite IH. unfold joint_rate, angle, angle_in. fold q. change (ROOT_DOF_NUMBER ROOT_PLANAR) with 3%nat. cbn [y plus]. ring. }
      rewrite Z. ring.
    - apply U. rewrite !Rmult_0_l, !Rplus_0_r. exact CN. }
  rewrite <- !Q by lia. split; [reflexivity|]. split; [reflexivity|]. split; [reflexivity|]. intros j. rewrite <- Q by (pose proof (joint_id_lt ROOT_PLANAR j); unfold JOINTS_DOF_NUMBER in *; lia). reflexivity.
Qed.
Lemma answers_ext f sol sol' : answers f sol -> answers f sol' -> (forall i, (i < DOF_NUMBER f)%nat -> point sol i = point sol' i) -> sol = sol'.
Proof.
  intros A B H. destruct (A (mkMP v3zero v3zero v3zero) (mkWbc true 0 (mkMP v3zero v3zero v3zero) [] [] structure_reset)) as (A1 & A2).
  destruct (B (mkMP v3zero v3zero v3zero) (mkWbc true 0 (mkMP v3zero v3zero v3zero) [] [] structure_reset)) as (B1 & B2). destruct sol as [s x], sol' as [s' x']. cbn [sol_structure sol_x] in *. f_equal; [congruence|].
  apply (nth_ext _ _ 0 0); [congruence|]. intros i Hi. rewrite A2 in Hi. exact (H i Hi).
Qed.
(** angles at rest, the head is turned *)
Definition ex_reference (turn : R) : list R := map (fun i => rest_angle (joint_of ROOT_PLANAR i) + match joint_of ROOT_PLANAR i with HeadYaw => turn | _ => 0 end) (seq 0 15).
Lemma ex_reference_length turn : length (ex_reference turn) = 15%nat.
Proof. unfold ex_reference. rewrite map_length, seq_length. reflexivity. Qed.
Lemma ex_reference_angle turn j : angle_in ROOT_PLANAR (ex_reference turn) j = rest_angle j + match j with HeadYaw => turn | _ => 0 end.
Proof. destruct j; reflexivity. Qed.
Lemma ex_turn_point turn sol : answers ROOT_PLANAR sol -> point sol 0 = 0 -> point sol 1 = 0 -> point sol 2 = 0 ->
  (forall j, point sol (3 + joint_id ROOT_PLANAR j) = match j with HeadYaw => turn | _ => 0 end) -> sol = ex_turn turn.
Proof.
  intros AN P0 P1 P2 PJ. apply (answers_ext ROOT_PLANAR); [exact AN|apply ex_turn_answers|]. change (DOF_NUMBER ROOT_PLANAR) with 18%nat. intros i Hi. unfold point at 2. rewrite ex_turn_x by exact Hi.
  destruct (Nat.lt_ge_cases i 3) as [L|L]; [destruct i as [|[|[|i]]]; [exact P0|exact P1|exact P2|lia]|].
  replace i with (3 + (i - 3))%nat by lia. rewrite <- (joint_of_id ROOT_PLANAR (i - 3)) by (change JOINTS_DOF_NUMBER with 15%nat; lia). rewrite PJ. destruct (joint_of ROOT_PLANAR (i - 3)); reflexivity.
Qed.
Definition ex_stay : motion_parameters := mkMP v3zero v3zero v3zero.
(** the program turns the head in two iterations *)
Theorem ex_control (eig : m3 -> euler_type -> v3) (turn : R) : 1e-2 <= Rabs turn <= 0.07 ->
  exists s c s', arrives eig (ex_set LU (ex_reference turn)) s /\ ik_control (ex_set LU (ex_reference turn)) ex_stay s = Ok (c, s') /\
    angle ROOT_PLANAR (ik_gc (lk_model (ip_loop s'))) HeadYaw = angle ROOT_PLANAR (ik_gc (lk_model (ip_loop s))) HeadYaw + turn.
Proof.
  intros T. set (ref := ex_reference turn). set (se := ex_set LU ref). pose proof (ex_reference_length turn) as LR. fold ref in LR. pose proof (ex_proper LU ref LR) as PH. pose proof pepper_kinematics as K.
  destruct (pepper_at eig (gc_default (fun _ => 0) ROOT_PLANAR) (proj1 (ik_default (fun _ => 0) ROOT_PLANAR HeadYaw))) as (m & RC & EG).
  assert (REST : forall j, angle ROOT_PLANAR (ik_gc m) j = rest_angle j) by (intros j; rewrite EG; apply ik_default).
  assert (ROOT0 : forall i, (i < 3)%nat -> root_at (ik_gc m) i = 0) by (intros i Hi; rewrite EG; destruct i as [|[|[|i]]]; [reflexivity|reflexivity|reflexivity|lia]).
  set (w := mkWbc true 0 ex_stay [] [] structure_reset). destruct (program_starts eig se m w (fun _ => mzero 0 0) (mkObjective (mzero 0 0) (vconst 0 0) HESSIAN_UNDEFINED QP_UNDEFINED, mkAB (mzero 0 0) (vconst 0 0)) RC) as (s & ES & EL).
  pose proof (ar_start eig se m w _ _ s RC ES) as AR. destruct (turn_interval eig m w ex_stay turn RC REST ltac:(lra)) as (m1 & st & EM & ST & _ & OK & _). destruct (OK ltac:(lra)) as (c & EI).
  assert (RC1 : reachable eig ROOT_PLANAR ex_pepper m1) by (apply (rc_save eig ROOT_PLANAR ex_pepper m); assumption).
  destruct (state_saved eig _ _ m K RC) as (m1' & _ & _ & EM' & _ & _ & _ & G1 & _). rewrite EM in EM'. apply ok_inj in EM'. subst m1'.
  assert (REST1 : forall j, angle ROOT_PLANAR (ik_gc m1) j = rest_angle j) by (intros j; rewrite G1; apply REST).
  set (s1 := ik_with_model m1 s). assert (EM1 : saveCurrentState (lk_model (ip_loop s)) = Ok m1) by (rewrite EL; exact EM).
  assert (A1 : arrives eig se s1) by (apply ar_save; assumption). assert (L1 : ip_loop s1 = st 0%nat) by (rewrite (proj1 ST); unfold s1, ik_with_model; cbn [ip_loop]; rewrite EL; reflexivity).
  assert (TU : forall k, _) by exact (fun k => turned eig m1 w ex_stay turn RC1 REST1 st k ST).
  assert (ST1 : forall k sk, arrives eig se sk -> ip_loop sk = st k -> exists sk', ik_step se ex_stay sk = Ok (ex_sols turn k, sk') /\ ip_loop sk' = st (S k)).
  { intros k sk AK LK. destruct (ex_step eig ref ex_stay sk 0 LR AK eq_refl) as (sol & s' & E & AN & IT & P0 & P1 & P2 & PJ). rewrite LK in IT, P0, P1, P2, PJ. destruct (TU k) as (_ & _ & RT & AT).
    rewrite RT, G1, ROOT0 in P0 by lia. rewrite RT, G1, ROOT0 in P1 by lia. rewrite RT, G1, ROOT0 in P2 by lia. cbn [ex_stay mp_base_com v3zero vx vy] in P0, P1. rewrite !Rminus_0_r in P0, P1, P2. rewrite sin_0 in P2.
    assert (SOL : sol = ex_sols turn k).
    { apply ex_turn_point; [exact AN|exact P0|exact P1|exact P2|]. intros j. rewrite PJ, AT. unfold ref. rewrite ex_reference_angle. destruct k, j; ring. }
    subst sol. exists s'. split; [exact E|]. rewrite (proj2 ST k) in IT. apply ok_inj in IT. symmetry. exact IT. }
  destruct (ST1 0%nat s1 A1 L1) as (s2 & E1 & L2). assert (A2 : arrives eig se s2) by exact (ar_step eig se ex_stay s1 _ s2 A1 E1). destruct (ST1 1%nat s2 A2 L2) as (s3 & E2 & L3).
  exists s, c, s3. split; [exact AR|]. pose proof (ex_first turn 1e-2 ltac:(lra) ltac:(lra)) as (F1 & F2). split.
  - unfold ik_control. rewrite EM1. cbn [bind]. change (wp_iterations (is_wbc se)) with 3%nat. change (wp_tolerance (is_wbc se)) with 1e-2. cbn [ik_steps]. fold s1. rewrite E1. cbn [bind fst snd].
    destruct Rlt_dec as [R|R]; rewrite (small_norm _ _ _ (ex_sols_answers turn 0)) in R; [destruct (F2 0%nat ltac:(lia) R)|]. rewrite E2. cbn [bind fst snd].
    destruct Rlt_dec as [R2|R2]; rewrite (small_norm _ _ _ (ex_sols_answers turn 1)) in R2; [|contradiction]. cbn [bind fst snd]. rewrite L3.
    unfold ik_interval in EI. cbn [lk_model lk_wbc] in EI. rewrite EM in EI. cbn [bind] in EI.
    pose proof (iterations_same se ex_stay (ex_sols turn) 3 0 (mkIkloop m1 w) 1 st (ex_sols_answers turn) ltac:(lia) (proj1 ST) (fun k _ => proj2 ST k) F1 (fun k L => F2 k L)) as II.
    cbn [is_features is_kinematics is_wbc se ex_set] in II. change (wp_iterations wbc_parameters_default) with 3%nat in EI. rewrite II in EI. cbn [bind fst snd] in EI.
    change (wp_interval (is_wbc se)) with (wp_interval wbc_parameters_default). destruct (getRobotCommand _ _) as [c'| |]; cbn [bind] in EI |- *; try discriminate EI. injection EI as ->. reflexivity.
  - rewrite L3, EL. cbn [lk_model]. destruct (TU 2%nat) as (_ & _ & _ & AT). rewrite AT, REST. reflexivity.
Qed.
