(** * The program which plans and executes: a robot for which it works *)
From Coq Require Import String List Reals Arith Bool ZArith Lra Lia.
From Verif Require Import Base BaseFacts RSum Matrix Mat3 ConstraintType Constraints ConstraintsSpec ConstraintsFacts QP QPSpec Solution Condense PepperTasksSpec WalkProgramFacts2 RotarySpec Rotary RotaryFacts Euler EulerSpec EulerFacts
  Rbdl RbdlSpec RbdlFacts RbdlComFacts PepperIk PepperIkSpec PepperIkFacts PepperIkExample PepperIkTasks PepperIkTasksSpec PepperIkTasksFacts PepperIkCommandFacts PepperIkMotion PepperIkTasksExample PepperIkTasksWitness
  PepperIkLoop PepperIkLoopSpec PepperIkLoopFacts PepperIkLoopRun PepperIkLoopWitness KKT KKTSpec KKTPosedSpec KKTPosedFacts KKTGauss PepperIkProgram PepperIkProgramSpec PepperIkProgramFacts PepperIkProgramFacts2
  PepperIkProgramFacts3 PepperIkProgramRun PepperIkProgramExample PepperCoupled PepperCoupledSpec PepperCoupledIk.
Import ListNotations.
Local Open Scope R_scope.

(** the base and the masses of the robot of the example *)
Lemma ex_base_com eig m : reachable eig ROOT_PLANAR ex_pepper m -> getBaseCoM m = Ok (V3 (root_at (ik_gc m) 0) (root_at (ik_gc m) 1) (1 / 2)).
Proof.
  intros RC. destruct (pepper_moving eig m (fun _ => 0) RC) as (MS & MV). pose proof (base_com_path eig m (fun _ => 0) MS RC MV 0) as E. pose proof MV as (_ & _ & M0 & _).
  unfold at_time in E. rewrite M0 in E. assert (X : ik_set_rbdl m (ik_rbdl m) = m) by (destruct m; reflexivity). rewrite X in E. rewrite E. destruct (reachable_good eig _ _ m pepper_kinematics RC) as (file & _ & ((SZ & _) & _)).
  unfold asVector, root_at. rewrite !app_nth1 by (rewrite (proj1 SZ); cbn; lia). f_equal. f_equal; ring.
Qed.
Lemma ex_masses eig m : reachable eig ROOT_PLANAR ex_pepper m -> getBaseMass m = 10 /\ getBodyMass m = 15.
Proof.
  intros RC. unfold getBaseMass, getBodyMass. rewrite (base_tag eig m RC). split; [reflexivity|].
  destruct (reachable_good eig _ _ m pepper_kinematics RC) as (file & D & GD). pose proof GD as ((SZ & _) & _ & EB & _). destruct D as (_ & SR & _).
  destruct (SR (asVector (ik_gc m)) (sized_vector _ _ SZ)) as (B & _ & _ & _ & MX & _ & NM & _).
  assert (L : forall n, getLinkId file n = getLinkId (ex_pepper (asVector (ik_gc m))) n) by (intros n; unfold getLinkId; rewrite NM, MX; reflexivity).
  unfold getCoMTag, getBodyLinksStringIds in EB. cbn [length for_up vec_at nth_error bind fst snd] in EB. rewrite !L in EB. unfold vec_at in EB. rewrite <- B in EB. cbn in EB. injection EB as <-. cbn. lra.
Qed.

(** the robot stays where it is and turns its head *)
Definition ce_ik (turn : R) : ik_settings := ex_set LU (ex_reference turn).
Lemma at_root f s : sized f (ik_gc (lk_model s)) -> forall i, (i < ROOT_DOF_NUMBER f)%nat -> nth i (configuration s) 0 = root_at (ik_gc (lk_model s)) i.
Proof. intros SZ i Hi. unfold configuration, asVector, root_at. apply app_nth1. rewrite (proj1 SZ). exact Hi. Qed.
Lemma at_joint f s : sized f (ik_gc (lk_model s)) -> forall j, nth (ROOT_DOF_NUMBER f + joint_id f j) (configuration s) 0 = angle f (ik_gc (lk_model s)) j.
Proof. intros SZ j. unfold configuration, asVector, angle, angle_in. rewrite app_nth2 by (rewrite (proj1 SZ); lia). rewrite (proj1 SZ). f_equal. lia. Qed.
(** one step *)
Lemma ce_step eig turn mp s sol s' : arrives eig (ce_ik turn) s -> vx (mp_base_com mp) = root_at (ik_gc (lk_model (ip_loop s))) 0 -> vy (mp_base_com mp) = root_at (ik_gc (lk_model (ip_loop s))) 1 -> mp_base_rpy mp = V3 0 0 (root_at (ik_gc (lk_model (ip_loop s))) 2) ->
  ik_step (ce_ik turn) mp s = Ok (sol, s') -> arrives eig (ce_ik turn) s' /\ (forall i, (i < 3)%nat -> root_at (ik_gc (lk_model (ip_loop s'))) i = root_at (ik_gc (lk_model (ip_loop s))) i) /\
  (forall j, angle ROOT_PLANAR (ik_gc (lk_model (ip_loop s'))) j = rest_angle j + match j with HeadYaw => turn | _ => 0 end) /\
  ((forall j, angle ROOT_PLANAR (ik_gc (lk_model (ip_loop s))) j = rest_angle j + match j with HeadYaw => turn | _ => 0 end) -> small 1e-2 sol) /\
  reachable eig ROOT_PLANAR ex_pepper (lk_model (ip_loop s')) /\ ik_saved (lk_model (ip_loop s')) = ik_saved (lk_model (ip_loop s)).
Proof.
  intros AR X Y Z E. pose proof (ar_step eig _ mp s sol s' AR E) as AR'. split; [exact AR'|]. pose proof (ex_reference_length turn) as LR.
  destruct (ex_step eig (ex_reference turn) mp s _ LR AR Z) as (sol1 & s1 & E1 & AN & IT & P0 & P1 & P2 & PJ). unfold ce_ik in E. rewrite E in E1. apply ok_pair in E1. destruct E1 as (<- & <-).
  rewrite X, Rminus_diag_eq in P0 by reflexivity. rewrite Y, Rminus_diag_eq in P1 by reflexivity. rewrite Rminus_diag_eq, sin_0 in P2 by reflexivity.
  pose proof (proj1 (arrives_sound eig (ce_ik turn) s pepper_kinematics (ex_proper LU _ LR) AR)) as RC. cbn [ce_ik is_features is_kinematics ex_set] in RC.
  destruct (iteration_ok eig ROOT_PLANAR ex_pepper mp sol (ip_loop s) pepper_kinematics RC AN) as (t & ET & RC' & SV & _ & V). rewrite IT in ET. apply ok_inj in ET. subst t.
  destruct (reachable_good eig _ _ _ pepper_kinematics RC) as (f1 & _ & ((SZ & _) & _)). destruct (reachable_good eig _ _ _ pepper_kinematics RC') as (f2 & _ & ((SZ' & _) & _)).
  assert (V0 : forall i, (i < 3)%nat -> nth i (sol_x sol) 0 = 0) by (intros [|[|[|i]]] L; [exact P0|exact P1|exact P2|lia]).
  split; [intros i Hi; rewrite <- !(at_root ROOT_PLANAR) by (assumption || exact Hi); rewrite V, V0 by (cbn; lia); ring|].
  split; [intros j; rewrite <- (at_joint ROOT_PLANAR _ SZ'), V, (at_joint ROOT_PLANAR _ SZ) by (pose proof (joint_id_lt ROOT_PLANAR j); unfold DOF_NUMBER; cbn [ROOT_DOF_NUMBER]; lia); change (nth (ROOT_DOF_NUMBER ROOT_PLANAR + joint_id ROOT_PLANAR j) (sol_x sol) 0) with (point sol (3 + joint_id ROOT_PLANAR j)); rewrite PJ, ex_reference_angle; ring|].
  split; [|split; [exact RC'|exact SV]]. intros RT i Hi. destruct (AN mp (lk_wbc (ip_loop s))) as (_ & LX). rewrite LX in Hi. change (DOF_NUMBER ROOT_PLANAR) with 18%nat in Hi.
  destruct (Nat.lt_ge_cases i 3) as [L|L]; [rewrite V0, Rabs_R0 by exact L; lra|]. replace i with (3 + (i - 3))%nat by lia. rewrite <- (joint_of_id ROOT_PLANAR (i - 3)) by (change JOINTS_DOF_NUMBER with 15%nat; lia).
  change (Rabs (point sol (3 + joint_id ROOT_PLANAR (joint_of ROOT_PLANAR (i - 3)))) < 1e-2). rewrite PJ, RT, ex_reference_angle. rewrite Rminus_diag_eq by reflexivity. rewrite Rabs_R0. lra.
Qed.
(** the command is allowed *)
Lemma ce_command eig turn m m1 m' : reachable eig ROOT_PLANAR ex_pepper m -> (forall j, angle ROOT_PLANAR (ik_gc m) j = rest_angle j) -> Rabs turn <= 0.07 -> saveCurrentState m = Ok m1 ->
  reachable eig ROOT_PLANAR ex_pepper m' -> ik_saved m' = ik_saved m1 -> (forall i, (i < 3)%nat -> root_at (ik_gc m') i = root_at (ik_gc m) i) ->
  (forall j, angle ROOT_PLANAR (ik_gc m') j = rest_angle j + match j with HeadYaw => turn | _ => 0 end) -> exists c, getRobotCommand (wp_interval wbc_parameters_default) m' = Ok c.
Proof.
  intros RC REST H ES R2 SAV RT AT. assert (DT : wp_interval wbc_parameters_default <> 0) by (cbn; lra).
  destruct (state_saved eig ROOT_PLANAR ex_pepper m pepper_kinematics RC) as (m1' & p0 & o0 & ES' & EP0 & EO0 & SV & _). rewrite ES in ES'. apply ok_inj in ES'. subst m1'. rewrite SV in SAV.
  destruct (command_ok eig ROOT_PLANAR ex_pepper _ _ (wp_interval wbc_parameters_default) pepper_kinematics R2 SAV DT) as (p & o & e & c & EP & EO & OE & CJ & CI & CB & CW & ALT). cbn [sv_gc sv_position sv_orientation] in *.
  destruct (base_pose_root eig ex_pepper _ pepper_kinematics R2 pepper_base_root) as (z & EP2 & EO2). rewrite EP in EP2. rewrite EO in EO2. injection EP2 as ->. injection EO2 as ->.
  destruct (base_pose_root eig ex_pepper _ pepper_kinematics RC pepper_base_root) as (z1 & EP1 & EO1). rewrite EP0 in EP1. rewrite EO0 in EO1. injection EP1 as ->. injection EO1 as ->.
  rewrite (RT 0%nat), (RT 1%nat) in CB by lia. cbn [vx vy vz] in CB.
  assert (E0 : vz e = 0).
  { rewrite (error_unique _ _ _ _ OE (error_is _ _)), error_yaw. cbn [vz]. rewrite (RT 2%nat) by lia. rewrite Rminus_diag_eq by reflexivity. apply sin_0. }
  assert (B0 : cmd_base c = V3 0 0 0) by (rewrite CB, E0; f_equal; cbn; field).
  specialize (CW _ eq_refl). rewrite B0 in CW. cbn [vx vy vz] in CW. exists c. destruct ALT as [(E & _)|(_ & NA)]; [exact E|exfalso; apply NA].
  split; [|split].
  - intros j. rewrite AT. pose proof (turned_within j turn ltac:(lra)). destruct j; cbn in *; lra.
  - intros j. rewrite AT, REST. assert (X : forall a b, a + b - a = b) by (intros; ring). rewrite X. unfold wbc_parameters_default. cbn [wp_interval]. destruct j; cbn [speed_limit]; try (rewrite Rabs_R0; lra). lra.
  - unfold wheel_speeds, wheels in CW. inversion CW as [|? ? ? ? W1 CW2]; subst. inversion CW2 as [|? ? ? ? W2 CW3]; subst. inversion CW3 as [|? ? ? ? W3 _]; subst.
    unfold rolls in W1, W2, W3. unfold wheels_slow.
    assert (vx (cmd_wheels c) = 0) as -> by (revert W1; generalize (sin 1.07519348146676) (cos 1.07519348146676); intros; nra).
    assert (vy (cmd_wheels c) = 0) as -> by (revert W2; generalize (sin (-1.07519348146676)) (cos (-1.07519348146676)); intros; nra).
    assert (vz (cmd_wheels c) = 0) as -> by (revert W3; generalize (sin (-3.14159265358979323846)) (cos (-3.14159265358979323846)); intros; nra).
    rewrite Rabs_R0. lra.
Qed.
Lemma ce_control eig (se : co_settings) turn mp s : ct_ik se = ce_ik turn -> Rabs turn <= 0.07 -> arrives eig (ce_ik turn) s -> (forall j, angle ROOT_PLANAR (ik_gc (lk_model (ip_loop s))) j = rest_angle j) ->
  vx (mp_base_com mp) = root_at (ik_gc (lk_model (ip_loop s))) 0 -> vy (mp_base_com mp) = root_at (ik_gc (lk_model (ip_loop s))) 1 -> mp_base_rpy mp = V3 0 0 (root_at (ik_gc (lk_model (ip_loop s))) 2) ->
  exists c s', co_control (ct_ik se) (ct_tolerance se) mp s = Ok (c, s') /\ angle ROOT_PLANAR (ik_gc (lk_model (ip_loop s'))) HeadYaw = angle ROOT_PLANAR (ik_gc (lk_model (ip_loop s))) HeadYaw + turn.
Proof.
  intros EI T AR REST X Y Z. pose proof (ex_reference_length turn) as LR. pose proof (ex_proper LU _ LR) as PH. pose proof pepper_kinematics as K. pose proof (arrives_sound eig (ce_ik turn) s K PH AR) as SO. fold (ce_ik turn) in PH, SO.
  assert (K' : kinematics (is_features (ct_ik se)) (is_kinematics (ct_ik se))) by (rewrite EI; exact K). assert (PH' : proper_hierarchy (is_hierarchy (ct_ik se))) by (rewrite EI; exact PH).
  assert (RC := proj1 SO). cbn [ce_ik is_features is_kinematics ex_set] in RC.
  assert (STEP : forall m st sols k, saveCurrentState (lk_model (ip_loop s)) = Ok m -> steps_of (ct_ik se) mp (ik_with_model m s) st sols k -> forall i, (i <= k)%nat -> arrives eig (ce_ik turn) (st i) /\ (forall a, (a < 3)%nat -> root_at (ik_gc (lk_model (ip_loop (st i)))) a = root_at (ik_gc (lk_model (ip_loop s))) a) /\
     reachable eig ROOT_PLANAR ex_pepper (lk_model (ip_loop (st i))) /\ ik_saved (lk_model (ip_loop (st i))) = ik_saved m /\
     ((0 < i)%nat -> forall j, angle ROOT_PLANAR (ik_gc (lk_model (ip_loop (st i)))) j = rest_angle j + match j with HeadYaw => turn | _ => 0 end) /\ ((1 < i)%nat -> small 1e-2 (sols (i - 1)%nat))).
  { intros m st sols k EM (S0 & SS). rewrite EI in SS. destruct (state_saved eig _ _ _ K RC) as (m' & p0 & o0 & EM' & _ & _ & SV & G1 & _). rewrite EM in EM'. apply ok_inj in EM'. subst m'.
    induction i as [|i IH]; intros L.
    - rewrite S0. split; [apply ar_save; assumption|]. cbn [ik_with_model ip_loop lk_model]. split; [rewrite G1; reflexivity|]. split; [exact (rc_save eig ROOT_PLANAR ex_pepper _ m RC EM)|]. split; [reflexivity|]. split; lia.
    - destruct (IH ltac:(lia)) as (A & R0 & RI & SI & AI & _). destruct (ce_step eig turn mp (st i) (sols i) (st (S i)) A) as (A' & R' & AN' & SM & RC' & SV'); [rewrite R0 by lia; exact X|rewrite R0 by lia; exact Y|rewrite R0 by lia; exact Z|apply SS; lia|].
      split; [exact A'|]. split; [intros a Ha; rewrite R' by exact Ha; apply R0; exact Ha|]. split; [exact RC'|]. split; [rewrite SV'; exact SI|]. split; [intros _; exact AN'|]. intros I1. replace (S i - 1)%nat with i by lia. apply SM. intros j. apply AI. lia. }
  destruct (co_control_total eig se mp K' PH' 0 s) as (m & EM & [(j & st & sols & L & ST & CS & E)|(st & sols & ST & GO & _)]).
  - rewrite EI. exact SO.
  - intros m EM k st sols _ ST _. destruct (STEP m st sols k EM ST k ltac:(lia)) as (A & _ & RI & _). rewrite EI. exact (ex_solvable eig LU _ mp (ip_loop (st k)) LR RI ltac:(discriminate)).
  - destruct (STEP m st sols (S j) EM ST (S j) ltac:(lia)) as (A & R0 & RI & SI & AI & _). specialize (AI ltac:(lia)).
    destruct (ce_command eig turn (lk_model (ip_loop s)) m _ RC REST T EM RI SI R0 AI) as (c & EC). rewrite E. replace (wp_interval (is_wbc (ct_ik se))) with (wp_interval wbc_parameters_default) by (rewrite EI; reflexivity).
    rewrite EC. cbn [bind]. exists c, (st (S j)). split; [reflexivity|]. rewrite AI, REST. reflexivity.
  - exfalso. assert (I3 : wp_iterations (is_wbc (ct_ik se)) = 3%nat) by (rewrite EI; reflexivity). rewrite I3 in *. destruct (STEP m st sols 3%nat EM ST 2%nat ltac:(lia)) as (_ & _ & _ & _ & _ & SM).
    destruct (GO 1%nat ltac:(lia)) as (_ & NS). apply NS. rewrite EI. exact (SM ltac:(lia)).
Qed.
