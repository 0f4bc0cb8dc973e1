(** * C100: examples, and a loop which converges but does not give a command *)
From Coq Require Import String List Reals Arith Lra Lia Bool ZArith.
From Verif Require Import Base BaseFacts RSum Matrix Mat3 ConstraintType Constraints ConstraintsSpec ConstraintsFacts Solution Condense SpatialTransform PepperMpc PepperTasksSpec
  RotarySpec Rotary RotaryFacts Euler EulerSpec EulerFacts Rbdl RbdlSpec RbdlFacts RbdlComFacts PepperIk PepperIkSpec PepperIkFacts PepperIkExample PepperIkTasks PepperIkTasksSpec PepperIkTasksFacts
  PepperIkCommandFacts PepperIkMotion PepperIkTasksExample PepperIkLoop PepperIkLoopSpec PepperIkLoopFacts PepperIkLoopRun.
Import ListNotations.
Local Open Scope R_scope.

(** steps in which only the head turns *)
Definition ex_turn (turn : R) : solution :=
  mkSolution (w_structure (wbc_update ROOT_PLANAR (mkMP v3zero v3zero v3zero) (mkWbc true 0 (mkMP v3zero v3zero v3zero) [] [] structure_reset)))
    ([0; 0; 0] ++ update (repeat 0 15) 3 turn).
Lemma ex_turn_answers turn : answers ROOT_PLANAR (ex_turn turn).
Proof. intros mp w. split; reflexivity. Qed.
(** the head turns in the first iteration only *)
Definition ex_sols (turn : R) (k : nat) : solution := ex_turn (match k with O => turn | _ => 0 end).
Lemma ex_sols_answers turn k : answers ROOT_PLANAR (ex_sols turn k).
Proof. apply ex_turn_answers. Qed.
Lemma ex_turn_x turn i : (i < 18)%nat -> nth i (sol_x (ex_turn turn)) 0 = if (i =? 6)%nat then turn else 0.
Proof. intros H. do 18 (destruct i as [|i]; [reflexivity|]). lia. Qed.
Lemma ex_turn_small turn t : 0 < t -> (small t (ex_turn turn) <-> Rabs turn < t).
Proof.
  intros T. split.
  - intros H. exact (H 6%nat ltac:(cbn; lia)).
  - intros H i Hi. change (length (sol_x (ex_turn turn))) with 18%nat in Hi. rewrite ex_turn_x by exact Hi. destruct (i =? 6)%nat; [exact H|rewrite Rabs_R0; exact T].
Qed.
Lemma ex_first turn t : 0 < t -> t <= Rabs turn -> first_small t (ex_sols turn) 1.
Proof.
  intros T H. split; [apply (proj2 (ex_turn_small 0 t T)); rewrite Rabs_R0; exact T|].
  intros k Hk. assert (k = 0%nat) as -> by lia. intros S. apply (proj1 (ex_turn_small turn t T)) in S. lra.
Qed.
(** the robot at rest *)
Lemma ex_rest eig : exists m, reachable eig ROOT_PLANAR ex_pepper m /\ (forall j, angle ROOT_PLANAR (ik_gc m) j = rest_angle j).
Proof.
  destruct (pepper_at eig (gc_default (fun _ => 0) ROOT_PLANAR) (proj1 (ik_default (fun _ => 0) ROOT_PLANAR HeadYaw))) as (m & RC & EG).
  exists m. split; [exact RC|]. intros j. rewrite EG. apply ik_default.
Qed.
Section Turn.
  Variables (eig : m3 -> euler_type -> v3) (m : ikmodel) (w : wbc) (mp : motion_parameters) (turn : R).
  Hypothesis RC : reachable eig ROOT_PLANAR ex_pepper m.
  Hypothesis REST : forall j, angle ROOT_PLANAR (ik_gc m) j = rest_angle j.
  Let K := pepper_kinematics.
  Lemma turned st k : states ROOT_PLANAR ex_pepper mp (ex_sols turn) (mkIkloop m w) st -> reachable eig ROOT_PLANAR ex_pepper (lk_model (st k)) /\
    sized ROOT_PLANAR (ik_gc (lk_model (st k))) /\
    (forall i, (i < 3)%nat -> root_at (ik_gc (lk_model (st k))) i = root_at (ik_gc m) i) /\
    forall j, angle ROOT_PLANAR (ik_gc (lk_model (st k))) j = rest_angle j + match j, k with HeadYaw, S _ => turn | _, _ => 0 end.
  Proof.
    intros ST. destruct (states_exist eig ROOT_PLANAR ex_pepper mp (ex_sols turn) (mkIkloop m w) K RC (ex_sols_answers turn)) as (ST' & P).
    rewrite (states_unique _ _ _ _ _ _ _ ST ST'). destruct (P k) as (R1 & _ & V). split; [exact R1|].
    destruct (reachable_good eig ROOT_PLANAR ex_pepper _ K R1) as (f1 & _ & ((SZ & _) & _)). destruct (reachable_good eig ROOT_PLANAR ex_pepper _ K RC) as (f2 & _ & ((SZ0 & _) & _)).
    split; [exact SZ|]. set (s' := st_of _ _ _ _ _ k) in *. unfold configuration in V. cbn [lk_model] in V.
    assert (SUM : forall i, (i < 18)%nat -> Rsum k (fun j => nth i (sol_x (ex_sols turn j)) 0) = if (i =? 6)%nat then match k with O => 0 | S _ => turn end else 0).
    { intros i Hi. destruct k as [|k']; [cbn; destruct (i =? 6)%nat; reflexivity|]. rewrite Rsum_first. cbn [ex_sols]. unfold ex_sols at 1. rewrite ex_turn_x by exact Hi.
      rewrite Rsum_zero; [destruct (i =? 6)%nat; ring|]. intros q _. unfold ex_sols. rewrite ex_turn_x by exact Hi. destruct (i =? 6)%nat; reflexivity. }
    split.
    - intros i Hi. specialize (V i ltac:(cbn; lia)). rewrite SUM in V by lia. unfold asVector in V. rewrite !app_nth1 in V by (rewrite ?(proj1 SZ), ?(proj1 SZ0); exact Hi).
      replace (i =? 6)%nat with false in V by (symmetry; apply Nat.eqb_neq; lia). unfold root_at. lra.
    - intros j. pose proof (joint_id_lt ROOT_PLANAR j) as JL. specialize (V (3 + joint_id ROOT_PLANAR j)%nat ltac:(unfold DOF_NUMBER; cbn [ROOT_DOF_NUMBER]; lia)).
      rewrite SUM in V by (unfold JOINTS_DOF_NUMBER in JL; lia). unfold asVector in V. rewrite !app_nth2 in V by (rewrite ?(proj1 SZ), ?(proj1 SZ0); cbn [ROOT_DOF_NUMBER]; lia).
      rewrite (proj1 SZ), (proj1 SZ0) in V. cbn [ROOT_DOF_NUMBER] in V. replace (3 + joint_id ROOT_PLANAR j - 3)%nat with (joint_id ROOT_PLANAR j) in V by lia.
      unfold angle, angle_in. rewrite V. pose proof (REST j) as RJ. unfold angle, angle_in in RJ. rewrite RJ. f_equal. destruct j; cbn; destruct k; reflexivity.
  Qed.
End Turn.
Lemma turned_within j (turn : R) : Rabs turn <= 1 -> lower_limit j <= rest_angle j + match j with HeadYaw => turn | _ => 0 end <= upper_limit j.
Proof. intros H. assert (-1 <= turn <= 1) by (revert H; unfold Rabs; destruct Rcase_abs; lra). destruct j; cbn; lra. Qed.
Lemma turn_obeys eig m w mp turn st k : reachable eig ROOT_PLANAR ex_pepper m -> (forall j, angle ROOT_PLANAR (ik_gc m) j = rest_angle j) -> Rabs turn <= 1 ->
  states ROOT_PLANAR ex_pepper mp (ex_sols turn) (mkIkloop m w) st -> obeys_bounds ROOT_PLANAR mp (st k) (ex_sols turn k).
Proof.
  intros RC REST H ST. apply (loop_limits eig ROOT_PLANAR ex_pepper mp (ex_sols turn) (mkIkloop m w) st k pepper_kinematics RC (ex_sols_answers turn) ST).
  destruct (turned eig m w mp turn RC REST st (S k) ST) as (_ & _ & _ & A). intros j. rewrite A. pose proof (turned_within j turn H). destruct j; cbn in *; lra.
Qed.
(** the command after a turn of the head *)
Lemma turn_interval eig m w mp turn : reachable eig ROOT_PLANAR ex_pepper m -> (forall j, angle ROOT_PLANAR (ik_gc m) j = rest_angle j) -> 1e-2 <= Rabs turn <= 1 ->
  exists m1 st, saveCurrentState m = Ok m1 /\ states ROOT_PLANAR ex_pepper mp (ex_sols turn) (mkIkloop m1 w) st /\
    (forall k, obeys_bounds ROOT_PLANAR mp (st k) (ex_sols turn k)) /\
    (Rabs turn <= 0.07 -> exists c, ik_interval ROOT_PLANAR ex_pepper wbc_parameters_default mp (ex_sols turn) (mkIkloop m w) = Ok (c, st 2%nat)) /\
    (0.08 <= Rabs turn -> ik_interval ROOT_PLANAR ex_pepper wbc_parameters_default mp (ex_sols turn) (mkIkloop m w) = Throw).
Proof.
  intros RC REST H. assert (DT : wp_interval wbc_parameters_default <> 0) by (cbn; lra).
  destruct (loop_interval eig ROOT_PLANAR ex_pepper wbc_parameters_default mp (ex_sols turn) (mkIkloop m w) pepper_kinematics RC (ex_sols_answers turn) DT)
    as (m1 & st & ES & ST & RS & EG & OUT). cbn [lk_model lk_wbc] in *.
  assert (RC1 : reachable eig ROOT_PLANAR ex_pepper m1) by (apply (rc_save eig ROOT_PLANAR ex_pepper m); assumption).
  assert (REST1 : forall j, angle ROOT_PLANAR (ik_gc m1) j = rest_angle j) by (intros j; rewrite EG; apply REST).
  exists m1, st. split; [exact ES|]. split; [exact ST|]. split; [intros k; apply (turn_obeys eig m1 w mp turn st k); auto; lra|].
  pose proof (ex_first turn 1e-2 ltac:(lra) ltac:(lra)) as FS.
  assert (U : forall n, first_small 1e-2 (ex_sols turn) n -> n = 1%nat).
  { intros n (A & B). destruct (Nat.lt_trichotomy n 1) as [L|[L|L]]; [|exact L|].
    - destruct (proj2 FS n L A).
    - destruct (B 1%nat L (proj1 FS)). }
  destruct (turned eig m1 w mp turn RC1 REST1 st 2 ST) as (R2 & SZ2 & RT & AT).
  destruct (state_saved eig ROOT_PLANAR ex_pepper m pepper_kinematics RC) as (m1' & p0 & o0 & ES' & EP0 & EO0 & SV & _). rewrite ES in ES'. injection ES' as <-.
  assert (SAV : ik_saved (lk_model (st 2%nat)) = Some (mkSaved p0 o0 (ik_gc m))).
  { destruct (states_exist eig ROOT_PLANAR ex_pepper mp (ex_sols turn) (mkIkloop m1 w) pepper_kinematics RC1 (ex_sols_answers turn)) as (ST' & P).
    rewrite (states_unique _ _ _ _ _ _ _ ST ST' 2%nat). destruct (P 2%nat) as (_ & -> & _). exact SV. }
  destruct (command_ok eig ROOT_PLANAR ex_pepper _ _ (wp_interval wbc_parameters_default) pepper_kinematics R2 SAV DT)
    as (p & o & e & c & EP & EO & OE & CJ & CI & CB & CW & ALT). cbn [sv_gc sv_position sv_orientation] in *.
  destruct (base_pose_root eig ex_pepper _ pepper_kinematics R2 pepper_base_root) as (z & EP2 & EO2). rewrite EP in EP2. rewrite EO in EO2. injection EP2 as ->. injection EO2 as ->.
  destruct (base_pose_root eig ex_pepper _ pepper_kinematics RC pepper_base_root) as (z1 & EP1 & EO1). rewrite EP0 in EP1. rewrite EO0 in EO1. injection EP1 as ->. injection EO1 as ->.
  rewrite (RT 0%nat), (RT 1%nat) in CB by lia. rewrite EG in CB. cbn [vx vy vz] in CB.
  assert (E0 : vz e = 0).
  { rewrite (error_unique _ _ _ _ OE (error_is _ _)), error_yaw. cbn [vz]. rewrite (RT 2%nat) by lia. rewrite EG, Rminus_diag_eq by reflexivity. apply sin_0. }
  assert (B0 : cmd_base c = V3 0 0 0) by (rewrite CB, E0; f_equal; cbn; field).
  specialize (CW _ eq_refl). rewrite B0 in CW. cbn [vx vy vz] in CW.
  assert (W0 : wheels_slow (cmd_wheels c)).
  { unfold wheel_speeds, wheels in CW. inversion CW as [|? ? ? ? W1 CW2]; subst. inversion CW2 as [|? ? ? ? W2 CW3]; subst. inversion CW3 as [|? ? ? ? W3 _]; subst.
    unfold rolls in W1, W2, W3. unfold wheels_slow. 
    assert (vx (cmd_wheels c) = 0) as -> by (revert W1; generalize (sin 1.07519348146676) (cos 1.07519348146676); intros; nra).
    assert (vy (cmd_wheels c) = 0) as -> by (revert W2; generalize (sin (-1.07519348146676)) (cos (-1.07519348146676)); intros; nra).
    assert (vz (cmd_wheels c) = 0) as -> by (revert W3; generalize (sin (-3.14159265358979323846)) (cos (-3.14159265358979323846)); intros; nra).
    rewrite Rabs_R0. lra. }
  assert (WL : almost_within ROOT_PLANAR 1e-7 (ik_gc (lk_model (st 2%nat)))).
  { intros j. rewrite AT. pose proof (turned_within j turn ltac:(lra)). destruct j; cbn in *; lra. }
  assert (DJ : forall j, angle ROOT_PLANAR (ik_gc (lk_model (st 2%nat))) j - angle ROOT_PLANAR (ik_gc m) j = match j with HeadYaw => turn | _ => 0 end).
  { intros j. rewrite AT, REST. destruct j; ring. }
  split; intros HT.
  - assert (SL : slow_enough ROOT_PLANAR (ik_gc m) (ik_gc (lk_model (st 2%nat))) (wp_interval wbc_parameters_default)).
    { intros j. rewrite DJ. cbn [wp_interval wbc_parameters_default]. destruct j; rewrite ?Rabs_R0; cbn [speed_limit]; lra. }
    destruct ALT as [(E & _)|(_ & N)]; [|destruct N; auto].
    destruct OUT as [(n & c' & _ & F & _ & E')|(_ & [N|(n & _ & F & E')])].
    + apply U in F. subst n. exists c'. exact E'.
    + destruct (N 1%nat ltac:(cbn; lia) (proj1 FS)).
    + apply U in F. subst n. rewrite E in E'. discriminate.
  - assert (SL : ~ slow_enough ROOT_PLANAR (ik_gc m) (ik_gc (lk_model (st 2%nat))) (wp_interval wbc_parameters_default)).
    { intros A. specialize (A HeadYaw). rewrite DJ in A. cbn [wp_interval wbc_parameters_default speed_limit] in A. lra. }
    destruct ALT as [(_ & _ & N & _)|(E & _)]; [contradiction|].
    destruct OUT as [(n & c' & _ & F & E' & _)|(E' & _)]; [|exact E']. apply U in F. subst n. rewrite E in E'. discriminate.
Qed.
(** the bounds hold in all iterations, and the loop stops, but there is no command *)
Theorem speed_not_bounded : ~ forall eig f fk p mp sols s m1 st n,
  kinematics f fk -> reachable eig f fk (lk_model s) -> within_limits f (ik_gc (lk_model s)) -> (forall k, answers f (sols k)) -> 0 < wp_interval p ->
  saveCurrentState (lk_model s) = Ok m1 -> states f fk mp sols (mkIkloop m1 (lk_wbc s)) st ->
  (forall k, obeys_bounds f mp (st k) (sols k)) -> (n < wp_iterations p)%nat -> first_small (wp_tolerance p) sols n ->
  exists c s', ik_interval f fk p mp sols s = Ok (c, s').
Proof.
  intros H. destruct (ex_rest (fun _ _ => v3zero)) as (m & RC & REST).
  set (mp := mkMP v3zero v3zero v3zero). set (w := mkWbc false 0 mp [] [] structure_reset).
  assert (A1 : Rabs 1 = 1) by apply Rabs_R1.
  destruct (turn_interval _ m w mp 1 RC REST ltac:(lra)) as (m1 & st & ES & ST & OB & _ & TH).
  destruct (H (fun _ _ => v3zero) ROOT_PLANAR ex_pepper wbc_parameters_default mp (ex_sols 1) (mkIkloop m w) m1 st 1%nat) as (c & s' & E); cbn [lk_model lk_wbc wp_interval wp_iterations wbc_parameters_default wp_tolerance]; auto.
  - apply pepper_kinematics.
  - intros j. rewrite REST. destruct (ik_default (fun _ => 0) ROOT_PLANAR j) as (_ & _ & B). lra.
  - intros k. apply ex_sols_answers.
  - lra.
  - apply ex_first; lra.
  - rewrite TH in E by lra. discriminate.
Qed.
