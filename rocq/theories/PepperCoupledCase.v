(** * The program which plans and executes: a run, and a heading which is wrong *)
From Coq Require Import String List Reals Arith Bool ZArith Lra Lia.
From Verif Require Import Base BaseFacts RSum Matrix Mat2 Mat3 ActiveSet Mixins ConstraintType HierarchyLevel HierarchySpec Constraints ConstraintsSpec QP QPSpec Problem ProblemSpec
  PointMass6z PointMass6zSpec TripleIntegratorSpec Solution Task MpcGuess MpcGuessSpec MpcGuessFacts
  QpoasesBridge QpoasesBridgeSpec Backends BackendsSpec Solver SolverLife SolverLifeSpec SolverLifeFacts WalkProgram WalkProgramSpec WalkProgramFacts WalkProgramFacts2
  RotarySpec Rotary Euler EulerSpec EulerFacts Rbdl RbdlSpec PepperIk PepperIkSpec PepperIkFacts PepperIkExample PepperIkTasks PepperIkTasksSpec PepperIkTasksFacts PepperIkTasksExample PepperIkLoop PepperIkCommandFacts PepperIkLoopSpec KKT KKTSpec KKTPosedSpec PepperIkProgram PepperIkProgramSpec PepperIkProgramFacts2 PepperIkProgramRun PepperIkProgramExample
  PepperPreview PepperPreviewSpec PepperFormFacts PepperModel PepperMpc PepperMpcSpec PepperMpcFacts2 PepperTasks PepperTasksSpec PepperTasksFacts PepperTasksFacts2 PepperLoop PepperLoopSpec PepperLoopFacts PepperLoopFacts2
  PepperProgram PepperProgramSpec PepperProgramFacts PepperProgramFacts2 PepperProgramFacts3 PepperProgramFacts4 PepperProgramFacts5 PepperProgramUnique PepperProgramFacts6 PepperProgramFacts7 PepperCoupled PepperCoupledSpec PepperCoupledIk PepperCoupledFacts PepperCoupledRobot.
Import ListNotations.
Local Open Scope R_scope.

(** ** a robot which stands: bounds [K], two intervals of 100 ms in the horizon, steps of 40 ms, the control intervals are 5 ms longer than those of the MPC *)
Definition ce_bounds (K : R) : robot_bounds := mkBounds (M2 (- K) K (- K) K) (M2 (- K) K (- K) K) (M2 (- K) K (- K) K) (M2 (- K) K (- K) K).
Definition ce_settings (K turn : R) : co_settings := mkCoSet (ce_bounds K) 40 false 3 1 0 (ce_ik turn) 1e-3 5.
Definition ce_state : pepper_state := mkPS (mkPM (V3 0 0 (1 / 10)) (V3 0 0 0) (V3 0 0 0)) (V3 0 0 0) (mkPM (V3 0 0 (7 / 10)) (V3 0 0 0) (V3 0 0 0)) default_base_mass default_body_mass.
Definition ce_motions : list motion := [mkMotion (V2 0 0) (V2 0 0) 0 200].
Definition ce_loop : loop := mkLoop ce_state (Queue ce_motions) (mg_new cr_parameters).
Definition ce_zero (v : nat) : R := 0.
Definition ce_answer (k : libcall) : answer := mkAnswer CODE_SUCCESS 5 (Some ce_zero) (fun _ => 0) (fun _ => 0).
Definition ce_environment (e : environment) : environment := mkEnv (en_junk e) (en_x e) ce_answer (en_broken e) (en_broken_guess e).
Definition ce_wbc : wbc := mkWbc true 0 (mkMP v3zero v3zero v3zero) [] [] structure_reset.
Definition ce_qp : objective * contAB := (mkObjective (mzero 0 0) (vconst 0 0) HESSIAN_UNDEFINED QP_UNDEFINED, mkAB (mzero 0 0) (vconst 0 0)).
Definition ce_command0 : PepperIkTasks.command := mkCommand [] v3zero v3zero 0.
Definition ce_ready_with (eig : m3 -> euler_type -> v3) (K turn : R) (m : ikmodel) (s : coupled) : Prop :=
  co_ready eig (ce_settings K turn) cr_par (1 / 2) None cr_world ce_loop m ce_wbc (fun _ => mzero 0 0) ce_qp ce_command0 s.
Lemma ce_ready eig K turn m : reachable eig ROOT_PLANAR ex_pepper m -> exists s, ce_ready_with eig K turn m s.
Proof.
  intros RC. destruct (kp_setup_shape (ks_position (co_mpc (ce_settings K turn))) pb_new pr_new) as (p & l0 & l1 & E & _).
  assert (X : exists k, kp_start (co_mpc (ce_settings K turn)) cr_par (1 / 2) None cr_world ce_loop = Ok k) by (unfold kp_start; rewrite E; cbn [bind]; eexists; reflexivity). destruct X as (k & EK).
  destruct (program_starts eig (ce_ik turn) m ce_wbc (fun _ => mzero 0 0) ce_qp RC) as (i & EI & _). exists (mkCo k i ce_command0).
  split; [split; cbn; lia|]. split; [cbn; apply Forall_forall; intros a [<-|[]]; right; cbn; lia|]. split; [cbn; lia|]. split; [reflexivity|]. split; [intros a [<-|[<-|[]]]; cbn; lia|].
  split; [reflexivity|]. split; [exact pepper_kinematics|]. split; [exact (ex_proper LU _ (ex_reference_length turn))|]. split; [cbn; lra|].
  split; [intros m' R'; destruct (ex_masses eig m' R') as (-> & ->); lra|]. split; [exact RC|]. unfold co_start. rewrite EK. cbn [bind]. change (ct_ik (ce_settings K turn)) with (ce_ik turn). rewrite EI. reflexivity.
Qed.

(** ** plans of a robot which stands *)
Definition ce_offset (l : loop) (a : axis) : R := in_frame (rot2 (heading_of l)) (vx (base_of l AxisX) - vx (body_of l AxisX)) (vx (base_of l AxisY) - vx (body_of l AxisY)) a.
Definition ce_cop (l : loop) (a : axis) : R := ps_body_mass (lp_model l) * (vx (body_of l a) - vx (base_of l a)) / (ps_base_mass (lp_model l) + ps_body_mass (lp_model l)).
Definition ce_range (l : loop) : R := 1 + (Rabs (ce_offset l AxisX) + Rabs (ce_offset l AxisY)) + (Rabs (ce_cop l AxisX) + Rabs (ce_cop l AxisY)).
Definition standing (l : loop) : Prop := mg_par (lp_mg l) = cr_parameters /\ ps_base_mass (lp_model l) + ps_body_mass (lp_model l) <> 0 /\
  forall a, base_of l a = V3 (vx (base_of l a)) 0 0 /\ body_of l a = V3 (vx (body_of l a)) 0 0.
Definition rest_plan (l : loop) : plan := mkPlan (fun _ => base_of l) (fun _ => body_of l) (fun _ _ => 0) (fun _ => ce_cop l).
Lemma ce_commanded t : match commanded ce_motions t with Some (v, x, u) => v = V2 0 0 /\ u = 0 | None => True end.
Proof. unfold commanded, ce_motions. cbn [executed mo_duration]. destruct (Z.eq_dec 200 (-1)); [lia|]. destruct (Z_lt_dec t 200); cbn; auto. Qed.
Lemma ce_turned f T i : turned (fun k => angular_at ce_motions (f k)) T i = 0.
Proof. induction i as [|i IH]; cbn [turned]; [reflexivity|]. rewrite IH. unfold angular_at. pose proof (ce_commanded (f i)) as C. destruct (commanded ce_motions (f i)) as [[[v x] u]|]; [destruct C as [_ ->]|]; ring. Qed.
Lemma ce_base k a : (k < 2)%nat -> base_command (as_pepper 2 ce_zero) k a = 0.
Proof. intros H. destruct k as [|[|k]]; [| |lia]; destruct a; reflexivity. Qed.
Lemma ce_body k a : (k < 2)%nat -> body_command 2 (as_pepper 2 ce_zero) k a = 0.
Proof. intros H. destruct k as [|[|k]]; [| |lia]; destruct a; reflexivity. Qed.
Lemma stands x T : moved3 (V3 x 0 0) (V3 x 0 0) 0 T.
Proof. unfold moved3, motion_position, motion_velocity, motion_acceleration. cbn [vx vy vz]. repeat split; field. Qed.
Lemma ce_planned l : standing l -> planned l (as_pepper 2 ce_zero) (rest_plan l).
Proof.
  intros (E & M & St). unfold planned. rewrite E. cbn [cr_parameters horizon_length sampling_ms]. split; [intros a; split; reflexivity|]. intros k a H. cbn [rest_plan pl_base pl_body pl_jerk pl_cop].
  destruct (St a) as (Eb & Ep). rewrite ce_base, ce_body by exact H. rewrite Eb, Ep. split; [apply stands|]. split; [reflexivity|]. split; [apply stands|]. unfold relative_cop, ce_cop. cbn [vx vz]. field. split; [unfold gravity; lra|exact M].
Qed.
Lemma ce_heading n shift l k : heading_after ce_motions shift n l k = heading_of l.
Proof. unfold heading_after. cbv zeta. rewrite ce_turned. ring. Qed.
Lemma abs_within x K : Rabs x <= K -> - K <= x <= K.
Proof. unfold Rabs. destruct Rcase_abs; lra. Qed.
Lemma ce_respects n shift l K : standing l -> ce_range l <= K -> respects (ce_bounds K) ce_motions shift n l (rest_plan l).
Proof.
  intros (E & M & St) HK k a _. rewrite ce_heading. cbn [rest_plan pl_base pl_body pl_cop]. change (in_frame (rot2 (heading_of l)) _ _ a) with (ce_offset l a).
  destruct (St a) as (Eb & _). rewrite Eb. cbn [vy vz]. pose proof (Rabs_pos (ce_offset l AxisX)). pose proof (Rabs_pos (ce_offset l AxisY)). pose proof (Rabs_pos (ce_cop l AxisX)). pose proof (Rabs_pos (ce_cop l AxisY)). unfold ce_range in HK.
  assert (C : - K <= ce_cop l a <= K) by (apply abs_within; destruct a; lra). assert (O : - K <= ce_offset l a <= K) by (apply abs_within; destruct a; lra).
  generalize dependent (ce_cop l a). intros c C. generalize dependent (ce_offset l a). intros o O. unfold within, ce_bounds. destruct a; cbn [lower_bound upper_bound rb_cop rb_velocity rb_acceleration rb_body a00 a01 a10 a11]; repeat split; lra.
Qed.
Lemma ce_finite : finite 2 (as_pepper 2 ce_zero).
Proof. intros v H. rewrite as_pepper_point by exact H. unfold ce_zero. assert (1 <= g_infinity) by (unfold g_infinity; lra). lra. Qed.
Lemma ce_cost K turn gain n l : standing l -> plan_cost (co_mpc (ce_settings K turn)) gain ce_motions n l (as_pepper 2 ce_zero) (rest_plan l) = 0.
Proof.
  intros C. pose proof C as (E & _ & St). unfold plan_cost. rewrite E. cbn [cr_parameters horizon_length].
  assert (D : forall k a, deviation (ks_position (co_mpc (ce_settings K turn))) ce_motions (ks_shift (co_mpc (ce_settings K turn))) n l (rest_plan l) k a = 0).
  { intros k a. unfold deviation. pose proof (ce_commanded (interval_end (mg_par (lp_mg l)) (ks_shift (co_mpc (ce_settings K turn))) n k)) as X. destruct (commanded ce_motions _) as [[[v x] u]|]; [|reflexivity]. destruct X as [-> _].
    cbn [co_mpc ce_settings ct_position ks_position rest_plan pl_base]. destruct (St a) as (Eb & _). rewrite Eb. cbn [vy]. destruct a; cbn; ring. }
  cbn [Rsum]. rewrite !D, !ce_body by lia. cbn [rest_plan pl_jerk pl_cop co_mpc ce_settings ct_center ks_center]. unfold Rsqr. ring.
Qed.

(** ** the run *)
Section Case.
Variables (eig : m3 -> euler_type -> v3) (junk : nat -> nat -> nat -> R) (es0 : nat -> environment) (K turn : R) (m : ikmodel) (s : coupled).
Notation se := (ce_settings K turn).
Notation es := (fun n => ce_environment (es0 n)).
Hypothesis Re : ce_ready_with eig K turn m s.
Lemma ce_begins y : co_begins eig se 0 s y -> standing (mpc y) /\ robot y = m /\ synced eig m ce_state (lp_model (mpc y)).
Proof.
  intros B. destruct (begun eig junk se cr_par (1 / 2) None cr_world ce_loop m ce_wbc (fun _ => mzero 0 0) ce_qp ce_command0 s Re es 0 s eq_refl) as (y' & B' & RC & Sn & Z & _ & _). rewrite <- (begins_unique eig se 0 s y y' B B') in *. destruct (Z eq_refl) as (ER & EL). rewrite EL, ER in Sn. rewrite ER.
  assert (EP : mg_par (lp_mg (mpc y)) = cr_parameters).
  { destruct (begins eig se cr_par (1 / 2) None cr_world ce_loop m ce_wbc (fun _ => mzero 0 0) ce_qp ce_command0 s Re 0 s) as (y2 & B2 & G & _).
    - exact (proj1 (start_cgood eig se cr_par (1 / 2) None cr_world ce_loop m ce_wbc (fun _ => mzero 0 0) ce_qp ce_command0 s Re)).
    - rewrite <- (begins_unique eig se 0 s y y2 B B2) in *. exact (kp_par _ _ _ _ _ _ _ G). }
  split; [|split; [reflexivity|exact Sn]]. destruct (ex_masses eig m ltac:(destruct Re as (_ & _ & _ & _ & _ & _ & _ & _ & _ & _ & X & _); exact X)) as (M1 & M2). pose proof Sn as (_ & _ & _ & S1 & S2 & S3 & S4 & S5 & S6).
  split; [exact EP|]. split; [rewrite S1, S2, M1, M2; lra|]. intros a. unfold base_of, body_of, along_axis. rewrite S3, S4, S5, S6. destruct a; split; reflexivity.
Qed.
Hypothesis HK : forall y, co_begins eig se 0 s y -> ce_range (mpc y) <= K.
Lemma ce_asked n k : co_asked eig junk se es s n k -> n = 0%nat.
Proof.
  intros As. destruct n as [|n]; [reflexivity|exfalso]. pose proof As as (x & y & _ & _ & _ & _ & _ & A & B & _).
  destruct (begins eig se cr_par (1 / 2) None cr_world ce_loop m ce_wbc (fun _ => mzero 0 0) ce_qp ce_command0 s Re (S n) x) as (y2 & B2 & G & _).
  - exact (reach eig junk se cr_par (1 / 2) None cr_world ce_loop m ce_wbc (fun _ => mzero 0 0) ce_qp ce_command0 s Re es (S n) x A).
  - destruct (plans eig junk se cr_par (1 / 2) None cr_world ce_loop m ce_wbc (fun _ => mzero 0 0) ce_qp ce_command0 s Re es (S n) x y2 A B2 G) as [(_ & _ & No)|[(_ & _ & _ & No)|(En & _)]]; [exact (No k As)|exact (No k As)|].
    destruct En as [(mo & [<-|[]] & D)|En]; [discriminate D|]. change (Z.of_nat 2 * 100 + Z.of_nat (S n) * co_shift (ce_settings K turn) <= 200)%Z in En. change (co_shift (ce_settings K turn)) with 45%Z in En. lia.
Qed.
Lemma ce_sound : co_library_is sound_answer eig junk se es s.
Proof.
  intros n k As _. exists ce_zero. split; [reflexivity|]. pose proof (ce_asked n k As) as E0. subst n. pose proof As as (x & y & g1 & f1 & p1 & r1 & t1 & A & B & U1 & F1 & R1 & C1). cbn [co_after] in A. injection A as <-. destruct (ce_begins y B) as (St & _). specialize (HK y B).
  destruct (begins eig se cr_par (1 / 2) None cr_world ce_loop m ce_wbc (fun _ => mzero 0 0) ce_qp ce_command0 s Re 0 s) as (y2 & B2 & G & _).
  { exact (proj1 (start_cgood eig se cr_par (1 / 2) None cr_world ce_loop m ce_wbc (fun _ => mzero 0 0) ce_qp ce_command0 s Re)). }
  rewrite <- (begins_unique eig se 0 s y y2 B B2) in *. clear y2 B2.
  assert (KE : exists g z f p r l0 l1 k0 k1 res t k', kposed junk (co_mpc se) (es 0%nat) ce_loop (1 / 2) 0 (co_pepper y) g z f p r l0 l1 k0 k1 /\ effect cr_par (kp_call (co_mpc se) (es 0%nat) f p r) (kp_world (co_pepper y)) l0 l1 res t k' /\ co_asked eig junk se es s 0 k').
  { destruct (plans eig junk se cr_par (1 / 2) None cr_world ce_loop m ce_wbc (fun _ => mzero 0 0) ce_qp ce_command0 s Re es 0 s y eq_refl B G) as [(_ & _ & No)|[(_ & _ & _ & No)|(_ & _ & k' & As' & [(_ & _ & _ & g & z & f & p & r & l0 & l1 & k0 & k1 & t & KP & Ef)|(k2 & _ & [_ _ _ _ _ (g & z & f & p & r & l0 & l1 & k0 & k1 & t & KP & Ef & _)])])]]; try solve [destruct (No k As)].
    - exists g, z, f, p, r, l0, l1, k0, k1, (Thrown t), t, k'. auto.
    - exists g, z, f, p, r, l0, l1, k0, k1, (Returned t), t, k'. auto. }
  destruct KE as (g & z & f & p & r & l0 & l1 & k0 & k1 & res & t & k' & KP & Ef & As').
  assert (k' = k).
  { destruct As' as (x2 & y2 & g2 & f2 & p2 & r2 & t2 & A2 & B2 & U2 & F2 & R2 & C2). cbn [co_after] in A2. injection A2 as <-. rewrite <- (begins_unique eig se 0 s y y2 B B2) in *. rewrite U1 in U2. injection U2 as <-. rewrite F1 in F2. injection F2 as <- <- <-.
    assert (t2 = t1) by (destruct R1, R2; congruence). subst t2. congruence. } subst k'.
  pose proof (kp_par _ _ _ _ _ _ _ G) as EP.
  pose proof (ko_formed _ _ _ _ _ _ _ _ _ _ _ _ _ _ _ _ KP) as KF. pose proof (ko_before _ _ _ _ _ _ _ _ _ _ _ _ _ _ _ _ KP) as Sh. pose proof (ko_nv _ _ _ _ _ _ _ _ _ _ _ _ _ _ _ _ KP) as NV.
  pose proof (gt_problem _ _ _ _ _ _ (ef_gets _ _ _ _ _ _ _ _ Ef)) as (_ & _ & GM). cbn [kp_call cl_cs cl_solution] in GM. rewrite NV in GM.
  assert (LR := level_respects _ _ _ _ _ _ _ _ _ KF Sh). assert (LC := level_plan_cost _ _ _ _ _ _ _ _ _ KF Sh). assert (LX := klevel_ext _ _ _ _ _ _ _ _ _ KF Sh). assert (CX := kcost_ext _ _ _ _ _ _ _ _ _ KF Sh). assert (RX := level_reasonable _ _ _ _ _ _ _ _ _ KF Sh).
  rewrite EP in LR, LC, LX, CX, RX. change (horizon_length (mg_par (lp_mg ce_loop))) with 2%nat in *. change (as_queue (lp_motions ce_loop)) with ce_motions in *.
  change (kp_loop (co_pepper y)) with (mpc y) in *.
  pose proof (ce_planned _ St) as Pl. pose proof (as_pepper_fits 2 ce_zero) as Fi.
  assert (Ez : forall i, (i < 4 * 2)%nat -> point (as_pepper 2 ce_zero) i = ce_zero i) by (intros; apply as_pepper_point; assumption).
  apply GM.
  - apply RX. intros v Hv. rewrite <- Ez by exact Hv. exact (ce_finite v Hv).
  - split.
    + apply (LX _ _ Ez). apply (LR _ _ Fi Pl). exact (ce_respects 0 _ _ K St HK).
    + intros y' _. rewrite <- (CX _ _ Ez), (LC _ _ Fi Pl), (ce_cost K turn (1 / 2) 0 _ St).
      rewrite <- (CX (point (as_pepper 2 y')) y' (fun i Hi => as_pepper_point 2 y' i Hi)). destruct (ko_plans _ _ _ _ _ _ _ _ _ _ _ _ _ _ _ _ KP (as_pepper 2 y') (as_pepper_fits 2 y')) as (P' & HP').
      rewrite (LC _ _ (as_pepper_fits 2 y') HP'). apply cost_nonneg.
Qed.
Lemma ce_capable : co_library_is capable_answer eig junk se es s.
Proof. intros n k _ _. reflexivity. Qed.
Lemma moved_unique b c e j T : moved3 b c j T -> moved3 b e j T -> c = e.
Proof. destruct b as [b1 b2 b3], c as [c1 c2 c3], e as [e1 e2 e3]. intros (X1 & X2 & X3) (Y1 & Y2 & Y3). cbn [vx vy vz] in *. congruence. Qed.
Lemma ce_run : documented_eulerAngles eig -> Rabs turn <= 0.07 -> 0 < root_at (ik_gc m) 2 < PI -> (forall j, angle ROOT_PLANAR (ik_gc m) j = rest_angle j) ->
  exists x, co_passes eig junk se es s 0 s x /\ angle ROOT_PLANAR (ik_gc (robot x)) HeadYaw = rest_angle HeadYaw + turn /\ co_after eig junk se es s 2 = Ok None.
Proof.
  intros DE HT YA REST. pose proof Re as (_ & _ & _ & _ & _ & _ & _ & _ & _ & _ & RC & ST).
  destruct (begun eig junk se cr_par (1 / 2) None cr_world ce_loop m ce_wbc (fun _ => mzero 0 0) ce_qp ce_command0 s Re es 0 s eq_refl) as (y & B & _). destruct (ce_begins y B) as (Sd & ER & Sn). pose proof (HK y B) as HK'.
  destruct (begins eig se cr_par (1 / 2) None cr_world ce_loop m ce_wbc (fun _ => mzero 0 0) ce_qp ce_command0 s Re 0 s) as (y2 & B2 & G & _).
  { exact (proj1 (start_cgood eig se cr_par (1 / 2) None cr_world ce_loop m ce_wbc (fun _ => mzero 0 0) ce_qp ce_command0 s Re)). }
  rewrite <- (begins_unique eig se 0 s y y2 B B2) in *. clear y2 B2.
  assert (PK : exists k' k, co_plan junk se (es 0%nat) (co_pepper y) = Ok (Some k') /\ cplan eig junk se cr_par (1 / 2) cr_world ce_loop s es 0 s y k' k).
  { destruct (plans eig junk se cr_par (1 / 2) None cr_world ce_loop m ce_wbc (fun _ => mzero 0 0) ce_qp ce_command0 s Re es 0 s y eq_refl B G) as [(Ne & _)|[(_ & Nm & _)|(_ & _ & k & As & [(_ & _ & Co & _)|(k' & E & CP)])]].
    - exfalso. apply Ne. right. cbn. lia.
    - exfalso. apply Nm. intros a. exists 0. assert (1 <= g_infinity) by (unfold g_infinity; lra). assert (0 <= K) by (unfold ce_range in HK'; pose proof (Rabs_pos (ce_offset (mpc y) AxisX)); pose proof (Rabs_pos (ce_offset (mpc y) AxisY)); pose proof (Rabs_pos (ce_cop (mpc y) AxisX)); pose proof (Rabs_pos (ce_cop (mpc y) AxisY)); lra).
      unfold within. destruct a; cbn; lra.
    - exfalso. apply Co. reflexivity.
    - exists k', k. auto. }
  destruct PK as (k' & k & EK & CP). pose proof (cp_advanced _ _ _ _ _ _ _ _ _ _ _ _ _ _ CP) as (_ & _ & _ & v & mo & Mx & pr & A). destruct Sd as (EP & _ & Sa). rewrite EP in A.
  destruct A as (_ & _ & _ & _ & A1 & _ & A2 & _ & _ & A5 & _). cbn [cr_parameters horizon_length sampling_ms step_ms] in A2, A5. 
  destruct (cp_posed _ _ _ _ _ _ _ _ _ _ _ _ _ _ CP) as (g & z & f & p & r & l0 & l1 & k0 & k1 & t & KP & Ef & Ls).
  assert (SL : forall i, (i < 4 * 2)%nat -> point (kp_last k') i = ce_zero i) by (intros i Hi; exact (answer_point junk (co_mpc se) cr_par (1 / 2) ce_loop es 0 (co_pepper y) k' g z f p r l0 l1 k0 k1 t k KP Ef Ls ce_zero eq_refl i Hi)).
  assert (BC : forall a, base_command (kp_last k') 0 a = 0) by (intros a; change (base_command (kp_last k') 0 a) with (point (kp_last k') (2 * 0 + axis_index a)); rewrite SL by (destruct a; cbn; lia); reflexivity).
  assert (BS : forall a, base_of (kp_loop k') a = base_of (mpc y) a).
  { intros a. destruct (A2 a) as (M1 & _). rewrite BC in M1. change (base_of (kp_loop (kp_shifted se k')) a) with (base_of (kp_loop k') a) in M1. destruct (Sa a) as (Eb & _). rewrite Eb in M1. 
    assert (J : vel_jerk (V3 (vx (base_of (mpc y) a)) 0 0) 0 (seconds 100) = 0) by (unfold vel_jerk, seconds; cbn; field). rewrite J in M1. rewrite Eb. exact (moved_unique _ _ _ _ _ M1 (stands _ _)). }
  assert (HD : heading_of (kp_loop k') = heading_of (mpc y)).
  { change (heading_of (kp_loop (kp_shifted se k'))) with (heading_of (kp_loop k')) in A5. rewrite A5.
    pose proof (kg_loop _ _ _ _ _ _ _ G) as (_ & _ & I3 & _). pose proof (ce_commanded 99) as C. specialize (I3 99%Z ltac:(lia)). change (Z.of_nat 0 * ks_shift (co_mpc se) + 99)%Z with 99%Z in I3. change (as_queue (lp_motions ce_loop)) with ce_motions in I3. rewrite <- I3 in C. unfold commanded in C. fold (mpc y) in C.
    change (sampling_ms cr_parameters - 1)%Z with 99%Z in A1. rewrite A1 in C. cbn [option_map command_of] in C. destruct C as (_ & C). rewrite C. ring. }
  pose proof (heading eig junk se cr_par (1 / 2) None cr_world ce_loop m ce_wbc (fun _ => mzero 0 0) ce_qp ce_command0 s Re es 0 s y DE pepper_base_root eq_refl B ltac:(rewrite ER; exact YA)) as HY. rewrite ER in HY.
  assert (AR : arrives eig (ce_ik turn) (co_ik y)).
  { assert (X : co_ik y = co_ik s) by (destruct B as (s1 & F & Sy); cbn in F; injection F as <-; unfold co_sync in Sy; apply bind_ok in Sy; destruct Sy as (q1 & _ & Sy); apply bind_ok in Sy; destruct Sy as (q2 & _ & Sy); apply bind_ok in Sy; destruct Sy as (q3 & _ & Sy); injection Sy as <-; reflexivity).
    rewrite X. unfold co_start in ST. apply bind_ok in ST. destruct ST as (kk & _ & ST). apply bind_ok in ST. destruct ST as (i & EI & ST). injection ST as <-. exact (ar_start eig (ce_ik turn) m _ _ _ i RC EI). }
  fold (robot y) in *. destruct Sn as (Sb & _). rewrite (ex_base_com eig m RC) in Sb. apply ok_inj in Sb.
  assert (RB : forall a, vx (base_of (kp_loop k') a) = root_at (ik_gc m) (axis_index a)) by (intros a; rewrite BS; unfold base_of, along_axis; rewrite <- Sb; destruct a; reflexivity).
  destruct (ce_control eig se turn (co_references (lp_model (kp_loop k'))) (co_ik y) eq_refl HT AR) as (c & i & EC & EH).
  - fold (robot y). rewrite ER. exact REST.
  - fold (robot y). rewrite ER. exact (RB AxisX).
  - fold (robot y). rewrite ER. exact (RB AxisY).
  - fold (robot y). rewrite ER, <- HY, <- HD. reflexivity.
  - assert (E1 : co_after eig junk se es s 1 = Ok (Some (mkCo k' i c))) by (cbn [co_after bind]; rewrite (begins_iterate eig junk se (es 0%nat) 0 s y B), EK; cbn [bind]; rewrite EC; reflexivity).
    exists (mkCo k' i c). split; [split; [reflexivity|exact E1]|]. fold (robot y) in EH. rewrite ER, REST in EH. split; [exact EH|].
    destruct (begins eig se cr_par (1 / 2) None cr_world ce_loop m ce_wbc (fun _ => mzero 0 0) ce_qp ce_command0 s Re 1 (mkCo k' i c)) as (y1 & B1 & G1 & _); [exact (reach eig junk se cr_par (1 / 2) None cr_world ce_loop m ce_wbc (fun _ => mzero 0 0) ce_qp ce_command0 s Re es 1 _ E1)|].
    assert (NE : ~ (endless ce_motions \/ (Z.of_nat 2 * 100 + Z.of_nat 1 * co_shift (ce_settings K turn) <= 200)%Z)) by (intros [(q & [<-|[]] & D)|En]; [discriminate D|change (co_shift (ce_settings K turn)) with 45%Z in En; lia]).
    change (co_after eig junk se es s 2) with (bind (co_after eig junk se es s 1) (fun o => match o with Some x => co_iterate eig junk se (es 1%nat) 1 x | None => Ok None end)). rewrite E1. cbn [bind]. rewrite (begins_iterate eig junk se (es 1%nat) 1 _ y1 B1).
    destruct (plans eig junk se cr_par (1 / 2) None cr_world ce_loop m ce_wbc (fun _ => mzero 0 0) ce_qp ce_command0 s Re es 1 _ y1 E1 B1 G1) as [(_ & E2 & _)|[(En & _)|(En & _)]]; [rewrite E2; reflexivity|exfalso; exact (NE En)|exfalso; exact (NE En)].
Qed.
End Case.
Lemma range_same eig m l l' : standing l -> standing l' -> synced eig m ce_state (lp_model l) -> synced eig m ce_state (lp_model l') -> ce_range l = ce_range l'.
Proof.
  intros _ _ (A1 & A2 & A3 & A4 & A5 & _) (B1 & B2 & B3 & B4 & B5 & _). rewrite A1 in B1. apply ok_inj in B1. rewrite A2 in B2. apply ok_inj in B2. rewrite A3 in B3. apply ok_inj in B3.
  assert (E1 : forall a, vx (base_of l a) = vx (base_of l' a)) by (intros a; unfold base_of, along_axis; cbn [vx]; rewrite B1; reflexivity).
  assert (E2 : forall a, vx (body_of l a) = vx (body_of l' a)) by (intros a; unfold body_of, along_axis; cbn [vx]; rewrite B2; reflexivity).
  unfold ce_range, ce_offset, ce_cop, heading_of. rewrite !E1, !E2, B3, A4, A5, B4, B5. reflexivity.
Qed.
(** a robot anywhere, with its joints at rest, turned to the left: the bounds can be chosen such that it is asked to stay, the library answers with zeros, and the head turns by the given angle; there is one iteration *)
Theorem coupled_case (eig : m3 -> euler_type -> v3) (junk : nat -> nat -> nat -> R) (es : nat -> environment) (turn : R) (m : ikmodel) : documented_eulerAngles eig -> Rabs turn <= 0.07 ->
  reachable eig ROOT_PLANAR ex_pepper m -> 0 < root_at (ik_gc m) 2 < PI -> (forall j, angle ROOT_PLANAR (ik_gc m) j = rest_angle j) ->
  exists K s, ce_ready_with eig K turn m s /\ movable (ce_bounds K) /\ base_is_root ex_pepper /\ (forall n k, co_asked eig junk (ce_settings K turn) (fun i => ce_environment (es i)) s n k -> n = 0%nat) /\
    co_library_is sound_answer eig junk (ce_settings K turn) (fun n => ce_environment (es n)) s /\ co_library_is capable_answer eig junk (ce_settings K turn) (fun n => ce_environment (es n)) s /\
    exists x, co_passes eig junk (ce_settings K turn) (fun n => ce_environment (es n)) s 0 s x /\ angle ROOT_PLANAR (ik_gc (robot x)) HeadYaw = rest_angle HeadYaw + turn /\
      co_after eig junk (ce_settings K turn) (fun n => ce_environment (es n)) s 2 = Ok None.
Proof.
  intros DE HT RC YA REST. destruct (ce_ready eig 0 turn m RC) as (z & Rz0).
  destruct (begun eig junk _ _ _ _ _ _ _ _ _ _ _ z Rz0 es 0 z eq_refl) as (w & Bw & _). destruct (ce_begins eig junk es 0 turn m z Rz0 w Bw) as (Sw & _ & Nw).
  set (K := ce_range (mpc w)). destruct (ce_ready eig K turn m RC) as (s & Rs).
  assert (HK : forall y, co_begins eig (ce_settings K turn) 0 s y -> ce_range (mpc y) <= K) by (intros y B; destruct (ce_begins eig junk es K turn m s Rs y B) as (Sy & _ & Ny); rewrite (range_same eig m (mpc y) (mpc w) Sy Sw Ny Nw); apply Rle_refl).
  exists K, s. split; [exact Rs|]. split.
  { intros a. exists 0. assert (1 <= g_infinity) by (unfold g_infinity; lra). assert (0 <= K) by (unfold K, ce_range; pose proof (Rabs_pos (ce_offset (mpc w) AxisX)); pose proof (Rabs_pos (ce_offset (mpc w) AxisY)); pose proof (Rabs_pos (ce_cop (mpc w) AxisX)); pose proof (Rabs_pos (ce_cop (mpc w) AxisY)); lra).
    unfold within. destruct a; cbn; lra. }
  split; [exact pepper_base_root|]. split; [intros n k; exact (ce_asked eig junk es K turn m s Rs n k)|]. split; [exact (ce_sound eig junk es K turn m s Rs HK)|]. split; [exact (ce_capable eig junk es K turn s)|].
  exact (ce_run eig junk es K turn m s Rs HK DE HT YA REST).
Qed.
(** such a robot exists *)
Theorem coupled_robot (eig : m3 -> euler_type -> v3) : exists m, reachable eig ROOT_PLANAR ex_pepper m /\ root_at (ik_gc m) 2 = 1 /\ 0 < root_at (ik_gc m) 2 < PI /\ forall j, angle ROOT_PLANAR (ik_gc m) j = rest_angle j.
Proof.
  destruct (pepper_at eig (mkGC [2; 3; 1] (gc_joints (gc_default (fun _ => 0) ROOT_PLANAR)))) as (m & RC & EG).
  { split; [reflexivity|exact (proj2 (proj1 (ik_default (fun _ => 0) ROOT_PLANAR HeadYaw)))]. }
  exists m. split; [exact RC|]. rewrite EG. cbn [root_at gc_root nth]. split; [reflexivity|]. split; [pose proof PI_RGT_0; pose proof PI2_3_2; lra|]. intros j. apply (ik_default (fun _ => 0) ROOT_PLANAR j).
Qed.
(** the heading of the model of the MPC is not that of a base turned to the right *)
Theorem coupled_heading_wrong : ~ forall eig junk se par body_jerk details w s0 m wb matrices qp c s es n x y, co_ready eig se par body_jerk details w s0 m wb matrices qp c s -> documented_eulerAngles eig ->
  base_is_root (is_kinematics (ct_ik se)) -> co_after eig junk se es s n = Ok (Some x) -> co_begins eig se n x y -> exists k : Z, heading_of (mpc y) = root_at (ik_gc (robot y)) 2 + 2 * PI * IZR k.
Proof.
  intros H. destruct (pepper_at ex_eig (ex_pose 0 0 (- (1 / 2))) (ex_pose_sized _ _ _)) as (m & RC & G).
  destruct (base_pose_root ex_eig _ m pepper_kinematics RC pepper_base_root) as (z & _ & O). rewrite G in O. cbn [root_at ex_pose gc_root nth] in O.
  destruct (base_yaw_negative ex_eig m ex_eig_documented O) as (yw & EY & N).
  destruct (ce_ready ex_eig 1 0 m RC) as (s & Rs). set (es := fun _ : nat => mkEnv (fun _ _ _ => 0) (fun _ => 0) ce_answer (empty_objective, empty_ILU_ALU) ([], [])). set (junk := fun _ _ _ : nat => 0).
  destruct (begun ex_eig junk _ _ _ _ _ _ _ _ _ _ _ s Rs es 0 s eq_refl) as (y & B & _). destruct (ce_begins ex_eig junk es 1 0 m s Rs y B) as (_ & ER & (_ & _ & Y & _)).
  destruct (H ex_eig junk _ _ _ _ _ _ _ _ _ _ _ s es 0%nat s y Rs ex_eig_documented pepper_base_root eq_refl B) as (k & F). rewrite EY in Y. apply ok_inj in Y. rewrite ER, G in F. unfold heading_of in F. rewrite <- Y in F. exact (N k F).
Qed.
