(** * The Pepper program: a run *)
From Coq Require Import String List Reals Arith Bool ZArith Lra Lia.
From Verif Require Import Base BaseFacts RSum Matrix Mat2 Mat3 ActiveSet Mixins ConstraintType HierarchyLevel HierarchySpec Constraints ConstraintsSpec QP QPSpec Problem ProblemSpec
  PointMass6z PointMass6zSpec TripleIntegratorSpec Solution Task MpcGuess MpcGuessSpec MpcGuessFacts
  QpoasesBridge QpoasesBridgeSpec Backends BackendsSpec Solver SolverLife SolverLifeSpec SolverLifeFacts WalkProgram WalkProgramSpec WalkProgramFacts WalkProgramFacts2
  PepperPreview PepperPreviewSpec PepperFormFacts PepperModel PepperMpc PepperMpcSpec PepperMpcFacts2 PepperTasks PepperTasksSpec PepperTasksFacts PepperTasksFacts2 PepperLoop PepperLoopSpec PepperLoopFacts PepperLoopFacts2
  PepperProgram PepperProgramSpec PepperProgramFacts PepperProgramFacts2 PepperProgramFacts3 PepperProgramFacts4 PepperProgramFacts5 PepperProgramUnique PepperProgramFacts6.
Import ListNotations.
Local Open Scope R_scope.


(** ** a run: two intervals of 100 ms in the horizon, the base moves as it is told to, four iterations *)
Definition cr_bounds : robot_bounds := mkBounds (M2 (-1/10) (1/10) (-1/10) (1/10)) (M2 (-2) 2 (-2) 2) (M2 (-3) 3 (-3) 3) (M2 (-1/5) (1/5) (-1/5) (1/5)).
Definition cr_state : pepper_state := mkPS (mkPM (V3 0 0 (1 / 10)) (V3 1 0 0) (V3 0 0 0)) (V3 0 0 0) (mkPM (V3 0 0 (7 / 10)) (V3 1 0 0) (V3 0 0 0)) default_base_mass default_body_mass.
Definition cr_motions : list motion := [mkMotion (V2 1 0) (V2 0 0) 0 250; mkMotion (V2 1 0) (V2 0 0) 0 250].
Definition cr_parameters : mpc_parameters := mkParams 2 100.
Definition cr_loop : loop := mkLoop cr_state (Queue cr_motions) (mg_new cr_parameters).
Definition cr_settings (hs : hotstart) : pepper_settings := mkPepper cr_bounds Whole 100 100 false 3 1 2 hs.
Definition cr_par : qparams := mkQParams true true 10000 0 [].
Definition cr_world : world := mkWorld [4; 2]%nat 9 [].
Definition cr_commands (v : nat) : R := if Nat.eqb v 0 then 1 else if Nat.eqb v 2 then 1 else 0.
Definition cr_answer (k : libcall) : answer := mkAnswer CODE_SUCCESS 5 (Some cr_commands) (fun _ => 0) (fun _ => 0).
Definition cr_environment (e : environment) : environment := mkEnv (en_junk e) (en_x e) cr_answer (en_broken e) (en_broken_guess e).

(** uniform motion, [t] seconds after the start *)
Definition cruise (t : R) (a : axis) : v3 := match a with AxisX => V3 t 1 0 | AxisY => V3 0 0 0 end.
Definition cruising (n : nat) (l : loop) : Prop := mg_par (lp_mg l) = cr_parameters /\ (forall a, base_of l a = cruise (INR n / 10) a /\ body_of l a = cruise (INR n / 10) a) /\ heading_of l = 0.

Lemma cr_commanded t : match commanded cr_motions t with Some (v, x, u) => v = V2 1 0 /\ u = 0 | None => True end.
Proof. unfold commanded, cr_motions. cbn [executed mo_duration]. destruct (Z.eq_dec 250 (-1)); [lia|]. destruct (Z_lt_dec t 250); [cbn; auto|]. destruct (Z_lt_dec (t - 250) 250); cbn; auto. Qed.
Lemma cr_turned f T i : turned (fun k => angular_at cr_motions (f k)) T i = 0.
Proof. induction i as [|i IH]; cbn [turned]; [reflexivity|]. rewrite IH. unfold angular_at. pose proof (cr_commanded (f i)) as C. destruct (commanded cr_motions (f i)) as [[[v x] u]|]; [destruct C as [_ ->]|]; ring. Qed.
Lemma cr_base k a : (k < 2)%nat -> base_command (as_pepper 2 cr_commands) k a = match a with AxisX => 1 | AxisY => 0 end.
Proof. intros H. destruct k as [|[|k]]; [| |lia]; destruct a; reflexivity. Qed.
Lemma cr_body k a : (k < 2)%nat -> body_command 2 (as_pepper 2 cr_commands) k a = 0.
Proof. intros H. destruct k as [|[|k]]; [| |lia]; destruct a; reflexivity. Qed.
Definition cr_plan (n : nat) : plan := mkPlan (fun k => cruise (INR n / 10 + INR k / 10)) (fun k => cruise (INR n / 10 + INR k / 10)) (fun _ _ => 0) (fun _ _ => 0).
Lemma cruise_moved t u a T : u = t + T -> moved3 (cruise t a) (cruise u a) 0 T.
Proof. intros ->. unfold moved3, motion_position, motion_velocity, motion_acceleration. destruct a; cbn [cruise vx vy vz]; repeat split; field. Qed.
Lemma cr_planned n l : cruising n l -> planned l (as_pepper 2 cr_commands) (cr_plan n).
Proof.
  intros (E & Sy & _). unfold planned. rewrite E. cbn [cr_parameters horizon_length sampling_ms]. split.
  - intros a. destruct (Sy a) as [-> ->]. cbn [cr_plan pl_base pl_body]. replace (INR n / 10 + INR 0 / 10) with (INR n / 10) by (cbn [INR]; field). split; reflexivity.
  - intros k a H. cbn [cr_plan pl_base pl_body pl_jerk pl_cop].
    assert (M : moved3 (cruise (INR n / 10 + INR k / 10) a) (cruise (INR n / 10 + INR (k + 1) / 10) a) 0 (seconds 100)) by (apply cruise_moved; rewrite plus_INR; unfold seconds; cbn [INR]; field).
    split; [exact M|]. split; [rewrite cr_base by exact H; destruct a; reflexivity|]. split; [rewrite cr_body by exact H; exact M|].
    unfold relative_cop. destruct a; cbn [cruise vx vz]; ring.
Qed.
Lemma cr_heading hs n l k : cruising n l -> heading_after cr_motions (ks_shift (cr_settings hs)) n l k = 0.
Proof. intros (E & _ & H). unfold heading_after. rewrite H, cr_turned. ring. Qed.
Lemma cr_respects hs n l : cruising n l -> respects cr_bounds cr_motions (ks_shift (cr_settings hs)) n l (cr_plan n).
Proof.
  intros C k a _. rewrite (cr_heading hs n l k C). cbn [cr_plan pl_base pl_body pl_cop]. unfold rot2. rewrite cos_0, sin_0. unfold within. destruct a; cbn; lra.
Qed.
Lemma cr_finite : finite 2 (as_pepper 2 cr_commands).
Proof.
  intros v H. rewrite as_pepper_point by exact H. unfold cr_commands. assert (1 <= g_infinity) by (unfold g_infinity; lra). destruct (Nat.eqb v 0); [lra|]. destruct (Nat.eqb v 2); lra.
Qed.
Lemma cr_cost hs gain n l : cruising n l -> plan_cost (cr_settings hs) gain cr_motions n l (as_pepper 2 cr_commands) (cr_plan n) = 0.
Proof.
  intros C. pose proof C as (E & _). unfold plan_cost. rewrite E. cbn [cr_parameters horizon_length].
  assert (D : forall k a, deviation (ks_position (cr_settings hs)) cr_motions (ks_shift (cr_settings hs)) n l (cr_plan n) k a = 0).
  { intros k a. unfold deviation. pose proof (cr_commanded (interval_end (mg_par (lp_mg l)) (ks_shift (cr_settings hs)) n k)) as X. destruct (commanded cr_motions _) as [[[v x] u]|]; [|reflexivity]. destruct X as [-> _].
    rewrite (cr_heading hs n l k C). cbn [cr_settings ks_position cr_plan pl_base]. rewrite cos_0, sin_0. destruct a; cbn; lra. }
  cbn [Rsum]. rewrite !D, !cr_body by lia. cbn [cr_plan pl_jerk pl_cop]. unfold Rsqr. ring.
Qed.
Lemma cost_nonneg se gain q n l sol P : 0 <= plan_cost se gain q n l sol P.
Proof. rewrite cost_kterms. apply Rsum_nonneg. intros k _. apply eight_zero. Qed.

Section Case.
Variables (junk : nat -> nat -> nat -> R) (hs : hotstart) (es0 : nat -> environment) (s : pepper_program).
Notation se := (cr_settings hs).
Notation es := (fun n => cr_environment (es0 n)).
Hypothesis Re : ready se cr_par (1 / 2) None cr_world cr_loop s.
Lemma cr_understood : kp_understood junk se es s.
Proof. intros _ n k _. split; intros i _; right; left; reflexivity. Qed.
Lemma cr_capable : kp_library_is capable_answer junk se es s.
Proof. intros n k _ _. reflexivity. Qed.
Lemma cr_movable : movable cr_bounds.
Proof. intros a. exists 0. assert (1 <= g_infinity) by (unfold g_infinity; lra). unfold within. destruct a; cbn; lra. Qed.
Lemma cr_cruising n x : kp_after junk se es s n = Ok (Some x) -> cruising n (kp_loop x).
Proof.
  revert x. induction n as [|n IH]; intros x A.
  - cbn [kp_after] in A. injection A as <-. destruct (start_kgood se cr_par (1 / 2) None cr_world cr_loop s Re) as (_ & -> & _). split; [reflexivity|]. split; [|reflexivity]. intros a. cbn [INR]. replace (0 / 10) with 0 by field. destruct a; split; reflexivity.
  - destruct (kp_before junk se s es n x A) as (y & St). destruct (IH y (proj1 St)) as (E & Sy & H).
    pose proof (kp_sols_posed junk se cr_par (1 / 2) None cr_world cr_loop s Re es cr_understood) as WP. pose proof (kp_consecutive junk se cr_par (1 / 2) None cr_world cr_loop s Re es cr_understood n y x St) as C.
    destruct (kstepped junk se cr_par (1 / 2) None cr_world cr_loop s Re es cr_understood n y x St) as (G & G' & _ & _ & g & z & f & p & r & l0 & l1 & k0 & k1 & t & k & K & As & Ef & _ & _ & Fi & _ & _ & _ & _ & _ & Ls & _).
    assert (SL : forall i, (i < 4 * 2)%nat -> point (kp_last x) i = cr_commands i) by (intros i Hi; exact (answer_point junk se cr_par (1 / 2) cr_loop es n y x g z f p r l0 l1 k0 k1 t k K Ef Ls cr_commands eq_refl i Hi)).
    destruct (loop_motion junk cr_bounds Whole 100 (kp_sols junk se cr_loop s es) cr_loop WP n (kp_loop y) (kp_loop x) C) as (v & q & u & Cm & Mo & Hd & _).
    rewrite (kp_sols_step junk se cr_loop s es n y x St) in Mo. split; [exact (kp_par se cr_par (1 / 2) cr_world cr_loop (S n) x G')|].
    assert (B : forall a, base_command (kp_last x) 0 a = vy (cruise (INR n / 10) a) /\ body_command (horizon_length (mg_par (lp_mg cr_loop))) (kp_last x) 0 a = 0).
    { intros a. change (base_command (kp_last x) 0 a) with (point (kp_last x) (2 * 0 + axis_index a)). change (body_command (horizon_length (mg_par (lp_mg cr_loop))) (kp_last x) 0 a) with (point (kp_last x) (2 * 2 + 2 * 0 + axis_index a)).
      rewrite !SL by (destruct a; cbn; lia). destruct a; split; reflexivity. }
    split.
    + intros a. destruct (Mo a) as [M1 M2]. destruct (B a) as [B1 B2]. destruct (Sy a) as [S1 S2]. rewrite B1, S1 in M1. rewrite B2, S2 in M2.
      assert (J : vel_jerk (cruise (INR n / 10) a) (vy (cruise (INR n / 10) a)) (seconds (sampling_ms (mg_par (lp_mg cr_loop)))) = 0).
      { unfold vel_jerk, seconds. destruct a; cbn; field. }
      rewrite J in M1. assert (X : moved3 (cruise (INR n / 10) a) (cruise (INR (S n) / 10) a) 0 (seconds (step_ms (sampling_ms (mg_par (lp_mg cr_loop))) Whole))).
      { apply cruise_moved. rewrite S_INR. unfold seconds. cbn. field. }
      assert (Eq : forall b c d j T, moved3 b c j T -> moved3 b d j T -> c = d).
      { intros [b1 b2 b3] [c1 c2 c3] [d1 d2 d3] j T (X1 & X2 & X3) (Y1 & Y2 & Y3). cbn [vx vy vz] in *. congruence. }
      split; eapply Eq; eassumption.
    + rewrite Hd, H. change (as_queue (lp_motions cr_loop)) with cr_motions in Cm. pose proof (cr_commanded (Z.of_nat n * 100 + sampling_ms (mg_par (lp_mg cr_loop)) - 1)) as X. rewrite Cm in X. destruct X as [_ ->]. ring.
Qed.
Lemma cr_sound : kp_library_is sound_answer junk se es s.
Proof.
  intros n k As _. exists cr_commands. split; [reflexivity|]. pose proof As as (x & g1 & y1 & f1 & p1 & r1 & t1 & A & Pre & R1 & C1). pose proof (cr_cruising n x A) as Cr.
  pose proof (kgood_at junk se cr_par (1 / 2) None cr_world cr_loop s Re es cr_understood n x A) as G.
  destruct (ktakes junk se cr_par (1 / 2) None cr_world cr_loop s Re es cr_understood n x A G) as [(_ & _ & No)|[(_ & _ & _ & No)|(_ & _ & g & y & f & p & r & l0 & l1 & k0 & k1 & t & k' & K & As' & Ef & _)]]; try solve [destruct (No k As)].
  assert (k' = k).
  { destruct As' as (x2 & g2 & y2 & f2 & p2 & r2 & t2 & A2 & Pre2 & R2 & C2). rewrite A in A2. injection A2 as <-. rewrite Pre in Pre2. injection Pre2 as <- <- <- <- <-.
    assert (t2 = t1) by (destruct R1, R2; congruence). subst t2. congruence. } subst k'.
  pose proof (kp_par se cr_par (1 / 2) cr_world cr_loop n x G) as EP.
  pose proof (ko_formed _ _ _ _ _ _ _ _ _ _ _ _ _ _ _ _ K) as KF. pose proof (ko_before _ _ _ _ _ _ _ _ _ _ _ _ _ _ _ _ K) as Sh. pose proof (ko_nv _ _ _ _ _ _ _ _ _ _ _ _ _ _ _ _ K) as NV.
  pose proof (gt_problem _ _ _ _ _ _ (ef_gets _ _ _ _ _ _ _ _ Ef)) as (_ & _ & GM). cbn [kp_call cl_cs cl_solution] in GM. rewrite NV in GM.
  assert (LR := level_respects _ _ _ _ _ _ _ _ _ KF Sh). assert (LC := level_plan_cost _ _ _ _ _ _ _ _ _ KF Sh). assert (LX := klevel_ext _ _ _ _ _ _ _ _ _ KF Sh). assert (CX := kcost_ext _ _ _ _ _ _ _ _ _ KF Sh). assert (RX := level_reasonable _ _ _ _ _ _ _ _ _ KF Sh).
  rewrite EP in LR, LC, LX, CX, RX. change (horizon_length (mg_par (lp_mg cr_loop))) with 2%nat in *. change (as_queue (lp_motions cr_loop)) with cr_motions in *.
  pose proof (cr_planned n _ Cr) as Pl. pose proof (as_pepper_fits 2 cr_commands) as Fi.
  assert (Ez : forall i, (i < 4 * 2)%nat -> point (as_pepper 2 cr_commands) i = cr_commands i) by (intros; apply as_pepper_point; assumption).
  apply GM.
  - apply RX. intros v Hv. rewrite <- Ez by exact Hv. exact (cr_finite v Hv).
  - split.
    + apply (LX _ _ Ez). apply (LR _ _ Fi Pl). exact (cr_respects hs n _ Cr).
    + intros y' _. rewrite <- (CX _ _ Ez), (LC _ _ Fi Pl), (cr_cost hs (1 / 2) n _ Cr).
      rewrite <- (CX (point (as_pepper 2 y')) y' (fun i Hi => as_pepper_point 2 y' i Hi)). destruct (ko_plans _ _ _ _ _ _ _ _ _ _ _ _ _ _ _ _ K (as_pepper 2 y') (as_pepper_fits 2 y')) as (P' & HP').
      rewrite (LC _ _ (as_pepper_fits 2 y') HP'). apply cost_nonneg.
Qed.
Lemma cr_run : exists x, kp_stops junk se es s 4 x.
Proof.
  pose proof (kp_total junk se cr_par (1 / 2) None cr_world cr_loop s es Re cr_movable cr_understood) as T.
  assert (X : forall n, exists o, kp_after junk se es s n = Ok o /\ (o <> None <-> n = 0%nat \/ endless cr_motions \/ (Z.of_nat 2 * 100 + Z.of_nat (n - 1) * 100 <= 500)%Z)).
  { intros n. destruct (T n) as [X|(_ & _ & m & k & _ & _ & Co)]; [exact X|]. exfalso. apply Co. reflexivity. }
  assert (Ne : ~ endless cr_motions) by (intros (m & [<-|[<-|[]]] & D); discriminate D).
  destruct (X 4%nat) as (o & A & Ho). destruct (X 5%nat) as (o' & A' & Ho'). destruct o as [x|]; [|exfalso; apply (proj2 Ho); [right; right; cbn; lia|reflexivity]].
  destruct o' as [x'|]; [exfalso; destruct (proj1 Ho' ltac:(discriminate)) as [D|[D|D]]; [discriminate|contradiction|cbn in D; lia]|]. exists x. split; assumption.
Qed.
End Case.

Lemma cr_ready hs : exists s, ready (cr_settings hs) cr_par (1 / 2) None cr_world cr_loop s.
Proof.
  destruct (kp_setup_shape (ks_position (cr_settings hs)) pb_new pr_new) as (p & l0 & l1 & E & _).
  assert (X : exists s, kp_start (cr_settings hs) cr_par (1 / 2) None cr_world cr_loop = Ok s) by (unfold kp_start; rewrite E; cbn [bind]; eexists; reflexivity).
  destruct X as (s & X). exists s. split; [split; cbn; lia|]. split; [cbn; apply Forall_forall; intros m [<-|[<-|[]]]; right; cbn; lia|]. split; [cbn; lia|]. split; [cbn; lia|].
  split; [cbn; unfold default_base_mass, default_body_mass; lra|]. split; [cbn; lia|]. split; [reflexivity|]. split; [|exact X]. intros a [<-|[<-|[]]]; cbn; lia.
Qed.
Theorem kp_case : forall junk hs es, exists s x, let se := cr_settings hs in let es' := fun n => cr_environment (es n) in
  ready se cr_par (1 / 2) None cr_world cr_loop s /\ movable (ks_bounds se) /\ kp_understood junk se es' s /\ kp_library_is sound_answer junk se es' s /\ kp_library_is capable_answer junk se es' s /\ kp_stops junk se es' s 4 x.
Proof.
  intros junk hs es. destruct (cr_ready hs) as (s & Re). destruct (cr_run junk hs es s Re) as (x & X). exists s, x. cbv zeta. split; [exact Re|]. split; [exact cr_movable|]. split; [exact (cr_understood junk hs es s)|].
  split; [exact (cr_sound junk hs es s Re)|]. split; [exact (cr_capable junk hs es s)|exact X].
Qed.
