(** * The Pepper program: plans which can be prolonged *)
From Coq Require Import String List Reals Arith Bool ZArith Lra Lia.
From Verif Require Import Base BaseFacts RSum Matrix Mat2 Mat3 ActiveSet Mixins ConstraintType HierarchyLevel HierarchySpec Constraints ConstraintsSpec QP QPSpec Problem ProblemSpec
  PointMass6z PointMass6zSpec TripleIntegratorSpec Solution Task MpcGuess MpcGuessSpec MpcGuessFacts
  QpoasesBridge QpoasesBridgeSpec Backends BackendsSpec Solver SolverLife SolverLifeSpec SolverLifeFacts WalkProgram WalkProgramSpec WalkProgramFacts WalkProgramFacts2
  PepperPreview PepperPreviewSpec PepperFormFacts PepperModel PepperMpc PepperMpcSpec PepperMpcFacts2 PepperTasks PepperTasksSpec PepperTasksFacts PepperTasksFacts2 PepperLoop PepperLoopSpec PepperLoopFacts PepperLoopFacts2
  PepperProgram PepperProgramSpec PepperProgramFacts PepperProgramFacts2 PepperProgramFacts3 PepperProgramFacts4 PepperProgramFacts5 PepperProgramUnique PepperProgramFacts6 PepperRobot PepperRobotSpec PepperProgramFacts8.
Import ListNotations.
Local Open Scope R_scope.

(** the plan of the next iteration: the rest of the plan, then the additional interval *)
Definition later_plan (N : nat) (P : plan) (e : interval_plan) : plan :=
  mkPlan (fun k a => if Nat.ltb k N then pl_base P (k + 1) a else ip_base e a) (fun k a => if Nat.ltb k N then pl_body P (k + 1) a else ip_body e a)
    (fun k a => if Nat.ltb (k + 1) N then pl_jerk P (k + 1) a else ip_base_jerk e a) (fun k a => if Nat.ltb (k + 1) N then pl_cop P (k + 1) a else ip_cop e a).
Definition axis_of (i : nat) : axis := match i with O => AxisX | _ => AxisY end.
Definition later_commands (N : nat) (sol : solution) (e : interval_plan) (v : nat) : R :=
  if Nat.ltb (v + 2) (2 * N) then point sol (v + 2) else if Nat.ltb v (2 * N) then vy (ip_base e (axis_of (v + 2 - 2 * N)))
  else if Nat.ltb (v + 2) (4 * N) then point sol (v + 2) else ip_body_jerk e (axis_of (v + 2 - 4 * N)).
Lemma axis_of_index a : axis_of (axis_index a) = a.
Proof. destruct a; reflexivity. Qed.
Lemma later_base N sol e k a : (k < N)%nat -> base_command (as_pepper N (later_commands N sol e)) k a = if Nat.ltb (k + 1) N then base_command sol (k + 1) a else vy (ip_base e a).
Proof.
  intros Hk. change (base_command (as_pepper N (later_commands N sol e)) k a) with (point (as_pepper N (later_commands N sol e)) (2 * k + axis_index a)).
  assert (Ha : (axis_index a < 2)%nat) by (destruct a; cbn; lia). rewrite as_pepper_point by lia. unfold later_commands. destruct (Nat.ltb_spec (k + 1) N) as [L|L].
  - destruct (Nat.ltb_spec (2 * k + axis_index a + 2) (2 * N)) as [_|Y]; [|lia]. unfold base_command, point. f_equal. lia.
  - destruct (Nat.ltb_spec (2 * k + axis_index a + 2) (2 * N)) as [Y|_]; [lia|]. destruct (Nat.ltb_spec (2 * k + axis_index a) (2 * N)) as [_|Y]; [|lia].
    replace (2 * k + axis_index a + 2 - 2 * N)%nat with (axis_index a) by lia. rewrite axis_of_index. reflexivity.
Qed.
Lemma later_body N sol e k a : (k < N)%nat -> body_command N (as_pepper N (later_commands N sol e)) k a = if Nat.ltb (k + 1) N then body_command N sol (k + 1) a else ip_body_jerk e a.
Proof.
  intros Hk. change (body_command N (as_pepper N (later_commands N sol e)) k a) with (point (as_pepper N (later_commands N sol e)) (2 * N + 2 * k + axis_index a)).
  assert (Ha : (axis_index a < 2)%nat) by (destruct a; cbn; lia). rewrite as_pepper_point by lia. unfold later_commands.
  destruct (Nat.ltb_spec (2 * N + 2 * k + axis_index a + 2) (2 * N)) as [Y|_]; [lia|]. destruct (Nat.ltb_spec (2 * N + 2 * k + axis_index a) (2 * N)) as [Y|_]; [lia|].
  destruct (Nat.ltb_spec (k + 1) N) as [L|L].
  - destruct (Nat.ltb_spec (2 * N + 2 * k + axis_index a + 2) (4 * N)) as [_|Y]; [|lia]. unfold body_command, point. f_equal. lia.
  - destruct (Nat.ltb_spec (2 * N + 2 * k + axis_index a + 2) (4 * N)) as [Y|_]; [lia|]. replace (2 * N + 2 * k + axis_index a + 2 - 4 * N)%nat with (axis_index a) by lia. rewrite axis_of_index. reflexivity.
Qed.
Lemma later_finite N sol e : finite N sol -> (forall a, - g_infinity <= vy (ip_base e a) <= g_infinity /\ - g_infinity <= ip_body_jerk e a <= g_infinity) -> finite N (as_pepper N (later_commands N sol e)).
Proof.
  intros F E v Hv. rewrite as_pepper_point by exact Hv. unfold later_commands. destruct (Nat.ltb_spec (v + 2) (2 * N)); [apply F; lia|]. destruct (Nat.ltb_spec v (2 * N)); [apply E|].
  destruct (Nat.ltb_spec (v + 2) (4 * N)); [apply F; lia|apply E].
Qed.
Lemma moved3_inj b c d j T : moved3 b c j T -> moved3 b d j T -> c = d.
Proof. destruct b as [b1 b2 b3], c as [c1 c2 c3], d as [d1 d2 d3]. intros (X1 & X2 & X3) (Y1 & Y2 & Y3). cbn [vx vy vz] in *. congruence. Qed.
Lemma jerk_of x y j T : 0 < T -> moved3 x y j T -> j = vel_jerk x (vy y) T.
Proof. intros H (_ & E & _). rewrite E. unfold vel_jerk, motion_velocity. field. lra. Qed.
Lemma turned_first w T i : turned w T (S i) = w 0%nat * T + turned (fun k => w (S k)) T i.
Proof. induction i as [|i IH]; [cbn [turned]; ring|]. change (turned w T (S (S i))) with (turned w T (S i) + w (S i) * T). rewrite IH. cbn [turned]. ring. Qed.
Lemma turned_same w w' T i : (forall k, w k = w' k) -> turned w T i = turned w' T i.
Proof. intros H. induction i as [|i IH]; cbn [turned]; [reflexivity|]. rewrite IH, H. reflexivity. Qed.

Theorem kp_continues : forall junk se par gain details w s0 s es, ready se par gain details w s0 s -> kp_understood junk se es s -> pr_crash par = true -> kp_library_is capable_answer junk se es s ->
  kp_library_is sound_answer junk se es s -> let p := mg_par (lp_mg s0) in let q := as_queue (lp_motions s0) in
  ks_advance se = Whole -> ks_shift se = sampling_ms p -> forall n x x' P e, kp_steps junk se es s n x x' -> (0 < n)%nat \/ default_masses s0 ->
  endless q \/ (Z.of_nat (horizon_length p) * sampling_ms p + Z.of_nat (S n) * ks_shift se <= total q)%Z ->
  planned (kp_loop x) (kp_last x') P -> prolonged (ks_bounds se) q (ks_shift se) n (kp_loop x) P e -> exists x'', kp_steps junk se es s (S n) x' x''.
Proof.
  intros junk se par gain details w s0 s es Re Un Cr Ca Li p q Wh Sh n x x' P e St Ms En Pl Pr.
  pose proof (kp_sols_posed junk se par gain details w s0 s Re es Un) as WP. pose proof (kp_consecutive junk se par gain details w s0 s Re es Un n x x' St) as Cs.
  pose proof (kp_optimal junk se par gain details w s0 s es Re Un Cr Li n x x' St) as HR. cbv zeta in HR. fold p q in HR.
  destruct St as [A B]. pose proof (kgood_at junk se par gain details w s0 s Re es Un n x A) as G. pose proof (kgood_at junk se par gain details w s0 s Re es Un (S n) x' B) as G'.
  pose proof (kp_par se par gain w s0 n x G) as EP. pose proof (kp_par se par gain w s0 (S n) x' G') as EP'. fold p in EP, EP'. pose proof (kg_masses _ _ _ _ _ _ _ G) as NZ. pose proof Re as (Pp & _). fold p in Pp.
  pose proof (loop_moves junk _ _ _ _ _ n _ _ WP Cs) as Mv. cbv zeta in Mv. destruct Mv as (v & po & u & Cm & Mo & Hd & H1 & H2). fold p q in Cm, Mo, Hd.
  rewrite (kp_sols_step junk se s0 s es n x x' (conj A B)) in Mo. rewrite Wh in Mo, Hd. cbn [step_ms] in Mo, Hd.
  assert (Ma : ps_base_mass (lp_model (kp_loop x')) = ps_base_mass (lp_model (kp_loop x)) /\ ps_body_mass (lp_model (kp_loop x')) = ps_body_mass (lp_model (kp_loop x))).
  { pose proof (proj2 (proj2 (loop_heights junk _ _ _ _ _ (S n) _ WP (proj2 Cs))) ltac:(lia)) as [M1 M2]. rewrite M1, M2. destruct n as [|n].
    - cbn [kp_after] in A. injection A as <-. destruct (start_kgood se par gain details w s0 s Re) as (_ & -> & _). destruct Ms as [Ms|[-> ->]]; [lia|split; reflexivity].
    - pose proof (proj2 (proj2 (loop_heights junk _ _ _ _ _ (S n) _ WP (proj1 Cs))) ltac:(lia)) as [-> ->]. split; reflexivity. }
  set (N := horizon_length p) in *. set (T := seconds (sampling_ms p)) in *. assert (PT : 0 < T) by (unfold T; exact (T_positive _ Pp)). assert (PN : (0 < N)%nat) by (unfold N; apply Pp).
  destruct HR as (Fi & Fn & P1 & Pl1 & Rp1 & _).
  assert (Rp : respects (ks_bounds se) q (ks_shift se) n (kp_loop x) P).
  { refine (respects_same _ _ _ NZ _ _ _ _ _ _ Pl1 Pl Rp1). rewrite EP. exact PT. }
  pose proof Pl as (P0 & Pk). rewrite EP in Pk. fold N T in Pk. destruct Pr as (Pr1 & Pr2). unfold prolonged_motion in Pr1. rewrite EP in Pr1, Pr2. fold N T in Pr1, Pr2.
  assert (S1 : forall a, base_of (kp_loop x') a = pl_base P 1 a /\ body_of (kp_loop x') a = pl_body P 1 a).
  { intros a. destruct (Mo a) as [M1 M2]. destruct (Pk 0%nat a PN) as (K1 & K2 & K3 & _). destruct (P0 a) as [E1 E2]. cbn [Nat.add] in *. rewrite E1 in K1. rewrite E2 in K3. rewrite <- K2 in M1.
    rewrite <- (jerk_of _ _ _ _ PT K1) in M1. split; [exact (moved3_inj _ _ _ _ _ M1 K1)|exact (moved3_inj _ _ _ _ _ M2 K3)]. }
  assert (Hh : forall k, heading_after q (ks_shift se) (S n) (kp_loop x') k = heading_after q (ks_shift se) n (kp_loop x) (k + 1)).
  { intros k. unfold heading_after. rewrite EP, EP'. fold T. replace (k + 1 + 1)%nat with (S (k + 1)) by lia. rewrite turned_first, Hd.
    assert (W0 : angular_at q (interval_end p (ks_shift se) n 0) = u). { unfold angular_at, interval_end. replace (Z.of_nat n * ks_shift se + Z.of_nat (0 + 1) * sampling_ms p - 1)%Z with (Z.of_nat n * ks_shift se + sampling_ms p - 1)%Z by lia. rewrite Cm. reflexivity. }
    rewrite W0. rewrite <- Rplus_assoc. f_equal. apply turned_same. intros i. replace (interval_end p (ks_shift se) (S n) i) with (interval_end p (ks_shift se) n (S i)); [reflexivity|]. unfold interval_end. rewrite Sh. rewrite !Nat2Z.inj_add, !Nat2Z.inj_succ. ring. }
  assert (NX : forall k, (k < N)%nat -> pl_base (later_plan N P e) k = (fun a => pl_base P (k + 1) a) /\ pl_body (later_plan N P e) k = (fun a => pl_body P (k + 1) a)).
  { intros k Hk. cbn [later_plan pl_base pl_body]. destruct (Nat.ltb_spec k N); [split; reflexivity|lia]. }
  apply (proj2 (kp_feasible junk se par gain details w s0 s es Re Un Cr (S n) x' B En) Ca (as_pepper N (later_commands N (kp_last x') e)) (later_plan N P e)).
  - apply as_pepper_fits.
  - apply later_finite; [exact Fn|]. intros a. destruct (Pr1 a) as (_ & _ & _ & F1 & F2). split; assumption.
  - unfold planned. rewrite EP'. fold N T. destruct Ma as [-> ->]. rewrite H1, H2. split.
    + intros a. destruct (NX 0%nat PN) as [-> ->]. destruct (S1 a) as [-> ->]. split; reflexivity.
    + intros k a Hk. rewrite later_base, later_body by exact Hk. destruct (NX k Hk) as [-> ->]. cbn [later_plan pl_base pl_body pl_jerk pl_cop]. destruct (Nat.ltb_spec (k + 1) N) as [L|L].
      * exact (Pk (k + 1)%nat a L).
      * replace (k + 1)%nat with N by lia. destruct (Pr1 a) as (Q1 & Q2 & Q3 & _ & _). split; [exact Q1|]. split; [reflexivity|]. split; [exact Q2|exact Q3].
  - intros k a Hk. rewrite EP' in Hk. fold N in Hk. rewrite Hh. cbn [later_plan pl_base pl_body pl_jerk pl_cop]. destruct (Nat.ltb_spec (k + 1) N) as [L|L].
    + apply (Rp (k + 1)%nat a). rewrite EP. exact L.
    + replace (k + 1)%nat with N by lia. exact (Pr2 a).
Qed.

(** a plan which stops in time *)
Theorem kp_halts : forall junk se par gain details w s0 s es d, ready se par gain details w s0 s -> kp_understood junk se es s -> pr_crash par = true -> kp_library_is capable_answer junk se es s ->
  kp_library_is sound_answer junk se es s -> let p := mg_par (lp_mg s0) in let q := as_queue (lp_motions s0) in
  ks_advance se = Whole -> ks_shift se = sampling_ms p -> roomy (ks_bounds se) d -> forall n x x' P, kp_steps junk se es s n x x' -> (0 < n)%nat \/ default_masses s0 ->
  endless q \/ (Z.of_nat (horizon_length p) * sampling_ms p + Z.of_nat (S n) * ks_shift se <= total q)%Z ->
  0 <= ps_base_mass (lp_model (kp_loop x)) -> 0 <= ps_body_mass (lp_model (kp_loop x)) ->
  planned (kp_loop x) (kp_last x') P -> halted d (pl_base P (horizon_length p)) (pl_body P (horizon_length p)) -> exists x'', kp_steps junk se es s (S n) x' x''.
Proof.
  intros junk se par gain details w s0 s es d Re Un Cr Ca Li p q Wh Sh Ro n x x' P St Ms En M1 M2 Pl (Hr & Hn).
  pose proof (kgood_at junk se par gain details w s0 s Re es Un n x (proj1 St)) as G. pose proof (kp_par se par gain w s0 n x G) as EP. pose proof (kg_masses _ _ _ _ _ _ _ G) as NZ. fold p in EP.
  set (N := horizon_length p) in *. set (m1 := ps_base_mass (lp_model (kp_loop x))) in *. set (m2 := ps_body_mass (lp_model (kp_loop x))) in *.
  apply (kp_continues junk se par gain details w s0 s es Re Un Cr Ca Li Wh Sh n x x' P
    (mkIP (pl_base P N) (pl_body P N) (fun _ => 0) (fun _ => 0) (fun a => m2 * (vx (pl_body P N a) - vx (pl_base P N a)) / (m1 + m2))) St Ms En Pl).
  destruct Ro as (D & Ro). split.
  - unfold prolonged_motion. rewrite EP. fold N. cbn [ip_base ip_body ip_base_jerk ip_body_jerk ip_cop]. intros a. destruct (Hr a) as (R1 & R2 & R3 & R4). rewrite R1.
    split; [unfold moved3, motion_position, motion_velocity, motion_acceleration; rewrite R1, R2; repeat split; ring|].
    split; [unfold moved3, motion_position, motion_velocity, motion_acceleration; rewrite R3, R4; repeat split; ring|].
    split; [fold m1 m2; unfold relative_cop; rewrite R2, R4; rewrite !Rmult_0_r, !Rminus_0_r; field; exact NZ|]. unfold g_infinity. lra.
  - rewrite EP. fold N. cbn [ip_base ip_body ip_base_jerk ip_body_jerk ip_cop]. intros a. destruct (Hr a) as (R1 & R2 & _ & _). rewrite R1, R2. destruct (Ro a) as (V & A & Bl & Bu & Cl & Cu).
    split; [exact V|]. split; [exact A|]. split.
    + assert (X : - d <= m2 * (vx (pl_body P N a) - vx (pl_base P N a)) / (m1 + m2) <= d).
      { set (u := vx (pl_body P N a) - vx (pl_base P N a)). assert (E : - d <= u <= d).
        { unfold Rsqr in Hn. unfold u. destruct a; [pose proof (Rle_0_sqr (vx (pl_base P N AxisY) - vx (pl_body P N AxisY))) as Q|pose proof (Rle_0_sqr (vx (pl_base P N AxisX) - vx (pl_body P N AxisX))) as Q]; unfold Rsqr in Q; nra. }
        assert (Pm : 0 < m1 + m2) by (destruct (Rle_lt_or_eq_dec 0 (m1 + m2) ltac:(lra)) as [Y|Y]; [exact Y|symmetry in Y; contradiction]). assert (X : m2 * u / (m1 + m2) * (m1 + m2) = m2 * u) by (field; lra). split; apply (Rmult_le_reg_r (m1 + m2)); try exact Pm; rewrite X; nra. }
      unfold within in *. lra.
    + assert (X := disc_frame (heading_after q (ks_shift se) n (kp_loop x) N) _ _ d a D Hn). fold q. unfold within in *. lra.
Qed.

(** the default robot can always be started *)
Theorem kp_default_starts : forall junk se par gain details w s0 s es, ready se par gain details w s0 s -> kp_understood junk se es s -> pr_crash par = true -> kp_library_is capable_answer junk se es s ->
  ks_bounds se = rp_bounds rp_defaults -> lp_model s0 = ps_setParameters default_base_height default_body_height default_body_x_offset default_base_mass default_body_mass ->
  let p := mg_par (lp_mg s0) in let q := as_queue (lp_motions s0) in endless q \/ (Z.of_nat (horizon_length p) * sampling_ms p <= total q)%Z ->
  exists x, kp_after junk se es s 1 = Ok (Some x).
Proof.
  intros junk se par gain details w s0 s es Re Un Cr Ca Eb Em p q En. assert (Ro : roomy (ks_bounds se) (3 / 100)) by (rewrite Eb; exact rp_roomy).
  destruct (start_kgood se par gain details w s0 s Re) as (_ & El & _).
  destruct (kp_rests junk se par gain details w s0 s es (3 / 100) Re Un Cr Ca Ro 0 s eq_refl) as (x & _ & X).
  - fold p q. destruct En as [En|En]; [left; exact En|right]. rewrite Nat2Z.inj_0, Z.mul_0_l, Z.add_0_r. exact En.
  - rewrite El. intros a. unfold base_of, body_of. rewrite Em. destruct a; cbn; repeat split; reflexivity.
  - rewrite El. unfold near, base_of, body_of. rewrite Em. cbn. unfold default_body_x_offset, Rsqr. lra.
  - rewrite El, Em. cbn. unfold default_base_mass. lra.
  - rewrite El, Em. cbn. unfold default_body_mass. lra.
  - exists x. exact X.
Qed.
Definition df_loop (m : motions) : loop := mkLoop (ps_setParameters default_base_height default_body_height default_body_x_offset default_base_mass default_body_mass) m (mg_new (mkParams 15 100)).
(** cases which meet the hypotheses: the default robot, before any motion; any guess *)
Theorem kp_default_case : forall hs, let se := mkPepper (rp_bounds rp_defaults) Whole 100 100 false 10 1 1 hs in let m := Queue [mkMotion (V2 1 0) (V2 0 0) 1 2500] in
  exists s, ready se st_par 1 None st_world (df_loop m) s /\ roomy (ks_bounds se) (3 / 100) /\ at_rest (df_loop m) /\ near (3 / 100) (df_loop m).
Proof.
  intros hs se m. destruct (kp_setup_shape (ks_position se) pb_new pr_new) as (p & l0 & l1 & E & _).
  assert (X : exists s, kp_start se st_par 1 None st_world (df_loop m) = Ok s) by (unfold kp_start; rewrite E; cbn [bind]; eexists; reflexivity).
  destruct X as (s & X). exists s. split; [|split; [exact rp_roomy|split]].
  - split; [split; cbn; lia|]. split; [cbn; apply Forall_forall; intros m' [<-|[]]; right; cbn; lia|]. split; [cbn; lia|]. split; [cbn; lia|].
    split; [cbn; unfold default_base_mass, default_body_mass; lra|]. split; [intros; cbn; lia|]. split; [reflexivity|]. split; [|exact X]. intros a [].
  - intros a. destruct a; cbn; repeat split; reflexivity.
  - unfold near. cbn. unfold default_body_x_offset, Rsqr. lra.
Qed.
