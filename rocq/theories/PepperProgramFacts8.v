(** * The Pepper program: when it can go on *)
From Coq Require Import String List Reals Arith Bool ZArith Lra Lia.
From Verif Require Import Base BaseFacts RSum Matrix Mat2 Mat3 ActiveSet Mixins ConstraintType HierarchyLevel HierarchySpec Constraints ConstraintsSpec QP QPSpec Problem ProblemSpec
  PointMass6z PointMass6zSpec TripleIntegratorSpec Solution Task MpcGuess MpcGuessSpec MpcGuessFacts
  QpoasesBridge QpoasesBridgeSpec Backends BackendsSpec Solver SolverLife SolverLifeSpec SolverLifeFacts WalkProgram WalkProgramSpec WalkProgramFacts WalkProgramFacts2
  PepperPreview PepperPreviewSpec PepperFormFacts PepperModel PepperMpc PepperMpcSpec PepperMpcFacts2 PepperTasks PepperTasksSpec PepperTasksFacts PepperTasksFacts2 PepperLoop PepperLoopSpec PepperLoopFacts PepperLoopFacts2
  PepperProgram PepperProgramSpec PepperProgramFacts PepperProgramFacts2 PepperProgramFacts3 PepperProgramFacts4 PepperProgramFacts5 PepperProgramUnique PepperProgramFacts6 PepperRobot PepperRobotSpec.
Import ListNotations.
Local Open Scope R_scope.

(** ** the discs of the robot *)
Theorem kp_movable_robot : forall p, movable (rp_bounds p) <-> 0 <= rp_max_nominal_base_velocity p.
Proof.
  intros p. unfold movable. cbn [rp_bounds rb_velocity]. split.
  - intros H. destruct (H AxisX) as (q & Q & _). apply (proj1 (circle_nonempty _ AxisX)). exists q. exact Q.
  - intros H a. exists 0. split; [|unfold g_infinity; lra]. unfold within, circle_bounds. cbv zeta. rewrite side_half. assert (0 <= rp_max_nominal_base_velocity p / sqrt 2).
    { apply Rmult_le_pos; [exact H|]. left. apply Rinv_0_lt_compat, Rlt_sqrt2_0. }
    destruct a; cbn [lower_bound upper_bound a00 a01 a10 a11]; lra.
Qed.
Theorem kp_discs : forall junk junk' se par gain details w s0 s es rp, ready se par gain details w s0 s -> kp_understood junk se es s -> pr_crash par = true -> kp_library_is honest_answer junk se es s ->
  ks_advance se = Whole -> ks_bounds se = rp_bounds rp -> forall n x x', kp_steps junk se es s n x x' -> let s' := kp_loop x' in
  Rsqr (vy (base_of s' AxisX)) + Rsqr (vy (base_of s' AxisY)) <= Rsqr (rp_max_nominal_base_velocity rp) /\
  Rsqr (vz (base_of s' AxisX)) + Rsqr (vz (base_of s' AxisY)) <= Rsqr (rp_max_nominal_base_acceleration rp) /\
  ((0 < n)%nat \/ default_masses s0 -> exists c, getCoP junk' (lp_model s') = Ok c /\ Rsqr (vget c 0) + Rsqr (vget c 1) <= Rsqr (rp_base_radius rp)).
Proof.
  intros junk junk' se par gain details w s0 s es rp Re Un Cr Li Wh Eb n x x' St s'.
  destruct (kp_bounds junk junk' se par gain details w s0 s es Re Un Cr Li Wh n x x' St) as (B & C). rewrite Eb in B, C. cbn [rp_bounds rb_velocity rb_acceleration rb_body rb_cop] in B, C. fold s' in B, C.
  destruct (B AxisX) as (X1 & X2 & _). destruct (B AxisY) as (Y1 & Y2 & _). split; [exact (circle_sound _ _ _ X1 Y1)|]. split; [exact (circle_sound _ _ _ X2 Y2)|].
  intros H. destruct (C H) as (c & C1 & C2). exists c. split; [exact C1|]. exact (circle_sound _ _ _ (C2 AxisX) (C2 AxisY)).
Qed.

(** ** a robot at rest *)
Lemma nth_zero_map i n : nth i (map (fun _ : nat => 0) (seq 0 n)) 0 = 0.
Proof. exact (map_nth (fun _ : nat => 0) (seq 0 n) 0%nat i). Qed.
Definition stay (l : loop) : plan :=
  mkPlan (fun _ => base_of l) (fun _ => body_of l) (fun _ _ => 0) (fun _ a => ps_body_mass (lp_model l) * (vx (body_of l a) - vx (base_of l a)) / (ps_base_mass (lp_model l) + ps_body_mass (lp_model l))).
Lemma zeros_base N k a : base_command (as_pepper N (fun _ => 0)) k a = 0.
Proof. unfold base_command, as_pepper. cbn [sol_x]. rewrite nth_zero_map. reflexivity. Qed.
Lemma zeros_body N k a : body_command N (as_pepper N (fun _ => 0)) k a = 0.
Proof. unfold body_command, as_pepper. cbn [sol_x]. rewrite nth_zero_map. reflexivity. Qed.
Lemma stay_planned l : at_rest l -> ps_base_mass (lp_model l) + ps_body_mass (lp_model l) <> 0 -> planned l (as_pepper (horizon_length (mg_par (lp_mg l))) (fun _ => 0)) (stay l).
Proof.
  intros Rs Ms. unfold planned. split; [intros a; split; reflexivity|]. intros k a Hk. destruct (Rs a) as (R1 & R2 & R3 & R4). cbn [stay pl_base pl_body pl_jerk pl_cop]. rewrite zeros_base, zeros_body.
  split; [unfold moved3, motion_position, motion_velocity, motion_acceleration; rewrite R1, R2; repeat split; ring|]. split; [exact R1|].
  split; [unfold moved3, motion_position, motion_velocity, motion_acceleration; rewrite R3, R4; repeat split; ring|].
  unfold relative_cop. rewrite R2, R4. rewrite !Rmult_0_r, !Rminus_0_r. field. exact Ms.
Qed.
Lemma disc_frame th dx dy d a : 0 <= d -> Rsqr dx + Rsqr dy <= Rsqr d -> - d <= in_frame (rot2 th) dx dy a <= d.
Proof.
  intros D H. pose proof (sin2_cos2 th) as SC. unfold Rsqr in *.
  assert (B : forall z, z * z <= d * d -> - d <= z <= d) by (intros z Z; nra). apply B.
  destruct a; cbn [in_frame rot2 a00 a01 a10 a11].
  - assert (0 <= (sin th * dx - cos th * dy) * (sin th * dx - cos th * dy)) by apply Rle_0_sqr. nra.
  - assert (0 <= (cos th * dx + sin th * dy) * (cos th * dx + sin th * dy)) by apply Rle_0_sqr. nra.
Qed.
Lemma stay_respects r d q shift n l : roomy r d -> at_rest l -> near d l -> 0 <= ps_base_mass (lp_model l) -> 0 <= ps_body_mass (lp_model l) -> ps_base_mass (lp_model l) + ps_body_mass (lp_model l) <> 0 ->
  respects r q shift n l (stay l).
Proof.
  intros (D & Ro) Rs Ne M1 M2 Ms k a Hk. destruct (Ro a) as (V & A & Bl & Bu & Cl & Cu). destruct (Rs a) as (R1 & R2 & _ & _). cbn [stay pl_base pl_body pl_jerk pl_cop]. rewrite R1, R2.
  split; [exact V|]. split; [exact A|]. unfold near in Ne. split.
  - set (m1 := ps_base_mass (lp_model l)) in *. set (m2 := ps_body_mass (lp_model l)) in *. set (e := vx (body_of l a) - vx (base_of l a)).
    assert (E : - d <= e <= d). { unfold Rsqr in Ne. unfold e. destruct a; [assert (0 <= (vx (base_of l AxisY) - vx (body_of l AxisY)) * (vx (base_of l AxisY) - vx (body_of l AxisY))) by apply Rle_0_sqr|assert (0 <= (vx (base_of l AxisX) - vx (body_of l AxisX)) * (vx (base_of l AxisX) - vx (body_of l AxisX))) by apply Rle_0_sqr]; nra. }
    assert (P : 0 < m1 + m2) by lra. assert (C : - d <= m2 * e / (m1 + m2) <= d).
    { assert (X : m2 * e / (m1 + m2) * (m1 + m2) = m2 * e) by (field; lra). split; [apply (Rmult_le_reg_r (m1 + m2)); [exact P|]|apply (Rmult_le_reg_r (m1 + m2)); [exact P|]]; rewrite X; nra. }
    unfold within in *. lra.
  - assert (X := disc_frame (heading_after q shift n l k) (vx (base_of l AxisX) - vx (body_of l AxisX)) (vx (base_of l AxisY) - vx (body_of l AxisY)) d a D Ne). unfold within in *. lra.
Qed.
Theorem kp_rests : forall junk se par gain details w s0 s es d, ready se par gain details w s0 s -> kp_understood junk se es s -> pr_crash par = true -> kp_library_is capable_answer junk se es s ->
  roomy (ks_bounds se) d -> forall n x, kp_after junk se es s n = Ok (Some x) -> let N := horizon_length (mg_par (lp_mg s0)) in let q := as_queue (lp_motions s0) in
  endless q \/ (Z.of_nat N * sampling_ms (mg_par (lp_mg s0)) + Z.of_nat n * ks_shift se <= total q)%Z ->
  at_rest (kp_loop x) -> near d (kp_loop x) -> 0 <= ps_base_mass (lp_model (kp_loop x)) -> 0 <= ps_body_mass (lp_model (kp_loop x)) -> exists x', kp_steps junk se es s n x x'.
Proof.
  intros junk se par gain details w s0 s es d Re Un Cr Li Ro n x A N q En Rs Ne M1 M2.
  pose proof (kgood_at junk se par gain details w s0 s Re es Un n x A) as G. pose proof (kp_par se par gain w s0 n x G) as EP. pose proof (kg_masses _ _ _ _ _ _ _ G) as Ms.
  apply (proj2 (kp_feasible junk se par gain details w s0 s es Re Un Cr n x A En) Li (as_pepper N (fun _ => 0)) (stay (kp_loop x))).
  - apply as_pepper_fits.
  - intros v Hv. rewrite as_pepper_point by exact Hv. unfold g_infinity. lra.
  - unfold N. rewrite <- EP. exact (stay_planned _ Rs Ms).
  - exact (stay_respects _ d q _ n _ Ro Rs Ne M1 M2 Ms).
Qed.
Lemma rp_roomy : roomy (rp_bounds rp_defaults) (3 / 100).
Proof.
  split; [lra|]. assert (H : forall r, 1 / 10 <= r -> 3 / 100 <= r / sqrt 2).
  { intros r Hr. pose proof Rlt_sqrt2_0 as S. assert (E : sqrt 2 * sqrt 2 = 2) by (apply sqrt_sqrt; lra). assert (sqrt 2 <= 3 / 2) by nra. apply (Rmult_le_reg_r (sqrt 2)); [exact S|].
    replace (r / sqrt 2 * sqrt 2) with r by (field; lra). nra. }
  intros a. unfold rp_bounds, rp_defaults, within, circle_bounds. cbn [rb_cop rb_velocity rb_acceleration rb_body rp_base_radius rp_max_nominal_base_velocity rp_max_nominal_base_acceleration rp_body_bounds]. cbv zeta. rewrite !side_half.
  pose proof (H (7 / 10) ltac:(lra)). pose proof (H (1 / 2) ltac:(lra)). pose proof (H 1 ltac:(lra)).
  destruct a; cbn [lower_bound upper_bound a00 a01 a10 a11]; lra.
Qed.

(** ** a robot within its bounds which cannot go on: the default robot, the body moves 2 m/s faster than the base *)
Definition st_state : pepper_state := mkPS (mkPM (V3 0 0 default_base_height) (V3 0 0 0) (V3 0 0 0)) (V3 0 0 0) (mkPM (V3 0 0 default_body_height) (V3 2 0 0) (V3 0 0 0)) default_base_mass default_body_mass.
Definition st_loop : loop := mkLoop st_state (One (mkMotion (V2 0 0) (V2 0 0) 0 (-1))) (mg_new (mkParams 15 100)).
Definition st_settings : pepper_settings := mkPepper (rp_bounds rp_defaults) Whole 100 100 false 10 1 1 (mkHot false false false).
Definition st_par : qparams := mkQParams true true 10000 0 [].
Definition st_world : world := mkWorld [] 0 [].
Definition st_environment (e : environment) : environment := mkEnv (en_junk e) (en_x e) (fun _ => mkAnswer (CODE_FAILURE 0) 5 None (fun _ => 0) (fun _ => 0)) (en_broken e) (en_broken_guess e).
Lemma half_small r : 0 <= r -> 0 <= r / sqrt 2 <= r.
Proof.
  intros Hr. pose proof Rlt_sqrt2_0 as S. assert (E : sqrt 2 * sqrt 2 = 2) by (apply sqrt_sqrt; lra). assert (1 <= sqrt 2) by nra. assert (X : r / sqrt 2 * sqrt 2 = r) by (field; lra).
  assert (P : 0 <= r / sqrt 2) by (apply Rmult_le_pos; [exact Hr|left; apply Rinv_0_lt_compat; exact S]). split; [exact P|nra].
Qed.
Lemma st_keeps : keeps_bounds (rp_bounds rp_defaults) st_loop.
Proof.
  intros a. pose proof (half_small (7 / 10) ltac:(lra)). pose proof (half_small (1 / 2) ltac:(lra)). pose proof (half_small 1 ltac:(lra)).
  unfold rp_bounds, rp_defaults, within, circle_bounds. cbn [rb_cop rb_velocity rb_acceleration rb_body rp_base_radius rp_max_nominal_base_velocity rp_max_nominal_base_acceleration rp_body_bounds]. cbv zeta. rewrite !side_half.
  assert (O : base_offset st_loop a = 0) by (unfold base_offset, in_frame; destruct a; cbn; ring). rewrite O.
  split; [destruct a; cbn; lra|]. split; [destruct a; cbn; lra|]. split; [destruct a; cbn; lra|].
  exists 0. split; [|destruct a; cbn; lra]. unfold relative_cop. destruct a; cbn; ring.
Qed.
Lemma st_stuck sol P : planned st_loop sol P -> ~ respects (rp_bounds rp_defaults) (as_queue (lp_motions st_loop)) 100 0 st_loop P.
Proof.
  intros (P0 & P1) Rp. specialize (P1 0%nat AxisX ltac:(cbn; lia)). specialize (Rp 0%nat AxisX ltac:(cbn; lia)). cbn [Nat.add] in P1, Rp.
  destruct (P0 AxisX) as [Eb Ed]. rewrite Eb, Ed in P1. destruct P1 as ((B1 & B2 & B3) & _ & (D1 & D2 & D3) & C). destruct Rp as (_ & A & K & O).
  assert (H0 : heading_after (as_queue (lp_motions st_loop)) 100 0 st_loop 0 = 0) by (unfold heading_after, angular_at; cbn; ring).
  rewrite H0 in O. unfold rot2 in O. rewrite cos_0, sin_0 in O.
  pose proof (half_small (7 / 10) ltac:(lra)) as S1. pose proof (half_small 1 ltac:(lra)) as S3.
  unfold rp_bounds, rp_defaults, within, circle_bounds in A, K, O. cbn [rb_cop rb_velocity rb_acceleration rb_body rp_base_radius rp_max_nominal_base_velocity rp_max_nominal_base_acceleration rp_body_bounds] in A, K, O. cbv zeta in A, K, O. rewrite !side_half in A, K.
  cbn [lower_bound upper_bound a00 a01 a10 a11 in_frame] in A, K, O. unfold relative_cop in C.
  unfold motion_position, motion_velocity, motion_acceleration in *. cbn [base_of body_of along_axis along st_loop st_state lp_model ps_base ps_body pm_position pm_velocity pm_acceleration vx vy vz] in B1, B2, B3, D1, D2, D3.
  change (mg_par (lp_mg st_loop)) with (mkParams 15 100) in *. cbn [sampling_ms horizon_length] in *. unfold seconds in *.
  change (ps_base_mass (lp_model st_loop)) with default_base_mass in C. change (ps_body_mass (lp_model st_loop)) with default_body_mass in C. change (base_height_of st_loop) with default_base_height in C. change (body_height_of st_loop) with default_body_height in C.
  unfold default_base_mass, default_body_mass, default_base_height, default_body_height, gravity in C.
  set (b := pl_base P 1 AxisX) in *. set (d := pl_body P 1 AxisX) in *. set (c := pl_cop P 0 AxisX) in *. set (j := pl_jerk P 0 AxisX) in *. set (i := body_command 15 sol 0 AxisX) in *.
  generalize dependent (7 / 10 / sqrt 2). intros h1 K S1. generalize dependent (1 / sqrt 2). intros h3 A S3.
  lra.
Qed.
Lemma st_ready : exists s, ready st_settings st_par 1 None st_world st_loop s.
Proof.
  destruct (kp_setup_shape (ks_position st_settings) pb_new pr_new) as (p & l0 & l1 & E & _).
  assert (X : exists s, kp_start st_settings st_par 1 None st_world st_loop = Ok s) by (unfold kp_start; rewrite E; cbn [bind]; eexists; reflexivity).
  destruct X as (s & X). exists s. split; [split; cbn; lia|]. split; [cbn; apply Forall_forall; intros m [<-|[]]; left; reflexivity|]. split; [cbn; lia|]. split; [cbn; lia|].
  split; [cbn; unfold default_base_mass, default_body_mass; lra|]. split; [intros H; discriminate H|]. split; [reflexivity|]. split; [|exact X]. intros a [].
Qed.
Lemma st_understood junk es s : kp_understood junk st_settings es s.
Proof. intros H. discriminate H. Qed.
Lemma kp_after_throw junk se es s n m : kp_after junk se es s n = Throw -> (n <= m)%nat -> kp_after junk se es s m = Throw.
Proof. intros H L. induction L as [|m L IH]; [exact H|]. cbn [kp_after]. rewrite IH. reflexivity. Qed.
Lemma st_start junk es s : ready st_settings st_par 1 None st_world st_loop s -> exists x, kp_after junk st_settings es s 0 = Ok (Some x) /\ kp_loop x = st_loop.
Proof.
  intros Re. exists s. split; [reflexivity|]. destruct Re as (_ & _ & _ & _ & _ & _ & _ & _ & St). unfold kp_start in St. destruct (kp_setup (ks_position st_settings) pb_new) as [p| |] eqn:E; try discriminate St. cbn [bind] in St. injection St as <-. reflexivity.
Qed.
Lemma st_throws junk es s : ready st_settings st_par 1 None st_world st_loop s -> kp_library_is honest_answer junk st_settings es s -> kp_after junk st_settings es s 1 = Throw.
Proof.
  intros Re Li. destruct (st_start junk es s Re) as (x & A & El).
  apply (proj1 (kp_feasible junk st_settings st_par 1 None st_world st_loop s es Re (st_understood junk es s) eq_refl 0 x A (or_introl (ex_intro _ _ (conj (or_introl eq_refl) eq_refl)))) Li).
  intros sol P _ _ Pl. rewrite El in Pl |- *. exact (st_stuck sol P Pl).
Qed.
Lemma st_capable junk es s : ready st_settings st_par 1 None st_world st_loop s -> let es' := fun n => st_environment (es n) in kp_library_is sound_answer junk st_settings es' s /\ kp_library_is capable_answer junk st_settings es' s.
Proof.
  intros Re es'. assert (So : kp_library_is sound_answer junk st_settings es' s) by (intros n k _ Co; discriminate Co). split; [exact So|].
  pose proof (st_throws junk es' s Re (sound_honest_answers junk st_settings s es' So)) as Th.
  intros n k As (z & Fz). exfalso. pose proof As as (x & g1 & y1 & f1 & p1 & r1 & t1 & A & Pre & R1 & C1).
  destruct n as [|n]; [|rewrite (kp_after_throw _ _ _ _ 1 (S n) Th) in A by lia; discriminate A]. pose proof (st_understood junk es' s) as Un.
  pose proof (kgood_at junk st_settings st_par 1 None st_world st_loop s Re es' Un 0 x A) as G.
  destruct (ktakes junk st_settings st_par 1 None st_world st_loop s Re es' Un 0 x A G) as [(_ & _ & No)|[(_ & _ & _ & No)|(_ & _ & g & y & f & p & r & l0 & l1 & k0 & k1 & t & k' & K & As' & Ef & _)]]; try solve [destruct (No k As)].
  assert (k' = k).
  { destruct As' as (x2 & g2 & y2 & f2 & p2 & r2 & t2 & A2 & Pre2 & R2 & C2). rewrite A in A2. injection A2 as <-. rewrite Pre in Pre2. injection Pre2 as <- <- <- <- <-.
    assert (t2 = t1) by (destruct R1, R2; congruence). subst t2. congruence. } subst k'.
  pose proof (kp_par st_settings st_par 1 st_world st_loop 0 x G) as EP. pose proof Re as (Pp & _).
  destruct (kfeasible junk st_settings 1 st_par st_loop (es' 0%nat) 0 x g y f p r l0 l1 k0 k1 (kp_world x) _ t k Pp EP K Ef) as (F1 & F2 & _). apply F2 in Fz.
  destruct (ko_plans _ _ _ _ _ _ _ _ _ _ _ _ _ _ _ _ K (as_pepper 15 z) (as_pepper_fits 15 z)) as (Pz & HPz).
  destruct (proj1 (F1 (as_pepper 15 z) Pz (as_pepper_fits 15 z) HPz) Fz) as [Rp _].
  destruct (st_start junk es' s Re) as (x0 & A0 & El). rewrite A in A0. injection A0 as <-. rewrite El in Rp, HPz. exact (st_stuck _ Pz HPz Rp).
Qed.
Theorem kp_stuck : ~ (forall junk se par gain details w s0 s es, ready se par gain details w s0 s -> movable (ks_bounds se) -> kp_understood junk se es s -> pr_crash par = true ->
  kp_library_is sound_answer junk se es s -> kp_library_is capable_answer junk se es s -> keeps_bounds (ks_bounds se) s0 -> endless (as_queue (lp_motions s0)) ->
  exists x, kp_after junk se es s 1 = Ok (Some x)).
Proof.
  intros H. destruct st_ready as (s & Re). set (e := mkEnv (fun _ _ _ => 0) (fun _ => 0) (fun _ => mkAnswer (CODE_FAILURE 0) 5 None (fun _ => 0) (fun _ => 0)) (empty_objective, empty_ILU_ALU) ([], [])).
  destruct (st_capable (fun _ _ _ => 0) (fun _ => e) s Re) as [So Ca].
  destruct (H (fun _ _ _ => 0) st_settings st_par 1 None st_world st_loop s (fun _ => st_environment e) Re) as (x & X); try assumption; try reflexivity.
  - apply kp_movable_robot. cbn. lra.
  - apply st_understood.
  - exact st_keeps.
  - eexists. split; [left; reflexivity|reflexivity].
  - rewrite (st_throws _ _ s Re (sound_honest_answers _ _ _ _ So)) in X. discriminate X.
Qed.
