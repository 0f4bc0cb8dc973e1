(** * The Pepper program: the solution of an iteration is the only one *)
From Coq Require Import String List Reals Arith Bool ZArith Lra Lia.
From Verif Require Import Base BaseFacts RSum Matrix Mat2 Mat3 ActiveSet Mixins ConstraintType HierarchyLevel HierarchySpec Constraints ConstraintsSpec QP QPSpec Problem ProblemSpec
  PointMass6z PointMass6zSpec TripleIntegratorSpec Solution Task MpcGuess MpcGuessSpec MpcGuessFacts
  QpoasesBridge QpoasesBridgeSpec Backends BackendsSpec Solver SolverLife SolverLifeSpec SolverLifeFacts WalkProgram WalkProgramSpec WalkProgramFacts WalkProgramFacts2
  PepperPreview PepperPreviewSpec PepperFormFacts PepperModel PepperMpc PepperMpcSpec PepperMpcFacts2 PepperTasks PepperTasksSpec PepperTasksFacts PepperTasksFacts2 PepperLoop PepperLoopSpec PepperLoopFacts PepperLoopFacts2
  PepperProgram PepperProgramSpec PepperProgramFacts PepperProgramFacts2 PepperProgramFacts3 PepperProgramFacts4 PepperProgramFacts5.
Import ListNotations.
Local Open Scope R_scope.


(** ** sums of squares *)
Lemma sum_all_zero n f : (forall i, (i < n)%nat -> 0 <= f i) -> Rsum n f = 0 -> forall i, (i < n)%nat -> f i = 0.
Proof.
  induction n as [|n IH]; intros P E i L; [lia|]. cbn [Rsum] in E. assert (0 <= Rsum n f) by (apply Rsum_nonneg; intros; apply P; lia). pose proof (P n ltac:(lia)).
  destruct (Nat.eq_dec i n) as [-> |D]; [lra|]. apply IH; [intros; apply P; lia|lra|lia].
Qed.
Definition eight (q : axis -> nat -> R) : R :=
  (Rsqr (q AxisX 0%nat) + Rsqr (q AxisY 0%nat)) + (Rsqr (q AxisX 1%nat) + Rsqr (q AxisY 1%nat)) + (Rsqr (q AxisX 2%nat) + Rsqr (q AxisY 2%nat)) + (Rsqr (q AxisX 3%nat) + Rsqr (q AxisY 3%nat)).
Lemma eight_zero q : 0 <= eight q /\ (eight q = 0 -> forall a i, (i < 4)%nat -> q a i = 0).
Proof.
  unfold eight. pose proof (Rle_0_sqr (q AxisX 0%nat)). pose proof (Rle_0_sqr (q AxisY 0%nat)). pose proof (Rle_0_sqr (q AxisX 1%nat)). pose proof (Rle_0_sqr (q AxisY 1%nat)).
  pose proof (Rle_0_sqr (q AxisX 2%nat)). pose proof (Rle_0_sqr (q AxisY 2%nat)). pose proof (Rle_0_sqr (q AxisX 3%nat)). pose proof (Rle_0_sqr (q AxisY 3%nat)).
  split; [lra|]. intros E a i L. apply Rsqr_0_uniq. destruct i as [|[|[|[|i]]]]; [| | | |lia]; destruct a; lra.
Qed.
Lemma halfway N (q1 q2 qm : nat -> axis -> nat -> R) : (forall k a i, (k < N)%nat -> (i < 4)%nat -> qm k a i = (q1 k a i + q2 k a i) / 2) ->
  Rsum N (fun k => eight (q1 k)) <= Rsum N (fun k => eight (qm k)) -> Rsum N (fun k => eight (q2 k)) <= Rsum N (fun k => eight (qm k)) ->
  forall k a i, (k < N)%nat -> (i < 4)%nat -> q1 k a i = q2 k a i.
Proof.
  intros M L1 L2. set (d := fun k a i => q1 k a i - q2 k a i).
  assert (E : Rsum N (fun k => eight (qm k)) = (Rsum N (fun k => eight (q1 k)) + Rsum N (fun k => eight (q2 k))) / 2 - Rsum N (fun k => eight (d k)) / 4).
  { rewrite <- Rsum_plus. unfold Rdiv. rewrite <- !Rsum_scal_r.
    assert (X : forall f g, Rsum N (fun k => f k - g k) = Rsum N f - Rsum N g).
    { intros f g. clear. induction N as [|n IH]; cbn [Rsum]; [ring|]. rewrite IH. ring. }
    rewrite <- X. apply Rsum_ext. intros k Hk. unfold eight, d. rewrite !(M k) by lia. unfold Rsqr. field. }
  assert (P : forall k, (k < N)%nat -> 0 <= eight (d k)) by (intros; apply eight_zero). pose proof (Rsum_nonneg N _ P).
  assert (Z : Rsum N (fun k => eight (d k)) = 0) by lra. intros k a i Hk Hi. pose proof (proj2 (eight_zero _) (sum_all_zero N _ P Z k Hk) a i Hi). unfold d in *. lra.
Qed.

(** ** the plan between two plans *)
Definition mid3 (x y : v3) : v3 := V3 ((vx x + vx y) / 2) ((vy x + vy y) / 2) ((vz x + vz y) / 2).
Definition mid_plan (P1 P2 : plan) : plan := mkPlan (fun k a => mid3 (pl_base P1 k a) (pl_base P2 k a)) (fun k a => mid3 (pl_body P1 k a) (pl_body P2 k a))
  (fun k a => (pl_jerk P1 k a + pl_jerk P2 k a) / 2) (fun k a => (pl_cop P1 k a + pl_cop P2 k a) / 2).
Definition mid_solution (N : nat) (sol1 sol2 : solution) : solution := as_pepper N (fun j => (point sol1 j + point sol2 j) / 2).
Lemma mid3_same x : mid3 x x = x.
Proof. destruct x as [a b c]. unfold mid3. cbn [vx vy vz]. f_equal; field. Qed.
Lemma mid_base N sol1 sol2 k a : (k < N)%nat -> base_command (mid_solution N sol1 sol2) k a = (base_command sol1 k a + base_command sol2 k a) / 2.
Proof.
  intros H. change (base_command (mid_solution N sol1 sol2) k a) with (point (mid_solution N sol1 sol2) (2 * k + axis_index a)). unfold mid_solution. rewrite as_pepper_point by (destruct a; cbn [axis_index]; lia). reflexivity.
Qed.
Lemma mid_body N sol1 sol2 k a : (k < N)%nat -> body_command N (mid_solution N sol1 sol2) k a = (body_command N sol1 k a + body_command N sol2 k a) / 2.
Proof.
  intros H. change (body_command N (mid_solution N sol1 sol2) k a) with (point (mid_solution N sol1 sol2) (2 * N + 2 * k + axis_index a)). unfold mid_solution. rewrite as_pepper_point by (destruct a; cbn [axis_index]; lia). reflexivity.
Qed.
Lemma mid_moved x1 y1 j1 x2 y2 j2 T : moved3 x1 y1 j1 T -> moved3 x2 y2 j2 T -> moved3 (mid3 x1 x2) (mid3 y1 y2) ((j1 + j2) / 2) T.
Proof.
  unfold moved3, motion_position, motion_velocity, motion_acceleration, mid3. cbn [vx vy vz]. intros (-> & -> & ->) (-> & -> & ->). repeat split; field.
Qed.
Lemma mid_planned l sol1 sol2 P1 P2 : planned l sol1 P1 -> planned l sol2 P2 -> planned l (mid_solution (horizon_length (mg_par (lp_mg l))) sol1 sol2) (mid_plan P1 P2).
Proof.
  intros [A1 B1] [A2 B2]. split.
  - intros a. cbn [mid_plan pl_base pl_body]. destruct (A1 a) as [-> ->], (A2 a) as [-> ->]. rewrite !mid3_same. split; reflexivity.
  - intros k a H. destruct (B1 k a H) as (M1 & V1 & N1 & C1), (B2 k a H) as (M2 & V2 & N2 & C2). cbn [mid_plan pl_base pl_body pl_jerk pl_cop].
    split; [exact (mid_moved _ _ _ _ _ _ _ M1 M2)|]. split; [rewrite mid_base by exact H; cbn [mid3 vy]; rewrite V1, V2; reflexivity|]. split; [rewrite mid_body by exact H; exact (mid_moved _ _ _ _ _ _ _ N1 N2)|].
    unfold relative_cop in *. cbn [mid3 vx vz]. nra.
Qed.
Lemma mid_within b a x y : within b a x -> within b a y -> within b a ((x + y) / 2).
Proof. unfold within. lra. Qed.
Lemma mid_respects r q shift n l P1 P2 : respects r q shift n l P1 -> respects r q shift n l P2 -> respects r q shift n l (mid_plan P1 P2).
Proof.
  intros A B k a H. destruct (A k a H) as (A1 & A2 & A3 & A4), (B k a H) as (B1 & B2 & B3 & B4). cbn [mid_plan pl_base pl_body pl_cop]. do 3 (split; [apply mid_within; assumption|]).
  cbn [mid3 vx]. pose proof (mid_within _ _ _ _ A4 B4) as X. destruct a; cbn [in_frame] in X |- *; unfold within in X |- *; lra.
Qed.
Lemma mid_finite N sol1 sol2 : finite N sol1 -> finite N sol2 -> finite N (mid_solution N sol1 sol2).
Proof. intros A B v H. unfold mid_solution. rewrite as_pepper_point by exact H. specialize (A v H). specialize (B v H). lra. Qed.

(** ** the cost as a sum of squares *)
Definition kterms (se : pepper_settings) (gain : R) (q : list motion) (n : nat) (l : loop) (sol : solution) (P : plan) (k : nat) (a : axis) (i : nat) : R :=
  match i with
  | 0%nat => ks_reference se * deviation (ks_position se) q (ks_shift se) n l P k a
  | 1%nat => ks_base_jerk se * pl_jerk P k a
  | 2%nat => gain * body_command (horizon_length (mg_par (lp_mg l))) sol k a
  | _ => ks_center se * pl_cop P k a
  end.
Lemma cost_kterms se gain q n l sol P : plan_cost se gain q n l sol P = Rsum (horizon_length (mg_par (lp_mg l))) (fun k => eight (kterms se gain q n l sol P k)).
Proof. reflexivity. Qed.
Lemma mid_deviation pos q shift n l P1 P2 k a : deviation pos q shift n l (mid_plan P1 P2) k a = (deviation pos q shift n l P1 k a + deviation pos q shift n l P2 k a) / 2.
Proof. unfold deviation. destruct (commanded q _) as [[[v x] w]|]; [|lra]. destruct pos; cbn [mid_plan pl_base mid3 vx vy]; lra. Qed.

(** the commands of two solutions with the same cost as their mean are the same *)
Lemma jerk_velocity l sol1 sol2 P1 P2 : 0 < seconds (sampling_ms (mg_par (lp_mg l))) -> planned l sol1 P1 -> planned l sol2 P2 ->
  (forall k a, (k < horizon_length (mg_par (lp_mg l)))%nat -> pl_jerk P1 k a = pl_jerk P2 k a \/ vy (pl_base P1 (k + 1) a) = vy (pl_base P2 (k + 1) a) \/ vx (pl_base P1 (k + 1) a) = vx (pl_base P2 (k + 1) a)) ->
  forall k a, (k <= horizon_length (mg_par (lp_mg l)))%nat -> pl_base P1 k a = pl_base P2 k a.
Proof.
  intros HT [A1 B1] [A2 B2] E. set (T := seconds (sampling_ms (mg_par (lp_mg l)))) in *. induction k as [|k IH]; intros a H.
  - destruct (A1 a) as [-> _], (A2 a) as [-> _]. reflexivity.
  - assert (H' : (k < horizon_length (mg_par (lp_mg l)))%nat) by lia. specialize (IH a ltac:(lia)). destruct (B1 k a H') as (M1 & _), (B2 k a H') as (M2 & _). specialize (E k a H'). replace (S k) with (k + 1)%nat by lia. rewrite IH in M1.
    assert (J : pl_jerk P1 k a = pl_jerk P2 k a).
    { destruct E as [E|[E|E]]; [exact E| |]; destruct M1 as (X1 & V1 & _), M2 as (X2 & V2 & _).
      - rewrite V1, V2 in E. unfold motion_velocity in E. assert (Z : T * T * (pl_jerk P1 k a - pl_jerk P2 k a) = 0) by lra.
        assert (0 < T * T) by (apply Rmult_lt_0_compat; exact HT). apply Rmult_integral in Z. destruct Z; lra.
      - rewrite X1, X2 in E. unfold motion_position in E. assert (Z : T * T * T * (pl_jerk P1 k a - pl_jerk P2 k a) = 0) by lra.
        assert (0 < T * T * T) by (apply Rmult_lt_0_compat; [apply Rmult_lt_0_compat|]; exact HT). apply Rmult_integral in Z. destruct Z; lra. }
    rewrite J in M1. destruct M1 as (X1 & Y1 & Z1), M2 as (X2 & Y2 & Z2). destruct (pl_base P1 (k + 1) a) as [b1 b2 b3], (pl_base P2 (k + 1) a) as [c1 c2 c3]. cbn [vx vy vz] in *. congruence.
Qed.
Lemma pepper_equal N sol1 sol2 : fits_problem N sol1 -> fits_problem N sol2 -> (forall k a, (k < N)%nat -> base_command sol1 k a = base_command sol2 k a) ->
  (forall k a, (k < N)%nat -> body_command N sol1 k a = body_command N sol2 k a) -> sol1 = sol2.
Proof.
  intros [S1 L1] [S2 L2] A B. assert (X : sol_x sol1 = sol_x sol2).
  { apply (nth_ext _ _ 0 0); [congruence|]. rewrite L1. intros i Hi. change (point sol1 i = point sol2 i).
    assert (D : forall m, exists h a, m = (2 * h + axis_index a)%nat). { intros m. exists (m / 2)%nat. pose proof (Nat.div_mod_eq m 2). pose proof (Nat.mod_upper_bound m 2 ltac:(lia)). destruct (m mod 2)%nat as [|[|]] eqn:M; [exists AxisX|exists AxisY|lia]; cbn [axis_index]; lia. }
    destruct (Nat.lt_ge_cases i (2 * N)) as [C|C].
    - destruct (D i) as (h & a & ->). apply (A h a). destruct a; cbn [axis_index] in C; lia.
    - destruct (D (i - 2 * N)%nat) as (h & a & Ei). replace i with (2 * N + 2 * h + axis_index a)%nat by lia. apply (B h a). destruct a; cbn [axis_index] in Ei; lia. }
  destruct sol1 as [st1 x1], sol2 as [st2 x2]. cbn [sol_structure sol_x] in *. congruence.
Qed.

Lemma plan_unique se gain q n l sol1 sol2 P1 P2 : 0 < seconds (sampling_ms (mg_par (lp_mg l))) ->
  (forall k, (k < horizon_length (mg_par (lp_mg l)))%nat -> commanded q (interval_end (mg_par (lp_mg l)) (ks_shift se) n k) <> None) -> gain <> 0 -> ks_base_jerk se <> 0 \/ ks_reference se <> 0 ->
  fits_problem (horizon_length (mg_par (lp_mg l))) sol1 -> fits_problem (horizon_length (mg_par (lp_mg l))) sol2 -> planned l sol1 P1 -> planned l sol2 P2 ->
  plan_cost se gain q n l sol1 P1 <= plan_cost se gain q n l (mid_solution (horizon_length (mg_par (lp_mg l))) sol1 sol2) (mid_plan P1 P2) ->
  plan_cost se gain q n l sol2 P2 <= plan_cost se gain q n l (mid_solution (horizon_length (mg_par (lp_mg l))) sol1 sol2) (mid_plan P1 P2) -> sol1 = sol2.
Proof.
  intros HT Co Gn Wt F1 F2 H1 H2 C1 C2. rewrite !cost_kterms in C1, C2. set (N := horizon_length (mg_par (lp_mg l))) in *.
  assert (E := halfway N (kterms se gain q n l sol1 P1) (kterms se gain q n l sol2 P2) (kterms se gain q n l (mid_solution N sol1 sol2) (mid_plan P1 P2))).
  assert (M : forall k a i, (k < N)%nat -> (i < 4)%nat -> kterms se gain q n l (mid_solution N sol1 sol2) (mid_plan P1 P2) k a i = (kterms se gain q n l sol1 P1 k a i + kterms se gain q n l sol2 P2 k a i) / 2).
  { intros k a i Hk Hi. destruct i as [|[|[|i]]]; cbn [kterms].
    - rewrite mid_deviation. field.
    - cbn [mid_plan pl_jerk]. field.
    - fold N. rewrite mid_body by exact Hk. field.
    - cbn [mid_plan pl_cop]. field. }
  specialize (E M C1 C2). apply (pepper_equal N sol1 sol2 F1 F2).
  - assert (B : forall k a, (k <= N)%nat -> pl_base P1 k a = pl_base P2 k a).
    { apply (jerk_velocity l sol1 sol2 P1 P2 HT H1 H2). intros k a Hk. fold N in Hk. destruct Wt as [Wt|Wt].
      - left. pose proof (E k a 1%nat Hk ltac:(lia)) as X. cbn [kterms] in X. apply Rmult_eq_reg_l in X; [exact X|exact Wt].
      - right. pose proof (E k a 0%nat Hk ltac:(lia)) as X. cbn [kterms] in X. apply Rmult_eq_reg_l in X; [|exact Wt]. unfold deviation in X. specialize (Co k Hk). destruct (commanded q _) as [[[v x] u]|]; [|contradiction].
        destruct (ks_position se); [right|left]; lra. }
    intros k a Hk. destruct H1 as [_ H1], H2 as [_ H2]. destruct (H1 k a Hk) as (_ & <- & _), (H2 k a Hk) as (_ & <- & _). rewrite (B (k + 1)%nat a) by lia. reflexivity.
  - intros k a Hk. pose proof (E k a 2%nat Hk ltac:(lia)) as X. cbn [kterms] in X. apply Rmult_eq_reg_l in X; [exact X|exact Gn].
Qed.

Lemma commanded_some q : forall t, endless q \/ (t < total q)%Z -> (0 <= t)%Z -> commanded q t <> None.
Proof.
  unfold commanded. induction q as [|m q IH]; intros t E P; cbn [executed].
  - exfalso. destruct E as [(m & [] & _)|E]. cbn [total] in E. lia.
  - destruct (Z.eq_dec (mo_duration m) (-1)) as [D|D]; [discriminate|]. destruct (Z_lt_dec t (mo_duration m)) as [L|L]; [discriminate|]. apply IH; [|lia].
    destruct E as [(m' & [<-|I] & E)|E]; [contradiction|left; exists m'; auto|right]. cbn [total] in E. lia.
Qed.
Lemma commanded_interval se s0 n k : PepperPreviewSpec.proper (mg_par (lp_mg s0)) -> (0 <= ks_shift se)%Z ->
  endless (as_queue (lp_motions s0)) \/ (Z.of_nat (horizon_length (mg_par (lp_mg s0))) * sampling_ms (mg_par (lp_mg s0)) + Z.of_nat n * ks_shift se <= total (as_queue (lp_motions s0)))%Z ->
  (k < horizon_length (mg_par (lp_mg s0)))%nat -> commanded (as_queue (lp_motions s0)) (interval_end (mg_par (lp_mg s0)) (ks_shift se) n k) <> None.
Proof.
  intros [_ Pp] Hs E Hk. unfold interval_end. apply commanded_some; [|nia]. destruct E as [E|E]; [left; exact E|right]. nia.
Qed.

Section Determined.
Variables (junk : nat -> nat -> nat -> R) (se : pepper_settings) (hs : hotstart) (par par' : qparams) (gain : R) (details details' : option (backend_code * Z)) (w w' : world) (s0 : loop) (s s' : pepper_program).
Notation se' := (kp_with_start se hs).
Hypothesis (Re : ready se par gain details w s0 s) (Re' : ready se' par' gain details' w' s0 s').
Variables (es es' : nat -> environment).
Hypothesis (Un : kp_understood junk se es s) (Un' : kp_understood junk se' es' s') (Cr : pr_crash par = true) (Cr' : pr_crash par' = true).
Hypothesis (So : kp_library_is sound_answer junk se es s) (So' : kp_library_is sound_answer junk se' es' s').
Hypothesis (Gn : gain <> 0) (Wt : ks_base_jerk se <> 0 \/ ks_reference se <> 0).
Notation P := (mg_par (lp_mg s0)).
Notation N := (horizon_length P).
Notation Q := (as_queue (lp_motions s0)).

Lemma kp_step_determined n x x' y y' : kp_steps junk se es s n x x' -> kp_steps junk se' es' s' n y y' -> kp_loop x = kp_loop y -> kp_loop x' = kp_loop y' /\ kp_last x' = kp_last y'.
Proof.
  intros St St' E. pose proof Re as (Pp & _ & Hs & _).
  destruct (kp_sound junk se par gain details w s0 s Re es Un n x x' Cr So St) as (Fi & Fn & Pl & H1 & R1 & M1).
  destruct (kp_sound junk se' par' gain details' w' s0 s' Re' es' Un' n y y' Cr' So' St') as (Fi' & Fn' & Pl' & H2 & R2 & M2).
  destruct (kstepped junk se par gain details w s0 s Re es Un n x x' St) as (G & _ & En & _ & g & z & f & p & r & l0 & l1 & k0 & k1 & t & k & _ & _ & _ & _ & Cy & _).
  destruct (kstepped junk se' par' gain details' w' s0 s' Re' es' Un' n y y' St') as (G' & _ & _ & _ & g' & z' & f' & p' & r' & l0' & l1' & k0' & k1' & t' & k' & _ & _ & _ & _ & Cy' & _).
  cbn [kp_with_start ks_bounds ks_advance ks_shift] in R2, M2, Cy'. rewrite <- E in H2, R2, M2, Cy'. pose proof (kp_par se par gain w s0 n x G) as EP.
  assert (PC : forall sol Pz, plan_cost se' gain Q n (kp_loop x) sol Pz = plan_cost se gain Q n (kp_loop x) sol Pz) by reflexivity.
  assert (X : kp_last x' = kp_last y').
  { pose proof (mid_planned (kp_loop x) _ _ Pl Pl' H1 H2) as Hm. rewrite EP in Hm. assert (Fm : fits_problem N (mid_solution N (kp_last x') (kp_last y'))) by apply as_pepper_fits.
    pose proof (mid_respects _ _ _ _ _ _ _ R1 R2) as Rm. pose proof (mid_finite N _ _ Fn Fn') as Fnm.
    apply (plan_unique se gain Q n (kp_loop x) (kp_last x') (kp_last y') Pl Pl'); rewrite ?EP; try assumption.
    - apply T_positive. exact Pp.
    - intros i Hi. exact (commanded_interval se s0 n i Pp Hs En Hi).
    - exact (proj2 (M1 _ Fm) _ Hm Fnm Rm).
    - rewrite <- !PC. exact (proj2 (M2 _ Fm) _ Hm Fnm Rm). }
  split; [|exact X]. rewrite X in Cy. rewrite Cy in Cy'. injection Cy' as <-. reflexivity.
Qed.
Lemma kp_determined n x y : kp_after junk se es s n = Ok (Some x) -> kp_after junk se' es' s' n = Ok (Some y) -> kp_loop x = kp_loop y /\ ((0 < n)%nat -> kp_last x = kp_last y).
Proof.
  revert x y. induction n as [|n IH]; intros x y A B.
  - cbn [kp_after] in A, B. injection A as <-. injection B as <-. destruct (start_kgood se par gain details w s0 s Re) as (_ & -> & _), (start_kgood se' par' gain details' w' s0 s' Re') as (_ & -> & _). split; [reflexivity|lia].
  - destruct (kp_before junk se s es n x A) as (x1 & St). destruct (kp_before junk se' s' es' n y B) as (y1 & St').
    destruct (kp_step_determined n x1 x y1 y St St' (proj1 (IH x1 y1 (proj1 St) (proj1 St')))) as [X Y]. split; [exact X|]. intros _. exact Y.
Qed.

(** both libraries solve the problems which have a solution: both programs do the same *)
Hypothesis (Ca : kp_library_is capable_answer junk se es s) (Ca' : kp_library_is capable_answer junk se' es' s').
Lemma kp_same n : (kp_after junk se es s n = Ok None /\ kp_after junk se' es' s' n = Ok None) \/ (kp_after junk se es s n = Throw /\ kp_after junk se' es' s' n = Throw) \/
  exists x y, kp_after junk se es s n = Ok (Some x) /\ kp_after junk se' es' s' n = Ok (Some y) /\ kp_loop x = kp_loop y /\ ((0 < n)%nat -> kp_last x = kp_last y).
Proof.
  induction n as [|n IH].
  - right. right. exists s, s'. split; [reflexivity|]. split; [reflexivity|]. exact (kp_determined 0 s s' eq_refl eq_refl).
  - destruct IH as [[A B]|[[A B]|(x & y & A & B & E & _)]]; [left|right; left|]; try (cbn [kp_after]; rewrite A, B; split; reflexivity).
    pose proof (kgood_at junk se par gain details w s0 s Re es Un n x A) as G. pose proof (kgood_at junk se' par' gain details' w' s0 s' Re' es' Un' n y B) as G'.
    pose proof (sound_honest_answers junk se s es So) as Ho. pose proof (sound_honest_answers junk se' s' es' So') as Ho'.
    destruct (Classical_Prop.classic (endless Q \/ (Z.of_nat N * sampling_ms P + Z.of_nat n * ks_shift se <= total Q)%Z)) as [En|En].
    + right. destruct (Classical_Prop.classic (exists sol Pl, fits_problem N sol /\ finite N sol /\ planned (kp_loop x) sol Pl /\ respects (ks_bounds se) Q (ks_shift se) n (kp_loop x) Pl)) as [F|F].
      * right. destruct (kp_succeeds junk se par gain details w s0 s Re es Un n x Ca A En F) as (x' & St). rewrite E in F.
        destruct (kp_succeeds junk se' par' gain details' w' s0 s' Re' es' Un' n y Ca' B En F) as (y' & St'). exists x', y'. split; [apply St|]. split; [apply St'|]. exact (kp_determined (S n) x' y' (proj2 St) (proj2 St')).
      * left. split.
        -- apply (kp_fails junk se par gain details w s0 s Re es Un n x Cr Ho A En). intros sol Pl F1 F2 F3 F4. apply F. exists sol, Pl. auto.
        -- apply (kp_fails junk se' par' gain details' w' s0 s' Re' es' Un' n y Cr' Ho' B En). rewrite <- E. intros sol Pl F1 F2 F3 F4. apply F. exists sol, Pl. auto.
    + left. destruct (ktakes junk se par gain details w s0 s Re es Un n x A G) as [(_ & X & _)|[(X & _)|(X & _)]]; try contradiction.
      destruct (ktakes junk se' par' gain details' w' s0 s' Re' es' Un' n y B G') as [(_ & Y & _)|[(Y & _)|(Y & _)]]; try contradiction. split; assumption.
Qed.
End Determined.
