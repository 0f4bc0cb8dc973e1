(** * The Pepper program: the tasks of an iteration in terms of the robot *)
From Coq Require Import String List Reals Arith Bool ZArith Lra Lia.
From Verif Require Import Base BaseFacts RSum Matrix Mat2 Mat3 ActiveSet Mixins ConstraintType HierarchyLevel HierarchySpec Constraints ConstraintsSpec QP QPSpec Problem ProblemSpec
  PointMass6z PointMass6zSpec TripleIntegratorSpec Solution Task MpcGuess MpcGuessFacts
  QpoasesBridge QpoasesBridgeSpec Backends BackendsSpec Solver SolverLife SolverLifeSpec WalkProgram WalkProgramFacts WalkProgramFacts2
  PepperPreview PepperPreviewSpec PepperFormFacts PepperModel PepperMpc PepperMpcSpec PepperMpcFacts2 PepperTasks PepperTasksSpec PepperTasksFacts PepperTasksFacts2 PepperLoop PepperLoopSpec PepperLoopFacts
  PepperProgram PepperProgramSpec PepperProgramFacts.
Import ListNotations.
Local Open Scope R_scope.

(** ** points and solutions *)
Definition as_pepper (N : nat) (x : nat -> R) : solution := mkSolution (structure_pepper N) (map x (seq 0 (4 * N))).
Lemma as_pepper_point N x i : (i < 4 * N)%nat -> point (as_pepper N x) i = x i.
Proof.
  intros H. unfold point, as_pepper. cbn [sol_x]. rewrite nth_indep with (d' := x 0%nat) by (rewrite map_length, seq_length; exact H).
  rewrite map_nth, seq_nth by exact H. reflexivity.
Qed.
Lemma as_pepper_fits N x : fits_problem N (as_pepper N x).
Proof. split; [reflexivity|]. cbn [as_pepper sol_x]. rewrite map_length, seq_length. reflexivity. Qed.

(** ** the object of TaskBodyJerkMinimization *)
Definition jerked (N : nat) (g : R) (z : zero_task) : Prop := z = new_bodyJerkMinimization g \/
  exists m nv, z = mkZT g m (mkLoc (N * 2) (N * 2)) BODY_JERK (mkConstr nv (BodyGI (map (fun i => (N * 2 + i)%nat) (seq 0 (N * 2))) (vconst (N * 2) g)) BoundsB0).
Lemma jerked_form N g z : (0 < N)%nat -> jerked N g z ->
  jerked N g (zero_form (structure_pepper N) z) /\ zt_constr (zero_form (structure_pepper N) z) = zt_constr (zero_form (structure_pepper N) (new_bodyJerkMinimization g)).
Proof.
  intros HN C. assert (L : forall z', zt_id z' = BODY_JERK -> zero_location (structure_pepper N) z' = mkLoc (N * 2) (N * 2)).
  { intros z' E. unfold zero_location. rewrite E. replace (String.eqb BODY_JERK "") with false by reflexivity. apply (loc_pepper N). }
  assert (E0 : zero_form (structure_pepper N) (new_bodyJerkMinimization g) =
    mkZT g true (mkLoc (N * 2) (N * 2)) BODY_JERK (mkConstr (Solution.getNumberOfVariables (structure_pepper N)) (BodyGI (map (fun i => (N * 2 + i)%nat) (seq 0 (N * 2))) (vconst (N * 2) g)) BoundsB0)).
  { unfold zero_form. rewrite L by reflexivity. unfold new_bodyJerkMinimization, zero_new, loc_eqb. cbn [zt_location zt_gain zt_id Base.offset len]. replace ((N * 2 =? 0)%nat && (N * 2 =? 0)%nat) with false by lia. reflexivity. }
  destruct C as [-> | (m & nv & ->)].
  - split; [|reflexivity]. right. rewrite E0. eexists _, _. reflexivity.
  - rewrite E0. unfold zero_form. rewrite L by reflexivity. unfold loc_eqb. cbn [zt_location zt_gain zt_id Base.offset len zt_constr c_body c_bounds]. rewrite !Nat.eqb_refl. cbn [andb zt_constr].
    split; [right; eexists _, _; reflexivity|reflexivity].
Qed.

Lemma v3_same a b : vx a = vx b -> vy a = vy b -> vz a = vz b -> a = b.
Proof. destruct a, b; cbn; intros; subst; reflexivity. Qed.
Lemma moved3_unique x y y' j t : moved3 x y j t -> moved3 x y' j t -> y = y'.
Proof. intros (A & B & C) (A' & B' & C'). apply v3_same; congruence. Qed.
Lemma two_bounds c i : getType c = ALU \/ getType c = ASLU \/ getType c = ILU -> lower c i <> None /\ upper c i <> None.
Proof. unfold getType, lower, upper. destruct (c_body c), (c_bounds c); intros [H|[H|H]]; try discriminate H; split; discriminate. Qed.

(** ** plans *)
Section Plans.
Variables (l : loop) (sol : solution).
Notation p := (mg_par (lp_mg l)).
Notation N := (horizon_length p).
Hypothesis (HT : 0 < seconds (sampling_ms p)) (Hm : ps_base_mass (lp_model l) + ps_body_mass (lp_model l) <> 0).

Lemma planned_unique P P' : planned l sol P -> planned l sol P' ->
  (forall k a, (k <= N)%nat -> pl_base P k a = pl_base P' k a /\ pl_body P k a = pl_body P' k a) /\ (forall k a, (k < N)%nat -> pl_jerk P k a = pl_jerk P' k a /\ pl_cop P k a = pl_cop P' k a).
Proof.
  intros (A0 & A) (B0 & B).
  assert (J : forall k a, (k < N)%nat -> pl_base P k a = pl_base P' k a -> pl_jerk P k a = pl_jerk P' k a).
  { intros k a K E. destruct (A k a K) as (A1 & A2 & _). destruct (B k a K) as (B1 & B2 & _).
    rewrite (jerk_unique _ _ _ _ _ (Rgt_not_eq _ _ HT) A1 A2), (jerk_unique _ _ _ _ _ (Rgt_not_eq _ _ HT) B1 B2), E. reflexivity. }
  assert (X : forall k, (k <= N)%nat -> forall a, pl_base P k a = pl_base P' k a /\ pl_body P k a = pl_body P' k a).
  { induction k as [|k IH]; intros K a.
    - destruct (A0 a) as [-> ->]. destruct (B0 a) as [-> ->]. auto.
    - destruct (IH ltac:(lia) a) as [E1 E2]. destruct (A k a K) as (A1 & _ & A2 & _). destruct (B k a K) as (B1 & _ & B2 & _).
      rewrite (J k a K E1), E1 in A1. rewrite E2 in A2. replace (k + 1)%nat with (S k) in * by lia. split; [exact (moved3_unique _ _ _ _ _ A1 B1)|exact (moved3_unique _ _ _ _ _ A2 B2)]. }
  split; [intros k a K; apply X; exact K|]. intros k a K. split; [apply J; [exact K|apply X; lia]|].
  destruct (A k a K) as (_ & _ & _ & A1). destruct (B k a K) as (_ & _ & _ & B1). destruct (X (k + 1)%nat ltac:(lia) a) as [E1 E2]. rewrite E1, E2 in A1. unfold relative_cop in A1, B1.
  rewrite <- B1 in A1. apply Rmult_eq_reg_l in A1; [|exact Hm]. lra.
Qed.
Lemma respects_same r q shift n P P' : planned l sol P -> planned l sol P' -> respects r q shift n l P -> respects r q shift n l P'.
Proof.
  intros A B R k a K. destruct (planned_unique P P' A B) as [U V]. destruct (R k a K) as (R1 & R2 & R3 & R4). destruct (V k a K) as [_ V2]. rewrite V2 in R3.
  destruct (U (k + 1)%nat a ltac:(lia)) as [U1 U2]. rewrite U1 in R1, R2. split; [exact R1|]. split; [exact R2|]. split; [exact R3|].
  destruct (U (k + 1)%nat AxisX ltac:(lia)) as [X1 X2]. destruct (U (k + 1)%nat AxisY ltac:(lia)) as [Y1 Y2]. rewrite X1, X2, Y1, Y2 in R4. exact R4.
Qed.
Lemma cost_same se g q n P P' : planned l sol P -> planned l sol P' -> plan_cost se g q n l sol P = plan_cost se g q n l sol P'.
Proof.
  intros A B. destruct (planned_unique P P' A B) as [U V]. unfold plan_cost. apply Rsum_ext. intros k K. cbv zeta.
  assert (D : forall a, deviation (ks_position se) q (ks_shift se) n l P k a = deviation (ks_position se) q (ks_shift se) n l P' k a).
  { intros a. unfold deviation. destruct (U (k + 1)%nat a ltac:(lia)) as [U1 _]. rewrite U1. reflexivity. }
  rewrite !D. destruct (V k AxisX K) as [-> ->]. destruct (V k AxisY K) as [-> ->]. reflexivity.
Qed.
End Plans.

(** ** the horizon *)
(** the motions which are left are those of [q], from the time of the iteration [n] *)
Definition left_of (q : list motion) (shift : Z) (n : nat) (l : loop) : Prop := forall u, (0 <= u)%Z -> commanded (as_queue (lp_motions l)) u = commanded q (Z.of_nat n * shift + u).
Definition plan_of (l : loop) (p : pepper_profiles) : plan :=
  mkPlan (base_at (lp_model l) p) (body_at (horizon_length (mg_par (lp_mg l))) (lp_model l) p) (fun k a => vget (pp_jerk p) (2 * k + axis_index a)) (fun k a => vget (pp_cop p) (2 * k + axis_index a)).

(** the constraints of the tasks are the bounds of the robot and the cost of a plan *)
Record kformed (se : pepper_settings) (g : R) (q : list motion) (n : nat) (l : loop) (f : pepper_tasks) : Prop := mkKF {
  kf_objects : forall k, In k (kids0 ++ kids1 (ks_position se)) -> task_object (snd k) (horizon_length (mg_par (lp_mg l))) (kp_constraints f (fst k));
  kf_respects : forall sol P, fits_problem (horizon_length (mg_par (lp_mg l))) sol -> planned l sol P ->
    ((satisfies (kt_acceleration f) (point sol) /\ satisfies (kt_pressure f) (point sol) /\ satisfies (kt_body f) (point sol) /\ satisfies (kt_velocity f) (point sol)) <->
     respects (ks_bounds se) q (ks_shift se) n l P);
  kf_velocity : forall sol, fits_problem (horizon_length (mg_par (lp_mg l))) sol -> (satisfies (kt_velocity f) (point sol) <->
    forall k a, (k < horizon_length (mg_par (lp_mg l)))%nat -> within (rb_velocity (ks_bounds se)) a (base_command sol k a));
  kf_cost : forall sol P, fits_problem (horizon_length (mg_par (lp_mg l))) sol -> planned l sol P ->
    squared_residuals (kt_center f) (point sol) + (squared_residuals (kt_base_jerk f) (point sol) + (squared_residuals (kt_reference f) (point sol) + (squared_residuals (zt_constr (kt_body_jerk f)) (point sol) + 0))) =
    plan_cost se g q n l sol P;
  kf_jerked : jerked (horizon_length (mg_par (lp_mg l))) g (kt_body_jerk f) }.

Section Iteration.
Variables (junk : nat -> nat -> nat -> R) (se : pepper_settings) (gain : R) (q : list motion) (n : nat) (l : loop) (old L : list interval) (M : pepper_matrices).
Notation p := (mg_par (lp_mg l)).
Notation N := (horizon_length p).
Notation T := (seconds (sampling_ms p)).
Notation r := (ks_bounds se).
Notation model := (lp_model l).
Hypothesis (Pp : proper p) (V : valid_queue (as_queue (lp_motions l))) (Lf : left_of q (ks_shift se) n l).
Hypothesis (E : form_motions p (view_of r model) (lp_motions l) old = Ok (true, L)) (EM : updateMatrices junk N L model = Ok M).
Hypothesis (Hm : ps_base_mass model + ps_body_mass model <> 0).

Lemma intervals_are : length L = N /\ forall k, (k < N)%nat -> exists v u x w, nth_error L k = Some v /\ commanded q (interval_end p (ks_shift se) n k) = Some (u, x, w) /\ in_T v = T /\
  in_base_height v = base_height_of l /\ in_body_height v = body_height_of l /\ in_base_mass v = ps_base_mass model /\ in_body_mass v = ps_body_mass model /\
  let th := heading_after q (ks_shift se) n l k in
  in_set v = Some (rot2 th, m2app (rot2 th) u, x, (rb_cop r, rb_velocity r, rb_acceleration r, rb_body r)).
Proof.
  pose proof (form_motions_queue _ _ _ _ _ Pp V E) as F. destruct (form_queue_intervals _ _ _ _ _ Pp V F) as (theta & Z & Len & I). split; [exact Len|].
  assert (C : forall k m, executed (as_queue (lp_motions l)) (Z.of_nat (k + 1) * sampling_ms p - 1) = Some m -> commanded q (interval_end p (ks_shift se) n k) = Some (mo_velocity m, mo_position m, mo_angular m)).
  { intros k m X. unfold interval_end. replace (Z.of_nat n * ks_shift se + Z.of_nat (k + 1) * sampling_ms p - 1)%Z with (Z.of_nat n * ks_shift se + (Z.of_nat (k + 1) * sampling_ms p - 1))%Z by lia.
    destruct Pp as (_ & HT & _). rewrite <- Lf by nia. unfold commanded. rewrite X. reflexivity. }
  assert (Th : forall k, (k <= N)%nat -> theta k = heading_of l + turned (fun i => angular_at q (interval_end p (ks_shift se) n i)) T k).
  { induction k as [|k IH]; intros K; [rewrite Z; cbn; unfold heading_of; lra|]. destruct (I k K) as (v & m & _ & X & (_ & F1 & F2 & _) & F3). rewrite <- F3, F2, F1, IH by lia. cbn [turned].
    replace (angular_at q (interval_end p (ks_shift se) n k)) with (mo_angular m) by (unfold angular_at; rewrite (C k m X); reflexivity). unfold seconds. lra. }
  intros k K. destruct (I k K) as (v & m & X1 & X2 & (F0 & F1 & F2 & F3 & F4 & F5 & F6 & F7) & X3). exists v, (mo_velocity m), (mo_position m), (mo_angular m). split; [exact X1|]. split; [exact (C k m X2)|].
  split; [exact F1|]. split; [exact F3|]. split; [exact F4|]. split; [exact F5|]. split; [exact F6|]. cbv zeta. rewrite F7, X3, (Th (S k) K). unfold heading_after. replace (k + 1)%nat with (S k) by lia. reflexivity.
Qed.
Lemma iteration_horizon : formed_horizon N L.
Proof. apply (form_motions_horizon _ _ _ _ _ Pp V E). Qed.
Lemma iteration_solved sol : fits_problem N sol -> exists pf, solved junk N L model sol M pf.
Proof.
  intros [S1 S2]. destruct (solved_exists junk N L model sol (proj1 Pp) iteration_horizon S1 S2) as (M' & pf & S & _). exists pf. assert (M' = M) by (destruct S as (_ & _ & _ & _ & X & _); congruence). subst M'. exact S.
Qed.
Lemma solved_planned sol pf : solved junk N L model sol M pf -> planned l sol (plan_of l pf).
Proof.
  intros S. split; [intros a; split; reflexivity|]. intros k a K. destruct intervals_are as [_ I]. destruct (I k K) as (v & u & x & w & X & _ & F1 & F2 & F3 & F4 & F5 & _).
  destruct (profile_motion junk N L model sol M pf k v a S X) as (Q1 & Q2 & Q3). rewrite F1 in Q1, Q3. cbn [plan_of pl_base pl_body pl_jerk pl_cop]. split; [exact Q1|]. split; [exact Q2|]. split; [exact Q3|].
  rewrite <- F4, <- F5, <- F2, <- F3. apply (profile_cop junk N L model sol M pf k v a S X). rewrite F4, F5. exact Hm.
Qed.
Lemma plan_exists sol : fits_problem N sol -> exists P, planned l sol P.
Proof. intros F. destruct (iteration_solved sol F) as (pf & S). exists (plan_of l pf). apply solved_planned. exact S. Qed.

Lemma kept_all (b : interval -> option m2) (m : m2) (y : nat -> axis -> R) :
  (forall v s, in_set v = Some (s, (rb_cop r, rb_velocity r, rb_acceleration r, rb_body r)) -> b v = Some m) -> (kept_within L b y <-> forall k a, (k < N)%nat -> within m a (y k a)).
Proof.
  intros B. destruct intervals_are as [Len I]. split.
  - intros H k a K. destruct (I k K) as (v & u & x & w & X & _ & _ & _ & _ & _ & _ & Y). cbv zeta in Y. exact (H k v m a X (B _ _ Y)).
  - intros H k v m' a X Y. assert (K : (k < N)%nat) by (rewrite <- Len; apply nth_error_Some; congruence). destruct (I k K) as (v' & u & x & w & X' & _ & _ & _ & _ & _ & _ & Z). cbv zeta in Z.
    rewrite X in X'. injection X' as <-. rewrite (B _ _ Z) in Y. injection Y as <-. apply H. exact K.
Qed.

Lemma kformed_tasks e g s : mg_size g = N -> mg_horizon g = L -> mg_matrices g = M -> jerked N gain (kp_body_jerk s) ->
  exists f, kp_form_tasks se e g s = Ok f /\ kformed se gain q n l f.
Proof.
  intros G1 G2 G3 J. pose proof (proj1 Pp) as HN. pose proof (T_positive p Pp) as HT.
  destruct (iteration_solved (as_pepper N (fun _ => 0)) (as_pepper_fits _ _)) as (pf0 & S0).
  destruct (task_base_velocity_bounds _ _ _ _ _ _ _ (en_junk e VELOCITY) (kp_velocity_ix s) S0) as (c0 & C0 & T0 & _).
  destruct (task_body_bounds _ _ _ _ _ _ _ (en_junk e BODY) S0) as (c1 & C1 & T1 & _).
  destruct (task_cop_bounds _ _ _ _ _ _ _ (en_junk e PRESSURE) S0) as (c2 & C2 & T2 & _).
  destruct (task_base_acceleration_bounds _ _ _ _ _ _ _ (en_junk e ACCELERATION) S0) as (c3 & C3 & T3 & _).
  assert (X4 : exists c4, (if ks_position se then form_basePositionReference (en_junk e REFERENCE) (ks_reference se) (structure_pepper N) L M
     else form_baseVelocityReference (en_junk e REFERENCE) (kp_reference_ix s) (ks_reference se) (structure_pepper N) L) = Ok c4 /\ task_object (if ks_position se then ASB else GIB) N c4 /\
     forall sol pf, solved junk N L model sol M pf -> squared_residuals c4 (point sol) =
       Rsum N (fun k => Rsqr (ks_reference se * deviation (ks_position se) q (ks_shift se) n l (plan_of l pf) k AxisX) + Rsqr (ks_reference se * deviation (ks_position se) q (ks_shift se) n l (plan_of l pf) k AxisY))).
  { destruct intervals_are as [_ I]. destruct (ks_position se).
    - destruct (task_base_position _ _ _ _ _ _ _ (en_junk e REFERENCE) (ks_reference se) S0) as (c4 & C4 & T4 & _). exists c4. split; [exact C4|]. split; [exact T4|]. intros sol pf S.
      destruct (task_base_position _ _ _ _ _ _ _ (en_junk e REFERENCE) (ks_reference se) S) as (c4' & C4' & _ & D). rewrite C4 in C4'. injection C4' as <-.
      apply (squared_pairs N c4 (point sol) (fun k a => ks_reference se * deviation true q (ks_shift se) n l (plan_of l pf) k a)); [apply T4|]. intros k a K.
      destruct (I k K) as (v & u & x & w & X & Cm & _ & _ & _ & _ & _ & Y). cbv zeta in Y. unfold deviation. rewrite Cm. apply (D k v x a X). unfold position_reference. rewrite Y. reflexivity.
    - destruct (task_base_velocity _ _ _ _ _ _ _ (en_junk e REFERENCE) (kp_reference_ix s) (ks_reference se) S0) as (c4 & C4 & T4 & _). exists c4. split; [exact C4|]. split; [exact T4|]. intros sol pf S.
      destruct (task_base_velocity _ _ _ _ _ _ _ (en_junk e REFERENCE) (kp_reference_ix s) (ks_reference se) S) as (c4' & C4' & _ & D). rewrite C4 in C4'. injection C4' as <-.
      apply (squared_pairs N c4 (point sol) (fun k a => ks_reference se * deviation false q (ks_shift se) n l (plan_of l pf) k a)); [apply T4|]. intros k a K.
      destruct (I k K) as (v & u & x & w & X & Cm & _ & _ & _ & _ & _ & Y). cbv zeta in Y. unfold deviation. rewrite Cm. set (th := heading_after q (ks_shift se) n l k) in *. cbv zeta.
      assert (Rv : velocity_reference v = Some (m2app (rot2 th) u)) by (unfold velocity_reference; rewrite Y; reflexivity). pose proof (D k v _ a X Rv) as Z.
      replace (match a with AxisX => cos th * ux u - sin th * uy u | AxisY => sin th * ux u + cos th * uy u end) with (component (m2app (rot2 th) u) a); [exact Z|].
      unfold m2app, rot2. destruct a; cbn [component ux uy a00 a01 a10 a11]; ring. }
  destruct X4 as (c4 & C4 & T4 & K4). destruct (jerked_form N gain _ HN J) as (J' & EJ).
  set (f := mkPT c0 c1 c2 c3 c4 (form_baseJerkMinimization (ks_base_jerk se) (structure_pepper N) M) (zero_form (structure_pepper N) (kp_body_jerk s)) (form_copCentering (ks_center se) (structure_pepper N) M)).
  exists f. split; [unfold kp_form_tasks; cbv zeta; rewrite G1, G2, G3, C0; cbn [bind]; rewrite C1; cbn [bind]; rewrite C2; cbn [bind]; rewrite C3; cbn [bind]; rewrite C4; reflexivity|].
  assert (B : forall sol pf, solved junk N L model sol M pf ->
    (satisfies c3 (point sol) <-> forall k a, (k < N)%nat -> within (rb_acceleration r) a (vz (base_at model pf (k + 1) a))) /\
    (satisfies c2 (point sol) <-> forall k a, (k < N)%nat -> within (rb_cop r) a (vget (pp_cop pf) (2 * k + axis_index a))) /\
    (satisfies c1 (point sol) <-> forall k a, (k < N)%nat -> within (rb_body r) a (base_from_body N model pf L k a)) /\
    (satisfies c0 (point sol) <-> forall k a, (k < N)%nat -> within (rb_velocity r) a (vy (base_at model pf (k + 1) a)))).
  { intros sol pf S. destruct (task_base_velocity_bounds _ _ _ _ _ _ _ (en_junk e VELOCITY) (kp_velocity_ix s) S) as (d0 & D0 & _ & I0). rewrite C0 in D0. injection D0 as <-.
    destruct (task_body_bounds _ _ _ _ _ _ _ (en_junk e BODY) S) as (d1 & D1 & _ & I1). rewrite C1 in D1. injection D1 as <-.
    destruct (task_cop_bounds _ _ _ _ _ _ _ (en_junk e PRESSURE) S) as (d2 & D2 & _ & I2). rewrite C2 in D2. injection D2 as <-.
    destruct (task_base_acceleration_bounds _ _ _ _ _ _ _ (en_junk e ACCELERATION) S) as (d3 & D3 & _ & I3). rewrite C3 in D3. injection D3 as <-.
    rewrite I0, I1, I2, I3. split; [|split; [|split]]; apply kept_all; intros v x Y; unfold acceleration_bounds, cop_bounds, body_bounds, velocity_bounds; rewrite Y; reflexivity. }
  split.
  - intros k I. cbn in I. destruct I as [<-|[<-|[<-|[<-|[<-|[<-|[<-|[<-|[]]]]]]]]]; cbn [fst snd kp_constraints ACCELERATION PRESSURE BODY VELOCITY CENTER BASE_JERK REFERENCE BODYJERK f kt_velocity kt_body kt_pressure kt_acceleration kt_reference kt_base_jerk kt_body_jerk kt_center]; try assumption.
    + apply (task_cop_centering _ _ _ _ _ _ _ (ks_center se) S0).
    + apply (task_base_jerk _ _ _ _ _ _ _ (ks_base_jerk se) S0).
    + rewrite EJ. apply (task_body_jerk _ _ _ _ _ _ _ gain S0).
  - intros sol P Fi Pl. destruct (iteration_solved sol Fi) as (pf & S). pose proof (solved_planned sol pf S) as Pl'. cbn [f kt_velocity kt_body kt_pressure kt_acceleration].
    destruct (B sol pf S) as (B3 & B2 & B1 & B0). rewrite B0, B1, B2, B3.
    assert (Y : respects r q (ks_shift se) n l P <-> respects r q (ks_shift se) n l (plan_of l pf)) by (split; eapply respects_same; eassumption). rewrite Y.
    assert (Fb : forall k a, (k < N)%nat -> base_from_body N model pf L k a = in_frame (rot2 (heading_after q (ks_shift se) n l k))
      (vx (base_at model pf (k + 1) AxisX) - vx (body_at N model pf (k + 1) AxisX)) (vx (base_at model pf (k + 1) AxisY) - vx (body_at N model pf (k + 1) AxisY)) a).
    { intros k a K. destruct intervals_are as [_ I]. destruct (I k K) as (v & u & x & w & X & _ & _ & _ & _ & _ & _ & Y'). cbv zeta in Y'. unfold base_from_body. rewrite X. unfold frame. rewrite Y'. reflexivity. }
    unfold respects, plan_of. cbn [pl_base pl_body pl_jerk pl_cop]. split.
    + intros (Z3 & Z2 & Z1 & Z0) k a K. specialize (Z1 k a K). rewrite Fb in Z1 by exact K. auto.
    + intros Z. split; [|split; [|split]]; intros k a K; destruct (Z k a K) as (Z0 & Z3 & Z2 & Z1); try assumption. rewrite Fb by exact K. exact Z1.
  - intros sol Fi. destruct (iteration_solved sol Fi) as (pf & S). destruct (B sol pf S) as (_ & _ & _ & B0). cbn [f kt_velocity]. rewrite B0. destruct (solved_planned sol pf S) as [_ Pl].
    split; intros Z k a K; specialize (Z k a K); destruct (Pl k a K) as (_ & Y & _); cbn [plan_of pl_base] in Y; congruence.
  - intros sol P Fi Pl. destruct (iteration_solved sol Fi) as (pf & S). pose proof (solved_planned sol pf S) as Pl'. rewrite (cost_same l sol HT Hm se gain q n P (plan_of l pf) Pl Pl').
    cbn [f kt_center kt_base_jerk kt_reference kt_body_jerk]. rewrite (K4 sol pf S), EJ.
    destruct (task_cop_centering _ _ _ _ _ _ _ (ks_center se) S) as [(_ & _ & N1) M1]. rewrite (squared_pairs N _ _ _ N1 M1).
    destruct (task_base_jerk _ _ _ _ _ _ _ (ks_base_jerk se) S) as [(_ & _ & N2) M2]. rewrite (squared_pairs N _ _ _ N2 M2).
    destruct (task_body_jerk _ _ _ _ _ _ _ gain S) as [(_ & _ & N3) M3]. rewrite (squared_pairs N _ _ _ N3 M3).
    unfold plan_cost. cbv zeta. cbn [plan_of pl_jerk pl_cop]. rewrite !Rsum_plus. ring.
  - exact J'.
Qed.
End Iteration.
