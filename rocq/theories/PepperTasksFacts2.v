(** * Results on the tasks of the Pepper MPC, their guesses of active sets and bounds derived from radii *)
From Coq Require Import String List Reals Arith Lra Lia Bool ZArith ZifyBool.
From Verif Require Import Base BaseFacts RSum Matrix Mat2 Mat3 ActiveSet ActiveSetFacts ConstraintType HierarchyLevel Constraints ConstraintsSpec ConstraintsFacts Condense PointMass6z PointMass6zSpec
  TripleIntegratorSpec Solution Task PepperPreview MpcGuess MpcGuessFacts PepperModel PepperMpc PepperMpcSpec PepperMpcFacts PepperMpcFacts2 PepperTasks PepperTasksSpec PepperTasksFacts.
Import ListNotations.
Local Open Scope R_scope.

(** ** the bounds *)
Theorem task_base_acceleration_bounds junk N l model sol M p jk : solved junk N l model sol M p ->
  exists c, form_baseAccelerationBounds jk (structure_pepper N) l M = Ok c /\ task_object ASLU N c /\
  (satisfies c (point sol) <-> kept_within l acceleration_bounds (fun k a => vz (base_at model p (k + 1) a))).
Proof. intros HS. exact (base_acceleration_bounds junk N l model sol M p HS jk). Qed.
Theorem task_base_velocity_bounds junk N l model sol M p jk old : solved junk N l model sol M p ->
  exists c, form_baseVelocityBounds jk old (structure_pepper N) l = Ok c /\ task_object ILU N c /\
  (satisfies c (point sol) <-> kept_within l velocity_bounds (fun k a => vy (base_at model p (k + 1) a))).
Proof. intros HS. exact (base_velocity_bounds junk N l model sol M p HS jk old). Qed.
Theorem task_cop_bounds junk N l model sol M p jk : solved junk N l model sol M p ->
  exists c, form_copPositionBounds jk (structure_pepper N) l M = Ok c /\ task_object ALU N c /\
  (satisfies c (point sol) <-> kept_within l cop_bounds (fun k a => vget (pp_cop p) (2 * k + axis_index a))).
Proof. intros HS. exact (cop_position_bounds junk N l model sol M p HS jk). Qed.
Theorem task_body_bounds junk N l model sol M p jk : solved junk N l model sol M p ->
  exists c, form_bodyPositionBounds jk (structure_pepper N) l M = Ok c /\ task_object ALU N c /\
  (satisfies c (point sol) <-> kept_within l body_bounds (base_from_body N model p l)).
Proof. intros HS. exact (body_position_bounds junk N l model sol M p HS jk). Qed.

(** ** the objectives *)
Theorem task_cop_centering junk N l model sol M p g : solved junk N l model sol M p ->
  task_object AB N (form_copCentering g (structure_pepper N) M) /\
  minimizes N (form_copCentering g (structure_pepper N) M) (point sol) g (fun k a => vget (pp_cop p) (2 * k + axis_index a)).
Proof. intros HS. exact (cop_centering junk N l model sol M p HS g). Qed.
Theorem task_base_jerk junk N l model sol M p g : solved junk N l model sol M p ->
  task_object ASB N (form_baseJerkMinimization g (structure_pepper N) M) /\
  minimizes N (form_baseJerkMinimization g (structure_pepper N) M) (point sol) g (fun k a => vget (pp_jerk p) (2 * k + axis_index a)).
Proof. intros HS. exact (base_jerk_minimization junk N l model sol M p HS g). Qed.
Theorem task_body_jerk junk N l model sol M p g : solved junk N l model sol M p ->
  let c := zt_constr (zero_form (structure_pepper N) (new_bodyJerkMinimization g)) in
  task_object GIB0 N c /\ minimizes N c (point sol) g (fun k a => body_command N sol k a).
Proof. intros HS. exact (body_jerk_minimization junk N l model sol M p HS g). Qed.
Theorem task_base_position junk N l model sol M p jk g : solved junk N l model sol M p ->
  exists c, form_basePositionReference jk g (structure_pepper N) l M = Ok c /\ task_object ASB N c /\
  forall k v r a, nth_error l k = Some v -> position_reference v = Some r ->
    residual c (2 * k + axis_index a) (point sol) (g * (vx (base_at model p (k + 1) a) - component r a)).
Proof. intros HS. exact (base_position_reference junk N l model sol M p HS jk g). Qed.
Theorem task_base_velocity junk N l model sol M p jk old g : solved junk N l model sol M p ->
  exists c, form_baseVelocityReference jk old g (structure_pepper N) l = Ok c /\ task_object GIB N c /\
  forall k v r a, nth_error l k = Some v -> velocity_reference v = Some r ->
    residual c (2 * k + axis_index a) (point sol) (g * (vy (base_at model p (k + 1) a) - component r a)).
Proof. intros HS. exact (base_velocity_reference junk N l model sol M p HS jk old g). Qed.

(** the solution of zeros and the motion predicted with it *)
Definition all_zeros (sol : solution) : Prop := forall j, point sol j = 0.
Lemma mulv_zeros A sol i : all_zeros sol -> vget (mulv A (vec_of_list (sol_x sol))) i = 0.
Proof. intros H. unfold mulv. cbn [vget vec_of_list]. apply Rsum_zero. intros j _. change (nth j (sol_x sol) 0) with (point sol j). rewrite H. ring. Qed.
(** the task of the body position compares the predicted offset of the base from the body with TWICE the offset under zero commands *)
Theorem task_body_position junk N l model sol sol0 M p p0 g : solved junk N l model sol M p -> solved junk N l model sol0 M p0 -> all_zeros sol0 ->
  task_object AB N (form_bodyPositionReference g (structure_pepper N) M) /\
  minimizes N (form_bodyPositionReference g (structure_pepper N) M) (point sol) g
    (fun k a => base_from_body N model p l k a - 2 * base_from_body N model p0 l k a).
Proof.
  intros HS H0 HZ. destruct (body_position_reference junk N l model sol M p HS g) as (T & H). split; [exact T|]. intros k a Hk.
  pose proof (H k a Hk) as (b & B1 & B2 & B3). exists b. split; [exact B1|]. split; [exact B2|]. rewrite B3.
  destruct (value_tasks junk N l model sol0 M p0 H0 k a Hk) as (_ & _ & V). rewrite mulv_zeros in V by exact HZ. rewrite <- V. ring.
Qed.
Definition matched (N : nat) (c : constr) (x : nat -> R) : Prop := forall k a, (k < N)%nat -> residual c (2 * k + axis_index a) x 0.
Lemma residual_unique c i x r s : residual c i x r -> residual c i x s -> r = s.
Proof. intros (b & L & _ & <-) (b' & L' & _ & <-). rewrite L in L'. injection L' as <-. reflexivity. Qed.
(** a base that stays with the body does not fulfil the objective *)
Theorem aligned_not_matched junk N l model sol sol0 M p p0 g : solved junk N l model sol M p -> solved junk N l model sol0 M p0 -> all_zeros sol0 -> g <> 0 ->
  (forall k a, (k < N)%nat -> base_from_body N model p l k a = 0) ->
  (matched N (form_bodyPositionReference g (structure_pepper N) M) (point sol) <-> (forall k a, (k < N)%nat -> base_from_body N model p0 l k a = 0)).
Proof.
  intros HS H0 HZ Hg HA. destruct (task_body_position junk N l model sol sol0 M p p0 g HS H0 HZ) as (_ & H). split; intros Q k a Hk.
  - pose proof (residual_unique _ _ _ _ _ (H k a Hk) (Q k a Hk)) as E. cbv beta in E. rewrite HA in E by exact Hk. apply Rmult_integral in E. destruct E as [E|E]; [lra|lra].
  - pose proof (H k a Hk) as E. cbv beta in E. rewrite HA, Q in E by exact Hk. replace (g * (0 - 2 * 0)) with 0 in E by ring. exact E.
Qed.

(** ** the refutation: one interval, the base and the body at rest, the body one metre ahead; the body is commanded to the base *)
Definition off_model : pepper_state := mkPS (mkPM (V3 0 0 (1 / 10)) (V3 0 0 0) (V3 0 0 0)) (V3 0 0 0) (mkPM (V3 1 0 (7 / 10)) (V3 0 0 0) (V3 0 0 0)) 15 12.
Definition off_solution : solution := mkSolution (structure_pepper 1) [0; 0; -6000; 0].
Definition off_zero : solution := mkSolution (structure_pepper 1) [0; 0; 0; 0].
Lemma off_formed : formed_horizon 1 [ex_interval].
Proof. split; [reflexivity|]. intros v [<-|[]]; cbn; split; [lra|discriminate]. Qed.
Lemma off_zeros : all_zeros off_zero.
Proof. intros j. unfold point. cbn [off_zero sol_x]. do 5 (destruct j as [|j]; [reflexivity|]). reflexivity. Qed.
Lemma off_solved : exists M p p0, solved ex_junk 1 [ex_interval] off_model off_solution M p /\ solved ex_junk 1 [ex_interval] off_model off_zero M p0.
Proof.
  destruct (solved_exists ex_junk 1 [ex_interval] off_model off_solution ltac:(lia) off_formed eq_refl eq_refl) as (M & p & S & _).
  destruct (solved_exists ex_junk 1 [ex_interval] off_model off_zero ltac:(lia) off_formed eq_refl eq_refl) as (M0 & p0 & S0 & _).
  assert (E : M = M0). { destruct S as (_ & _ & _ & _ & E & _). destruct S0 as (_ & _ & _ & _ & E0 & _). rewrite E in E0. injection E0 as <-. reflexivity. }
  subst M0. exists M, p, p0. split; assumption.
Qed.
Lemma moved_position x y j t : moved3 x y j t -> vx y = vx x + t * vy x + t * t / 2 * vz x + t * t * t / 6 * j.
Proof. intros (A & _). rewrite A. unfold motion_position. field. Qed.
Lemma moved_velocity x y j t : moved3 x y j t -> vy y = vy x + t * vz x + t * t / 2 * j.
Proof. intros (_ & A & _). rewrite A. unfold motion_velocity. field. Qed.
Lemma off_offset M p x y : let sol := mkSolution (structure_pepper 1) [0; 0; x; y] in
  solved ex_junk 1 [ex_interval] off_model sol M p ->
  base_from_body 1 off_model p [ex_interval] 0 AxisX = -1 - x / 6000 /\ base_from_body 1 off_model p [ex_interval] 0 AxisY = - y / 6000.
Proof.
  cbv zeta. intros HS.
  assert (B : forall a, vx (base_at off_model p 1 a) = vx (base_at off_model p 0 a) /\
     vx (body_at 1 off_model p 1 a) = vx (body_at 1 off_model p 0 a) + match a with AxisX => x | AxisY => y end / 6000).
  { intros a. destruct (profile_motion _ _ _ _ _ _ _ 0 ex_interval a HS eq_refl) as (B1 & B2 & B3). cbn [Nat.add] in *.
    pose proof (moved_position _ _ _ _ B1) as P1. pose proof (moved_velocity _ _ _ _ B1) as P2. pose proof (moved_position _ _ _ _ B3) as P3.
    rewrite B2 in P2. unfold base_command in P2. unfold body_command in P3.
    destruct a; cbn [sol_x axis_index Nat.mul Nat.add nth base_at body_at along_axis along off_model ps_base ps_body pm_position pm_velocity pm_acceleration vx vy vz ex_interval in_T] in P1, P2, P3 |- *; split; lra. }
  unfold base_from_body. cbn [nth_error]. unfold frame. cbn [ex_interval in_set option_map fst]. cbn [Nat.add].
  destruct (B AxisX) as (X1 & X2). destruct (B AxisY) as (Y1 & Y2). rewrite X1, X2, Y1, Y2. unfold in_frame, ex_rotation.
  cbn [base_at body_at along_axis along off_model ps_base ps_body pm_position vx vy a00 a01 a10 a11]. split; lra.
Qed.
Theorem body_position_refuted : exists junk N l model sol M p, solved junk N l model sol M p /\
  (forall k a, (k < N)%nat -> base_from_body N model p l k a = 0) /\
  forall g, g <> 0 -> ~ matched N (form_bodyPositionReference g (structure_pepper N) M) (point sol).
Proof.
  destruct off_solved as (M & p & p0 & S & S0). exists ex_junk, 1%nat, [ex_interval], off_model, off_solution, M, p. split; [exact S|].
  assert (A : forall k a, (k < 1)%nat -> base_from_body 1 off_model p [ex_interval] k a = 0).
  { intros k a Hk. assert (k = 0%nat) by lia. subst k. destruct (off_offset M p _ _ S) as (X & Y). destruct a; [rewrite X; lra|rewrite Y; lra]. }
  split; [exact A|]. intros g Hg Q. apply (proj1 (aligned_not_matched _ _ _ _ _ _ _ _ _ g S S0 off_zeros Hg A)) with (k := 0%nat) (a := AxisX) in Q; [|lia].
  destruct (off_offset M p0 _ _ S0) as (X & _). rewrite X in Q. lra.
Qed.

(** ** guesses *)
Lemma nth_error_repeat_lt {A} (x : A) n j : (j < n)%nat -> nth_error (repeat x n) j = Some x.
Proof. revert j. induction n; intros [|j] H; cbn; try lia; auto. apply IHn. lia. Qed.
(** without an active set of the previous problem all constraints are considered inactive; otherwise the statuses are moved by one interval *)
Theorem shifted_guess_first n : shifted_guess n [] = Ok (repeat INACTIVE n).
Proof. reflexivity. Qed.
Theorem shifted_guess_next n (actual : aset) : length actual = n -> (2 < n)%nat -> exists g, shifted_guess n actual = Ok g /\ length g = n /\
  (forall j, (j + 2 < n)%nat -> nth_error g j = nth_error actual (j + 2)) /\ (forall j, (j < n <= j + 2)%nat -> nth_error g j = Some INACTIVE).
Proof.
  intros L H. unfold shifted_guess. replace (length actual =? 0)%nat with false by lia. rewrite assert_true by lia.
  destruct (shift_spec actual 2 INACTIVE ltac:(lia)) as (r & E & LR & HR). exists r. split; [exact E|]. split; [lia|]. split; intros j Hj; rewrite HR.
  - replace (j + 2 <? length actual)%nat with true by lia. reflexivity.
  - replace (j + 2 <? length actual)%nat with false by lia. replace (j <? length actual)%nat with true by lia. reflexivity.
Qed.
Theorem shifted_guess_wrong_size n (actual : aset) : actual <> [] -> length actual <> n -> shifted_guess n actual = Throw.
Proof. intros H L. unfold shifted_guess. destruct (Nat.eqb_spec (length actual) 0) as [E|E]; [destruct actual; [contradiction|discriminate]|]. unfold assert_then. replace (length actual =? n)%nat with false by lia. reflexivity. Qed.
Theorem shifted_guess_one_interval (actual : aset) : length actual = 2%nat -> shifted_guess 2 actual = Throw.
Proof. intros L. unfold shifted_guess. rewrite L. cbn [Nat.eqb]. rewrite assert_true by reflexivity. apply shift_throw. lia. Qed.

(** a bounds task of [2 N] constraints that has just been formed *)
Definition formed_bounds (N : nat) (t : task) : Prop := tk_n t = (2 * N)%nat /\ tk_modified t = true /\ ct_isEquality (tk_type t) = false.
Definition accepts (N : nat) (t : task) (f : formed) : Prop := f_consistent f = true /\ postForm f t = Ok t.
Lemma accepts_iff N t f : tk_n t = (2 * N)%nat -> f_consistent f = true -> (length (tk_guess t) = 2 * N)%nat -> postForm f t = Ok t.
Proof. intros H C L. unfold postForm. rewrite assert_true by exact C. rewrite assert_true by lia. reflexivity. Qed.
(** the control period is the one of the preview: the statuses are moved by one interval *)
Theorem pepper_guess N sampling subsampling l t f : formed_bounds N t -> length l = N -> f_consistent f = true -> (sampling <= subsampling)%Z -> (1 < N)%nat ->
  length (tk_actual t) = (2 * N)%nat ->
  exists g, guess_pepper sampling subsampling l t = Ok (set_guess t g) /\ postForm f (set_guess t g) = Ok (set_guess t g) /\
    forall k a, (k < N)%nat -> nth_error g (2 * k + axis_index a) = if (k + 1 <? N)%nat then nth_error (tk_actual t) (2 * (k + 1) + axis_index a) else Some INACTIVE.
Proof.
  intros (Hn & _ & _) L C HT HN HA. unfold guess_pepper. replace (subsampling <? sampling)%Z with false by lia. rewrite L.
  destruct (shifted_guess_next (N * 2) (tk_actual t) ltac:(lia) ltac:(lia)) as (g & E & LG & G1 & G2). rewrite E. cbn [bind]. exists g. split; [reflexivity|]. split.
  - apply (accepts_iff N); [exact Hn|exact C|cbn [set_guess tk_guess]; lia].
  - intros k a Hk. assert (A : (axis_index a < 2)%nat) by (destruct a; cbn; lia). destruct (Nat.ltb_spec (k + 1) N) as [K|K].
    + rewrite G1 by lia. f_equal. lia.
    + apply G2. lia.
Qed.
Theorem pepper_guess_inactive N sampling subsampling l t f : formed_bounds N t -> length l = N -> f_consistent f = true -> (subsampling < sampling)%Z \/ tk_actual t = [] ->
  guess_pepper sampling subsampling l t = Ok (set_guess t (repeat INACTIVE (2 * N))) /\ postForm f (set_guess t (repeat INACTIVE (2 * N))) = Ok (set_guess t (repeat INACTIVE (2 * N))).
Proof.
  intros (Hn & Hm & Hq) L C H. split.
  - unfold guess_pepper. destruct (Z.ltb_spec subsampling sampling) as [Q|Q].
    + unfold guessActiveSet. rewrite Hm, Hq, Hn. reflexivity.
    + destruct H as [H|H]; [lia|]. rewrite H, L. replace (N * 2)%nat with (2 * N)%nat by lia. reflexivity.
  - apply (accepts_iff N); [exact Hn|exact C|]. cbn [set_guess tk_guess]. apply repeat_length.
Qed.
(** a horizon of one interval: no problem can be formed after the first solution *)
Theorem pepper_guess_one_interval sampling subsampling l t : length l = 1%nat -> (sampling <= subsampling)%Z -> length (tk_actual t) = 2%nat ->
  guess_pepper sampling subsampling l t = Throw.
Proof. intros L HT HA. unfold guess_pepper. replace (subsampling <? sampling)%Z with false by lia. rewrite L. cbn [Nat.mul Nat.add]. rewrite shifted_guess_one_interval by exact HA. reflexivity. Qed.

(** ** bounds derived from a radius *)
Lemma side_half r : getEncircledSquareSide r / 2 = r / sqrt 2.
Proof. unfold getEncircledSquareSide. field. pose proof Rlt_sqrt2_0. lra. Qed.
Lemma half_square r : (r / sqrt 2) * (r / sqrt 2) = r * r / 2.
Proof. pose proof Rlt_sqrt2_0 as H. assert (E : sqrt 2 * sqrt 2 = 2) by (apply sqrt_sqrt; lra). replace (r / sqrt 2 * (r / sqrt 2)) with (r * r / (sqrt 2 * sqrt 2)) by (field; lra). rewrite E. reflexivity. Qed.
(** the square lies in the circle ... *)
Theorem circle_sound r x y : within (circle_bounds r) AxisX x -> within (circle_bounds r) AxisY y -> x * x + y * y <= r * r.
Proof.
  unfold within, circle_bounds. cbv zeta. rewrite side_half. cbn [lower_bound upper_bound a00 a01 a10 a11]. set (h := r / sqrt 2). intros X Y.
  assert (H : h * h = r * r / 2) by apply half_square. nra.
Qed.
(** ... its corners are on the circle, it is centred and it is the largest such square *)
Theorem circle_corners r : 0 <= r -> forall x y, (x = lower_bound (circle_bounds r) AxisX \/ x = upper_bound (circle_bounds r) AxisX) ->
  (y = lower_bound (circle_bounds r) AxisY \/ y = upper_bound (circle_bounds r) AxisY) -> x * x + y * y = r * r.
Proof.
  intros Hr x y. unfold circle_bounds. cbv zeta. rewrite side_half. cbn [lower_bound upper_bound a00 a01 a10 a11]. set (h := r / sqrt 2).
  assert (H : h * h = r * r / 2) by apply half_square. intros [->| ->] [->| ->]; nra.
Qed.
Theorem circle_largest r h : 0 <= r -> 0 <= h -> (forall x y, - h <= x <= h -> - h <= y <= h -> x * x + y * y <= r * r) ->
  forall a, lower_bound (circle_bounds r) a <= - h /\ h <= upper_bound (circle_bounds r) a.
Proof.
  intros Hr Hh H a. assert (Q : h * h + h * h <= r * r) by (apply H; lra). unfold circle_bounds. cbv zeta. rewrite side_half. set (b := r / sqrt 2).
  assert (B : b * b = r * r / 2) by apply half_square. assert (Bp : 0 <= b). { unfold b. apply Rmult_le_pos; [lra|]. left. apply Rinv_0_lt_compat, Rlt_sqrt2_0. }
  assert (h <= b) by nra. destruct a; cbn [lower_bound upper_bound a00 a01 a10 a11]; lra.
Qed.
Theorem circle_nonempty r a : (exists q, within (circle_bounds r) a q) <-> 0 <= r.
Proof.
  unfold within, circle_bounds. cbv zeta. rewrite side_half. pose proof Rlt_sqrt2_0 as S. set (b := r / sqrt 2).
  assert (E : r = b * sqrt 2) by (unfold b; field; lra). assert (I : 0 <= r <-> 0 <= b). { rewrite E. split; intros; nra. }
  rewrite I. destruct a; cbn [lower_bound upper_bound a00 a01 a10 a11]; (split; [intros (q & Q); lra|intros Q; exists 0; lra]).
Qed.

(** ** an example: boxes of half a metre as bounds; following the body violates them, moving the body to the base does not *)
Definition box : m2 := M2 (- (1 / 2)) (1 / 2) (- (1 / 2)) (1 / 2).
Definition box_interval : interval := mkInterval 100 (1 / 10) 0 (1 / 10) (7 / 10) 15 12 (Some (ex_rotation, V2 0 0, V2 0 0, (box, box, box, box))).
Lemma box_formed : formed_horizon 1 [box_interval].
Proof. split; [reflexivity|]. intros v [<-|[]]; cbn; split; [lra|discriminate]. Qed.
Lemma box_offset M p x y : let sol := mkSolution (structure_pepper 1) [0; 0; x; y] in
  solved ex_junk 1 [box_interval] off_model sol M p ->
  base_from_body 1 off_model p [box_interval] 0 AxisX = -1 - x / 6000 /\ base_from_body 1 off_model p [box_interval] 0 AxisY = - y / 6000.
Proof.
  cbv zeta. intros HS.
  assert (B : forall a, vx (base_at off_model p 1 a) = vx (base_at off_model p 0 a) /\
     vx (body_at 1 off_model p 1 a) = vx (body_at 1 off_model p 0 a) + match a with AxisX => x | AxisY => y end / 6000).
  { intros a. destruct (profile_motion _ _ _ _ _ _ _ 0 box_interval a HS eq_refl) as (B1 & B2 & B3). cbn [Nat.add] in *.
    pose proof (moved_position _ _ _ _ B1) as P1. pose proof (moved_velocity _ _ _ _ B1) as P2. pose proof (moved_position _ _ _ _ B3) as P3.
    rewrite B2 in P2. unfold base_command in P2. unfold body_command in P3.
    destruct a; cbn [sol_x axis_index Nat.mul Nat.add nth base_at body_at along_axis along off_model ps_base ps_body pm_position pm_velocity pm_acceleration vx vy vz box_interval in_T] in P1, P2, P3 |- *; split; lra. }
  unfold base_from_body. cbn [nth_error]. unfold frame. cbn [box_interval in_set option_map fst]. cbn [Nat.add].
  destruct (B AxisX) as (X1 & X2). destruct (B AxisY) as (Y1 & Y2). rewrite X1, X2, Y1, Y2. unfold in_frame, ex_rotation.
  cbn [base_at body_at along_axis along off_model ps_base ps_body pm_position vx vy a00 a01 a10 a11]. split; lra.
Qed.
Lemma box_kept p : kept_within [box_interval] body_bounds (base_from_body 1 off_model p [box_interval]) <->
  (forall a, - (1 / 2) <= base_from_body 1 off_model p [box_interval] 0 a <= 1 / 2).
Proof.
  unfold kept_within, within. split.
  - intros H a. pose proof (H 0%nat box_interval box a eq_refl eq_refl) as Q. destruct a; exact Q.
  - intros H k v m a E B. destruct k as [|[|k]]; cbn in E; try discriminate. injection E as <-. injection B as <-. destruct a; apply H.
Qed.
