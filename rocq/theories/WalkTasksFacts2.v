(** * Results on the tasks of the walking MPC and their guesses of active sets *)
From Coq Require Import String List Reals Arith Lra Lia Bool ZArith ZifyBool.
From Verif Require Import Base BaseFacts RSum Matrix Mat2 Mat3 SmallMatrix ActiveSet ActiveSetFacts ConstraintType HierarchyLevel Constraints ConstraintsSpec ConstraintsFacts BlockMatrix Condense CondenseFacts Eigentools SelectRowsFacts
  PointMass6z PointMass6zSpec PointMass6zFacts TripleIntegratorSpec Solution Task StanceFSM PepperPreview MpcGuess MpcGuessFacts PepperModel PepperMpc PepperMpcFacts2 PepperTasks PepperTasksSpec PepperTasksFacts PepperTasksFacts2
  WalkProfiles WalkProfilesSpec WalkProfilesFacts WalkProfilesFacts2 WalkTasks WalkTasksSpec WalkTasksFacts.
Import ListNotations.
Local Open Scope R_scope.

Theorem task_com_velocity junk N iv Rhs steps Rs support cstate sol M p jk g refs : walk_solved junk N iv Rhs steps Rs support cstate sol M p ->
  (Z.of_nat (6 * N) < 2 ^ 53)%Z -> length refs = N ->
  exists c, form_comVelocity jk g (structure_wpg N (length steps)) N refs M = Ok c /\ walk_object AB N (length steps) (2 * N) c /\
  forall k v r a, nth_error iv k = Some v -> nth_error refs k = Some r -> residual c (2 * k + axis_index a) (point sol) (g * (com_velocity cstate p k v a - component r a)).
Proof. intros HS. exact (com_velocity_task junk N iv Rhs steps Rs support cstate sol M p HS jk g refs). Qed.
Theorem task_cop_velocity junk N iv Rhs steps Rs support cstate sol M p jk g : walk_solved junk N iv Rhs steps Rs support cstate sol M p ->
  exists c, form_copVelocity jk g (structure_wpg N (length steps)) M = Ok c /\ walk_object AB N (length steps) (2 * N) c /\
  minimizes N c (point sol) g (fun k a => vget (wp_dcop p) (2 * k + axis_index a)).
Proof. intros HS. exact (cop_velocity_task junk N iv Rhs steps Rs support cstate sol M p HS jk g). Qed.
Theorem task_cop_position junk N iv Rhs steps Rs support cstate sol M p g : walk_solved junk N iv Rhs steps Rs support cstate sol M p ->
  let c := zt_constr (zero_form (structure_wpg N (length steps)) (new_copPosition g)) in
  walk_object GIB0 N (length steps) (2 * N) c /\ minimizes N c (point sol) g (fun k a => cop_local sol k a).
Proof. intros HS. exact (cop_position_task junk N iv Rhs steps Rs support cstate sol M p HS g). Qed.
Theorem task_cop_bounds_walk N (steps : list nat) (sol : solution) (jk : nat -> nat -> R) (old index : list nat) (states : list walk_bounds) : indexed N index states -> exists c, form_copBounds jk old (structure_wpg N (length steps)) index states = Ok c /\ walk_object ILU N (length steps) (2 * N) c /\
  (satisfies c (point sol) <-> forall k w a, state_bounds index states k = Some w -> (k < N)%nat -> within (wb_cop w) a (cop_local sol k a)).
Proof. exact (cop_bounds_task N steps sol jk old index states). Qed.
Theorem task_footsteps N (steps : list nat) (sol : solution) (jk : nat -> nat -> R) (old index : list nat) (states : list walk_bounds) : indexed N index states -> (forall s, In s steps -> (s < N)%nat) ->
  exists c, form_footstepBounds jk old false (structure_wpg N (length steps)) steps index states = Ok c /\ walk_object ILU N (length steps) (2 * length steps) c /\
  (satisfies c (point sol) <-> forall j k w a, nth_error steps j = Some k -> state_bounds index states k = Some w -> within (wb_fd w) a (step_local N sol j a)).
Proof. exact (footstep_bounds_task N steps sol jk old index states). Qed.
Theorem task_fixed_footsteps N (steps : list nat) (sol : solution) (jk : nat -> nat -> R) (old index : list nat) (states : list walk_bounds) : indexed N index states -> (forall s, In s steps -> (s < N)%nat) ->
  exists c, form_footstepBounds jk old true (structure_wpg N (length steps)) steps index states = Ok c /\ walk_object ILU N (length steps) (2 * length steps) c /\
  (satisfies c (point sol) <-> forall j k w a, nth_error steps j = Some k -> state_bounds index states k = Some w -> step_local N sol j a = fixed_step w a).
Proof. exact (fixed_footsteps_task N steps sol jk old index states). Qed.

(** the fixed step is within the bounds *)
Theorem fixed_step_within w a : lower_bound (wb_fd w) a <= upper_bound (wb_fd w) a -> within (wb_fd w) a (fixed_step w a).
Proof. unfold within, fixed_step. destruct a; intros H; [lra|]. destruct (wb_type w); lra. Qed.

(** ** the terminal constraint *)
Lemma dcpv_value w h c a : w <> 0 -> vget (mulv (getDcpv6 w) c) (axis_index a) = along a (pm_velocity (state_of c h)) + along a (pm_acceleration (state_of c h)) / w.
Proof. intros Hw. destruct a; cbn - [Rplus Rmult Rminus Rdiv Ropp Rinv IZR]; field; exact Hw. Qed.
Theorem task_terminal junk N iv Rhs steps Rs support cstate sol M p g : walk_solved junk N iv Rhs steps Rs support cstate sol M p ->
  exists c, form_terminal g (structure_wpg N (length steps)) N iv M = Ok c /\ walk_object AB N (length steps) 2 c /\
  forall v a, nth_error iv (N - 1) = Some v -> exists d,
    derivable_pt_lim (fun t => capture_point (wi_height v) (com_motion N steps Rs Rhs support cstate sol p (N - 1) v t) a) (wi_T v) d /\
    residual c (axis_index a) (point sol) (g * d).
Proof.
  intros HS. pose proof HS as (HF & _). pose proof HF as (HN & LI & _).
  destruct (wsizes _ _ _ _ _ _ _ _ _ _ _ HS) as (_ & S1 & S2 & S3 & S4 & _). pose proof (wnvars N steps) as NV. 
  destruct (nth_error iv (N - 1)) as [v|] eqn:Ev; [|apply nth_error_None in Ev; lia].
  assert (ER : exists r, rev iv = v :: r).
  { clear - LI Ev HN. revert N LI Ev HN. induction iv as [|v0 l _] using rev_ind; intros N LI Ev HN; [cbn in LI; lia|]. rewrite rev_unit. rewrite app_length in LI. cbn [length] in LI.
    rewrite nth_error_app2 in Ev by lia. replace (N - 1 - length l)%nat with 0%nat in Ev by lia. injection Ev as <-. eauto. }
  destruct ER as (r & ER). unfold form_terminal. rewrite ER. rewrite NV. unfold getb. repeat (rewrite assert_true by lia; cbn [bind]).
  unfold mmul_o. repeat (rewrite assert_true by reflexivity; cbn [bind]). eexists. split; [reflexivity|]. split.
  { split; [reflexivity|]. split; [|reflexivity]. split; [reflexivity|]. split; [|exact I]. unfold checkConsistency.
    cbn [getNumberOfConstraints c_body c_bounds c_nvars bounds_size_ok vlen vec_of mmul mscale mrows mcols mblock]. change (mrows (getDcpv6 (wi_omega v))) with 2%nat. lia. }
  intros v' a Ev'. injection Ev' as <-.
  destruct (formed_interval _ _ _ _ _ _ _ _ _ HF Ev) as (Hk & HT & HTp & Hh).
  assert (Hw : getOmega (wi_height v) <> 0) by (pose proof (omega_pos _ Hh); lra).
  set (u := mkVec 2 (fun q => commanded_cop N steps Rs Rhs support sol (N - 1) (if (q =? 0)%nat then AxisX else AxisY))).
  eexists. split.
  { unfold capture_point, com_motion. fold u. exact (capture_point_velocity (wi_T v) (wi_height v) (cstate_at cstate p (N - 1)) u a (wi_T v) Hh HT). }
  assert (V : vget (mulv (getDcpv6 (getOmega (wi_height v))) (convertCoMState_to_6d (evaluate (wi_T v) (wi_T v) (wi_height v) (cstate_at cstate p (N - 1)) u))) (axis_index a) =
              vget (mulv (getDcpv6 (getOmega (wi_height v))) (cstate_at cstate p N)) (axis_index a)).
  { rewrite !(dcpv_value _ (wi_height v)) by exact Hw. pose proof (walk_motion _ _ _ _ _ _ _ _ _ _ _ (N - 1) v HS Ev a) as (_ & W2 & W3). replace (N - 1 + 1)%nat with N in W2, W3 by lia. rewrite W2, W3.
    assert (E : evaluate (wi_T v) (wi_T v) (wi_height v) (cstate_at cstate p (N - 1)) (mkVec 2 (fun q => vget (wp_cop p) (2 * (N - 1) + q))) = evaluate (wi_T v) (wi_T v) (wi_height v) (cstate_at cstate p (N - 1)) u).
    { apply evaluate_ext; [reflexivity|reflexivity|]. intros i Hi. unfold u. cbn [vget].
      pose proof (walk_cop _ _ _ _ _ _ _ _ _ _ _ (N - 1) (if (i =? 0)%nat then AxisX else AxisY) HS Hk) as C. rewrite <- C. f_equal. destruct i as [|[|i]]; cbn [Nat.eqb axis_index]; lia. }
    rewrite E. destruct (convert_round_trip_3 (evaluate (wi_T v) (wi_T v) (wi_height v) (cstate_at cstate p (N - 1)) u) (wi_height v)) as (C & _). destruct (C a) as (_ & C2 & C3). unfold state_of. rewrite C2, C3. reflexivity. }
  rewrite V. change (wi_omega v) with (getOmega (wi_height v)). set (D := getDcpv6 (getOmega (wi_height v))).
  eapply (residual_row _ _ _ _ _ g (vget (mulv D (mulv (mblock (wmS M) ((N - 1) * 6) 0 6 (2 * N + 2 * length steps)) (vec_of_list (sol_x sol)))) (axis_index a))
     (vget (mulv D (mkVec 6 (fun i => mget (wms M) ((N - 1) * 6 + i) 0))) (axis_index a))).
  - reflexivity.
  - rewrite (proj2 (mulv_mul (mscale g D) (mblock (wmS M) ((N - 1) * 6) 0 6 (2 * N + 2 * length steps)) _ eq_refl)) by (destruct a; cbn; lia). apply mulv_scale.
  - cbn [vec_of vget]. rewrite Ropp_mult_distr_l_reverse. cbn [mmul mget mscale mcols mulv vget]. change (mcols D) with 6%nat. rewrite <- Rsum_scal, <- Rsum_opp. apply Rsum_ext. intros q Hq. cbn [mblock mget]. cbn [Nat.add]. ring.
  - f_equal. cbn [mulv vget]. change (mcols D) with 6%nat. rewrite <- Rsum_plus. apply Rsum_ext. intros q Hq.
    destruct N as [|N']; [lia|]. cbn [cstate_at vget]. rewrite (proj1 (wvalues _ _ _ _ _ _ _ _ _ _ _ HS (6 * N' + q))).
    rewrite <- Rmult_plus_distr_l. f_equal. f_equal; [|f_equal; lia]. cbn [mulv vget mblock mget mcols]. rewrite S2. apply Rsum_ext. intros j Hj. f_equal. f_equal; lia.
Qed.

(** ** guesses *)
Theorem walk_cop_guess N n t f : tk_n t = (2 * N)%nat -> f_consistent f = true -> (1 < N)%nat -> length (tk_actual t) = (2 * N)%nat ->
  exists g, guess_copBounds (structure_wpg N n) t = Ok (set_guess t g) /\ postForm f (set_guess t g) = Ok (set_guess t g) /\
    forall k a, (k < N)%nat -> nth_error g (2 * k + axis_index a) = if (k + 1 <? N)%nat then nth_error (tk_actual t) (2 * (k + 1) + axis_index a) else Some INACTIVE.
Proof.
  intros Hn C HN HA. unfold guess_copBounds, copBounds_guess. rewrite (proj1 (loc_wpg N n)). cbn [len].
  destruct (shifted_guess_next (N * 2) (tk_actual t) ltac:(lia) ltac:(lia)) as (g & E & LG & G1 & G2). rewrite E. cbn [bind]. exists g. split; [reflexivity|]. split.
  - apply (accepts_iff N); [exact Hn|exact C|cbn [set_guess tk_guess]; lia].
  - intros k a Hk. assert (A : (axis_index a < 2)%nat) by (destruct a; cbn; lia). destruct (Nat.ltb_spec (k + 1) N) as [K|K].
    + rewrite G1 by lia. f_equal. lia.
    + apply G2. lia.
Qed.
Theorem walk_cop_guess_first N n t f : tk_n t = (2 * N)%nat -> f_consistent f = true -> tk_actual t = [] ->
  guess_copBounds (structure_wpg N n) t = Ok (set_guess t (repeat INACTIVE (2 * N))) /\ postForm f (set_guess t (repeat INACTIVE (2 * N))) = Ok (set_guess t (repeat INACTIVE (2 * N))).
Proof.
  intros Hn C H. split.
  - unfold guess_copBounds, copBounds_guess. rewrite (proj1 (loc_wpg N n)), H. cbn [len]. replace (N * 2)%nat with (2 * N)%nat by lia. reflexivity.
  - apply (accepts_iff N); [exact Hn|exact C|]. cbn [set_guess tk_guess]. apply repeat_length.
Qed.
Theorem walk_cop_guess_one_interval n t : length (tk_actual t) = 2%nat -> guess_copBounds (structure_wpg 1 n) t = Throw.
Proof. intros HA. unfold guess_copBounds, copBounds_guess. rewrite (proj1 (loc_wpg 1 n)). cbn [len Nat.mul Nat.add]. rewrite shifted_guess_one_interval by exact HA. reflexivity. Qed.

Lemma guess_steps_value N fixed m n t : length (tk_actual t) = (2 * m)%nat ->
  guess_footstepBounds fixed (structure_wpg N n) t = Ok (set_guess t (guessed_steps fixed m n (tk_actual t))).
Proof.
  intros HA. unfold guess_footstepBounds, footstepBounds_guess, guessed_steps. destruct (loc_wpg N n) as (_ & L & _). rewrite L. cbn [len]. rewrite HA.
  destruct fixed; [replace (n * 2)%nat with (2 * n)%nat by lia; reflexivity|].
  destruct (Nat.eqb_spec (2 * m) 0) as [E0|E0].
  { assert (m = 0%nat) by lia. subst m. destruct (tk_actual t) eqn:ET; [|discriminate]. cbn [bind]. destruct n; [reflexivity|]. cbn [Nat.eqb Nat.ltb Nat.leb app]. rewrite Nat.sub_0_r. replace (S n * 2)%nat with (2 * S n)%nat by lia. reflexivity. }
  destruct (Nat.eqb_spec (2 * m) (n * 2)) as [E1|E1].
  { replace (m =? n)%nat with true by lia. reflexivity. }
  replace (m =? n)%nat with false by lia. destruct (Nat.ltb_spec (n * 2) (2 * m)) as [E2|E2].
  - replace (n <? m)%nat with true by lia. rewrite assert_true by lia. rewrite initialize_from_spec. cbn [offset len]. rewrite HA. replace (2 + (2 * m - 2) <=? 2 * m)%nat with true by lia. cbn [bind].
    unfold segment. rewrite firstn_all2 by (rewrite skipn_length; lia). reflexivity.
  - replace (n <? m)%nat with false by lia. unfold as_initialize_type.
    destruct (copyTo_cases (repeat INACTIVE (n * 2)) (mkLoc 0 (2 * m)) (tk_actual t)) as (_ & _ & Q). cbn [offset len] in Q. rewrite repeat_length in Q. destruct (Q ltac:(lia) ltac:(lia)) as (r & E). rewrite E. cbn [bind].
    do 2 f_equal. destruct (copyTo_nth _ _ _ _ E) as (LR & NR). rewrite repeat_length in LR. cbn [offset] in NR. apply nth_error_ext. intros i. rewrite NR. cbn [Nat.leb andb Nat.add]. rewrite HA, Nat.sub_0_r.
    destruct (Nat.ltb_spec i (2 * m)) as [I|I]; [rewrite nth_error_app1 by lia; reflexivity|]. rewrite nth_error_app2 by lia. rewrite HA.
    destruct (Nat.lt_ge_cases i (n * 2)) as [J|J].
    + rewrite !nth_error_repeat_lt by lia. reflexivity.
    + rewrite !(proj2 (nth_error_None _ _)) by (rewrite repeat_length; lia). reflexivity.
Qed.
Theorem footstep_guess N fixed m n t f : length (tk_actual t) = (2 * m)%nat -> tk_n t = (2 * n)%nat -> f_consistent f = true ->
  guess_footstepBounds fixed (structure_wpg N n) t = Ok (set_guess t (guessed_steps fixed m n (tk_actual t))) /\
  (postForm f (set_guess t (guessed_steps fixed m n (tk_actual t))) = if fixed || (m <=? n + 1)%nat then Ok (set_guess t (guessed_steps fixed m n (tk_actual t))) else Throw).
Proof.
  intros HA Hn C. split; [apply guess_steps_value; exact HA|].
  assert (LG : length (guessed_steps fixed m n (tk_actual t)) = if fixed || (m <=? n + 1)%nat then (2 * n)%nat else (2 * m - 2)%nat).
  { unfold guessed_steps. destruct fixed; cbn [orb]; [apply repeat_length|]. destruct (Nat.eqb_spec m n) as [->|E]; [replace (n <=? n + 1)%nat with true by lia; exact HA|].
    destruct (Nat.ltb_spec n m) as [E2|E2].
    - rewrite skipn_length, HA. destruct (Nat.leb_spec m (n + 1)); lia.
    - rewrite app_length, repeat_length, HA. replace (m <=? n + 1)%nat with true by lia. lia. }
  unfold postForm. rewrite C. cbn [assert_then set_guess tk_guess tk_n]. rewrite LG, Hn. destruct (fixed || (m <=? n + 1)%nat) eqn:E.
  - rewrite Nat.eqb_refl, orb_true_r. reflexivity.
  - apply orb_false_iff in E. destruct E as [_ E]. apply Nat.leb_gt in E. replace (2 * m - 2 =? 0)%nat with false by lia. replace (2 * m - 2 =? 2 * n)%nat with false by lia. reflexivity.
Qed.
(** steps which leave the horizon faster than one in a cycle: the problem is refused *)
Theorem footstep_guess_refuted : exists N m n t f, length (tk_actual t) = (2 * m)%nat /\ tk_n t = (2 * n)%nat /\ f_consistent f = true /\ (0 < N)%nat /\
  bind (guess_footstepBounds false (structure_wpg N n) t) (postForm f) = Throw.
Proof.
  exists 1%nat, 2%nat, 0%nat, (mkTask 0 ILU 0 true [] [UPPER_BOUND; INACTIVE; INACTIVE; LOWER_BOUND]), (mkFormed 0 true false None).
  repeat split; lia || reflexivity.
Qed.

(** ** the steps of the predicted footprints *)
Theorem steps_made_local junk N iv Rhs steps Rs support cstate sol M p j r a : walk_solved junk N iv Rhs steps Rs support cstate sol M p ->
  (j < length steps)%nat -> nth_error Rs j = Some r -> rotation2 r -> in_frame r (step_made support p j) a = step_local N sol j a.
Proof.
  intros HS Hj HR (O1 & O2 & O3).
  assert (E : forall b, step_made support p j b = from_frame r (step_local N sol j AxisX) (step_local N sol j AxisY) b).
  { intros b. unfold step_made. rewrite (walk_footpos _ _ _ _ _ _ _ _ _ _ _ j b HS Hj). rewrite Nat.add_1_r. cbn [support_after]. rewrite (nth_error_nth _ _ m2id HR).
    destruct j as [|i]; [cbn [support_after]; ring|]. rewrite (walk_footpos _ _ _ _ _ _ _ _ _ _ _ i b HS ltac:(lia)). rewrite Nat.add_1_r. cbn [support_after]. ring. }
  destruct a; unfold in_frame; rewrite !E; unfold from_frame; set (x := step_local N sol j AxisX) in *; set (y := step_local N sol j AxisY) in *; clearbody x y.
  - transitivity ((a00 r * a00 r + a10 r * a10 r) * x + (a00 r * a01 r + a10 r * a11 r) * y); [ring|]. rewrite O1, O3. ring.
  - transitivity ((a00 r * a01 r + a10 r * a11 r) * x + (a01 r * a01 r + a11 r * a11 r) * y); [ring|]. rewrite O2, O3. ring.
Qed.
Theorem footprints_bounded junk N iv Rhs steps Rs support cstate sol M p jk old index states : walk_solved junk N iv Rhs steps Rs support cstate sol M p ->
  (forall r, In r Rs -> rotation2 r) -> indexed N index states -> (forall s, In s steps -> (s < N)%nat) ->
  exists c, form_footstepBounds jk old false (structure_wpg N (length steps)) steps index states = Ok c /\
  (satisfies c (point sol) <-> forall j k r w a, nth_error steps j = Some k -> nth_error Rs j = Some r -> state_bounds index states k = Some w -> within (wb_fd w) a (in_frame r (step_made support p j) a)).
Proof.
  intros HS HR HI HK. destruct (task_footsteps N steps sol jk old index states HI HK) as (c & F & _ & I). exists c. split; [exact F|]. rewrite I.
  assert (LR : length Rs = length steps) by (destruct HS as (HF & _); apply HF).
  split.
  - intros Q j k r w a E1 E2 E3. rewrite (steps_made_local _ _ _ _ _ _ _ _ _ _ _ j r a HS ltac:(apply nth_error_Some; congruence) E2 (HR r (nth_error_In _ _ E2))). exact (Q j k w a E1 E3).
  - intros Q j k w a E1 E3. assert (Hj : (j < length steps)%nat) by (apply nth_error_Some; congruence). destruct (nth_error Rs j) as [r|] eqn:E2; [|apply nth_error_None in E2; lia].
    rewrite <- (steps_made_local _ _ _ _ _ _ _ _ _ _ _ j r a HS Hj E2 (HR r (nth_error_In _ _ E2))). exact (Q j k r w a E1 E2 E3).
Qed.
