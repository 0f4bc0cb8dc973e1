(** * The walking loop: iterations, schedule, motion of the CoM, CoP *)
From Coq Require Import String List Reals Arith Bool Lra Lia Sorting.Sorted.
From Verif Require Import Base BaseFacts Matrix Mat2 Mat3 LeftRight FootParameters FootTrajectory PointMass6z PointMass6zSpec PointMass6zFacts Solution Constraints ConstraintsSpec Condense MpcGuess
  PepperTasksSpec StanceFSM StanceSpec StanceFSMFacts StanceFSMFacts2 StanceTimeFacts WalkPreview WalkPreviewSpec WalkPreviewFacts WalkPreviewFacts2 WalkHeadingFacts WalkPreviewFacts3
  WalkMpc WalkMpcFacts WalkProfiles WalkProfilesSpec WalkProfilesFacts WalkProfilesFacts2 WalkTasks WalkTasksSpec WalkTasksFacts2 WalkModel WalkModelSpec WalkModelFacts WalkLoop WalkLoopSpec WalkLoopFacts WalkLoopFacts2 WalkLoopFacts3 WalkLoopFacts4 WalkLoopFacts5.
Import ListNotations.
Local Open Scope nat_scope.

(** ** one iteration *)
Definition made (fuel : nat) (junk : nat -> nat -> nat -> R) (nan inc : R) (pr : primary) (sol : solution) (mp : mpc_params) (H : R) (s s' : wloop) (h : horizon) (rs : list nat) (M : walk_matrices) (pf : walk_profiles) (com : point_mass_state) : Prop :=
  iterated fuel junk nan inc (finalize pr) sol s s' h rs M pf com /\
  form fuel mp (yaw nan (wl_model s) LEFT) (yaw nan (wl_model s) RIGHT) inc (wl_fsm s) = Finished (Ok (Some h)) /\
  shiftTime fuel (wl_fsm s) (sampling_ms mp) = Finished (Ok (wl_fsm s')) /\
  walk_solved junk (horizon_length mp) (intervals_of h H) (interval_rotations h) (h_steps h) (step_rotations h rs) (support_of nan (wl_model s)) (cstate_of (wl_model s)) sol M pf /\
  (exists u c th, support_pose (md_state (wl_model s)) c th /\
    (forall a, vget u (axis_index a) = (coordinate c a + from_frame (rot2 th) (cop_local sol 0 AxisX) (cop_local sol 0 AxisY) a)%R) /\
    com = evaluate (INR (subsampling_ms mp) / 1000) (INR (sampling_ms mp) / 1000) H (cstate_of (wl_model s)) u) /\ ms_com (md_state (wl_model s')) = com /\
  (lands (md_state (wl_model s)) (md_state (wl_model s')) = false /\ (forall x, foot_of (ms_feet (md_state (wl_model s'))) x = foot_of (ms_feet (md_state (wl_model s))) x) \/
   lands (md_state (wl_model s)) (md_state (wl_model s')) = true /\ landed inc pr s h (V2 (vget (wp_footpos pf) 0) (vget (wp_footpos pf) 1)) (wl_fsm s') (wl_model s')) /\
  wl_wpg s' = mkWpg mp true h H M pf.
Lemma iteration p s0 fuel junk nan inc pr sols n s s' : stances_left (wl_fsm s0) + 1 <= fuel -> walking p s0 fuel junk nan inc pr sols ->
  consecutive fuel junk nan inc (finalize pr) sols s0 n s s' ->
  loop_inv nan inc p s0 s /\ loop_inv nan inc p s0 s' /\ exists h rs M pf com, made fuel junk nan inc pr (sols n) (wg_par (wl_wpg s0)) (height_of (wl_model s0)) s s' h rs M pf com.
Proof.
  intros FU (Reg & Sta & Ans) [A A']. destruct (loop_some fuel junk nan inc pr sols p s0 Reg Sta FU Ans n s A) as (I & _).
  destruct (loop_step fuel junk nan inc pr sols p s0 Reg Sta FU Ans n s s' I A A') as (h & rs & M & pf & com & It & Q1 & Q2).
  pose proof Sta as (Ini & _ & _ & _ & HH).
  destruct (inv_step fuel junk p _ _ nan inc _ _ pr (sols n) s s' h rs M pf com Reg Ini HH ltac:(lia) I Q1 Q2 It) as (I' & _ & _ & So & Mo & Co & Fe).
  split; [exact I|]. split; [exact I'|]. exists h, rs, M, pf, com. split; [exact It|]. destruct It as (F & _ & _ & _ & _ & Sh & _ & G).
  rewrite (i_par _ _ _ _ _ _ _ I) in F, Sh, G. rewrite (i_height _ _ _ _ _ _ _ I) in G. split; [exact F|]. split; [exact Sh|]. auto.
Qed.

(** ** the number of iterations *)
Theorem iterations : forall p s0, exists F, forall fuel junk nan inc pr sols, F <= fuel -> walking p s0 fuel junk nan inc pr sols -> forall n,
  exists o, after fuel junk nan inc (finalize pr) sols s0 n = Finished (Ok o) /\
    (o <> None <-> n = 0 \/ (horizon_length (wg_par (wl_wpg s0)) + (n - 1)) * sampling_ms (wg_par (wl_wpg s0)) <= total_ms p).
Proof.
  intros p s0. exists (stances_left (wl_fsm s0) + 1). intros fuel junk nan inc pr sols FU (Reg & Sta & Ans) n.
  destruct (loop_at fuel junk nan inc pr sols p s0 Reg Sta FU Ans n) as (o & A & B). exists o. split; [exact A|]. destruct o as [s|].
  - destruct B as (_ & _ & B & _). split; [intros _; exact B|discriminate].
  - split; [congruence|]. intros [->|L]; lia.
Qed.

(** ** the schedule *)
Theorem schedule : forall p s0, exists F, forall fuel junk nan inc pr sols, F <= fuel -> walking p s0 fuel junk nan inc pr sols -> forall n s,
  after fuel junk nan inc (finalize pr) sols s0 n = Finished (Ok (Some s)) ->
  (exists f, shiftTime f (wl_fsm s0) (n * sampling_ms (wg_par (wl_wpg s0))) = Finished (Ok (wl_fsm s))) /\
  ms_stance (md_state (wl_model s)) = st_type (cur (wl_fsm s)) /\ wg_par (wl_wpg s) = wg_par (wl_wpg s0) /\ defined (ms_feet (md_state (wl_model s))).
Proof.
  intros p s0. exists (stances_left (wl_fsm s0) + 1). intros fuel junk nan inc pr sols FU W n. pose proof W as (Reg & Sta & Ans).
  induction n as [|n IH]; intros s A.
  - destruct (loop_some fuel junk nan inc pr sols p s0 Reg Sta FU Ans 0 s A) as (I & _).
    split; [|split; [exact (i_stance _ _ _ _ _ _ _ I)|split; [exact (i_par _ _ _ _ _ _ _ I)|exact (i_feet _ _ _ _ _ _ _ I)]]].
    injection A as <-. exists 0. reflexivity.
  - destruct (loop_some fuel junk nan inc pr sols p s0 Reg Sta FU Ans (S n) s A) as (I & _).
    split; [|split; [exact (i_stance _ _ _ _ _ _ _ I)|split; [exact (i_par _ _ _ _ _ _ _ I)|exact (i_feet _ _ _ _ _ _ _ I)]]].
    destruct (loop_at fuel junk nan inc pr sols p s0 Reg Sta FU Ans n) as ([x|] & Ax & _).
    + destruct (IH x Ax) as ((f & Sf) & _). destruct (iteration p s0 fuel junk nan inc pr sols n x s FU W (conj Ax A)) as (_ & _ & h & rs & M & pf & com & _ & _ & Sh & _).
      exists (f + fuel). replace (S n * sampling_ms (wg_par (wl_wpg s0))) with (n * sampling_ms (wg_par (wl_wpg s0)) + sampling_ms (wg_par (wl_wpg s0))) by lia.
      eapply shiftTime_compose; eassumption.
    + exfalso. cbn [after] in A. rewrite Ax in A. discriminate A.
Qed.

(** ** the motion of the CoM *)
Theorem motion : forall p s0, exists F, forall fuel junk nan inc pr sols, F <= fuel -> walking p s0 fuel junk nan inc pr sols -> forall n s s',
  consecutive fuel junk nan inc (finalize pr) sols s0 n s s' ->
  exists u c theta, support_pose (md_state (wl_model s)) c theta /\
    (forall a, vget u (axis_index a) = (coordinate c a + from_frame (rot2 theta) (cop_local (sols n) 0 AxisX) (cop_local (sols n) 0 AxisY) a)%R) /\
    ms_com (md_state (wl_model s')) =
      evaluate (seconds (subsampling_ms (wg_par (wl_wpg s0)))) (seconds (sampling_ms (wg_par (wl_wpg s0)))) (height_of (wl_model s0)) (convertCoMState_to_6d (ms_com (md_state (wl_model s)))) u /\
    height_of (wl_model s') = height_of (wl_model s0).
Proof.
  intros p s0. exists (stances_left (wl_fsm s0) + 1). intros fuel junk nan inc pr sols FU W n s s' C.
  destruct (iteration p s0 fuel junk nan inc pr sols n s s' FU W C) as (I & I' & h & rs & M & pf & com & _ & _ & _ & _ & (u & c & th & U1 & U2 & U3) & Co & _).
  exists u, c, th. split; [exact U1|]. split; [exact U2|]. split; [rewrite Co; exact U3|exact (i_height _ _ _ _ _ _ _ I')].
Qed.

(** ** the CoP *)
Lemma frame_id th x y (d : axis -> R) a : (forall a, d a = from_frame (rot2 th) x y a) -> in_frame (rot2 th) d a = match a with AxisX => x | AxisY => y end.
Proof.
  intros E. unfold in_frame. rewrite !E. unfold from_frame, rot2. cbn [a00 a01 a10 a11]. pose proof (sin2_cos2 th) as Q. unfold Rsqr in Q.
  destruct a; [transitivity ((sin th * sin th + cos th * cos th) * x)%R|transitivity ((sin th * sin th + cos th * cos th) * y)%R]; try ring; rewrite Q; ring.
Qed.
Lemma form_indexed fuel mp ly ry inc f h nan fp : form fuel mp ly ry inc f = Finished (Ok (Some h)) -> indexed (horizon_length mp) (indices_of h) (bounds_of nan fp h).
Proof.
  intros F. destruct (form_filled _ _ _ _ _ _ _ F) as ((L & Fi & _) & _). unfold indexed, indices_of, bounds_of. rewrite !map_length. split; [exact L|].
  intros i Hi. apply in_map_iff in Hi. destruct Hi as (o & <- & Ho). apply In_nth_error in Ho. destruct Ho as [k Ho].
  assert (Hk : k < horizon_length mp) by (rewrite <- L; apply nth_error_Some; congruence). destruct (Fi k Hk) as (iv & I1 & t & (w & Hw & _) & _). unfold interval_at in I1. rewrite I1 in Ho. injection Ho as <-.
  apply nth_error_Some. congruence.
Qed.
Lemma state_bounds_at nan fp h i iv w : interval_at h i iv -> nth_error (h_states h) (iv_state iv) = Some w ->
  state_bounds (indices_of h) (bounds_of nan fp h) i = Some (mkWB (st_type (ws_stance w)) (fd_matrix nan fp (ws_fd w)) (cop_matrix nan fp (ws_cop w))).
Proof.
  intros I1 Hw. unfold state_bounds, indices_of, bounds_of. rewrite nth_error_map. unfold interval_at in I1. rewrite I1. cbn [option_map]. rewrite nth_error_map, Hw. reflexivity.
Qed.
Lemma cop_obeyed fuel mp ly ry inc f h nan fp s' sol iv w a : form fuel mp ly ry inc f = Finished (Ok (Some h)) -> 0 < horizon_length mp -> wg_par (wl_wpg s') = mp -> wg_horizon (wl_wpg s') = h ->
  obeys_cop nan fp s' sol -> interval_at h 0 iv -> nth_error (h_states h) (iv_state iv) = Some w -> within (cop_matrix nan fp (ws_cop w)) a (cop_local sol 0 a).
Proof.
  intros F HN E1 E2 (jk & old & c & O) I1 Hw. rewrite E1, E2 in O. destruct O as [O1 O2].
  destruct (task_cop_bounds_walk (horizon_length mp) (h_steps h) sol jk old _ _ (form_indexed _ _ _ _ _ _ _ nan fp F)) as (c' & C1 & _ & C2). rewrite O1 in C1. injection C1 as <-.
  rewrite C2 in O2. exact (O2 0 _ a (state_bounds_at nan fp h 0 iv w I1 Hw) HN).
Qed.
Lemma steps_obeyed fuel mp ly ry inc f h nan fp s' sol i rest iv w a : form fuel mp ly ry inc f = Finished (Ok (Some h)) -> wg_par (wl_wpg s') = mp -> wg_horizon (wl_wpg s') = h ->
  obeys_steps nan fp s' sol -> h_steps h = i :: rest -> interval_at h i iv -> nth_error (h_states h) (iv_state iv) = Some w -> within (fd_matrix nan fp (ws_fd w)) a (step_local (horizon_length mp) sol 0 a).
Proof.
  intros F E1 E2 (jk & old & c & O) HS I1 Hw. rewrite E1, E2 in O. destruct O as [O1 O2]. destruct (form_filled _ _ _ _ _ _ _ F) as ((_ & _ & _ & Fo & _) & _).
  destruct (task_footsteps (horizon_length mp) (h_steps h) sol jk old _ _ (form_indexed _ _ _ _ _ _ _ nan fp F)) as (c' & C1 & _ & C2); [intros x X; rewrite Forall_forall in Fo; exact (Fo x X)|]. rewrite O1 in C1. injection C1 as <-.
  rewrite C2 in O2. refine (O2 0 i _ a _ (state_bounds_at nan fp h i iv w I1 Hw)). rewrite HS. reflexivity.
Qed.

Lemma support_pose_unique s c th c' th' : support_pose s c th -> support_pose s c' th' -> c = c' /\ th = th'.
Proof.
  unfold support_pose. destruct (support_foot _ _) as [[x|]|]; [| |contradiction].
  - intros (b & B1 & -> & ->) (b' & B1' & -> & ->). rewrite B1 in B1'. injection B1' as <-. auto.
  - intros (l & r & L & Rr & C1 & C2 & ->) (l' & r' & L' & Rr' & C1' & C2' & ->). rewrite L in L'. injection L' as <-. rewrite Rr in Rr'. injection Rr' as <-. split; [|reflexivity].
    destruct c, c'; cbn in *; congruence.
Qed.
Lemma cop_half nan pr s a q : within (cop_matrix nan (finalize pr) (match support_foot (ms_stance s) (ms_next s) with Some None => CopADS | _ => CopSS end)) a q -> (Rabs q <= half_size pr s a)%R.
Proof.
  unfold within, half_size. destruct (support_foot _ _) as [[x|]|]; destruct a; cbn; intros [L U]; apply Rabs_le; lra.
Qed.

Theorem cop : forall p s0, exists F, forall fuel junk nan inc pr sols, F <= fuel -> walking p s0 fuel junk nan inc pr sols -> forall n s s',
  consecutive fuel junk nan inc (finalize pr) sols s0 n s s' -> obeys_cop nan (finalize pr) s' (sols n) ->
  exists q, supported pr (md_state (wl_model s)) q /\
    (subsampling_ms (wg_par (wl_wpg s0)) = sampling_ms (wg_par (wl_wpg s0)) -> forall a, is_cop (height_of (wl_model s0)) (ms_com (md_state (wl_model s'))) a (q a)) /\
    forall q0 t, (forall a, is_cop (height_of (wl_model s0)) (ms_com (md_state (wl_model s))) a (q0 a)) -> t <= sampling_ms (wg_par (wl_wpg s0)) ->
      let l := (INR t / INR (sampling_ms (wg_par (wl_wpg s0))))%R in
      exists com, wg_com (wl_model s) t (wl_wpg s') = Ok com /\ forall a, is_cop (height_of (wl_model s0)) com a ((1 - l) * q0 a + l * q a)%R.
Proof.
  intros p s0. exists (stances_left (wl_fsm s0) + 1). intros fuel junk nan inc pr sols FU W n s s' C O. pose proof W as (Reg & Sta & Ans). pose proof Sta as (Ini & _ & _ & _ & HH).
  destruct (iteration p s0 fuel junk nan inc pr sols n s s' FU W C) as (I & I' & h & rs & M & pf & com & It & F & Sh & So & _ & Co & _ & G).
  pose proof Reg as (Wk & HP & N2 & TP & _).
  destruct (st_support p _ _ nan inc _ _ s Reg Ini I fuel h F) as (iv & w & c & J1 & J2 & J3 & J4 & J5 & J6 & J7).
  destruct (st_motion p _ _ nan inc _ _ s Reg Ini I fuel junk h rs (sols n) M pf F So) as (u & c' & th & U1 & U2 & U3).
  destruct (support_pose_unique _ _ _ _ _ J7 U1) as [<- <-]. exists (fun a => vget u (axis_index a)). split; [|split].
  - exists c, (ws_theta w). split; [exact J7|]. intros a.
    rewrite (frame_id (ws_theta w) (cop_local (sols n) 0 AxisX) (cop_local (sols n) 0 AxisY)) by (intros a0; rewrite U2; ring).
    assert (X : within (cop_matrix nan (finalize pr) (ws_cop w)) a (cop_local (sols n) 0 a)).
    { eapply cop_obeyed; [exact F|lia|exact (i_par _ _ _ _ _ _ _ I')|rewrite G; reflexivity|exact O|exact J1|exact J3]. }
    rewrite J4 in X. apply cop_half in X. destruct a; exact X.
  - intros Eq a. destruct It as (_ & _ & _ & _ & Cm & _). rewrite (i_par _ _ _ _ _ _ _ I), (i_height _ _ _ _ _ _ _ I), U3 in Cm. injection Cm as Cm.
    rewrite Co, <- Cm, Eq. apply cop_reached; [exact HH|]. assert (0 < INR (sampling_ms (wg_par (wl_wpg s0))))%R by (apply lt_0_INR; lia). lra.
  - intros q0 t Q0 Ht l. assert (TR : (0 < INR (sampling_ms (wg_par (wl_wpg s0))))%R) by (apply lt_0_INR; lia).
    exists (evaluate (INR t / 1000) (INR (sampling_ms (wg_par (wl_wpg s0))) / 1000) (height_of (wl_model s0)) (cstate_of (wl_model s)) u). split.
    + unfold wg_com. rewrite G. cbn [wg_parsed assert_then wg_horizon wg_height wg_profiles].
      assert (V : nth_error (intervals_of h (height_of (wl_model s0))) 0 = Some (mkWI (sampling_ms (wg_par (wl_wpg s0))) (height_of (wl_model s0)))).
      { unfold intervals_of. rewrite nth_error_map. unfold interval_at in J1. rewrite J1. cbn [option_map]. rewrite J2. reflexivity. }
      rewrite (next_state_is_com_state _ _ _ _ _ _ _ _ _ _ _ _ _ So V Ht). apply U3.
    + intros a. replace ((1 - l) * q0 a + l * vget u (axis_index a))%R with (q0 a + INR t / 1000 / (INR (sampling_ms (wg_par (wl_wpg s0))) / 1000) * (vget u (axis_index a) - q0 a))%R
        by (unfold l; field; lra).
      apply cop_interpolates; [exact HH|lra|]. specialize (Q0 a). unfold is_cop in Q0 |- *. destruct a; exact Q0.
Qed.
