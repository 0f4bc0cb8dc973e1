(** * The walking loop: announced landings and planned steps *)
From Coq Require Import String List Reals Arith Bool Lra Lia Sorting.Sorted.
From Verif Require Import Base BaseFacts Matrix Mat2 Mat3 LeftRight FootParameters FootTrajectory PointMass6z PointMass6zSpec PointMass6zFacts Solution Constraints ConstraintsSpec Condense MpcGuess
  PepperTasksSpec StanceFSM StanceSpec StanceFSMFacts StanceFSMFacts2 StanceTimeFacts WalkPreview WalkPreviewSpec WalkPreviewFacts WalkPreviewFacts2 WalkHeadingFacts WalkPreviewFacts3
  WalkMpc WalkMpcFacts WalkProfiles WalkProfilesSpec WalkProfilesFacts WalkProfilesFacts2 WalkTasks WalkTasksSpec WalkTasksFacts2 WalkModel WalkModelSpec WalkModelFacts WalkLoop WalkLoopSpec WalkLoopFacts WalkLoopFacts2 WalkLoopFacts3 WalkLoopFacts4 WalkLoopFacts5 WalkLoopFacts6 WalkLoopFacts7.
Import ListNotations.
Local Open Scope nat_scope.

(** ** all rotations are there *)
Lemma no_steps p mp f0 nan inc H theta l fuel h : regular mp p -> init p = Ok f0 -> inv mp f0 nan inc H theta l ->
  form fuel mp (yaw nan (wl_model l) LEFT) (yaw nan (wl_model l) RIGHT) inc (wl_fsm l) = Finished (Ok (Some h)) -> terminal (wl_fsm l) -> h_steps h = [] /\ length (h_states h) = 1.
Proof.
  intros Reg Ini I F Tm. destruct Reg as (Wk & HP & N2 & TP & DP & Gs & Gt & FP & Gf & Gl).
  pose proof (i_time _ _ _ _ _ _ _ I) as CT. assert (NT : (0 < horizon_length mp * sampling_ms mp)%nat) by nia.
  assert (L : length (h_states h) = 1%nat).
  { pose proof (form_inv _ _ _ _ _ _ _ F) as (q & b & P & HS & NE & _). pose proof (preview_states_stances _ _ _ _ HS) as ES.
    destruct (Nat.le_gt_cases (horizon_length mp * sampling_ms mp) (duration (cur (wl_fsm l)) - cur_time (wl_fsm l))) as [L|L].
    - pose proof (preview_now fuel (wl_fsm l) _ _ NT ltac:(lia) L ltac:(destruct Tm as [X _]; rewrite X; discriminate) P) as K. rewrite <- (map_length ws_stance), ES, K. reflexivity.
    - exfalso. apply NE. eapply preview_terminal; [exact Tm| |exact L|exact P]; lia. }
  split; [|exact L].
  destruct (h_steps h) as [|i r] eqn:E; [reflexivity|exfalso]. destruct (form_filled _ _ _ _ _ _ _ F) as ((L0 & Fi & _ & Fo & Ch) & _).
  rewrite Forall_forall in Fo. rewrite E in Fo, Ch. assert (Hi : (i < horizon_length mp)%nat) by (apply Fo; left; reflexivity).
  assert (P0 : (0 < i)%nat).
  { destruct (regular_first fuel mp _ _ _ (wl_fsm l) h F N2 TP CT) as (v0 & w0 & _ & _ & _ & _ & _ & _ & X).
    - intros T. destruct Tm as [Tm _]. congruence.
    - left. exact Tm.
    - apply X. rewrite E. left. reflexivity. }
  destruct i as [|i]; [lia|]. destruct (Fi i ltac:(lia)) as (a & A1 & ta & (wa & W1 & _) & _). destruct (Fi (S i) Hi) as (b & B1 & tb & (wb & W2 & _) & _).
  destruct (Ch i a b A1 B1) as (_ & Q). assert (X1 : (iv_state a < 1)%nat) by (rewrite <- L; apply nth_error_Some; congruence). assert (X2 : (iv_state b < 1)%nat) by (rewrite <- L; apply nth_error_Some; congruence).
  apply (proj1 Q); [left; reflexivity|lia].
Qed.
Lemma all_rotations p mp f0 nan inc H theta l fuel h rs : regular mp p -> init p = Ok f0 -> inv mp f0 nan inc H theta l -> (0 < H)%R ->
  form fuel mp (yaw nan (wl_model l) LEFT) (yaw nan (wl_model l) RIGHT) inc (wl_fsm l) = Finished (Ok (Some h)) -> form_rotations h = Ok rs -> length rs = length (h_steps h).
Proof.
  intros Reg Ini I HH F Ro. pose proof Reg as (Wk & HP & N2 & TP & DP & Gs & Gt & FP & Gf & Gl).
  destruct (regular_rotations p f0 (wl_fsm l) fuel mp _ _ _ h Ini Wk (i_reach _ _ _ _ _ _ _ I) HP Gs Gt TP ltac:(lia) (i_time _ _ _ _ _ _ _ I) (i_grid _ _ _ _ _ _ _ I) F) as (rs' & R1 & R2).
  rewrite Ro in R1. injection R1 as <-. destruct (terminal_dec (wl_fsm l)) as [Tm|Tm]; [|apply R2; exact Tm].
  destruct (no_steps _ _ _ _ _ _ _ _ _ _ Reg Ini I F Tm) as [Z L].
  rewrite Z. unfold form_rotations, rotation_states in Ro. rewrite L, Z in Ro. injection Ro as <-. reflexivity.
Qed.

(** ** the announced landing *)
Theorem landing_announced : forall p s0, exists F, forall fuel junk nan inc pr sols, F <= fuel -> walking p s0 fuel junk nan inc pr sols -> forall n s s',
  consecutive fuel junk nan inc (finalize pr) sols s0 n s s' -> lands (md_state (wl_model s)) (md_state (wl_model s')) = true ->
  wg_landing (finalize pr) (wl_model s) (wl_wpg s') = Ok (foot_of (ms_feet (md_state (wl_model s'))) (swing (ms_stance (md_state (wl_model s))))).
Proof.
  intros p s0. exists (stances_left (wl_fsm s0) + 1). intros fuel junk nan inc pr sols FU W n s s' C L.
  destruct (iteration p s0 fuel junk nan inc pr sols n s s' FU W C) as (I & I' & h & rs & M & pf & com & Ma).
  destruct Ma as (It & _ & _ & _ & _ & _ & Fe & G). destruct Fe as [[X _]|[_ La]]; [congruence|].
  destruct It as (_ & _ & _ & _ & _ & _ & (x & Ix & Ux) & _).
  pose proof (i_stance _ _ _ _ _ _ _ I) as St. pose proof (i_stance _ _ _ _ _ _ _ I') as St'.
  unfold lands in L. apply andb_prop in L. destruct L as [L1 L2].
  assert (T : st_type (cur (wl_fsm s')) = TDS) by (rewrite <- St'; destruct (ms_stance (md_state (wl_model s'))); try discriminate L2; reflexivity).
  unfold initializeNextModelState in Ix. apply bind_ok in Ix. destruct Ix as (nx & _ & Ix). cbv zeta in Ix. rewrite T in Ix.
  assert (E : is_tds_started (wl_fsm s') = true).
  { destruct La as (_ & _ & Sh & _). unfold shiftStance in Sh. rewrite <- St in Sh. destruct (ms_stance (md_state (wl_model s))); try discriminate L1; injection Sh as X; rewrite <- X; reflexivity. }
  rewrite E in Ix. destruct (update_feet _ _ _ _ Ux) as (_ & _ & _ & F1).
  unfold wg_landing. rewrite G. cbn [wg_parsed wg_horizon assert_then]. unfold first_footprint. cbn [wg_profiles].
  destruct (ms_stance (md_state (wl_model s))) eqn:ST; try discriminate L1; cbn [lr_invert bind] in Ix; apply bind_ok in Ix; destruct Ix as (b & Gb & Ix); rewrite Gb; injection Ix as Ix; subst x; f_equal; cbn [swing];
    (rewrite F1 by discriminate); rewrite ?ST; cbn [ms_stance ms_feet]; rewrite ?T; reflexivity.
Qed.

(** ** the planned steps *)
Theorem plan : forall p s0, exists F, forall fuel junk nan inc pr sols, F <= fuel -> walking p s0 fuel junk nan inc pr sols -> forall n s s',
  consecutive fuel junk nan inc (finalize pr) sols s0 n s s' -> obeys_steps nan (finalize pr) s' (sols n) ->
  let h := wg_horizon (wl_wpg s') in
  forall j i iv, nth_error (h_steps h) j = Some i -> interval_at h i iv -> exists k before stance, k + 2 = iv_state iv /\
    nth_error (h_states h) k = Some before /\ nth_error (h_states h) (k + 2) = Some stance /\
    forall a, within (fd_matrix nan (finalize pr) (ws_fd stance)) a
      (in_frame (rot2 (ws_theta before)) (fun a => footprint nan s s' (S j) a - footprint nan s s' j a)%R a).
Proof.
  intros p s0. exists (stances_left (wl_fsm s0) + 1). intros fuel junk nan inc pr sols FU W n s s' C O h0 j i iv Hj Hi.
  destruct (iteration p s0 fuel junk nan inc pr sols n s s' FU W C) as (I & I' & h & rs & M & pf & com & Ma). pose proof W as (Reg & Sta & _). pose proof Sta as (Ini & _ & _ & _ & HH).
  destruct Ma as (It & F & _ & So & _ & _ & _ & G). destruct It as (_ & Ro & _).
  assert (Eh : h0 = h) by (unfold h0; rewrite G; reflexivity). rewrite Eh in Hj, Hi |- *. clear Eh h0.
  assert (Lr : length rs = length (h_steps h)) by exact (all_rotations _ _ _ _ _ _ _ _ _ _ _ Reg Ini I HH F Ro).
  assert (NTm : ~ terminal (wl_fsm s)).
  { intros Tm. destruct (no_steps _ _ _ _ _ _ _ _ _ _ Reg Ini I F Tm) as [Z _]. rewrite Z in Hj. destruct j; discriminate Hj. }
  destruct (st_problem p _ _ nan inc _ _ s Reg Ini HH I fuel junk h F) as (rs' & Ro' & Rt & _). rewrite Ro in Ro'. injection Ro' as <-. destruct (Rt NTm) as [_ Rk].
  assert (Jl : j < length (h_steps h)) by (apply nth_error_Some; congruence).
  destruct (nth_error rs j) as [k|] eqn:Ek; [|apply nth_error_None in Ek; lia].
  pose proof (Rk j k i iv Ek Hj Hi) as K2. exists k.
  destruct (form_filled _ _ _ _ _ _ _ F) as ((L0 & Fi & _ & Fo & Ch) & _).
  assert (In i (h_steps h)) as Iin by (eapply nth_error_In; exact Hj). rewrite Forall_forall in Fo. pose proof (Fo i Iin) as Hin.
  destruct (Fi i Hin) as (iv' & A1 & ta & (stance & W2 & _) & _). assert (iv' = iv) by (unfold interval_at in *; congruence). subst iv'.
  destruct (nth_error (h_states h) k) as [before|] eqn:W0.
  2:{ apply nth_error_None in W0. assert (iv_state iv < length (h_states h)) by (apply nth_error_Some; congruence). lia. }
  exists before, stance. split; [exact K2|]. split; [reflexivity|]. split; [rewrite K2; exact W2|]. intros a.
  assert (Ob : within (fd_matrix nan (finalize pr) (ws_fd stance)) a (step_local (horizon_length (wg_par (wl_wpg s0))) (sols n) j a)).
  { destruct O as (jk & old & c & O). cbv zeta in O. rewrite G in O. cbn [wg_horizon wg_par] in O. destruct O as [O1 O2].
    destruct (task_footsteps (horizon_length (wg_par (wl_wpg s0))) (h_steps h) (sols n) jk old _ _ (form_indexed _ _ _ _ _ _ _ nan (finalize pr) F)) as (c' & C1 & _ & C2); [intros x X; exact (Fo x X)|].
    rewrite O1 in C1. injection C1 as <-. rewrite C2 in O2. exact (O2 j i _ a Hj (state_bounds_at nan (finalize pr) h i iv stance Hi W2)). }
  set (N := horizon_length (wg_par (wl_wpg s0))) in *.
  assert (Fs : forall q a, q <= j -> footprint nan s s' (S q) a = support_after N (step_rotations h rs) (support_of nan (wl_model s)) (sols n) (S q) a).
  { intros q a0 Hq. unfold footprint. rewrite G. cbn [wg_profiles]. rewrite (walk_footpos _ _ _ _ _ _ _ _ _ _ _ q a0 So ltac:(lia)). rewrite Nat.add_1_r. reflexivity. }
  assert (Rj : nth j (step_rotations h rs) m2id = rot2 (ws_theta before)).
  { unfold step_rotations. erewrite nth_error_nth; [reflexivity|]. rewrite nth_error_map, (nth_error_nth' _ 0) by (rewrite seq_length; exact Jl). rewrite seq_nth by exact Jl. cbn [option_map Nat.add]. rewrite Ek. unfold rotation_of. rewrite W0. reflexivity. }
  replace (in_frame _ _ a) with (step_local N (sols n) j a); [exact Ob|]. symmetry.
  rewrite (frame_id (ws_theta before) (step_local N (sols n) j AxisX) (step_local N (sols n) j AxisY)); [destruct a; reflexivity|].
  intros a0. rewrite (Fs j a0 (le_n j)). cbn [support_after]. rewrite Rj.
  assert (E : footprint nan s s' j a0 = support_after N (step_rotations h rs) (support_of nan (wl_model s)) (sols n) j a0).
  { destruct j as [|q]; [reflexivity|]. apply Fs. lia. }
  rewrite E. ring.
Qed.
