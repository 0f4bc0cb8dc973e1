(** * Properties C54 (MPC parameters), C55 (filled horizon), C65 (forming succeeds), C66 (headings and bounds), C67 (rotations) *)
From Coq Require Import List Arith Bool Reals Sorted Lia.
From Verif Require Import Base StanceFSM StanceSpec StanceFSMFacts StanceTimeFacts WalkPreview WalkPreviewSpec WalkPreviewFacts WalkPreviewFacts2
  WalkHeadingFacts WalkPreviewFacts3 WalkMpc WalkMpcFacts.
Import ListNotations.
Local Open Scope nat_scope.

(** ** C54 *)
Theorem C54_accepted_iff : forall p d,
  mpc_finalize p = Ok d <->
  subsampling_ms p > 0 /\ sampling_ms p = subsamples_num d * subsampling_ms p /\ tds_sampling_ms p = tds_subsamples_num d * subsampling_ms p.
Proof. exact mpc_finalize_ok. Qed.
Theorem C54_zero_subsampling : forall p,
  mpc_finalize p = UB <-> subsampling_ms p = 0.
Proof. exact mpc_finalize_ub. Qed.
Example C54_default : mpc_finalize default_mpc = Ok (mkDerived 1 1). Proof. reflexivity. Qed.
Example C54_fine : mpc_finalize (mkMpc 16 100 5 50) = Ok (mkDerived 20 10). Proof. reflexivity. Qed.
Example C54_rejected : mpc_finalize (mkMpc 16 100 30 90) = Throw. Proof. reflexivity. Qed.

(** ** C55: every formed horizon, whatever the state of the stance machine *)
Theorem C55_formed_horizon : forall f m ly ry inc s h,
  form f m ly ry inc s = Finished (Ok (Some h)) ->
  filled (horizon_length m) h /\ timed m h.
Proof. exact form_filled. Qed.
(** the default walk, 450 ms after its beginning (in the first single support) *)
Lemma example_state : exists s0 s, init default_params = Ok s0 /\ shiftTime 5 s0 450 = Finished (Ok s) /\
  st_type (cur s) = RSS /\ cur_time s = 50 /\ duration (cur s) = 700 /\
  forall ly ry inc, exists h, form 20 default_mpc ly ry inc s = Finished (Ok (Some h)) /\ h_steps h = [7; 15] /\ length (h_states h) = 5.
Proof.
  eexists. eexists. split; [reflexivity|]. split; [vm_compute; reflexivity|]. do 3 (split; [reflexivity|]).
  intros. eexists. split; [vm_compute; reflexivity|]. split; reflexivity.
Qed.
Example C55_example : exists s0 s h, init default_params = Ok s0 /\ reach s0 s /\
  form 20 default_mpc 0 0 0 s = Finished (Ok (Some h)) /\ h_steps h = [7; 15] /\ filled 16 h /\ timed default_mpc h /\
  (exists iv, interval_at h 0 iv /\ iv_T_ms iv = 50) /\ (exists iv, interval_at h 7 iv /\ iv_T_ms iv = 100 /\ iv_state iv = 2).
Proof.
  destruct example_state as (s0 & s & H0 & H1 & _ & _ & _ & F). destruct (F 0%R 0%R 0%R) as (h & Hf & Hs & _). exists s0, s, h.
  split; [exact H0|]. split; [eapply reach_time; [exact H1|apply reach_refl]|]. split; [exact Hf|]. split; [exact Hs|].
  destruct (C55_formed_horizon _ _ _ _ _ _ _ Hf) as (A & B). split; [exact A|]. split; [exact B|].
  vm_compute in H0. inversion H0; subst s0. vm_compute in H1. inversion H1; subst s. vm_compute in Hf. inversion Hf; subst h.
  split; eexists; (split; [reflexivity|]); cbn; auto.
Qed.

(** ** C65 *)
Theorem C65_formed_or_false : forall p s0 s m ly ry inc f r,
  init p = Ok s0 -> walkable p -> reach s0 s -> pos_durations p -> on_grid m p ->
  cur_time s < duration (cur s) -> (st_type (cur s) = DS -> subtype (cur s) <> INTERMEDIATE) ->
  form f m ly ry inc s = Finished r ->
  (terminal s /\ duration (cur s) - cur_time s < horizon_length m * sampling_ms m -> r = Ok None) /\
  (~ (terminal s /\ duration (cur s) - cur_time s < horizon_length m * sampling_ms m) -> exists h, r = Ok (Some h)).
Proof. exact form_defined. Qed.
Theorem C65_terminates : forall p s0 s m ly ry inc,
  init p = Ok s0 -> walkable p -> reach s0 s -> horizon_length m * sampling_ms m > 0 ->
  exists f r, form f m ly ry inc s = Finished r.
Proof. exact form_terminates. Qed.
Theorem C65_off_grid_refuted : forall ly ry inc : R, exists s : fsm,
  init off_grid_params = Ok s /\ form 20 (mkMpc 9 100 100 100) ly ry inc s = Finished Throw.
Proof. exact form_off_grid. Qed.
Theorem C65_end_of_walk_refuted : exists s0 s, init short_walk = Ok s0 /\ shiftTime 9 s0 1500 = Finished (Ok s) /\
  forall ly ry inc, form 20 default_mpc ly ry inc s = Finished Throw.
Proof. exact form_end_of_walk. Qed.
Theorem C65_end_of_walk_always : forall m s ly ry inc f r l g,
  wf s -> pos_durations (fparams s) -> cur_time s < duration (cur s) ->
  horizon_length m * sampling_ms m > 0 ->
  previewStances g s (horizon_length m * sampling_ms m) = Finished (Ok l) -> psum l (length l) < horizon_length m * sampling_ms m ->
  ~ terminal s -> form f m ly ry inc s = Finished r -> r = Throw.
Proof. exact form_walk_too_short. Qed.
Theorem C65_after_end_always : forall m s ly ry inc f r,
  terminal s -> subtype (cur s) = INTERMEDIATE -> cur_time s <= duration (cur s) ->
  0 < horizon_length m * sampling_ms m <= duration (cur s) - cur_time s ->
  form f m ly ry inc s = Finished r -> r = Throw.
Proof. exact form_after_end. Qed.
Lemma default_walkable : walkable default_params. Proof. intros _. right. discriminate. Qed.
Lemma default_positive : pos_durations default_params. Proof. vm_compute. lia. Qed.
Lemma default_on_grid : on_grid default_mpc default_params.
Proof. vm_compute. repeat split; try lia. exists 7. reflexivity. Qed.
(** the default parameters meet the hypotheses of [C65_formed_or_false] and of [C65_terminates] *)
Example C65_example : exists s0 s f h, init default_params = Ok s0 /\ walkable default_params /\ reach s0 s /\ pos_durations default_params /\
  on_grid default_mpc default_params /\ cur_time s < duration (cur s) /\ form f default_mpc 0 0 0 s = Finished (Ok (Some h)).
Proof.
  destruct example_state as (s0 & s & H0 & H1 & H2 & H3 & H4 & F). destruct (F 0%R 0%R 0%R) as (h & Hf & _). exists s0, s, 20, h.
  split; [exact H0|]. split; [exact default_walkable|]. split; [eapply reach_time; [exact H1|apply reach_refl]|].
  split; [exact default_positive|]. split; [exact default_on_grid|]. split; [rewrite H3, H4; lia|exact Hf].
Qed.
(** the other outcome: the final stance, when less than the horizon is left *)
Example C65_example_false : exists s0 s f, init default_params = Ok s0 /\ reach s0 s /\ terminal s /\
  form f default_mpc 0 0 0 s = Finished (Ok None).
Proof.
  destruct (init default_params) as [s0| |] eqn:E0; [|discriminate|discriminate].
  assert (exists s, shiftTime 30 s0 7600 = Finished (Ok s) /\ terminal s /\ form 20 default_mpc 0 0 0 s = Finished (Ok None)) as (s & S1 & S2 & S3).
  { vm_compute in E0. inversion E0; subst s0. eexists. split; [vm_compute; reflexivity|]. split; [split; reflexivity|]. vm_compute. reflexivity. }
  exists s0, s, 20. split; [reflexivity|]. split; [eapply reach_time; [exact S1|apply reach_refl]|]. auto.
Qed.

(** ** C66 *)
Theorem C66_headings : forall f m ly ry inc s h,
  form f m ly ry inc s = Finished (Ok (Some h)) ->
  forall k ta tha tht tb thb,
  heading_at (h_states h) k ta tha -> heading_at (h_states h) (S k) TDS tht -> heading_at (h_states h) (S (S k)) tb thb ->
  (is_ss ta = true -> is_ss tb = true -> tb = opp ta /\ thb = (tha + inc)%R /\ tht = thb) /\
  (is_ss ta = true -> tb = DS -> thb = tha /\ tht = tha) /\
  (k = 0 -> ta = DS -> is_ss tb = true -> thb = foot_yaw ly ry tb /\ tht = tha).
Proof. exact form_headings. Qed.
Theorem C66_first_heading : forall p s0 s f m ly ry inc h,
  init p = Ok s0 -> walkable p -> reach s0 s ->
  form f m ly ry inc s = Finished (Ok (Some h)) ->
  (is_ss (st_type (cur s)) = true -> heading_at (h_states h) 0 (st_type (cur s)) (foot_yaw ly ry (st_type (cur s)))) /\
  (st_type (cur s) = DS -> heading_at (h_states h) 0 DS ((ly + ry) / 2)%R) /\
  (st_type (cur s) = TDS -> exists tht tb thb,
     heading_at (h_states h) 0 TDS tht /\ heading_at (h_states h) 1 tb thb /\
     (is_ss tb = true -> is_ss (prev_nontds (cur s)) = true -> tb = opp (prev_nontds (cur s)) /\ thb = (foot_yaw ly ry (prev_nontds (cur s)) + inc)%R /\ tht = thb) /\
     (is_ss tb = true -> prev_nontds (cur s) = DS -> thb = foot_yaw ly ry tb /\ tht = ((ly + ry) / 2)%R) /\
     (tb = DS -> is_ss (prev_nontds (cur s)) = true -> thb = foot_yaw ly ry (prev_nontds (cur s)) /\ tht = thb)).
Proof. exact form_first_heading_reached. Qed.
Theorem C66_bounds : forall f m ly ry inc s h,
  form f m ly ry inc s = Finished (Ok (Some h)) ->
  forall k a t b, nth_error (h_states h) k = Some a -> nth_error (h_states h) (S k) = Some t -> nth_error (h_states h) (S (S k)) = Some b ->
  st_type (ws_stance t) = TDS ->
  ws_fd b = (match st_type (ws_stance b) with
             | DS => match st_type (ws_stance a) with LSS => FdBounds false AlignedToSS | _ => FdBounds true AlignedToSS end
             | LSS => FdBounds true (match st_type (ws_stance a) with DS => WithRespectToADS | _ => WithRespectToSS end)
             | _ => FdBounds false (match st_type (ws_stance a) with DS => WithRespectToADS | _ => WithRespectToSS end)
             end) /\
  ws_cop b = (match st_type (ws_stance b) with DS => CopADS | _ => CopSS end).
Proof. exact form_bounds. Qed.
Example C66_example : exists s0 s h, init default_params = Ok s0 /\ reach s0 s /\
  form 20 default_mpc 1 2 (1/10) s = Finished (Ok (Some h)) /\
  heading_at (h_states h) 0 RSS 2 /\ heading_at (h_states h) 1 TDS (2 + 1/10) /\ heading_at (h_states h) 2 LSS (2 + 1/10) /\
  heading_at (h_states h) 4 RSS (2 + 1/10 + 1/10).
Proof.
  destruct (init default_params) as [s0| |] eqn:E0; [|discriminate|discriminate].
  destruct (shiftTime 5 s0 450) as [[s| |]|] eqn:E1; try (vm_compute in E0; inversion E0; subst s0; discriminate).
  exists s0, s. vm_compute in E0. inversion E0; subst s0. vm_compute in E1. inversion E1; subst s.
  eexists. split; [reflexivity|]. split; [eapply (reach_time _ 450 5); [vm_compute; reflexivity|apply reach_refl]|].
  split; [vm_compute; reflexivity|]. split; [|split; [|split]]; (eexists; split; [reflexivity|]; split; reflexivity).
Qed.

(** ** C67 *)
Theorem C67_rotations_partial : forall p s0 s m ly ry inc f h,
  init p = Ok s0 -> walkable p -> reach s0 s -> pos_durations p ->
  (exists k, ss_duration p = k * sampling_ms m) -> tds_duration p = sampling_ms m ->
  cur_time s < duration (cur s) -> (exists k, duration (cur s) - cur_time s = k * sampling_ms m) ->
  form f m ly ry inc s = Finished (Ok (Some h)) ->
  exists rs, form_rotations h = Ok rs /\ length rs = length (h_steps h) /\
    forall j k i iv, nth_error rs j = Some k -> nth_error (h_steps h) j = Some i -> interval_at h i iv ->
      k + 2 = iv_state iv /\ state_type h (S k) TDS.
Proof. exact form_rotations_grid. Qed.
Theorem C67_out_of_range_refuted : exists s0 s, init short_tds_params = Ok s0 /\ shiftTime 5 s0 300 = Finished (Ok s) /\ cur_time s < duration (cur s) /\
  forall ly ry inc, exists h, form 20 default_mpc ly ry inc s = Finished (Ok (Some h)) /\ form_rotations h = Throw.
Proof. exact rotations_out_of_range. Qed.
Example C67_example : exists s0 s h, init default_params = Ok s0 /\ walkable default_params /\ reach s0 s /\ pos_durations default_params /\
  (exists k, ss_duration default_params = k * sampling_ms default_mpc) /\ tds_duration default_params = sampling_ms default_mpc /\
  cur_time s < duration (cur s) /\ (exists k, duration (cur s) - cur_time s = k * sampling_ms default_mpc) /\
  form 20 default_mpc 0 0 0 s = Finished (Ok (Some h)) /\ form_rotations h = Ok [0; 2].
Proof.
  destruct (init default_params) as [s0| |] eqn:E0; [|discriminate|discriminate].
  destruct (shiftTime 5 s0 500) as [[s| |]|] eqn:E1; try (vm_compute in E0; inversion E0; subst s0; discriminate).
  exists s0, s. vm_compute in E0. inversion E0; subst s0. clear E0. vm_compute in E1. inversion E1; subst s. clear E1.
  eexists. split; [reflexivity|]. split; [exact default_walkable|].
  split; [eapply (reach_time _ 500 5); [vm_compute; reflexivity|apply reach_refl]|]. split; [exact default_positive|].
  split; [exists 7; reflexivity|]. split; [reflexivity|]. split; [cbn; lia|]. split; [exists 6; reflexivity|].
  split; [vm_compute; reflexivity|]. vm_compute. reflexivity.
Qed.

Print Assumptions C54_accepted_iff. Print Assumptions C54_zero_subsampling. Print Assumptions C55_formed_horizon. Print Assumptions C65_formed_or_false. Print Assumptions C65_terminates. Print Assumptions C65_off_grid_refuted. Print Assumptions C65_end_of_walk_refuted. Print Assumptions C65_end_of_walk_always. Print Assumptions C65_after_end_always. Print Assumptions C66_headings. Print Assumptions C66_first_heading. Print Assumptions C66_bounds. Print Assumptions C67_rotations_partial. Print Assumptions C67_out_of_range_refuted.
