(** * Property C99: the walking pattern generator in a loop. Vocabulary in WalkLoopSpec.v, WalkModelSpec.v, WalkProfilesSpec.v, WalkTasksSpec.v, PointMass6zSpec.v.
    Bounds on the fuel: any large enough number is fine, it limits recursion only. *)
From Coq Require Import String List Reals Arith Bool.
From Verif Require Import Base Matrix Mat2 Mat3 LeftRight FootParameters FootTrajectory PointMass6z PointMass6zSpec Solution Constraints ConstraintsSpec Condense MpcGuess
  PepperTasksSpec StanceFSM StanceSpec StanceFSMFacts WalkPreview WalkPreviewSpec WalkMpc WalkProfiles WalkProfilesSpec WalkTasks WalkTasksSpec WalkModel WalkModelSpec WalkLoop WalkLoopSpec WalkLoopFacts6 WalkLoopFacts7 WalkLoopFacts8 WalkLoopFacts9 WalkLoopFacts10 WalkLoopFacts11.
Import ListNotations.
Local Open Scope nat_scope.

(** The loop does not fail, and the number of its iterations is determined by the parameters of the walk *)
Theorem C99_iterations : forall p s0, exists F, forall fuel junk nan inc pr sols, F <= fuel -> walking p s0 fuel junk nan inc pr sols -> forall n,
  exists o, after fuel junk nan inc (finalize pr) sols s0 n = Finished (Ok o) /\
    (o <> None <-> n = 0 \/ (horizon_length (wg_par (wl_wpg s0)) + (n - 1)) * sampling_ms (wg_par (wl_wpg s0)) <= total_ms p).
Proof. exact iterations. Qed.
(** The machine has moved by the time of the iterations, the model is in its stance *)
Theorem C99_schedule : forall p s0, exists F, forall fuel junk nan inc pr sols, F <= fuel -> walking p s0 fuel junk nan inc pr sols -> forall n s,
  after fuel junk nan inc (finalize pr) sols s0 n = Finished (Ok (Some s)) ->
  (exists f, shiftTime f (wl_fsm s0) (n * sampling_ms (wg_par (wl_wpg s0))) = Finished (Ok (wl_fsm s))) /\
  ms_stance (md_state (wl_model s)) = st_type (cur (wl_fsm s)) /\ wg_par (wl_wpg s) = wg_par (wl_wpg s0) /\ defined (ms_feet (md_state (wl_model s))).
Proof. exact schedule. Qed.
(** The CoM moves above the CoP of the solution, which is given relative to the support *)
Theorem C99_motion : forall p s0, exists F, forall fuel junk nan inc pr sols, F <= fuel -> walking p s0 fuel junk nan inc pr sols -> forall n s s',
  consecutive fuel junk nan inc (finalize pr) sols s0 n s s' ->
  exists u c theta, support_pose (md_state (wl_model s)) c theta /\
    (forall a, vget u (axis_index a) = (coordinate c a + from_frame (rot2 theta) (cop_local (sols n) 0 AxisX) (cop_local (sols n) 0 AxisY) a)%R) /\
    ms_com (md_state (wl_model s')) =
      evaluate (seconds (subsampling_ms (wg_par (wl_wpg s0)))) (seconds (sampling_ms (wg_par (wl_wpg s0)))) (height_of (wl_model s0)) (convertCoMState_to_6d (ms_com (md_state (wl_model s)))) u /\
    height_of (wl_model s') = height_of (wl_model s0).
Proof. exact motion. Qed.
Theorem C99_sampled : forall p s0, exists F, forall fuel junk nan inc pr sols, F <= fuel -> walking p s0 fuel junk nan inc pr sols -> forall n s s',
  consecutive fuel junk nan inc (finalize pr) sols s0 n s s' -> subsampling_ms (wg_par (wl_wpg s0)) <= sampling_ms (wg_par (wl_wpg s0)) ->
  wg_com (wl_model s) (subsampling_ms (wg_par (wl_wpg s0))) (wl_wpg s') = Ok (ms_com (md_state (wl_model s'))).
Proof. exact sampled. Qed.
(** The CoP is in the support at the end of each iteration, and on the way to it before *)
Theorem C99_cop : forall p s0, exists F, forall fuel junk nan inc pr sols, F <= fuel -> walking p s0 fuel junk nan inc pr sols -> forall n s s',
  consecutive fuel junk nan inc (finalize pr) sols s0 n s s' -> obeys_cop nan (finalize pr) s' (sols n) ->
  exists q, supported pr (md_state (wl_model s)) q /\
    (subsampling_ms (wg_par (wl_wpg s0)) = sampling_ms (wg_par (wl_wpg s0)) -> forall a, is_cop (height_of (wl_model s0)) (ms_com (md_state (wl_model s'))) a (q a)) /\
    forall q0 t, (forall a, is_cop (height_of (wl_model s0)) (ms_com (md_state (wl_model s))) a (q0 a)) -> t <= sampling_ms (wg_par (wl_wpg s0)) ->
      let l := (INR t / INR (sampling_ms (wg_par (wl_wpg s0))))%R in
      exists com, wg_com (wl_model s) t (wl_wpg s') = Ok com /\ forall a, is_cop (height_of (wl_model s0)) com a ((1 - l) * q0 a + l * q a)%R.
Proof. exact cop. Qed.
(** Feet stand, or one of them lands within reach of the other *)
Theorem C99_feet : forall p s0, exists F, forall fuel junk nan inc pr sols, F <= fuel -> walking p s0 fuel junk nan inc pr sols -> forall n s s',
  consecutive fuel junk nan inc (finalize pr) sols s0 n s s' ->
  let x := md_state (wl_model s) in let x' := md_state (wl_model s') in
  (lands x x' = false -> forall side, foot_of (ms_feet x') side = foot_of (ms_feet x) side) /\
  (lands x x' = true -> exists b b', foot_of (ms_feet x) (stance_foot (ms_stance x)) = Some b /\ foot_of (ms_feet x') (stance_foot (ms_stance x)) = Some b /\
     foot_of (ms_feet x') (swing (ms_stance x)) = Some b' /\ vz (b_position b') = vz (b_position b) /\ b_velocity b' = V3 0 0 0 /\
     (ms_next x' = DS -> heading b' = heading b) /\ (ms_next x' <> DS -> ms_next x' = opp (ms_stance x) /\ heading b' = (heading b + inc)%R) /\
     (obeys_steps nan (finalize pr) s' (sols n) ->
       (ms_next x' = DS -> side_by_side pr (swing (ms_stance x)) b b') /\ (ms_next x' <> DS -> reachable pr (swing (ms_stance x)) b b'))).
Proof. exact feet. Qed.
(** The landing is announced by getFootLandingState *)
Theorem C99_landing : forall p s0, exists F, forall fuel junk nan inc pr sols, F <= fuel -> walking p s0 fuel junk nan inc pr sols -> forall n s s',
  consecutive fuel junk nan inc (finalize pr) sols s0 n s s' -> lands (md_state (wl_model s)) (md_state (wl_model s')) = true ->
  wg_landing (finalize pr) (wl_model s) (wl_wpg s') = Ok (foot_of (ms_feet (md_state (wl_model s'))) (swing (ms_stance (md_state (wl_model s))))).
Proof. exact landing_announced. Qed.
(** Each planned step is within its bounds in the frame of the stance before it *)
Theorem C99_plan : forall p s0, exists F, forall fuel junk nan inc pr sols, F <= fuel -> walking p s0 fuel junk nan inc pr sols -> forall n s s',
  consecutive fuel junk nan inc (finalize pr) sols s0 n s s' -> obeys_steps nan (finalize pr) s' (sols n) ->
  let h := wg_horizon (wl_wpg s') in
  forall j i iv, nth_error (h_steps h) j = Some i -> interval_at h i iv -> exists k before stance, k + 2 = iv_state iv /\
    nth_error (h_states h) k = Some before /\ nth_error (h_states h) (k + 2) = Some stance /\
    forall a, within (fd_matrix nan (finalize pr) (ws_fd stance)) a
      (in_frame (rot2 (ws_theta before)) (fun a => footprint nan s s' (S j) a - footprint nan s s' j a)%R a).
Proof. exact plan. Qed.
Theorem C99_steps : forall p s0, exists F, forall fuel junk nan inc pr sols, F <= fuel -> walking p s0 fuel junk nan inc pr sols -> forall n s,
  ended fuel junk nan inc (finalize pr) sols s0 n s ->
  landings fuel junk nan inc (finalize pr) sols s0 n = num_steps p + match first_stance p with DS => 0 | _ => 1 end.
Proof. exact steps. Qed.
(** The plan of an iteration is that of the one before it, shifted by an interval *)
Theorem C99_horizons : forall p s0, exists F, forall fuel junk nan inc pr sols, F <= fuel -> walking p s0 fuel junk nan inc pr sols -> forall n s s' s'',
  consecutive fuel junk nan inc (finalize pr) sols s0 n s s' -> consecutive fuel junk nan inc (finalize pr) sols s0 (S n) s' s'' ->
  let steps := h_steps (wg_horizon (wl_wpg s')) in let steps' := h_steps (wg_horizon (wl_wpg s'')) in
  ~ In 0 steps /\
  (forall i, S i < horizon_length (wg_par (wl_wpg s0)) -> (In (S i) steps <-> i = 0 /\ ms_stance (md_state (wl_model s')) = TDS \/ In i steps')) /\
  length steps <= S (length steps') /\ length steps' <= S (length steps).
Proof. exact horizons_agree. Qed.
Theorem C99_end : forall p s0, first_stance p <> DS \/ 0 < num_steps p -> exists F, forall fuel junk nan inc pr sols, F <= fuel -> walking p s0 fuel junk nan inc pr sols -> forall n s,
  ended fuel junk nan inc (finalize pr) sols s0 n s ->
  exists b0 l r, foot_of (ms_feet (md_state (wl_model s0))) (first_foot p) = Some b0 /\ foot_of (ms_feet (md_state (wl_model s))) LEFT = Some l /\ foot_of (ms_feet (md_state (wl_model s))) RIGHT = Some r /\
    heading l = (heading b0 + INR (turns p) * inc)%R /\ heading r = (heading b0 + INR (turns p) * inc)%R /\
    (obeyed (obeys_steps nan (finalize pr)) fuel junk nan inc (finalize pr) sols s0 n -> side_by_side pr LEFT r l).
Proof. exact finish. Qed.
(** There is always an answer which satisfies the bounds *)
Theorem C99_realizable : forall p s0, exists F, forall fuel junk nan inc pr, F <= fuel -> regular (wg_par (wl_wpg s0)) p -> started p s0 -> sensible pr ->
  exists sols, walking p s0 fuel junk nan inc pr sols /\ forall n s s', consecutive fuel junk nan inc (finalize pr) sols s0 n s s' ->
    obeys_cop nan (finalize pr) s' (sols n) /\ obeys_steps nan (finalize pr) s' (sols n).
Proof. exact realizable. Qed.
(** The order of calls *)
Theorem C99_guarded : forall (fuel : nat) (junk : nat -> nat -> nat -> R) (nan : R) (fp : feet_params) (W : nat -> undetermined) (p : mpc_params) (calls : list wg_call) (h : list (wg_call * wg_answer)) (g : wpg),
  wg_run fuel junk nan fp W 0 calls (wg_new p) = (h, g) ->
  forall h1 c x h2, h = h1 ++ (c, x) :: h2 -> x <> Failed -> (needs_parsed c -> given_since h1) /\ ((exists sol s m, c = CallNextOf sol s m) -> ~ parsed_since h1).
Proof. exact guarded. Qed.
Theorem C99_same_answer : forall (fuel : nat) (junk : nat -> nat -> nat -> R) (nan inc : R) (fp : feet_params) (m : wpg_model) (s : fsm) (g g1 g2 : wpg) (sol : solution),
  wg_update fuel junk nan inc m s g = Finished (Ok (true, g1)) -> wg_parse (junk 13) sol g1 = Ok g2 ->
  (forall s' m' x, wg_next fp s' m' g2 = Ok x <-> wg_next_of (junk 13) fp sol s' m' g1 = Ok (x, g2)) /\
  (forall sol' s' m', wg_next_of (junk 13) fp sol' s' m' g2 = Throw) /\
  (forall s' m', wg_next fp s' m' g1 = Throw) /\ (forall m', wg_landing fp m' g1 = Throw) /\ (forall m' t, wg_com m' t g1 = Throw).
Proof. exact same_answer. Qed.

(** the walk with default parameters of the library meets the hypotheses, has 74 iterations and 7 steps *)
Example C99_case : exists F, forall fuel junk nan inc, F <= fuel -> exists sols s,
  walking default_params (ex_loop default_mpc 0) fuel junk nan inc (prim default_feet) sols /\
  (forall n x x', consecutive fuel junk nan inc default_feet sols (ex_loop default_mpc 0) n x x' -> obeys_cop nan default_feet x' (sols n) /\ obeys_steps nan default_feet x' (sols n)) /\
  ended fuel junk nan inc default_feet sols (ex_loop default_mpc 0) 74 s /\ landings fuel junk nan inc default_feet sols (ex_loop default_mpc 0) 74 = 7.
Proof. exact walk_case. Qed.

(** With a subsampling interval shorter than the sampling interval the CoM stays behind the schedule *)
Theorem C99_subsampling_refuted : exists F, forall fuel junk nan inc, F <= fuel -> exists sols s' com,
  mpc_finalize fine_mpc <> Throw /\ walking default_params (ex_loop fine_mpc 100) fuel junk nan inc (prim default_feet) sols /\
  consecutive fuel junk nan inc default_feet sols (ex_loop fine_mpc 100) 0 (ex_loop fine_mpc 100) s' /\
  (exists f, shiftTime f (wl_fsm (ex_loop fine_mpc 100)) 100 = Finished (Ok (wl_fsm s'))) /\
  wg_com (wl_model (ex_loop fine_mpc 100)) 100 (wl_wpg s') = Ok com /\ ms_com (md_state (wl_model s')) <> com.
Proof. exact subsampling_refuted. Qed.
(** After an update which returned STOPPED the solution of the preceding problem is accepted, in every walk *)
Theorem C99_stopped_refuted : forall p s0, exists F, forall fuel junk nan inc pr sols, F <= fuel -> walking p s0 fuel junk nan inc pr sols -> forall n s,
  ended fuel junk nan inc (finalize pr) sols s0 (S n) s -> exists g g' com, wg_update fuel junk nan inc (wl_model s) (wl_fsm s) (wl_wpg s) = Finished (Ok (false, g)) /\
    wg_parse (junk 13) (sols n) g = Ok g' /\ wg_com (wl_model s) 0 g' = Ok com.
Proof. exact stopped. Qed.

Print Assumptions C99_iterations. Print Assumptions C99_schedule. Print Assumptions C99_motion. Print Assumptions C99_sampled. Print Assumptions C99_cop. Print Assumptions C99_feet. Print Assumptions C99_landing. Print Assumptions C99_plan. Print Assumptions C99_steps. Print Assumptions C99_horizons. Print Assumptions C99_end. Print Assumptions C99_realizable. Print Assumptions C99_guarded. Print Assumptions C99_same_answer. Print Assumptions C99_subsampling_refuted. Print Assumptions C99_stopped_refuted.
