(** * The walking pattern generator as an object, and the control loop around it
    (/repo/modules/wpg04/include/wpg04/mpc_wpg.h, model.h, preview_horizon.h; the loop is that of /repo/modules/wpg04/tests/test_000.cpp)

    [nan] stands for undefined numbers, [fuel] bounds the number of iterations of the loops over stances. *)
From Coq Require Import String List Reals Arith Bool.
From Verif Require Import Base Matrix Mat2 Mat3 LeftRight FootParameters FootTrajectory PointMass6z Solution MpcGuess StanceFSM WalkPreview WalkMpc WalkModel
  WalkProfiles WalkTasks.
Import ListNotations.
Local Open Scope R_scope.

(** one statement after another, e.g. mpc_wpg.h:300-392 *)
Definition rbind {A B} (r : run A) (f : A -> run B) : run B :=
  match r with Finished (Ok a) => f a | Finished Throw => Finished Throw | Finished UB => Finished UB | NoFuel => NoFuel end.

(** model.h:119-122 getFootState, model.h:129-133 getCState, model.h:142-145 getCoMHeight, model.h:77 current_support_position_ *)
Definition yaw_of (nan : R) (b : option body_state) : R := match b with Some b => vz (b_rpy b) | None => nan end.
(** model.h:129-133 *)
Definition cstate_of (m : wpg_model) : vec := convertCoMState_to_6d (ms_com (md_state m)).
(** model.h:142-145 *)
Definition height_of (m : wpg_model) : R := vz (pm_position (ms_com (md_state m))).
(** model.h:77 *)
Definition support_of (nan : R) (m : wpg_model) : vec :=
  mkVec 2 (fun i => match md_support m with Some p => match i with O => ux p | _ => uy p end | None => nan end).

(** preview_horizon.h:96-106, 389-391: duration and height of the intervals; all of them are initialised by a successful form (C55) *)
Definition intervals_of (h : horizon) (height : R) : list walk_interval :=
  map (fun o => mkWI (match o with Some iv => iv_T_ms iv | None => 0%nat end) height) (h_intervals h).
(** preview_horizon.h:317: rotation_ of the k-th walk state, which exists when it is used *)
Definition rotation_of (ws : list walk_state) (k : nat) : m2 := match nth_error ws k with Some w => rot2 (ws_theta w) | None => M2 0 0 0 0 end.
(** mpc_wpg.h:34, 38-46: blocks of R_; those which are not written are zero *)
Definition step_rotations (h : horizon) (rs : list nat) : list m2 :=
  map (fun j => match nth_error rs j with Some k => rotation_of (h_states h) k | None => M2 0 0 0 0 end) (seq 0 (length (h_steps h))).
(** mpc_wpg.h:35, 49-52: blocks of Rh_ *)
Definition interval_rotations (h : horizon) : list m2 :=
  map (fun o => match o with Some iv => rotation_of (h_states h) (iv_state iv) | None => M2 0 0 0 0 end) (h_intervals h).

(** preview_horizon.h:471-541: the bounds of the walk states as numbers; they stay undefined in transitional double supports *)
Definition kind_of (k : fd_kind) : bounds_type :=
  match k with WithRespectToADS => WITH_RESPECT_TO_ADS | WithRespectToSS => WITH_RESPECT_TO_SS | AlignedToSS => ALIGNED_TO_SS end.
(** the bounds of the position of a foot, preview_horizon.h:471-541 *)
Definition fd_matrix (nan : R) (fp : feet_params) (b : foot_bounds) : m2 :=
  match b with
  | FdZero => M2 0 0 0 0
  | FdBounds l k => match getFootBounds fp (if l then LEFT else RIGHT) (kind_of k) with Ok m => m | _ => M2 nan nan nan nan end
  | FdUnset => M2 nan nan nan nan
  end.
(** the bounds of the CoP, preview_horizon.h:471-541 *)
Definition cop_matrix (nan : R) (fp : feet_params) (b : cop_bounds) : m2 :=
  match b with CopADS => getADSCoPBounds fp | CopSS => getSSCoPBounds fp | CopUnset => M2 nan nan nan nan end.
(** the walk states of a horizon, preview_horizon.h:471-541 *)
Definition bounds_of (nan : R) (fp : feet_params) (h : horizon) : list walk_bounds :=
  map (fun w => mkWB (st_type (ws_stance w)) (fd_matrix nan fp (ws_fd w)) (cop_matrix nan fp (ws_cop w))) (h_states h).
(** walk_state_index of the intervals, preview_horizon.h:96-106 *)
Definition indices_of (h : horizon) : list nat := map (fun o => match o with Some iv => iv_state iv | None => 0%nat end) (h_intervals h).

(** mpc_wpg.h:24-25, 228-256: solution_is_parsed_, mpc_parameters_, preview_horizon_ (with the height of its intervals), matrices, profiles *)
Record wpg := mkWpg { wg_par : mpc_params; wg_parsed : bool; wg_horizon : horizon; wg_height : R; wg_matrices : walk_matrices; wg_profiles : walk_profiles }.
(** a new Eigen::MatrixXd, mpc_wpg.h:233-254 *)
Definition mat00 : mat := mzero 0 0.
(** a new Eigen::VectorXd, mpc_wpg.h:233-254 *)
Definition vec0 : vec := mkVec 0 (fun _ => 0).
(** mpc_wpg.h:261-279: the constructors; Eigen objects are empty *)
Definition wg_new (p : mpc_params) : wpg :=
  mkWpg p false (mkHorizon [] [] []) 0 (mkWM (BlockMatrix.mkBm mat00 2 2) mat00 (mzero 0 1) mat00 (mzero 0 1) mat00 (mzero 0 1) mat00 (mzero 0 1)) (mkWP vec0 vec0 vec0 vec0).
(** mpc_wpg.h:285-288 *)
Definition wg_setParameters (p : mpc_params) (g : wpg) : wpg := mkWpg p (wg_parsed g) (wg_horizon g) (wg_height g) (wg_matrices g) (wg_profiles g).

(** mpc_wpg.h:300-392; [inc] is the theta_increment_ of the walk parameters.  When the walk is over, walk_states_ is empty and the rest of
    the horizon is that of the preceding call (preview_horizon.h:368-374) *)
Definition wg_update (fuel : nat) (junk : nat -> nat -> nat -> R) (nan inc : R) (m : wpg_model) (s : fsm) (g : wpg) : run (bool * wpg) :=
  rbind (form fuel (wg_par g) (yaw_of nan (lf (ms_feet (md_state m)))) (yaw_of nan (rf (ms_feet (md_state m)))) inc s) (fun o =>
    match o with
    | None => Finished (Ok (false, mkWpg (wg_par g) false (mkHorizon [] (h_intervals (wg_horizon g)) (h_steps (wg_horizon g))) (wg_height g) (wg_matrices g) (wg_profiles g)))
    | Some h => Finished (bind (form_rotations h) (fun rs =>
        bind (walk_update junk (horizon_length (wg_par g)) (intervals_of h (height_of m)) (interval_rotations h) (h_steps h) (step_rotations h rs) (support_of nan m) (cstate_of m)) (fun M =>
        Ok (true, mkWpg (wg_par g) false h (height_of m) M (wg_profiles g)))))
    end).

(** mpc_wpg.h:400-419 *)
Definition wg_parse (junk : nat -> nat -> R) (sol : solution) (g : wpg) : outcome wpg :=
  bind (walk_parse junk (wg_matrices g) sol) (fun p => Ok (mkWpg (wg_par g) true (wg_horizon g) (wg_height g) (wg_matrices g) p)).
(** footpos_profile.segment(0, 2); used only if there is a variable step, the profile has two elements then *)
Definition first_footprint (g : wpg) : v2 := V2 (vget (wp_footpos (wg_profiles g)) 0) (vget (wp_footpos (wg_profiles g)) 1).
(** mpc_wpg.h:95-170; common.h:199-202 getSubsamplingTime *)
Definition wg_initialize (fp : feet_params) (s : fsm) (m : wpg_model) (g : wpg) : outcome wpg_state :=
  bind (next_com_state (intervals_of (wg_horizon g) (wg_height g)) (wg_profiles g) (cstate_of m) (INR (subsampling_ms (wg_par g)) / 1000)) (fun com =>
    initializeNextModelState fp (wg_horizon g) (first_footprint g) com s m).
(** mpc_wpg.h:431-439 *)
Definition wg_next_of (junk : nat -> nat -> R) (fp : feet_params) (sol : solution) (s : fsm) (m : wpg_model) (g : wpg) : outcome (wpg_state * wpg) :=
  assert_then (negb (wg_parsed g)) (bind (wg_parse junk sol g) (fun g' => bind (wg_initialize fp s m g') (fun x => Ok (x, g')))).
(** mpc_wpg.h:450-456 *)
Definition wg_next (fp : feet_params) (s : fsm) (m : wpg_model) (g : wpg) : outcome wpg_state := assert_then (wg_parsed g) (wg_initialize fp s m g).
(** mpc_wpg.h:467-492 *)
Definition wg_landing (fp : feet_params) (m : wpg_model) (g : wpg) : outcome (option body_state) :=
  assert_then (wg_parsed g)
    match ms_stance (md_state m) with
    | LSS => getFootLandingState fp (wg_horizon g) (first_footprint g) m RIGHT
    | RSS => getFootLandingState fp (wg_horizon g) (first_footprint g) m LEFT
    | _ => Throw
    end.
(** mpc_wpg.h:555-605 *)
Definition wg_com (m : wpg_model) (t : nat) (g : wpg) : outcome point_mass_state :=
  assert_then (wg_parsed g) (getCoMState (intervals_of (wg_horizon g) (wg_height g)) (wg_profiles g) (cstate_of m) t).

(** ** the loop (the variables of modules/wpg04/tests/test_000.cpp:60-178) *)
Record wloop := mkWloop { wl_model : wpg_model; wl_fsm : fsm; wl_wpg : wpg }.
(** test_000.cpp:113-173: one iteration; [sol] is what the solver returned, [None] is the break *)
Definition cycle (fuel : nat) (junk : nat -> nat -> nat -> R) (nan inc : R) (fp : feet_params) (sol : solution) (s : wloop) : run (option wloop) :=
  rbind (wg_update fuel junk nan inc (wl_model s) (wl_fsm s) (wl_wpg s)) (fun u =>
    if fst u
    then rbind (shiftTime fuel (wl_fsm s) (sampling_ms (wg_par (wl_wpg s)))) (fun f =>
         Finished (bind (wg_next_of (junk 13%nat) fp sol f (wl_model s) (snd u)) (fun n =>
           let m := updateState (wl_model s) (fst n) in bind (snd m) (fun _ => Ok (Some (mkWloop (fst m) f (snd n)))))))
    else Finished (Ok None)).
(** [n] iterations; [sols k] is the answer of the solver in the iteration [k]; [None]: the loop has been left before (modules/wpg04/tests/test_000.cpp:110-175) *)
Fixpoint after (fuel : nat) (junk : nat -> nat -> nat -> R) (nan inc : R) (fp : feet_params) (sols : nat -> solution) (s : wloop) (n : nat) : run (option wloop) :=
  match n with
  | O => Finished (Ok (Some s))
  | S k => rbind (after fuel junk nan inc fp sols s k) (fun o => match o with None => Finished (Ok None) | Some x => cycle fuel junk nan inc fp (sols k) x end)
  end.

(** ** calls of the object in any order (mpc_wpg.h:261-605) *)
Inductive wg_call :=
| CallSet (p : mpc_params)
| CallUpdate (inc : R) (m : wpg_model) (s : fsm)
| CallParse (sol : solution)
| CallNextOf (sol : solution) (s : fsm) (m : wpg_model)
| CallNext (s : fsm) (m : wpg_model)
| CallLanding (m : wpg_model)
| CallCoM (m : wpg_model) (t : nat).
(** what a call returns, mpc_wpg.h:261-605 *)
Inductive wg_answer := Done | Status (ok : bool) | Next (x : wpg_state) | Foot (b : option body_state) | CoM (c : point_mass_state) | Failed.
(** the members after an exception: [un_horizon], [un_height] and [un_matrices] after one in update, [un_profiles] after one in parseSolution;
    a call which does not return is not distinguished from one that throws (mpc_wpg.h:300-419) *)
Record undetermined := mkUndetermined { un_horizon : horizon; un_height : R; un_matrices : walk_matrices; un_profiles : walk_profiles }.
(** an exception of update(), mpc_wpg.h:300-392 *)
Definition failed_update (w : undetermined) (g : wpg) : wpg := mkWpg (wg_par g) false (un_horizon w) (un_height w) (un_matrices w) (wg_profiles g).
(** an exception of parseSolution(), mpc_wpg.h:400-419 *)
Definition failed_parse (w : undetermined) (g : wpg) : wpg := mkWpg (wg_par g) (wg_parsed g) (wg_horizon g) (wg_height g) (wg_matrices g) (un_profiles w).
(** an exception is caught by the caller, humoto_helpers.h:70-87 *)
Definition reply {A} (o : outcome A) (f : A -> wg_answer * wpg) (g : wpg) : wg_answer * wpg := match o with Ok x => f x | _ => (Failed, g) end.
(** the call and its effect, mpc_wpg.h:261-605 *)
Definition wg_do (fuel : nat) (junk : nat -> nat -> nat -> R) (nan : R) (fp : feet_params) (w : undetermined) (c : wg_call) (g : wpg) : wg_answer * wpg :=
  match c with
  | CallSet p => (Done, wg_setParameters p g)
  | CallUpdate inc m s => match wg_update fuel junk nan inc m s g with Finished (Ok u) => (Status (fst u), snd u) | _ => (Failed, failed_update w g) end
  | CallParse sol => reply (wg_parse (junk 13%nat) sol g) (fun g' => (Done, g')) (failed_parse w g)
  | CallNextOf sol s m =>
      reply (wg_next_of (junk 13%nat) fp sol s m g) (fun n => (Next (fst n), snd n))
        (if wg_parsed g then g else match wg_parse (junk 13%nat) sol g with Ok g' => g' | _ => failed_parse w g end)
  | CallNext s m => reply (wg_next fp s m g) (fun x => (Next x, g)) g
  | CallLanding m => reply (wg_landing fp m g) (fun b => (Foot b, g)) g
  | CallCoM m t => reply (wg_com m t g) (fun x => (CoM x, g)) g
  end.
(** the object after a sequence of calls, and the answers, in the order of calls; [W k] are the undetermined values in the k-th call (mpc_wpg.h:261-605) *)
Fixpoint wg_run (fuel : nat) (junk : nat -> nat -> nat -> R) (nan : R) (fp : feet_params) (W : nat -> undetermined) (k : nat) (cs : list wg_call) (g : wpg)
  : list (wg_call * wg_answer) * wpg :=
  match cs with
  | [] => ([], g)
  | c :: rest =>
      let (a, g') := wg_do fuel junk nan fp (W k) c g in
      let (l, g'') := wg_run fuel junk nan fp W (S k) rest g' in ((c, a) :: l, g'')
  end.
