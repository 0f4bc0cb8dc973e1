(** * Specification vocabulary for C99 *)
From Coq Require Import String List Reals Arith Bool.
From Verif Require Import Base Matrix Mat2 Mat3 LeftRight FootParameters FootTrajectory PointMass6z PointMass6zSpec Solution Constraints ConstraintsSpec MpcGuess
  PepperTasksSpec StanceFSM StanceSpec WalkPreview WalkPreviewSpec WalkMpc WalkProfiles WalkProfilesSpec WalkTasks WalkTasksSpec WalkModel WalkModelSpec WalkLoop.
Import ListNotations.
Local Open Scope R_scope.

(** a walk on the sampling grid: the first stance and the single supports consist of whole sampling intervals, a transitional double support
    is one of them, the final stance lasts at least the whole horizon, which has two intervals or more *)
Definition regular (mp : mpc_params) (p : params) : Prop :=
  (walkable p /\ pos_durations p /\ 2 <= horizon_length mp /\ 0 < sampling_ms mp /\ 0 < tds_sampling_ms mp /\
   (exists k, ss_duration p = k * sampling_ms mp) /\ tds_duration p = sampling_ms mp /\
   0 < first_duration p /\ (exists k, first_duration p = k * sampling_ms mp) /\ horizon_length mp * sampling_ms mp <= last_duration p)%nat.
(** the situation in which a loop is started: the machine of the walk [p] has just been initialised, the model is in the first stance with
    both feet and the position of the support known, the CoM is above the ground *)
Definition started (p : params) (s : wloop) : Prop :=
  init p = Ok (wl_fsm s) /\ ms_stance (md_state (wl_model s)) = first_stance p /\ defined (ms_feet (md_state (wl_model s))) /\
  (exists c, md_support (wl_model s) = Some c /\ support_position (md_state (wl_model s)) c) /\ 0 < height_of (wl_model s).

(** the solution has the structure that the generator gives to it (MpcGuess.v: structure_wpg) *)
Definition fits_walk (g : wpg) (sol : solution) : Prop :=
  sol_structure sol = structure_wpg (horizon_length (wg_par g)) (length (h_steps (wg_horizon g))) /\
  length (sol_x sol) = (2 * horizon_length (wg_par g) + 2 * length (h_steps (wg_horizon g)))%nat.
(** the answers of the solver fit the problems of their iterations *)
Definition answered (fuel : nat) (junk : nat -> nat -> nat -> R) (nan inc : R) (fp : feet_params) (sols : nat -> solution) (s0 : wloop) : Prop :=
  forall k s g, after fuel junk nan inc fp sols s0 k = Finished (Ok (Some s)) ->
    wg_update fuel junk nan inc (wl_model s) (wl_fsm s) (wl_wpg s) = Finished (Ok (true, g)) -> fits_walk g (sols k).

(** a walk: the parameters fit together, the loop is started in its initial state, and the solver answers *)
Definition walking (p : params) (s0 : wloop) (fuel : nat) (junk : nat -> nat -> nat -> R) (nan inc : R) (pr : primary) (sols : nat -> solution) : Prop :=
  regular (wg_par (wl_wpg s0)) p /\ started p s0 /\ answered fuel junk nan inc (finalize pr) sols s0.

(** the whole duration of the walk *)
Definition total_ms (p : params) : nat :=
  (first_duration p + match first_stance p, num_steps p with
                      | DS, O => 0
                      | _, n => (n + 1) * tds_duration p + n * ss_duration p + last_duration p
                      end)%nat.

(** a state of the loop, and the one after the next iteration *)
Definition consecutive (fuel : nat) (junk : nat -> nat -> nat -> R) (nan inc : R) (fp : feet_params) (sols : nat -> solution) (s0 : wloop) (n : nat) (s s' : wloop) : Prop :=
  after fuel junk nan inc fp sols s0 n = Finished (Ok (Some s)) /\ after fuel junk nan inc fp sols s0 (S n) = Finished (Ok (Some s')).
(** the loop is left by the break after [n] iterations, in the state [s] *)
Definition ended (fuel : nat) (junk : nat -> nat -> nat -> R) (nan inc : R) (fp : feet_params) (sols : nat -> solution) (s0 : wloop) (n : nat) (s : wloop) : Prop :=
  after fuel junk nan inc fp sols s0 n = Finished (Ok (Some s)) /\ after fuel junk nan inc fp sols s0 (S n) = Finished (Ok None).

Definition seconds (ms : nat) : R := INR ms / 1000.
Definition heading (b : body_state) : R := vz (b_rpy b).
Definition coordinate (p : v2) (a : axis) : R := match a with AxisX => ux p | AxisY => uy p end.

(** where the support is, and its heading: a foot, or the middle of the feet and their mean heading; in a transitional double support it is
    the support of the next stance *)
Definition support_pose (s : wpg_state) (c : v2) (theta : R) : Prop :=
  match support_foot (ms_stance s) (ms_next s) with
  | Some (Some x) => exists b, foot_of (ms_feet s) x = Some b /\ c = xy b /\ theta = heading b
  | Some None => exists l r, foot_of (ms_feet s) LEFT = Some l /\ foot_of (ms_feet s) RIGHT = Some r /\
                 ux c = (vx (b_position l) + vx (b_position r)) / 2 /\ uy c = (vy (b_position l) + vy (b_position r)) / 2 /\
                 theta = (heading l + heading r) / 2
  | None => False
  end.
(** half of the length and half of the width of the support *)
Definition half_size (pr : primary) (s : wpg_state) (a : axis) : R :=
  match a, support_foot (ms_stance s) (ms_next s) with
  | AxisX, _ => foot_length pr / 2
  | AxisY, Some None => (foot_width pr + feet_dist_default pr) / 2
  | AxisY, _ => foot_width pr / 2
  end.
(** a point is in the support: it is in the rectangle which is centred and oriented as the support is *)
Definition supported (pr : primary) (s : wpg_state) (q : axis -> R) : Prop := exists c theta, support_pose s c theta /\
  forall a, Rabs (in_frame (rot2 theta) (fun a => q a - coordinate c a) a) <= half_size pr s a.

(** [s'] is the state of the loop after an iteration in which the solver returned [sol]: the solution satisfies the constraints of a task
    which is formed in this iteration *)
Definition obeys_cop (nan : R) (fp : feet_params) (s' : wloop) (sol : solution) : Prop := exists jk old c,
  let h := wg_horizon (wl_wpg s') in
  form_copBounds jk old (structure_wpg (horizon_length (wg_par (wl_wpg s'))) (length (h_steps h))) (indices_of h) (bounds_of nan fp h) = Ok c /\ satisfies c (point sol).
Definition obeys_steps (nan : R) (fp : feet_params) (s' : wloop) (sol : solution) : Prop := exists jk old c,
  let h := wg_horizon (wl_wpg s') in
  form_footstepBounds jk old false (structure_wpg (horizon_length (wg_par (wl_wpg s'))) (length (h_steps h))) (h_steps h) (indices_of h) (bounds_of nan fp h) = Ok c /\
  satisfies c (point sol).

(** ** the feet *)
(** a foot lands in the iteration from [s] to [s'] *)
Definition lands (s s' : wpg_state) : bool := is_ss (ms_stance s) && is_tds (ms_stance s').
(** the position of the foot [b'] relative to the foot [b] in the frame of the latter *)
Definition offset (b b' : body_state) (a : axis) : R := in_frame (rot2 (heading b)) (fun a => coordinate (xy b') a - coordinate (xy b) a) a.
(** left of the other foot is positive *)
Definition side (x : lr) : R := match x with LEFT => 1 | _ => -1 end.
(** the foot [b'] on the side [x] is at an admissible distance from the support foot [b] *)
Definition reachable (pr : primary) (x : lr) (b b' : body_state) : Prop :=
  Rabs (offset b b' AxisX) <= max_step_len pr /\ min_feet_dist pr <= side x * offset b b' AxisY <= max_feet_dist pr.
(** the feet stand side by side *)
Definition side_by_side (pr : primary) (x : lr) (b b' : body_state) : Prop :=
  offset b b' AxisX = 0 /\ side x * offset b b' AxisY = feet_dist_default pr /\ heading b' = heading b.

(** the footprints planned in the iteration from [s] to [s']: the support now, then those of the profile of the controller *)
Definition footprint (nan : R) (s s' : wloop) (j : nat) (a : axis) : R :=
  match j with
  | O => vget (support_of nan (wl_model s)) (axis_index a)
  | S k => vget (wp_footpos (wg_profiles (wl_wpg s'))) (2 * k + axis_index a)
  end.

(** the number of landings in the first [n] iterations *)
Definition state_at (fuel : nat) (junk : nat -> nat -> nat -> R) (nan inc : R) (fp : feet_params) (sols : nat -> solution) (s0 : wloop) (n : nat) : wpg_state :=
  match after fuel junk nan inc fp sols s0 n with Finished (Ok (Some s)) => md_state (wl_model s) | _ => md_state (wl_model s0) end.
Definition landings (fuel : nat) (junk : nat -> nat -> nat -> R) (nan inc : R) (fp : feet_params) (sols : nat -> solution) (s0 : wloop) (n : nat) : nat :=
  length (filter (fun k => lands (state_at fuel junk nan inc fp sols s0 k) (state_at fuel junk nan inc fp sols s0 (S k))) (seq 0 n)).
(** the solver obeys a task in the iterations before the [n]-th one *)
Definition obeyed (O : wloop -> solution -> Prop) (fuel : nat) (junk : nat -> nat -> nat -> R) (nan inc : R) (fp : feet_params) (sols : nat -> solution) (s0 : wloop) (n : nat) : Prop :=
  forall k s', (k < n)%nat -> after fuel junk nan inc fp sols s0 (S k) = Finished (Ok (Some s')) -> O s' (sols k).

(** the foot on which the robot stands first, and the heading at the end of the walk: the first single support has the heading of the foot,
    each of the following ones is turned by the increment *)
Definition first_foot (p : params) : lr := match first_stance p with DS => stance_foot (first_ss_type p) | t => stance_foot t end.
Definition turns (p : params) : nat := match first_stance p with DS => (num_steps p - 1)%nat | _ => num_steps p end.

(** parameters of the feet which admit steps *)
Definition sensible (pr : primary) : Prop :=
  0 <= foot_length pr /\ 0 <= foot_width pr /\ 0 <= feet_dist_default pr /\ 0 <= max_step_len pr /\ min_feet_dist pr <= max_feet_dist pr.

(** ** sequences of calls *)
Definition is_update (c : wg_call) : Prop := match c with CallUpdate _ _ _ => True | _ => False end.
(** the answers of these calls are computed from a parsed solution *)
Definition needs_parsed (c : wg_call) : Prop := match c with CallNext _ _ | CallLanding _ | CallCoM _ _ => True | _ => False end.
(** in the history [h] (in the order of calls) a solution has been parsed by a call that returned, and there was no update since then *)
Definition parses (c : wg_call) : Prop := match c with CallParse _ | CallNextOf _ _ _ => True | _ => False end.
(** a solution has been given to the controller since the last update: to parseSolution, which returned, or to getNextModelState *)
Definition given_since (h : list (wg_call * wg_answer)) : Prop :=
  exists h1 c x h2, h = h1 ++ (c, x) :: h2 /\ (match c with CallParse _ => x <> Failed | CallNextOf _ _ _ => True | _ => False end) /\
    forall c' x', In (c', x') h2 -> ~ is_update c'.
Definition parsed_since (h : list (wg_call * wg_answer)) : Prop :=
  exists h1 c x h2, h = h1 ++ (c, x) :: h2 /\ parses c /\ x <> Failed /\ forall c' x', In (c', x') h2 -> ~ is_update c'.
