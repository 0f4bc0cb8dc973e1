(** * Specification vocabulary for C101 *)
From Coq Require Import String List Reals Arith Bool ZArith.
From Verif Require Import Base RSum Matrix Mat2 Mat3 ActiveSet ConstraintType HierarchyLevel Constraints ConstraintsSpec QP QPSpec Problem LeftRight FootParameters FootTrajectory PointMass6z PointMass6zSpec Solution MpcGuess
  PepperTasksSpec StanceFSM StanceSpec WalkPreview WalkPreviewSpec WalkMpc WalkProfiles WalkProfilesSpec WalkTasks WalkTasksSpec WalkModel WalkModelSpec
  QpoasesBridge QpoasesBridgeSpec Backends BackendsSpec Solver SolverLife SolverLifeSpec WalkLoop WalkLoopSpec WalkProgram.
Import ListNotations.
Local Open Scope R_scope.

(** bounds on the CoP and on the steps are below the infinity of the library of the solver *)
Definition moderate (pr : primary) : Prop :=
  foot_length pr / 2 <= g_infinity /\ (foot_width pr + feet_dist_default pr) / 2 <= g_infinity /\ max_step_len pr <= g_infinity /\
  Rabs (min_feet_dist pr) <= g_infinity /\ Rabs (max_feet_dist pr) <= g_infinity.
(** the program before its loop: a regular walk (C99), parameters of the feet which admit steps, a new hierarchy, solution and solver *)
Definition launched (p : params) (s0 : wloop) (pr : primary) (se : settings) (par : qparams) (centering : R) (details : option (backend_code * Z)) (w : world) (s : program) : Prop :=
  regular (wg_par (wl_wpg s0)) p /\ started p s0 /\ (Z.of_nat (6 * horizon_length (wg_par (wl_wpg s0))) < 2 ^ 53)%Z /\
  sensible pr /\ moderate pr /\ se_feet se = finalize pr /\ pr_two_levels par = true /\ tidy w /\ pg_start par centering details w s0 = Ok s.

(** the call [k] of the library in the iteration [n] of the program *)
Definition asked (fuel : nat) (junk : nat -> nat -> nat -> R) (nan : R) (se : settings) (es : nat -> environment) (s0 : program) (n : nat) (k : libcall) : Prop :=
  exists s g f p r t, pg_after fuel junk nan se es s0 n = Finished (Ok (Some s)) /\ pg_prepare fuel junk nan se (es n) s = Finished (Ok (Some (g, f, p, r))) /\
    (sv_solve (pg_call se (es n) f p r) (pg_solver s) (pg_world s) = Returned t \/ sv_solve (pg_call se (es n) f p r) (pg_solver s) (pg_world s) = Thrown t) /\
    wd_calls (cs_world t) = k :: wd_calls (pg_world s).
(** what may be known of the answers of the library: it finds the minimum of a problem which has one; if it reports a success, then it has
    found the minimum; if it reports a success, then it has found a point which satisfies the constraints *)
Definition right_answer (a : qpoases_args) (an : answer) : Prop :=
  (exists x, minimum (qpoases_cost a) (qpoases_feasible a) x) -> an_code an = CODE_SUCCESS /\ exists x, an_primal an = Some x /\ minimum (qpoases_cost a) (qpoases_feasible a) x.
Definition sound_answer (a : qpoases_args) (an : answer) : Prop :=
  an_code an = CODE_SUCCESS -> exists x, an_primal an = Some x /\ minimum (qpoases_cost a) (qpoases_feasible a) x.
Definition honest_answer (a : qpoases_args) (an : answer) : Prop :=
  an_code an = CODE_SUCCESS -> exists x, an_primal an = Some x /\ qpoases_feasible a x.
Definition library_is (P : qpoases_args -> answer -> Prop) (fuel : nat) (junk : nat -> nat -> nat -> R) (nan : R) (se : settings) (es : nat -> environment) (s0 : program) : Prop :=
  forall n k, asked fuel junk nan se es s0 n k -> P (lc_problem k) (en_library (es n) k).

(** the working sets given back by the library are made of -1, 0 and 1; this matters only if they are used *)
Definition sensible_answer (a : qpoases_args) (an : answer) : Prop := working (qa_nC a) (an_wsc an) /\ working (qa_nV a) (an_wsb an).
Definition understood (fuel : nat) (junk : nat -> nat -> nat -> R) (nan : R) (se : settings) (es : nat -> environment) (s0 : program) : Prop :=
  hs_report (se_start se) = true -> library_is sensible_answer fuel junk nan se es s0.

(** the same settings with another choice of what is used of the previous iteration *)
Definition with_start (se : settings) (hs : hotstart) : settings :=
  mkSettings (se_feet se) (se_inc se) (se_velocities se) (se_fixed se) (se_comvel se) (se_copvel se) hs.

(** the program passes from [s] to [s'] in the iteration [n]; it leaves the loop by the break in the state [s] *)
Definition steps_to (fuel : nat) (junk : nat -> nat -> nat -> R) (nan : R) (se : settings) (es : nat -> environment) (s0 : program) (n : nat) (s s' : program) : Prop :=
  pg_after fuel junk nan se es s0 n = Finished (Ok (Some s)) /\ pg_after fuel junk nan se es s0 (S n) = Finished (Ok (Some s')).
Definition stops (fuel : nat) (junk : nat -> nat -> nat -> R) (nan : R) (se : settings) (es : nat -> environment) (s0 : program) (n : nat) (s : program) : Prop :=
  pg_after fuel junk nan se es s0 n = Finished (Ok (Some s)) /\ pg_after fuel junk nan se es s0 (S n) = Finished (Ok None).
(** the solution of the last iteration *)
Definition last_solution (s : program) : solution :=
  solution_of (structure_wpg (horizon_length (wg_par (wl_wpg (pg_loop s)))) (length (h_steps (wg_horizon (wl_wpg (pg_loop s)))))) (pg_solution s).

(** ** what the solution is optimal for *)
(** the solution [sol] satisfies the bounds of the horizon [h] *)
Definition admissible (nan : R) (se : settings) (N : nat) (h : horizon) (sol : solution) : Prop :=
  (forall k w a, (k < N)%nat -> state_bounds (indices_of h) (bounds_of nan (se_feet se) h) k = Some w -> within (wb_cop w) a (cop_local sol k a)) /\
  (forall j k w a, nth_error (h_steps h) j = Some k -> state_bounds (indices_of h) (bounds_of nan (se_feet se) h) k = Some w ->
     if se_fixed se then step_local N sol j a = fixed_step w a else within (wb_fd w) a (step_local N sol j a)).
(** the motion [pf] which is predicted for the solution [sol] of the problem of the iteration from [s] to [s'] *)
Definition predicted (junk : nat -> nat -> nat -> R) (nan : R) (s s' : wloop) (sol : solution) (pf : walk_profiles) : Prop :=
  let h := wg_horizon (wl_wpg s') in exists rs, form_rotations h = Ok rs /\
  walk_solved junk (horizon_length (wg_par (wl_wpg s'))) (intervals_of h (height_of (wl_model s))) (interval_rotations h) (h_steps h) (step_rotations h rs)
    (support_of nan (wl_model s)) (cstate_of (wl_model s)) sol (wg_matrices (wl_wpg s')) pf.
(** the reference velocity of the CoM in the interval [k] of the horizon [h], in the world frame: one of the three given velocities, in the direction of
    the heading of the walk state which it belongs to (C102 says which one) *)
Definition reference_velocity (V : walk_velocities) (h : horizon) (k : nat) (a : axis) : R :=
  match nth_error (h_intervals h) k with
  | Some (Some iv) =>
      match nth_error (h_states h) (iv_velocity iv) with
      | Some w =>
          let v := match ws_vel w with VelFirst => wv_first V | VelWalk => wv_walk V | VelLast => wv_last V end in
          match a with
          | AxisX => cos (ws_theta w) * ux v - sin (ws_theta w) * uy v
          | AxisY => sin (ws_theta w) * ux v + cos (ws_theta w) * uy v
          end
      | None => 0
      end
  | _ => 0
  end.
(** the weighted sum of squares: deviations of the velocity of the CoM from its reference, velocities of the CoP, displacements of the CoP from
    the centre of the support *)
Definition walk_cost (se : settings) (centering : R) (s s' : wloop) (sol : solution) (pf : walk_profiles) : R :=
  let h := wg_horizon (wl_wpg s') in
  Rsum (horizon_length (wg_par (wl_wpg s'))) (fun k =>
    match nth_error (intervals_of h (height_of (wl_model s))) k with
    | Some v =>
        let e a := se_comvel se * (com_velocity (cstate_of (wl_model s)) pf k v a - reference_velocity (se_velocities se) h k a) in
        let d a := se_copvel se * vget (wp_dcop pf) (2 * k + axis_index a) in
        let c a := centering * cop_local sol k a in
        (Rsqr (e AxisX) + Rsqr (e AxisY)) + (Rsqr (d AxisX) + Rsqr (d AxisY)) + (Rsqr (c AxisX) + Rsqr (c AxisY))
    | None => 0
    end).
