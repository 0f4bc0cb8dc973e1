(** * Specification vocabulary for the walking preview horizon (C54, C55, C65, C66) *)
From Coq Require Import List Arith Bool Reals Sorted.
From Verif Require Import Base StanceFSM StanceSpec WalkPreview.
Import ListNotations.

(** interval [i] of the horizon has been initialised with [iv] *)
Definition interval_at (h : horizon) (i : nat) (iv : interval) : Prop := nth_error (h_intervals h) i = Some (Some iv).
(** type of the stance of walk state number [k] of the horizon *)
Definition state_type (h : horizon) (k : nat) (t : stance_type) : Prop :=
  exists w, nth_error (h_states h) k = Some w /\ st_type (ws_stance w) = t.

(** a completely filled horizon of [n] intervals *)
Definition filled (n : nat) (h : horizon) : Prop :=
  length (h_intervals h) = n /\
  (forall i, i < n -> exists iv, interval_at h i iv /\ exists t, state_type h (iv_state iv) t /\ t <> TDS) /\
  StronglySorted lt (h_steps h) /\ Forall (fun i => i < n) (h_steps h) /\
  (* the walk state changes exactly at the variable steps, and never goes back *)
  (forall i a b, interval_at h i a -> interval_at h (S i) b ->
     iv_state a <= iv_state b /\ (In (S i) (h_steps h) <-> iv_state a <> iv_state b)).

(** the durations of the intervals: a variable step begins with a transitional double support, intervals have the nominal
    sampling time otherwise, except the first one, which is the rest of the current stance *)
Definition timed (p : mpc_params) (h : horizon) : Prop :=
  forall i iv, interval_at h i iv ->
    (In i (h_steps h) -> iv_T_ms iv = tds_sampling_ms p /\ state_type h (iv_velocity iv) TDS) /\
    (~ In i (h_steps h) -> i > 0 -> iv_T_ms iv = sampling_ms p) /\
    (~ In i (h_steps h) -> i = 0 ->
       exists w, nth_error (h_states h) 0 = Some w /\
       if is_tds (st_type (ws_stance w)) then iv_T_ms iv = duration (ws_stance w)
       else 0 < iv_T_ms iv <= sampling_ms p /\ exists k, duration (ws_stance w) = iv_T_ms iv + k * sampling_ms p).

(** parameters of a walk for which the stance machine never fails: a first foot is given if there are steps *)
Definition walkable (p : params) : Prop := first_stance p = DS -> num_steps p = 0 \/ first_ss_type p <> ST_UNDEFINED.

(** the stances fit on the sampling grid: single supports consist of whole sampling intervals and a transitional double
    support is not longer than one of them; the final stance lasts at least the whole horizon *)
Definition on_grid (m : mpc_params) (p : params) : Prop :=
  horizon_length m > 0 /\ sampling_ms m > 0 /\ (exists k, ss_duration p = k * sampling_ms m) /\ tds_duration p <= sampling_ms m /\
  horizon_length m * sampling_ms m <= last_duration p.

(** heading of a walk state, and the stance it belongs to *)
Definition heading_at (ws : list walk_state) (k : nat) (t : stance_type) (theta : R) : Prop :=
  exists w, nth_error ws k = Some w /\ st_type (ws_stance w) = t /\ ws_theta w = theta.
(** heading of the foot which is the support in a single support *)
Definition foot_yaw (left_yaw right_yaw : R) (t : stance_type) : R :=
  match t with LSS => left_yaw | _ => right_yaw end.
