(** * Pepper motion generation: motion queue, preview horizon, lookup of time instants
    (/repo/modules/pepper_mpc/include/pepper_mpc/common.h, preview_horizon.h, mpc_mg.h)

    Doubles are real numbers.  Times in milliseconds are integers; the unsigned arithmetic of
    [form] on a queue is modelled modulo 2^64. *)
From Coq Require Import List Arith ZArith Lia Reals Bool.
From Verif Require Import Base Mat2.
Import ListNotations.

(** common.h:176-199: MotionParameters; [motion_mode_] is not used by the functions below *)
Record motion := mkMotion { mo_velocity : v2; mo_position : v2; mo_angular : R; mo_duration : Z }.
(** common.h:190 *)
Definition UNLIMITED : Z := (-1)%Z.
(** the comparison with UNLIMITED_DURATION, common.h:190, mpc_mg.h:487-522 *)
Definition is_unlimited (m : motion) : bool := (mo_duration m =? UNLIMITED)%Z.
(** assignment to duration_ms_, mpc_mg.h:487-522 *)
Definition set_duration (m : motion) (d : Z) : motion := mkMotion (mo_velocity m) (mo_position m) (mo_angular m) d.
(** common.h:223-230: setIdle *)
Definition idle : motion := mkMotion v2zero v2zero 0%R UNLIMITED.

(** mpc_mg.h:332: DEFAULT_PREVIEW_HORIZON_SHIFT, 455-462 and 482-485: the shift that is used *)
Definition used_shift (sampling_time_ms time_shift_ms : Z) : Z :=
  if (time_shift_ms =? -1)%Z then sampling_time_ms else time_shift_ms.

(** preview_horizon.h:222-225, mpc_mg.h:478-523 *)
Definition clip_duration (d : Z) : Z := if (d <? 0)%Z then 0%Z else d.

(** mpc_mg.h:450-470: shift of one motion *)
Definition shift_single (sampling_time_ms time_shift_ms : Z) (m : motion) : motion :=
  if is_unlimited m then m
  else set_duration m (clip_duration (mo_duration m - used_shift sampling_time_ms time_shift_ms)).

(** mpc_mg.h:487-522: the loop; every iteration that does not leave it removes the front *)
Fixpoint shift_loop (q : list motion) (t : Z) : list motion :=
  match q with
  | [] => []
  | m :: rest =>
      if is_unlimited m then q
      else if (mo_duration m <=? t)%Z then shift_loop rest (t - mo_duration m)
      else set_duration m (clip_duration (mo_duration m - t)) :: rest
  end.
(** mpc_mg.h:478-523: shift of a queue *)
Definition shift_queue (sampling_time_ms time_shift_ms : Z) (q : list motion) : list motion :=
  shift_loop q (used_shift sampling_time_ms time_shift_ms).

(** common.h:279-352: the parameters that are used *)
Record mpc_parameters := mkParams { horizon_length : nat; sampling_ms : Z }.
(** common.h:360-363: getSamplingTime *)
Definition sampling_time (p : mpc_parameters) : R := (IZR (sampling_ms p) / 1000)%R.

(** the robot and model parameters that an interval copies (preview_horizon.h:51-72) *)
Record pepper_view := mkView { view_cop_bounds : m2; view_velocity_bounds : m2; view_acceleration_bounds : m2; view_body_bounds : m2;
  view_base_height : R; view_body_height : R; view_base_mass : R; view_body_mass : R; view_theta : R }.

(** preview_horizon.h:20-47; NaNs of an unset matrix are [None] (one flag for the seven matrices, which are set together) *)
Record interval := mkInterval { in_T_ms : Z; in_T : R; in_theta : R; in_base_height : R; in_body_height : R; in_base_mass : R; in_body_mass : R;
  in_set : option (m2 * v2 * v2 * (m2 * m2 * m2 * m2)) (* rotation_, base_vel_ref_, base_pos_ref_, (cop, velocity, acceleration, body bounds) *) }.
(** preview_horizon.h:51-72 *)
Definition default_interval : interval := mkInterval 0 0 0 0 0 0 0 None.

(** preview_horizon.h:86-111: the interval, its [theta_] is the new value of [theta] *)
Definition interval_initialize (theta : R) (p : mpc_parameters) (m : motion) (model : pepper_view) : interval :=
  let theta' := (theta + mo_angular m * sampling_time p)%R in
  mkInterval (sampling_ms p) (sampling_time p) theta' (view_base_height model) (view_body_height model) (view_base_mass model) (view_body_mass model)
    (Some (rot2 theta', m2app (rot2 theta') (mo_velocity m), mo_position m,
           (view_cop_bounds model, view_velocity_bounds model, view_acceleration_bounds model, view_body_bounds model))).

(** std::vector::resize (preview_horizon.h:179, 210) *)
Definition vector_resize {A} (d : A) (l : list A) (n : nat) : list A := firstn n l ++ repeat d (n - length l).

(** the loops at preview_horizon.h:180-183, 222-225 and 235-238: [count] intervals starting with [i] *)
Fixpoint fill (count i : nat) (p : mpc_parameters) (m : motion) (model : pepper_view) (theta : R) (l : list interval)
  : outcome (R * list interval) :=
  match count with
  | O => Ok (theta, l)
  | S c => if (i <? length l)%nat
           then let v := interval_initialize theta p m model in fill c (S i) p m model (in_theta v) (update l i v)
           else UB
  end.

(** preview_horizon.h:165-190: one motion; the product and its conversion to a signed integer are exact
    (horizons shorter than 2^63 ms) *)
Definition form_single (p : mpc_parameters) (model : pepper_view) (m : motion) (l : list interval) : outcome (bool * list interval) :=
  if is_unlimited m || (Z.of_nat (horizon_length p) * sampling_ms p <=? mo_duration m)%Z
  then bind (fill (horizon_length p) 0 p m model (view_theta model) (vector_resize default_interval l (horizon_length p)))
            (fun r => Ok (true, snd r))
  else Ok (false, l).

(** the number of values of std::size_t, preview_horizon.h:165-190 *)
Definition two64 : Z := (2 ^ 64)%Z.

(** preview_horizon.h:214-250: the loop over the queue *)
Fixpoint form_loop (p : mpc_parameters) (model : pepper_view) (q : list motion) (i : nat) (remainder : Z) (theta : R) (l : list interval)
  : outcome (bool * list interval) :=
  match q with
  | [] => Ok (false, l)
  | m :: rest =>
      if is_unlimited m
      then bind (fill (horizon_length p - i) i p m model theta l) (fun r => Ok (true, snd r))
      else if (sampling_ms p =? 0)%Z then UB
      else
        let available := ((remainder + mo_duration m) mod two64)%Z in
        let number := Nat.min (Z.to_nat (available / sampling_ms p)) (horizon_length p - i) in
        bind (fill number i p m model theta l) (fun r =>
          if (i + number =? horizon_length p)%nat then Ok (true, snd r)
          else form_loop p model rest (i + number) (available mod sampling_ms p) (fst r) (snd r))
  end.
(** preview_horizon.h:202-253: a queue of motions *)
Definition form_queue (p : mpc_parameters) (model : pepper_view) (q : list motion) (l : list interval) : outcome (bool * list interval) :=
  form_loop p model q 0 0 (view_theta model) (vector_resize default_interval l (horizon_length p)).

(** mpc_mg.h:419-440 and 537-550: update and shift of a queue: the status (OK: true), the horizon, the queue.
    The matrices computed by updateMatrices are in PepperMpc.v *)
Definition updateAndShift_queue (p : mpc_parameters) (model : pepper_view) (time_shift_ms : Z) (q : list motion) (l : list interval)
  : outcome (bool * list interval * list motion) :=
  bind (form_queue p model q l) (fun r =>
    Ok (fst r, snd r, if fst r then shift_queue (sampling_ms p) time_shift_ms q else q)).

(** preview_horizon.h:367-384: index and offset for a time instant in milliseconds, given the durations T_ms_ of the intervals *)
Fixpoint lookup_ms (durations : list nat) (offset index : nat) : outcome (nat * nat) :=
  match durations with
  | [] => Throw
  | d :: rest => if (d <? offset)%nat then lookup_ms rest (offset - d) (S index) else Ok (index, offset)
  end.
(** preview_horizon.h:367-384 *)
Definition getIntervalIndexByTimeOffset_ms (durations : list nat) (offset : nat) : outcome (nat * nat) := lookup_ms durations offset 0.

(** preview_horizon.h:396-413: the same in seconds *)
Fixpoint lookup_s (durations : list R) (offset : R) (index : nat) : outcome (nat * R) :=
  match durations with
  | [] => Throw
  | d :: rest => if Rlt_dec d offset then lookup_s rest (offset - d)%R (S index) else Ok (index, offset)
  end.
(** preview_horizon.h:396-413 *)
Definition getIntervalIndexByTimeOffset_s (durations : list R) (offset : R) : outcome (nat * R) := lookup_s durations offset 0.

(** modules/wpg04/include/wpg04/mpc_wpg.h:563-580: the loop of MPCforWPG::getCoMState and the assertion after it.
    [T_ms] is the last value of interval_duration_ms, [None] if the loop body has not been executed *)
Fixpoint com_lookup (durations : list nat) (offset index : nat) (T_ms : option nat) : nat * nat * option nat :=
  match durations with
  | [] => (index, offset, T_ms)
  | d :: rest => if (d <? offset)%nat then com_lookup rest (offset - d) (S index) (Some d) else (index, offset, Some d)
  end.
(** modules/wpg04/include/wpg04/mpc_wpg.h:563-580 *)
Definition com_interval (durations : list nat) (time_instant : nat) : outcome (nat * nat * nat) :=
  match com_lookup durations time_instant 0 None with
  | (index, offset, T_ms) =>
      assert_then (index <? length durations)%nat (match T_ms with Some d => Ok (index, offset, d) | None => UB end)
  end.
