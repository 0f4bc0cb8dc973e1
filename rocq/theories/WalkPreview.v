(** * Walking preview horizon (/repo/modules/wpg04/include/wpg04/preview_horizon.h) and its parameters (wpg04/common.h) *)
From Coq Require Import List Arith Bool Reals.
From Verif Require Import Base StanceFSM.
Import ListNotations.

(** ** MPCParameters, common.h:114-140 finalize; called by the constructors and after reading a configuration.
    A zero subsampling time is a division by zero *)
Record mpc_params := mkMpc { horizon_length : nat; sampling_ms : nat; subsampling_ms : nat; tds_sampling_ms : nat }.
(** common.h:92-97 *)
Record mpc_derived := mkDerived { subsamples_num : nat; tds_subsamples_num : nat }.
(** common.h:114-140 *)
Definition mpc_finalize (p : mpc_params) : outcome mpc_derived :=
  if (subsampling_ms p =? 0)%nat then UB
  else assert_then (sampling_ms p mod subsampling_ms p =? 0)%nat
    (assert_then (tds_sampling_ms p mod subsampling_ms p =? 0)%nat
      (Ok (mkDerived (sampling_ms p / subsampling_ms p) (tds_sampling_ms p / subsampling_ms p)))).
(** common.h:158-166 setDefaults *)
Definition default_mpc : mpc_params := mkMpc 16 100 100 100.

(** ** walk states, preview_horizon.h:21-66.  The velocity reference, the bounds on the foot position and on the CoP are
    represented by the parameter they are copied from *)
Inductive velocity_ref := VelWalk | VelFirst | VelLast.
(** preview_horizon.h:21-66, where the values come from *)
Inductive foot_bounds := FdZero | FdBounds (left : bool) (kind : fd_kind) | FdUnset
with fd_kind := WithRespectToADS | WithRespectToSS | AlignedToSS.
(** preview_horizon.h:21-66, where the values come from *)
Inductive cop_bounds := CopADS | CopSS | CopUnset.
(** preview_horizon.h:21-66 *)
Record walk_state := mkWalkState {
  ws_stance : stance; ws_theta : R; ws_vel : velocity_ref; ws_fd : foot_bounds; ws_cop : cop_bounds }.

(** preview_horizon.h:471-541 getConstraints *)
Definition fd_of (s : stance) : outcome foot_bounds :=
  match subtype s with
  | FIRST => Ok FdZero
  | _ =>
    match st_type s with
    | LSS => match prev_nontds s with DS => Ok (FdBounds true WithRespectToADS) | RSS => Ok (FdBounds true WithRespectToSS) | _ => Throw end
    | RSS => match prev_nontds s with DS => Ok (FdBounds false WithRespectToADS) | LSS => Ok (FdBounds false WithRespectToSS) | _ => Throw end
    | DS => match prev_nontds s with LSS => Ok (FdBounds false AlignedToSS) | RSS => Ok (FdBounds true AlignedToSS) | _ => Throw end
    | _ => Throw
    end
  end.
(** preview_horizon.h:471-541 *)
Definition cop_of (s : stance) : cop_bounds := match st_type s with DS => CopADS | _ => CopSS end.

(** preview_horizon.h:248-327: one state; [ths] = (lss_theta, rss_theta, ds_theta); [next]: the type of the next stance, if any *)
Record headings := mkHeadings { lss_th : R; rss_th : R; ds_th : R }.
(** preview_horizon.h:248-327 *)
Definition preview_state (inc : R) (h : headings) (s : stance) (next : option stance_type) : outcome (headings * walk_state) :=
  let finish h th vel :=
    match st_type s with
    | TDS => Ok (h, mkWalkState s th vel FdUnset CopUnset)
    | _ => bind (fd_of s) (fun fd => Ok (h, mkWalkState s th vel fd (cop_of s)))
    end in
  match st_type s with
  | LSS => finish h (lss_th h) VelWalk
  | RSS => finish h (rss_th h) VelWalk
  | DS => match subtype s with
          | FIRST => finish h (ds_th h) VelFirst
          | LAST => finish h (ds_th h) VelLast
          | _ => Throw
          end
  | TDS =>
    match next with
    | None => Throw (* stances.at(i + 1) *)
    | Some n =>
      let p := prev_nontds s in
      let not_ t := match p, t with DS, DS | LSS, LSS | RSS, RSS | TDS, TDS | ST_UNDEFINED, ST_UNDEFINED => false | _, _ => true end in
      (* the four ifs in order *)
      let '(h1, th1) := match n with
                        | RSS => if not_ DS then (mkHeadings (lss_th h) (lss_th h + inc)%R (ds_th h), (lss_th h + inc)%R) else (h, ds_th h)
                        | _ => (h, ds_th h) end in
      let '(h2, th2) := match n with
                        | LSS => if not_ DS then (mkHeadings (rss_th h1 + inc)%R (rss_th h1) (ds_th h1), (rss_th h1 + inc)%R) else (h1, th1)
                        | _ => (h1, th1) end in
      let '(h3, th3, v3) := match n with
                        | DS => if not_ LSS then (mkHeadings (lss_th h2) (rss_th h2) (rss_th h2), rss_th h2, VelLast) else (h2, th2, VelWalk)
                        | _ => (h2, th2, VelWalk) end in
      let '(h4, th4, v4) := match n with
                        | DS => if not_ RSS then (mkHeadings (lss_th h3) (rss_th h3) (lss_th h3), lss_th h3, VelLast) else (h3, th3, v3)
                        | _ => (h3, th3, v3) end in
      finish h4 th4 v4
    end
  | ST_UNDEFINED => Throw
  end.
(** preview_horizon.h:236-328 previewStates, the loop *)
Fixpoint preview_states (inc : R) (h : headings) (l : list stance) : outcome (list walk_state) :=
  match l with
  | [] => Ok []
  | s :: r =>
      bind (preview_state inc h s (option_map st_type (hd_error r))) (fun '(h1, w) =>
      bind (preview_states inc h1 r) (fun ws => Ok (w :: ws)))
  end.
(** preview_horizon.h:243-245: headings of the feet and their mean *)
Definition initial_headings (left_yaw right_yaw : R) : headings := mkHeadings left_yaw right_yaw ((left_yaw + right_yaw) / 2)%R.

(** ** intervals, preview_horizon.h:96-104; [iv_velocity]: index of the walk state whose velocity is used *)
Record interval := mkInterval { iv_state : nat; iv_velocity : nat; iv_T_ms : nat }.
(** writing at one index; intervals_ has been resized to the length of the horizon, [None]: not (yet) written by this call (preview_horizon.h:380-460) *)
Fixpoint set_nth {A} (l : list (option A)) (i : nat) (a : A) : list (option A) :=
  match l, i with
  | [], _ => []
  | _ :: t, O => Some a :: t
  | h :: t, S j => h :: set_nth t j a
  end.
(** preview_horizon.h:446-450: for (i = from; i < to; ++i) intervals_[i] = interval *)
Fixpoint fill {A} (l : list (option A)) (from n : nat) (a : A) : list (option A) :=
  match n with O => l | S k => fill (set_nth l from a) (S from) k a end.
(** preview_horizon.h:384-458: the loop. [rest] are the walk states from [walk_index] on. [interval_index + num_intervals_left]:
    when the duration of the first state is a multiple of the sampling time, num_intervals_left has been decremented; it
    wraps around for a zero duration, but so does the sum, hence the subtraction is done after the addition.
    (sums are assumed to be less than 2^64 otherwise) *)
Fixpoint form_loop (N T tds : nat) (walk_index : nat) (rest : list stance) (idx : nat)
    (ivs : list (option interval)) (steps : list nat) {struct rest} : outcome (list (option interval) * list nat) :=
  if N <=? idx then Ok (ivs, steps)
  else match rest with
  | [] => Throw (* walk_states_.at(walk_index) *)
  | s :: r =>
    if walk_index =? 0 then
      if is_tds (st_type s) then
        match r with
        | [] => Throw
        | s2 :: r2 =>
          let iv := mkInterval 1 0 (duration s) in
          let num := duration s2 / T in
          let ivs1 := set_nth ivs idx iv in
          let next := idx + 1 + num in
          form_loop N T tds 2 r2 next (fill ivs1 (idx + 1) (Nat.min N next - (idx + 1)) (mkInterval 1 0 T)) steps
        end
      else
        let partial := duration s mod T in
        let T0 := if partial =? 0 then T else partial in
        let ivs1 := set_nth ivs idx (mkInterval 0 0 T0) in
        let next := if partial =? 0 then idx + 1 + duration s / T - 1 else idx + 1 + duration s / T in
        form_loop N T tds 1 r next (fill ivs1 (idx + 1) (Nat.min N next - (idx + 1)) (mkInterval 0 0 T)) steps
    else if is_tds (st_type s) then
      match r with
      | [] => Throw
      | s2 :: r2 =>
        let ivs1 := set_nth ivs idx (mkInterval (S walk_index) walk_index tds) in
        let next := idx + 1 + duration s2 / T in
        form_loop N T tds (S (S walk_index)) r2 next
          (fill ivs1 (idx + 1) (Nat.min N next - (idx + 1)) (mkInterval (S walk_index) walk_index T)) (steps ++ [idx])
      end
    else Throw (* HUMOTO_ASSERT *)
  end.
(** a formed horizon (preview_horizon.h:138-155) *)
Record horizon := mkHorizon { h_states : list walk_state; h_intervals : list (option interval); h_steps : list nat }.
(** preview_horizon.h:354-462 form: [Ok None] = returns false.  A zero sampling time is a division by zero as soon as an
    interval is formed *)
Definition form (fuel : nat) (p : mpc_params) (left_yaw right_yaw inc : R) (fsm : fsm) : run (option horizon) :=
  match previewStances fuel fsm (horizon_length p * sampling_ms p) with
  | NoFuel => NoFuel
  | Finished Throw => Finished Throw
  | Finished UB => Finished UB
  | Finished (Ok l) =>
      Finished (bind (preview_states inc (initial_headings left_yaw right_yaw) l) (fun ws =>
        match ws with
        | [] => Ok None
        | _ => if (sampling_ms p =? 0) && negb (horizon_length p =? 0) then UB
               else bind (form_loop (horizon_length p) (sampling_ms p) (tds_sampling_ms p) 0 l 0 (repeat None (horizon_length p)) [])
                 (fun '(ivs, steps) => Ok (Some (mkHorizon ws ivs steps)))
        end))
  end.
