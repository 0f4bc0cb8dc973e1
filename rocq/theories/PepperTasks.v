(** * Tasks of the Pepper MPC problem (/repo/modules/pepper_mpc/include/pepper_mpc/task_*.h) and bounds of the robot (common.h)

    The functions return the constraint object of a task after form(); [l] are the intervals of the preview horizon, [M] the
    matrices of the control problem, [junk] the values of resized vectors. *)
From Coq Require Import String List Reals Arith Bool ZArith.
From Verif Require Import Base RSum Matrix Mat2 ActiveSet ConstraintType HierarchyLevel Constraints Condense Solution Task PepperPreview MpcGuess PepperModel PepperMpc.
Import ListNotations.
Local Open Scope R_scope.

(** utility.h:133-136 *)
Definition getEncircledSquareSide (radius : R) : R := 2 / sqrt 2 * radius.
(** common.h:60-63 (also 67-70, 73-76, 80-83, 86-89): the bounds derived from a radius, a maximal velocity or acceleration *)
Definition circle_bounds (radius : R) : m2 := let b := getEncircledSquareSide radius / 2 in M2 (- b) b (- b) b.

(** preview_horizon.h:274-342; the vector is accessed without a check, NaNs of an unset interval are not modelled *)
Definition interval_data (l : list interval) (i : nat) : outcome (m2 * v2 * v2 * (m2 * m2 * m2 * m2)) :=
  bind (vec_at l i) (fun v => match in_set v with Some d => Ok d | None => UB end).
(** preview_horizon.h:274-342 *)
Definition getNominalBaseVelocityBounds (l : list interval) (i : nat) : outcome m2 :=
  bind (interval_data l i) (fun d => let '(_, _, _, (_, b, _, _)) := d in Ok b).
(** preview_horizon.h:274-342 *)
Definition getNominalBaseAccelerationBounds (l : list interval) (i : nat) : outcome m2 :=
  bind (interval_data l i) (fun d => let '(_, _, _, (_, _, b, _)) := d in Ok b).
(** preview_horizon.h:274-342 *)
Definition getBodyBounds (l : list interval) (i : nat) : outcome m2 :=
  bind (interval_data l i) (fun d => let '(_, _, _, (_, _, _, b)) := d in Ok b).
(** preview_horizon.h:274-342 *)
Definition getCoPBounds (l : list interval) (i : nat) : outcome m2 :=
  bind (interval_data l i) (fun d => let '(_, _, _, (b, _, _, _)) := d in Ok b).
(** preview_horizon.h:274-342 *)
Definition getBaseReferenceVelocity (l : list interval) (i : nat) : outcome v2 :=
  bind (interval_data l i) (fun d => let '(_, v, _, _) := d in Ok v).
(** preview_horizon.h:274-342 *)
Definition getBaseReferencePosition (l : list interval) (i : nat) : outcome v2 :=
  bind (interval_data l i) (fun d => let '(_, _, p, _) := d in Ok p).

(** Eigen col(0), col(1) of a 2x2 matrix *)
Definition col_0 (m : m2) : v2 := V2 (a00 m) (a10 m).
(** Eigen col(1), e.g. task_basevelocitybounds.h:69-83 *)
Definition col_1 (m : m2) : v2 := V2 (a01 m) (a11 m).
(** a vector of two numbers assigned to a segment, e.g. task_basevelocityref.h:30-53 *)
Definition vec2 (a : v2) : vec := mkVec 2 (fun i => match i with O => ux a | _ => uy a end).

(** the loops [for (i = 0; i < n; ++i) v.segment(i*2, 2) = f(i);] *)
Definition fill_pairs (n : nat) (f : nat -> outcome v2) (v : vec) : outcome vec :=
  for_up n 0 (fun i v => bind (f i) (fun a => vset_segment v (mkLoc (i * 2) 2) (vec2 a))) v.
(** lower and upper bounds of size [rows]; the code fills both vectors in one loop (e.g. task_basevelocitybounds.h:69-83) *)
Definition fill_bounds (junk : nat -> nat -> R) (rows n : nat) (f : nat -> outcome m2) : outcome (vec * vec) :=
  bind (fill_pairs n (fun i => bind (f i) (fun b => Ok (col_0 b))) (mkVec rows (junk 0%nat))) (fun lb =>
  bind (fill_pairs n (fun i => bind (f i) (fun b => Ok (col_1 b))) (mkVec rows (junk 1%nat))) (fun ub => Ok (lb, ub))).
(** [v -= s] (e.g. task_basevelocitybounds.h:69-83) *)
Definition vminus_o (v : vec) (s : mat) : outcome vec :=
  assert_then (vlen v =? mrows s)%nat (Ok (mkVec (vlen v) (fun i => vget v i - mget s i 0))).
(** both bounds, e.g. task_basevelocitybounds.h:69-83 *)
Definition bounds_minus (b : vec * vec) (s : mat) : outcome bounds :=
  bind (vminus_o (fst b) s) (fun lb => bind (vminus_o (snd b) s) (fun ub => Ok (BoundsLU lb ub))).

(** task_baseaccelerationbounds.h:29-54 (class ASLU) *)
Definition form_baseAccelerationBounds (junk : nat -> nat -> R) (st : structure) (l : list interval) (M : pepper_matrices) : outcome constr :=
  bind (fill_bounds junk (length l * 2) (length l) (getNominalBaseAccelerationBounds l)) (fun b =>
  bind (bounds_minus b (pmsas M)) (fun b => Ok (mkConstr (Solution.getNumberOfVariables st) (BodyAS (pmAas M) 0) b))).
(** task_coppositionbounds.h:29-53 (class ALU) *)
Definition form_copPositionBounds (junk : nat -> nat -> R) (st : structure) (l : list interval) (M : pepper_matrices) : outcome constr :=
  bind (fill_bounds junk (length l * 2) (length l) (getCoPBounds l)) (fun b =>
  bind (bounds_minus b (pmsp M)) (fun b => Ok (mkConstr (Solution.getNumberOfVariables st) (BodyA (pmAp M)) b))).
(** task_bodypositionbounds.h:29-51 (class ALU) *)
Definition form_bodyPositionBounds (junk : nat -> nat -> R) (st : structure) (l : list interval) (M : pepper_matrices) : outcome constr :=
  bind (fill_bounds junk (mrows (pmApd M)) (mrows (pmApd M) / 2) (getBodyBounds l)) (fun b =>
  bind (bounds_minus b (pmspd M)) (fun b => Ok (mkConstr (Solution.getNumberOfVariables st) (BodyA (pmApd M)) b))).

(** the loop [I[i*2] = offset + i*2; I[i*2+1] = offset + i*2 + 1]; I is an Eigen vector of the size [size] and is indexed with an assertion *)
Definition fill_indices (size n off : nat) (old : list nat) : outcome (list nat) :=
  for_up n 0 (fun i ix => bind (write_at ix (i * 2) (off + i * 2)%nat) (fun ix => write_at ix (i * 2 + 1) (off + i * 2 + 1)%nat)) (iresize old size).
(** task_basevelocitybounds.h:29-53 (class ILU); [old] are the indices before the task is formed *)
Definition form_baseVelocityBounds (junk : nat -> nat -> R) (old : list nat) (st : structure) (l : list interval) : outcome constr :=
  let loc := getSolutionPartLocation st BASE_VEL in
  bind (fill_indices (len loc) (len loc / 2) (offset loc) old) (fun ix =>
  bind (fill_bounds junk (len loc) (len loc / 2) (getNominalBaseVelocityBounds l)) (fun b =>
  Ok (mkConstr (Solution.getNumberOfVariables st) (BodyI ix) (BoundsLU (fst b) (snd b))))).

(** task_basejerkminimization.h:30-43 (class ASB) *)
Definition form_baseJerkMinimization (gain : R) (st : structure) (M : pepper_matrices) : constr :=
  mkConstr (Solution.getNumberOfVariables st) (BodyAS (mscale gain (pmAjs M)) 0) (BoundsB (vec_of (mscale (- gain) (pmsjs M)))).
(** task_basepositionref.h:30-51 (class ASB) *)
Definition form_basePositionReference (junk : nat -> nat -> R) (gain : R) (st : structure) (l : list interval) (M : pepper_matrices) : outcome constr :=
  let A := mscale gain (pmAps M) in
  bind (fill_pairs (mrows A / 2) (getBaseReferencePosition l) (mkVec (mrows A) (junk 0%nat))) (fun b =>
  bind (vminus_o b (pmsps M)) (fun b =>
  Ok (mkConstr (Solution.getNumberOfVariables st) (BodyAS A 0) (BoundsB (mkVec (vlen b) (fun i => vget b i * gain)))))).
(** task_basevelocityref.h:30-53 (class GIB) *)
Definition form_baseVelocityReference (junk : nat -> nat -> R) (old : list nat) (gain : R) (st : structure) (l : list interval) : outcome constr :=
  let loc := getSolutionPartLocation st BASE_VEL in
  bind (fill_indices (len loc) (len loc / 2) (offset loc) old) (fun ix =>
  bind (fill_pairs (len loc / 2) (fun i => bind (getBaseReferenceVelocity l i) (fun v => Ok (v2scale gain v))) (mkVec (len loc) (junk 0%nat))) (fun b =>
  Ok (mkConstr (Solution.getNumberOfVariables st) (BodyGI ix (vconst (len loc) gain)) (BoundsB b)))).
(** task_bodypositionref.h:27-38 (class AB) *)
Definition form_bodyPositionReference (gain : R) (st : structure) (M : pepper_matrices) : constr :=
  mkConstr (Solution.getNumberOfVariables st) (BodyA (mscale gain (pmApd M))) (BoundsB (vec_of (mscale gain (pmspd M)))).
(** task_copcentering.h:30-38 (class AB) *)
Definition form_copCentering (gain : R) (st : structure) (M : pepper_matrices) : constr :=
  mkConstr (Solution.getNumberOfVariables st) (BodyA (mscale gain (pmAp M))) (BoundsB (vec_of (mscale (- gain) (pmsp M)))).
(** task_bodyjerkminimization.h:22-26 *)
Definition new_bodyJerkMinimization (gain : R) : zero_task := zero_new gain BODY_JERK.

(** ** guesses of the active sets *)
(** task_baseaccelerationbounds.h:70-84, task_basevelocitybounds.h:69-83, task_bodypositionbounds.h:67-81, task_coppositionbounds.h:69-83;
    [actual] is the active set determined by a solver *)
Definition shifted_guess (num_ctr : nat) (actual : aset) : outcome aset :=
  if (length actual =? 0)%nat then Ok (as_initialize_type num_ctr INACTIVE)
  else assert_then (length actual =? num_ctr)%nat (as_shift actual 2 INACTIVE).
(** task_baseaccelerationbounds.h:58-86, task_basevelocitybounds.h:57-85, task_bodypositionbounds.h:55-83, task_coppositionbounds.h:57-85 *)
Definition guess_pepper (sampling_time_ms subsampling_time_ms : Z) (l : list interval) (t : task) : outcome task :=
  if (subsampling_time_ms <? sampling_time_ms)%Z then guessActiveSet t
  else bind (shifted_guess (length l * 2) (tk_actual t)) (fun g => Ok (set_guess t g)).
