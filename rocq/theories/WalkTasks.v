(** * Tasks of the walking MPC problem (/repo/modules/wpg04/include/wpg04/task_*.h)

    The functions return the constraint object of a task after form(); [M] are the matrices of the control problem, [junk] the
    values of resized vectors and matrices. *)
From Coq Require Import String List Reals Arith Bool ZArith.
From Verif Require Import Base RSum Matrix Mat2 ActiveSet ConstraintType HierarchyLevel Constraints BlockMatrix Condense Eigentools PointMass6z Solution Task StanceFSM MpcGuess
  PepperModel PepperMpc PepperTasks WalkProfiles.
Import ListNotations.
Local Open Scope R_scope.

(** ** data of the preview horizon *)
(** preview_horizon.h:22-52: type_, fd_bounds_ and cop_bounds_ of a walk state *)
Record walk_bounds := mkWB { wb_type : stance_type; wb_fd : m2; wb_cop : m2 }.
(** preview_horizon.h:207-212; [index] are the state_index_ of the intervals.  The vectors are accessed without a check *)
Definition getWalkState (index : list nat) (states : list walk_bounds) (i : nat) : outcome walk_bounds := bind (vec_at index i) (fun s => vec_at states s).
(** preview_horizon.h:165-169 *)
Definition getCoPBounds_walk (index : list nat) (states : list walk_bounds) (i : nat) : outcome m2 := bind (getWalkState index states i) (fun w => Ok (wb_cop w)).
(** preview_horizon.h:179-184 *)
Definition getFootPositionBounds (steps index : list nat) (states : list walk_bounds) (i : nat) : outcome m2 :=
  bind (vec_at steps i) (fun k => bind (getWalkState index states k) (fun w => Ok (wb_fd w))).

(** ** objectives *)
(** the values of a map with strides; the largest address must be within the array (eigentools.h:758-772) *)
Definition map_eval (m : mat) (v : strided_map) : outcome mat :=
  if ((map_rows v =? 0) || (map_cols v =? 0) ||
      ((0 <=? map_base v) && (0 <? map_inner v) && (0 <=? map_outer v) &&
       (map_base v + (map_rows v - 1) * map_inner v + (map_cols v - 1) * map_outer v <? Z.of_nat (mrows m * mcols m))))%Z
  then Ok (mkMat (Z.to_nat (map_rows v)) (Z.to_nat (map_cols v)) (fun i j => match map_get m v (Z.of_nat i) (Z.of_nat j) with Ok x => x | _ => 0 end))
  else UB.
(** mpc_wpg.h:261, 273 *)
Definition velocity_selector : SelectionMatrix := mkSel 3 1.
(** velocity_selector_ * m (task_comvelocity.h:66-68) *)
Definition select_velocities (m : mat) : outcome mat := bind (selection_mul velocity_selector m) (map_eval m).
(** task_comvelocity.h:48-69 (class AB); [refs] are the cvel_ref_ of the intervals, [N] is getPreviewHorizonLength() *)
Definition form_comVelocity (junk : nat -> nat -> R) (gain : R) (st : structure) (N : nat) (refs : list v2) (M : walk_matrices) : outcome constr :=
  bind (fill_pairs N (vec_at refs) (mkVec (N * 2) (junk 0%nat))) (fun ref =>
  bind (select_velocities (wmS M)) (fun A =>
  bind (select_velocities (wms M)) (fun sv =>
  assert_then ((mrows sv =? vlen ref)%nat && (mcols sv =? 1)%nat)
    (Ok (mkConstr (Solution.getNumberOfVariables st) (BodyA (mscale gain A)) (BoundsB (mkVec (vlen ref) (fun i => - gain * (mget sv i 0 - vget ref i))))))))).

(** solution.h:147-168 *)
Definition getMatrixPart (st : structure) (id : string) (m : mat) : outcome mat :=
  let l := getSolutionPartLocation st id in getb m 0 (offset l) (mrows m) (len l).
(** solution.h:147-168 *)
Definition setMatrixPart (st : structure) (id : string) (m src : mat) : outcome mat :=
  let l := getSolutionPartLocation st id in putb m 0 (offset l) (mrows m) (len l) src.
(** task_copvelocity.h:49-70 (class AB) *)
Definition form_copVelocity (junk : nat -> nat -> R) (gain : R) (st : structure) (M : walk_matrices) : outcome constr :=
  let A := mkMat (mrows (wmSdz M)) (Solution.getNumberOfVariables st) junk in
  bind (getMatrixPart st COP (wmSdz M)) (fun c => bind (setMatrixPart st COP A (mscale gain c)) (fun A =>
  bind (getMatrixPart st FOOTPOS (wmSdz M)) (fun f => bind (setMatrixPart st FOOTPOS A (mscale gain f)) (fun A =>
  Ok (mkConstr (Solution.getNumberOfVariables st) (BodyA A) (BoundsB (vec_of (mscale (- gain) (wmsdz M))))))))).

(** task_copposition.h:43-47 *)
Definition new_copPosition (gain : R) : zero_task := zero_new gain COP.

(** task_terminalconstraint.h:48-65 (class AB); [iv] are the intervals, [N] is getPreviewHorizonLength(); back() of an empty vector is undefined,
    with [N = 0] the first row of the block is a huge number *)
Definition form_terminal (gain : R) (st : structure) (N : nat) (iv : list walk_interval) (M : walk_matrices) : outcome constr :=
  match rev iv with
  | [] => UB
  | v :: _ =>
      let D := getDcpv6 (wi_omega v) in
      assert_then (1 <=? N)%nat
      (bind (getb (wmS M) ((N - 1) * 6) 0 6 (Solution.getNumberOfVariables st)) (fun S =>
      bind (getb (wms M) ((N - 1) * 6) 0 6 1) (fun s =>
      bind (mmul_o (mscale gain D) S) (fun A => bind (mmul_o (mscale (- gain) D) s) (fun b =>
      Ok (mkConstr (Solution.getNumberOfVariables st) (BodyA A) (BoundsB (vec_of b))))))))
  end.

(** ** bounds *)
(** task_copbounds.h:41-67 (class ILU) *)
Definition form_copBounds (junk : nat -> nat -> R) (old : list nat) (st : structure) (index : list nat) (states : list walk_bounds) : outcome constr :=
  let loc := getSolutionPartLocation st COP in
  bind (fill_indices (len loc) (len loc / 2) (offset loc) old) (fun ix =>
  bind (fill_bounds junk (len loc) (len loc / 2) (getCoPBounds_walk index states)) (fun b =>
  Ok (mkConstr (Solution.getNumberOfVariables st) (BodyI ix) (BoundsLU (fst b) (snd b))))).
(** task_footstepbounds.h:75-88 *)
Definition fixed_bounds (right_support : bool) (b : m2) : m2 :=
  if right_support then M2 (a01 b) (a01 b) (a11 b) (a11 b) else M2 (a01 b) (a01 b) (a10 b) (a10 b).
(** the comparison with RSS, task_footstepbounds.h:75-88 *)
Definition is_RSS (t : stance_type) : bool := match t with RSS => true | _ => false end.
(** task_footstepbounds.h:50-91 (class ILU) *)
Definition form_footstepBounds (junk : nat -> nat -> R) (old : list nat) (fix_footsteps : bool) (st : structure) (steps index : list nat) (states : list walk_bounds) : outcome constr :=
  let loc := getSolutionPartLocation st FOOTPOS in
  bind (fill_indices (len loc) (length steps) (offset loc) old) (fun ix =>
  bind (fill_bounds junk (len loc) (length steps) (fun i =>
    bind (getFootPositionBounds steps index states i) (fun b =>
    if fix_footsteps then bind (vec_at steps i) (fun k => bind (getWalkState index states k) (fun w => Ok (fixed_bounds (is_RSS (wb_type w)) b))) else Ok b))) (fun b =>
  Ok (mkConstr (Solution.getNumberOfVariables st) (BodyI ix) (BoundsLU (fst b) (snd b))))).

(** ** guesses of the active sets *)
(** task_copbounds.h:71-91: the new value of the guess *)
Definition copBounds_guess (st : structure) (t : task) : outcome aset := shifted_guess (len (getSolutionPartLocation st COP)) (tk_actual t).
Definition guess_copBounds (st : structure) (t : task) : outcome task := bind (copBounds_guess st t) (fun g => Ok (set_guess t g)).
(** task_footstepbounds.h:95-137: the new value of the guess *)
Definition footstepBounds_guess (fix_footsteps : bool) (st : structure) (t : task) : outcome aset :=
  let n := len (getSolutionPartLocation st FOOTPOS) in
  let old := length (tk_actual t) in
  if fix_footsteps then Ok (as_initialize_type n EQUALITY)
  else if (old =? 0)%nat then Ok (as_initialize_type n INACTIVE)
  else if (old =? n)%nat then Ok (tk_actual t)
  else if (n <? old)%nat then assert_then (2 <=? old)%nat (as_initialize_from (tk_guess t) (tk_actual t) (mkLoc 2 (old - 2)))
  else as_copyTo (as_initialize_type n INACTIVE) (mkLoc 0 old) (tk_actual t).
Definition guess_footstepBounds (fix_footsteps : bool) (st : structure) (t : task) : outcome task :=
  bind (footstepBounds_guess fix_footsteps st t) (fun g => Ok (set_guess t g)).
