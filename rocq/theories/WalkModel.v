(** * Model of the walking robot and its next state
    (/repo/modules/wpg04/include/wpg04/model.h, model_state.h, mpc_wpg.h) *)
From Coq Require Import List Arith Bool Reals.
From Verif Require Import Base LeftRight Mat2 Mat3 FootParameters FootTrajectory PointMass6z StanceFSM WalkPreview.
Import ListNotations.
Open Scope R_scope.

(** LeftRightContainer<RigidBodyState> (LeftRight.v models the accessors); [None]: the state has been unset (NaN) (model_state.h:84-95, leftright.h:57-61) *)
Record feet_states := mkFeetStates { lf : option body_state; rf : option body_state }.
(** getLeft(), getRight(), leftright.h:94-115 *)
Definition foot_of (f : feet_states) (x : lr) : option body_state := match x with LEFT => lf f | _ => rf f end.
(** assignment to one of the feet, leftright.h:72-115 *)
Definition set_foot (f : feet_states) (x : lr) (b : option body_state) : feet_states :=
  match x with LEFT => mkFeetStates b (rf f) | _ => mkFeetStates (lf f) b end.

(** model_state.h:84-95 *)
Record wpg_state := mkWpgState { ms_com : point_mass_state; ms_feet : feet_states; ms_stance : stance_type; ms_next : stance_type }.
(** model.h:74-77; [None]: undefined (NaN) *)
Record wpg_model := mkWpgModel { md_state : wpg_state; md_support : option v2 }.

(** position_.head(2), model.h:36-62 *)
Definition xy (b : body_state) : v2 := V2 (vx (b_position b)) (vy (b_position b)).
(** arithmetic with an undefined operand gives an undefined result (model.h:36-62) *)
Definition midpoint (a b : option v2) : option v2 :=
  match a, b with Some a, Some b => Some (v2scale (/ 2) (v2add a b)) | _, _ => None end.

(** model.h:33-70 determineSupportPosition *)
Definition determineSupportPosition (s : wpg_state) : outcome (option v2) :=
  let left := option_map xy (lf (ms_feet s)) in
  let right := option_map xy (rf (ms_feet s)) in
  match ms_stance s with
  | LSS => Ok left
  | RSS => Ok right
  | DS => Ok (midpoint right left)
  | TDS => match ms_next s with
           | LSS => Ok left
           | RSS => Ok right
           | DS => Ok (midpoint right left)
           | _ => Throw
           end
  | ST_UNDEFINED => Throw
  end.

(** model.h:154-212 updateState: the model after the call and the outcome of the call (the state is already overwritten
    when the call throws) *)
Definition updateState (m : wpg_model) (s : wpg_state) : wpg_model * outcome unit :=
  let with_feet f := mkWpgState (ms_com s) f (ms_stance s) (ms_next s) in
  let old := ms_feet (md_state m) in
  let finish f :=
    match determineSupportPosition (with_feet f) with
    | Ok p => (mkWpgModel (with_feet f) p, Ok tt)
    | Throw => (mkWpgModel (with_feet f) (md_support m), Throw)
    | UB => (mkWpgModel (with_feet f) (md_support m), UB)
    end in
  match ms_stance s with
  | LSS => finish (set_foot old LEFT (lf (ms_feet s)))
  | RSS => finish (set_foot old RIGHT (rf (ms_feet s)))
  | TDS => match ms_stance (md_state m) with
           | LSS => finish (set_foot old RIGHT (rf (ms_feet s)))
           | RSS => finish (set_foot old LEFT (lf (ms_feet s)))
           | DS => finish old
           | _ => (mkWpgModel (with_feet old) (md_support m), Throw)
           end
  | DS => finish (set_foot (set_foot old LEFT (lf (ms_feet s))) RIGHT (rf (ms_feet s)))
  | ST_UNDEFINED => (mkWpgModel (with_feet old) (md_support m), Throw)
  end.

(** model_state.h:38-56 initializeFoot, 60-82 setDefaults; angular velocities are set to NaN there, here to zero *)
Definition initializeFoot (fp : feet_params) (x : lr) (theta : R) (ads : v2) : outcome body_state :=
  bind (getFootPositionFromADS fp x (rot2 theta) ads) (fun p =>
    Ok (mkBody (V3 (ux p) (uy p) 0) (V3 0 0 0) (V3 0 0 0) (V3 0 0 theta) (V3 0 0 0) (V3 0 0 0))).
(** model_state.h:60-82 *)
Definition defaultState (fp : feet_params) (com_height : R) : outcome wpg_state :=
  bind (initializeFoot fp LEFT 0 (V2 0 0)) (fun l => bind (initializeFoot fp RIGHT 0 (V2 0 0)) (fun r =>
    Ok (mkWpgState (mkPM (V3 0 0 com_height) (V3 0 0 0) (V3 0 0 0)) (mkFeetStates (Some l) (Some r)) DS ST_UNDEFINED))).
(** model_state.h:149-166 *)
Definition setState (t : stance_type) (com : point_mass_state) (l r : body_state) : outcome wpg_state :=
  match t with
  | LSS | RSS | DS => Ok (mkWpgState com (mkFeetStates (Some l) (Some r)) t ST_UNDEFINED)
  | _ => Throw
  end.

(** preview_horizon.h:208-212 getWalkState; indices are not checked *)
Definition getWalkState (h : horizon) (i : nat) : outcome walk_state :=
  match nth_error (h_intervals h) i with
  | Some (Some iv) => match nth_error (h_states h) (iv_state iv) with Some w => Ok w | None => UB end
  | _ => UB
  end.

(** mpc_wpg.h:181-225 getFootLandingState; [footpos] is footpos_profile.segment(0, 2).  [None] for the state if the height
    of the support foot is undefined (only the z coordinate is NaN in the code) *)
Definition getFootLandingState (fp : feet_params) (h : horizon) (footpos : v2) (m : wpg_model) (landing : lr) : outcome (option body_state) :=
  match h_steps h with
  | [] => UB (* variable_steps_indices_[0] *)
  | i :: _ =>
    bind (getWalkState h i) (fun w =>
    bind (lr_invert landing) (fun support =>
    bind (match st_type (ws_stance w) with
          | LSS | RSS => Ok footpos
          | DS => match ms_stance (md_state m) with
                  | LSS | RSS => getFootPositionFromADS fp landing (rot2 (ws_theta w)) footpos
                  | _ => Throw
                  end
          | _ => Throw
          end) (fun p =>
    Ok (option_map (fun b => mkBody (V3 (ux p) (uy p) (vz (b_position b))) (V3 0 0 0) (V3 0 0 0) (V3 0 0 (ws_theta w)) (V3 0 0 0) (V3 0 0 0))
                   (foot_of (ms_feet (md_state m)) support)))))
  end.

(** mpc_wpg.h:95-170 initializeNextModelState; [com] is the state of the CoM computed by evaluate (PointMass6z.v) *)
Definition initializeNextModelState (fp : feet_params) (h : horizon) (footpos : v2) (com : point_mass_state) (s : fsm) (m : wpg_model) : outcome wpg_state :=
  bind (getNextStance s) (fun next =>
  let mk f := Ok (mkWpgState com f (st_type (cur s)) (st_type next)) in
  let feet := ms_feet (md_state m) in
  match st_type (cur s) with
  | LSS => mk (mkFeetStates (lf feet) None)
  | RSS => mk (mkFeetStates None (rf feet))
  | TDS =>
      let land landing :=
        bind (lr_invert landing) (fun support =>
        bind (getFootLandingState fp h footpos m landing) (fun b =>
        mk (set_foot (set_foot feet landing b) support (foot_of feet support)))) in
      if is_tds_started s then
        match ms_stance (md_state m) with
        | DS => mk feet
        | LSS => land RIGHT
        | RSS => land LEFT
        | _ => Throw
        end
      else mk feet
  | DS => mk feet
  | ST_UNDEFINED => Throw
  end).
