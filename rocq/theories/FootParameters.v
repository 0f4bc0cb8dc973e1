(** * Parameters of the feet (/repo/core/include/walking/robot_foot_parameters.h) *)
From Coq Require Import List Reals.
From Verif Require Import Base LeftRight Mat2.
Import ListNotations.
Open Scope R_scope.

(** robot_foot_parameters.h:17-27 *)
Inductive bounds_type := FB_UNDEFINED | WITH_RESPECT_TO_ADS | WITH_RESPECT_TO_SS | ALIGNED_TO_SS.

(** robot_foot_parameters.h:60-80 *)
Record foot_params := mkFootParams {
  foot_position_in_ads : v2;
  ads_position_from_ss : v2;
  foot_position_bounds_ss : m2;
  foot_position_fixed_ss : m2;
  foot_position_fixed_ds : m2 }.

(** eigentools.h:336-346, applied to one vector *)
Definition transform2 (v : v2) (rotation : m2) (translation : v2) : v2 := v2add (m2app rotation v) translation.

(** robot_foot_parameters.h:144-155: values which are read from the configuration *)
Record primary := mkPrimary {
  max_step_len : R; min_feet_dist : R; max_feet_dist : R; feet_dist_default : R; foot_length : R; foot_width : R }.
(** robot_foot_parameters.h:144-168 *)
Record feet_params := mkFeetParams {
  prim : primary;
  ss_cop_bounds : m2;
  ads_cop_bounds : m2;
  feet : list foot_params (** LeftRight.container *) }.

(** robot_foot_parameters.h:176-223: all derived members are computed from [prim] *)
Definition finalize (p : primary) : feet_params :=
  let hl := foot_length p / 2 in
  let hw := foot_width p / 2 in
  let ht := (foot_width p + feet_dist_default p) / 2 in
  let hd := feet_dist_default p / 2 in
  mkFeetParams p (M2 (- hl) hl (- hw) hw) (M2 (- hl) hl (- ht) ht)
    [ mkFootParams (V2 0 hd) (V2 0 (- hd))
        (M2 (- max_step_len p) (max_step_len p) (min_feet_dist p) (max_feet_dist p))
        (M2 0 0 hd hd) (M2 0 0 hd hd);
      mkFootParams (V2 0 (- hd)) (V2 0 hd)
        (M2 (- max_step_len p) (max_step_len p) (- max_feet_dist p) (- min_feet_dist p))
        (M2 0 0 (- hd) (- hd)) (M2 0 0 (- hd) (- hd)) ].

(** robot_foot_parameters.h:238-248 *)
Definition default_feet : feet_params := finalize (mkPrimary (2 / 10) (19 / 100) (3 / 10) (19 / 100) (1372 / 10000) (58 / 1000)).

(** robot_foot_parameters.h:94-98 with 261-266 *)
Definition getFootPositionFromADS (f : feet_params) (x : lr) (ref_R : m2) (ref_position : v2) : outcome v2 :=
  bind (lr_get (feet f) x) (fun p => Ok (transform2 (foot_position_in_ads p) ref_R ref_position)).
(** robot_foot_parameters.h:110-114 with 270-275 *)
Definition getADSPositionFromFoot (f : feet_params) (x : lr) (ref_R : m2) (ref_position : v2) : outcome v2 :=
  bind (lr_get (feet f) x) (fun p => Ok (transform2 (ads_position_from_ss p) ref_R ref_position)).
(** robot_foot_parameters.h:124-140 with 287-291 *)
Definition getFootBounds (f : feet_params) (x : lr) (b : bounds_type) : outcome m2 :=
  bind (lr_get (feet f) x) (fun p =>
    match b with
    | WITH_RESPECT_TO_ADS => Ok (foot_position_fixed_ds p)
    | WITH_RESPECT_TO_SS => Ok (foot_position_bounds_ss p)
    | ALIGNED_TO_SS => Ok (foot_position_fixed_ss p)
    | FB_UNDEFINED => Throw
    end).
(** robot_foot_parameters.h:300-310 *)
Definition getADSCoPBounds (f : feet_params) : m2 := ads_cop_bounds f.
(** robot_foot_parameters.h:300-310 *)
Definition getSSCoPBounds (f : feet_params) : m2 := ss_cop_bounds f.
