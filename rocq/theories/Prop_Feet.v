(** * Properties C35 (parameters of the feet) and C46 (spatial transforms) *)
From Coq Require Import List Reals Lra.
From Verif Require Import Base LeftRight Mat2 Mat3 Matrix FootParameters FootParametersSpec FootParametersFacts SpatialTransform SpatialTransformFacts.
Import ListNotations.
Open Scope R_scope.

(** ** C35 *)
Theorem C35_round_trip : forall p x R pos,
  x = LEFT \/ x = RIGHT ->
  bind (getADSPositionFromFoot (finalize p) x R pos) (getFootPositionFromADS (finalize p) x R) = Ok pos /\
  bind (getFootPositionFromADS (finalize p) x R pos) (getADSPositionFromFoot (finalize p) x R) = Ok pos.
Proof. exact foot_ads_round_trip. Qed.
(** the two feet of an average double support are feet_dist_default apart, side by side *)
Theorem C35_other_foot : forall p x y R pos,
  the_other x y ->
  bind (getADSPositionFromFoot (finalize p) x R pos) (getFootPositionFromADS (finalize p) y R) =
  Ok (v2add pos (m2app R (V2 0 (match y with LEFT => feet_dist_default p | _ => - feet_dist_default p end)))).
Proof. exact foot_other_foot. Qed.
Theorem C35_mirror : forall p x y R pos b,
  the_other x y ->
  (exists f g, getFootPositionFromADS (finalize p) x R pos = Ok f /\ getFootPositionFromADS (finalize p) y (mirror_matrix R) (mirror pos) = Ok g /\ g = mirror f) /\
  (exists f g, getADSPositionFromFoot (finalize p) x R pos = Ok f /\ getADSPositionFromFoot (finalize p) y (mirror_matrix R) (mirror pos) = Ok g /\ g = mirror f) /\
  (b = FB_UNDEFINED \/ exists f g, getFootBounds (finalize p) x b = Ok f /\ getFootBounds (finalize p) y b = Ok g /\ g = mirror_bounds f).
Proof. exact foot_mirror. Qed.
Theorem C35_rejected : forall p x R pos b,
  (getFootPositionFromADS (finalize p) LR_UNDEFINED R pos = Throw /\ getADSPositionFromFoot (finalize p) LR_UNDEFINED R pos = Throw /\
   getFootBounds (finalize p) LR_UNDEFINED b = Throw) /\ getFootBounds (finalize p) x FB_UNDEFINED = Throw.
Proof. exact foot_rejected. Qed.
Theorem C35_bounds_ordered : forall p x b m,
  0 <= max_step_len p -> min_feet_dist p <= max_feet_dist p -> getFootBounds (finalize p) x b = Ok m -> ordered m.
Proof. exact bounds_ordered. Qed.
Theorem C35_step_bounds : forall p x m v,
  x = LEFT \/ x = RIGHT -> getFootBounds (finalize p) x WITH_RESPECT_TO_SS = Ok m ->
  (within m v <-> Rabs (ux v) <= max_step_len p /\
     min_feet_dist p <= (match x with LEFT => uy v | _ => - uy v end) <= max_feet_dist p).
Proof. exact bounds_meaning. Qed.
Theorem C35_fixed_positions : forall p x y,
  the_other x y ->
  (exists b v, getFootBounds (finalize p) x WITH_RESPECT_TO_ADS = Ok b /\ getFootPositionFromADS (finalize p) x m2id v2zero = Ok v /\ only b v) /\
  (exists b v, getFootBounds (finalize p) x ALIGNED_TO_SS = Ok b /\ getADSPositionFromFoot (finalize p) y m2id v2zero = Ok v /\ only b v).
Proof. exact fixed_positions. Qed.
(** the CoP bounds of a double support are the convex hull of the bounds of the two feet *)
Theorem C35_cop_bounds : forall p v,
  0 <= foot_length p -> 0 <= foot_width p -> 0 <= feet_dist_default p ->
  (within (getADSCoPBounds (finalize p)) v <->
   exists l r fl fr t, getFootPositionFromADS (finalize p) LEFT m2id v2zero = Ok fl /\ getFootPositionFromADS (finalize p) RIGHT m2id v2zero = Ok fr /\
     within (getSSCoPBounds (finalize p)) l /\ within (getSSCoPBounds (finalize p)) r /\ 0 <= t <= 1 /\
     v = v2add (v2scale t (v2add fl l)) (v2scale (1 - t) (v2add fr r))).
Proof. exact cop_bounds. Qed.
Example C35_example : the_other LEFT RIGHT /\ 0 <= max_step_len (prim default_feet) /\ min_feet_dist (prim default_feet) <= max_feet_dist (prim default_feet) /\
  0 <= foot_length (prim default_feet) /\ 0 <= foot_width (prim default_feet) /\ 0 <= feet_dist_default (prim default_feet) /\
  getFootPositionFromADS default_feet LEFT (M2 0 (-1) 1 0) (V2 1 2) = Ok (V2 (905 / 1000) 2) /\
  within (getADSCoPBounds default_feet) (V2 0 (1 / 10)).
Proof.
  split; [left; auto|]. cbn. do 5 (split; [lra|]). split; [f_equal; apply v2_eq; cbn; field|]. unfold within; cbn. lra.
Qed.

(** ** C46 *)
Theorem C46_velocity : forall t m m',
  mrows m = 6%nat -> st_apply t 6 (mcols m) m = Ok m' ->
  mrows m' = 6%nat /\ mcols m' = mcols m /\
  forall i, (i < mcols m)%nat -> angular m' i = angular m i /\ linear m' i = v3sub (linear m i) (v3cross t (angular m i)).
Proof. exact st_velocity. Qed.
Theorem C46_defined : forall t m,
  mrows m = 6%nat -> exists m', st_apply t 6 (mcols m) m = Ok m'.
Proof. exact st_defined. Qed.
Theorem C46_compose : forall t1 t2 m m1 m2 m12,
  mrows m = 6%nat -> st_apply t1 6 (mcols m) m = Ok m1 -> st_apply t2 6 (mcols m) m1 = Ok m2 ->
  st_apply (v3add t1 t2) 6 (mcols m) m = Ok m12 -> m2 ==m m12.
Proof. exact st_compose. Qed.
Theorem C46_inverse : forall t m m1 m2,
  mrows m = 6%nat -> st_apply t 6 (mcols m) m = Ok m1 -> st_apply (v3opp t) 6 (mcols m) m1 = Ok m2 -> m2 ==m m.
Proof. exact st_inverse. Qed.
Theorem C46_selective : forall k t m n,
  mrows m = 6%nat -> getNumberOfElements k = Ok n ->
  exists full part, st_apply t 6 (mcols m) m = Ok full /\ st_applySelective k t n (mcols m) m = Ok part /\
    mrows part = n /\ mcols part = mcols m /\ part ==m mblock full (match k with TRANSLATION => 3%nat | _ => 0%nat end) 0 n (mcols m).
Proof. exact st_selective. Qed.
Theorem C46_rejected : forall t r c m,
  st_applySelective SP_UNDEFINED t r c m = Throw /\ getNumberOfElements SP_UNDEFINED = Throw.
Proof. exact st_rejected. Qed.
Theorem C46_sizes : forall t r c m m',
  (0 < c)%nat -> st_apply t r c m = Ok m' -> r = 6%nat /\ (6 <= mrows m)%nat /\ (c <= mcols m)%nat.
Proof. exact st_sizes. Qed.
Example C46_example : exists m', st_apply (V3 1 2 3) 6 1 (mkMat 6 1 (fun i _ => INR i)) = Ok m' /\ mget m' 5 0 = 4 /\ mget m' 3 0 = 2.
Proof. eexists. split; [reflexivity|]. cbn. lra. Qed.


Print Assumptions C35_round_trip. Print Assumptions C35_other_foot. Print Assumptions C35_mirror. Print Assumptions C35_rejected. Print Assumptions C35_bounds_ordered. Print Assumptions C35_step_bounds. Print Assumptions C35_fixed_positions. Print Assumptions C35_cop_bounds. Print Assumptions C46_velocity. Print Assumptions C46_defined. Print Assumptions C46_compose. Print Assumptions C46_inverse. Print Assumptions C46_selective. Print Assumptions C46_rejected. Print Assumptions C46_sizes.
