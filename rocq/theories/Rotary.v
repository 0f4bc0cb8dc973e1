(** * Rotations (/repo/core/include/rigid_body/rotary_state.h, /repo/core/include/eigentools/cross_product.h) *)
From Coq Require Import Reals.
From Verif Require Import Base Mat3.
Open Scope R_scope.

(** rotary_state.h:19-30; XYZ is the same value as YPR, ZYX as RPY *)
Inductive euler_type := EULER_UNDEFINED | YPR | RPY.

(** Eigen::Quaternion: the product of two AngleAxisd is a quaternion product (used by rotary_state.h:71-94) *)
Record quaternion := Q4 { qw : R; qx : R; qy : R; qz : R }.
(** Eigen, conversion of AngleAxis to Quaternion (used by rotary_state.h:71-94) *)
Definition q_angle_axis (angle : R) (axis : v3) : quaternion :=
  Q4 (cos (angle / 2)) (sin (angle / 2) * vx axis) (sin (angle / 2) * vy axis) (sin (angle / 2) * vz axis).
(** Eigen, quaternion product (used by rotary_state.h:71-94) *)
Definition q_mul (a b : quaternion) : quaternion :=
  Q4 (qw a * qw b - qx a * qx b - qy a * qy b - qz a * qz b)
     (qw a * qx b + qx a * qw b + qy a * qz b - qz a * qy b)
     (qw a * qy b + qy a * qw b + qz a * qx b - qx a * qz b)
     (qw a * qz b + qz a * qw b + qx a * qy b - qy a * qx b).
(** Eigen, Quaternion::toRotationMatrix (used by rotary_state.h:71-94) *)
Definition q_matrix (q : quaternion) : m3 :=
  let tx := 2 * qx q in let ty := 2 * qy q in let tz := 2 * qz q in
  let twx := tx * qw q in let twy := ty * qw q in let twz := tz * qw q in
  let txx := tx * qx q in let txy := ty * qx q in let txz := tz * qx q in
  let tyy := ty * qy q in let tyz := tz * qy q in let tzz := tz * qz q in
  M3 (1 - (tyy + tzz)) (txy - twz) (txz + twy)
     (txy + twz) (1 - (txx + tzz)) (tyz - twx)
     (txz - twy) (tyz + twx) (1 - (txx + tyy)).

(** Vector3::UnitX(), UnitY(), UnitZ() of Eigen, rotary_state.h:71-94 *)
Definition unitX : v3 := V3 1 0 0.
(** Vector3::UnitX(), UnitY(), UnitZ() of Eigen, rotary_state.h:71-94 *)
Definition unitY : v3 := V3 0 1 0.
(** Vector3::UnitX(), UnitY(), UnitZ() of Eigen, rotary_state.h:71-94 *)
Definition unitZ : v3 := V3 0 0 1.

(** rotary_state.h:71-94; AngleIndex (humoto/utility.h:61-70): ROLL = 0, PITCH = 1, YAW = 2 *)
Definition convertEulerAnglesToMatrix (e : v3) (k : euler_type) : outcome m3 :=
  match k with
  | RPY => Ok (q_matrix (q_mul (q_mul (q_angle_axis (vz e) unitZ) (q_angle_axis (vy e) unitY)) (q_angle_axis (vx e) unitX)))
  | YPR => Ok (q_matrix (q_mul (q_mul (q_angle_axis (vx e) unitX) (q_angle_axis (vy e) unitY)) (q_angle_axis (vz e) unitZ)))
  | EULER_UNDEFINED => Throw
  end.
(** rotary_state.h:279-282 *)
Definition getOrientationMatrix (rpy : v3) : outcome m3 := convertEulerAnglesToMatrix rpy RPY.

(** rotary_state.h:116-120 *)
Definition getRotationError (current reference : m3) : m3 := m3mul reference (m3trans current).

(** col() and row() of Eigen, rotary_state.h:116-219 *)
Definition m3col (a : m3) (j : nat) : v3 :=
  match j with 0%nat => V3 (m00 a) (m10 a) (m20 a) | 1%nat => V3 (m01 a) (m11 a) (m21 a) | _ => V3 (m02 a) (m12 a) (m22 a) end.
(** col() and row() of Eigen, rotary_state.h:116-219 *)
Definition m3row (a : m3) (i : nat) : v3 :=
  match i with 0%nat => V3 (m00 a) (m01 a) (m02 a) | 1%nat => V3 (m10 a) (m11 a) (m12 a) | _ => V3 (m20 a) (m21 a) (m22 a) end.
(** rotary_state.h:123-131 *)
Definition getRotationErrorAngleAxis (current reference : m3) : v3 :=
  v3scale (1 / 2) (v3add (v3add (v3cross (m3col current 0) (m3col reference 0)) (v3cross (m3col current 1) (m3col reference 1)))
                         (v3cross (m3col current 2) (m3col reference 2))).

(** rotary_state.h:142-161 *)
Definition getEulerRatesToAngularVelocityTransform (e : v3) (k : euler_type) : outcome m3 :=
  match k with
  | RPY => Ok (M3 (cos (vy e) * cos (vz e)) (- sin (vz e)) 0
                  (cos (vy e) * sin (vz e)) (cos (vz e)) 0
                  (- sin (vy e)) 0 1)
  | _ => Throw
  end.

(** cross_product.h:42-58 *)
Definition cross_eval (v : v3) : m3 :=
  M3 0 (- vz v) (vy v)
     (vz v) 0 (- vx v)
     (- vy v) (vx v) 0.
(** cross_product.h:72-76 with 109-122: matrix * this *)
Definition cross_multiplyLeft (v : v3) (m : m3) : m3 := m3mul m (cross_eval v).
(** cross_product.h:90-94 with 136-149: this * vector; Eigen's cross() accepts only a 3d vector on the right, so that
    multiplication of a matrix does not compile *)
Definition cross_multiplyRight (v x : v3) : v3 := v3cross v x.

(** rotary_state.h:175-182 *)
Definition integrateAngularVelocity (orientation : m3) (w : v3) (dt : R) : m3 :=
  m3add orientation (cross_multiplyLeft w (m3scale dt orientation)).

(** rotary_state.h:196-219 *)
Definition integrateAngularVelocityRodrigues (orientation : m3) (w : v3) (dt tolerance : R) : m3 :=
  let vel := v3norm w in
  if Rlt_dec (Rabs vel) tolerance then orientation
  else
    let tilde_axis := v3scale (/ vel) w in
    let orient_axis := cross_multiplyLeft tilde_axis orientation in
    m3add (m3add orientation (m3scale (sin (vel * dt)) orient_axis))
          (cross_multiplyLeft tilde_axis (m3scale (1 - cos (vel * dt)) orient_axis)).
