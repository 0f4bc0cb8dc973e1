(** * Point mass model with piece-wise linear CoP (/repo/core/include/walking/point_mass_model_6z.h)

    A horizontal axis of the state is (position, velocity, acceleration); the 6d state is the x axis followed by the y axis. *)
From Coq Require Import Reals.
From Verif Require Import Base RSum Matrix Mat3 SmallMatrix.
Open Scope R_scope.

(** core/include/humoto/constants.h: g_gravitational_acceleration = 9.8 *)
Definition gravity : R := 98 / 10.

(** the product of a column and a row, Eigen, point_mass_model_6z.h:192-245 *)
Definition outer (b d : v3) : m3 :=
  M3 (vx b * vx d) (vx b * vy d) (vx b * vz d) (vy b * vx d) (vy b * vy d) (vy b * vz d) (vz b * vx d) (vz b * vy d) (vz b * vz d).

(** point_mass_model_6z.h:39-53 *)
Definition getAdz3 (T omega : R) : m3 :=
  let ch := cosh (T * omega) in let sh := sinh (T * omega) in
  M3 1 (sh / omega) ((ch - 1) / (omega * omega))
     0 ch (sh / omega)
     0 (omega * sh) ch.
(** point_mass_model_6z.h:59-73 *)
Definition getBdz3 (T omega : R) : v3 :=
  let ch := cosh (T * omega) in let sh := sinh (T * omega) in
  V3 (- sh / omega + T) (- ch + 1) (- omega * sh).
(** point_mass_model_6z.h:79-86 *)
Definition getDdz3 (omega : R) : v3 := V3 1 0 (- 1 / (omega * omega)).
(** point_mass_model_6z.h:106-109 *)
Definition getOmega (com_height : R) : R := sqrt (gravity / com_height).

(** rigidbody::PointMassState, core/include/rigid_body/point_mass_state.h (point_mass_state.h:19-54) *)
Record point_mass_state := mkPM { pm_position : v3; pm_velocity : v3; pm_acceleration : v3 }.

(** point_mass_model_6z.h:117-128 *)
Definition convertCoMState_to_3d (c : vec) (com_height : R) : point_mass_state :=
  mkPM (V3 (vget c 0) (vget c 3) com_height) (V3 (vget c 1) (vget c 4) 0) (V3 (vget c 2) (vget c 5) 0).
(** point_mass_model_6z.h:134-144 *)
Definition convertCoMState_to_6d (s : point_mass_state) : vec :=
  mkVec 6 (fun i => match i with
    | 0%nat => vx (pm_position s) | 1%nat => vx (pm_velocity s) | 2%nat => vx (pm_acceleration s)
    | 3%nat => vy (pm_position s) | 4%nat => vy (pm_velocity s) | _ => vy (pm_acceleration s)
    end).

(** point_mass_model_6z.h:169-177; 183-186 is the case Tsample = T *)
Definition getA3 (T omega Tsample : R) : m3 :=
  m3add (getAdz3 T omega) (m3scale (- / Tsample) (outer (getBdz3 T omega) (getDdz3 omega))).
(** point_mass_model_6z.h:192-200 *)
Definition getA6 (T omega Tsample : R) : mat :=
  let A3 := mat33 (getA3 T omega Tsample) in comma4 A3 (mzero 3 3) (mzero 3 3) A3.
(** point_mass_model_6z.h:215-221 *)
Definition getB3 (T omega Tsample : R) : v3 := v3scale (/ Tsample) (getBdz3 T omega).
(** point_mass_model_6z.h:236-245 *)
Definition getB6 (T omega Tsample : R) : mat :=
  let B3 := col3 (getB3 T omega Tsample) in comma4 B3 (mzero 3 1) (mzero 3 1) B3.
(** point_mass_model_6z.h:260-266 *)
Definition getD3 (T omega : R) : v3 := v3scale (/ T) (v3opp (getDdz3 omega)).
(** point_mass_model_6z.h:272-280 *)
Definition getD6 (T omega : R) : mat :=
  let D := row3 (getD3 T omega) in comma4 D (mzero 1 3) (mzero 1 3) D.
(** point_mass_model_6z.h:286-298 *)
Definition getE6 (T : R) : mat := mscale (1 / T) (mid 2).
(** point_mass_model_6z.h:304-311 *)
Definition getDdz6 (com_height : R) : mat :=
  let hg := com_height / gravity in
  let D := row3 (V3 1 0 (- hg)) in comma4 D (mzero 1 3) (mzero 1 3) D.
(** point_mass_model_6z.h:319-325 *)
Definition getDcpv6 (omega : R) : mat :=
  let D := row3 (V3 0 1 (1 / omega)) in comma4 D (mzero 1 3) (mzero 1 3) D.

(** point_mass_model_6z.h:147-163 *)
Definition evaluate (Ts T com_height : R) (cstate control : vec) : point_mass_state :=
  let omega := getOmega com_height in
  convertCoMState_to_3d (vadd (mulv (getA6 Ts omega T) cstate) (mulv (getB6 Ts omega T) control)) com_height.
