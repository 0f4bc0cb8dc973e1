(** * Swing foot trajectory (/repo/core/include/walking/foot_trajectory.h) *)
From Coq Require Import Reals.
From Verif Require Import Base Mat3 CubicPolynomial.
Open Scope R_scope.

(** foot_trajectory.h:191-196 *)
Record foot_trajectory := mkTrajectory { tx : cubic; ty : cubic; tz1 : cubic; tz2 : cubic; ttheta : cubic }.
(** foot_trajectory.h:27-29 *)
Definition trajectory_new : foot_trajectory :=
  let z := cubic_rest 0 0 in mkTrajectory z z z z z.

(** the comparison of two doubles in foot_trajectory.h:86 *)
Definition le_b (x y : R) : bool := if Rle_dec x y then true else false.

(** the part of rigidbody::RigidBodyState that is used here
    (point_mass_state.h: position_, velocity_, acceleration_; rotary_state.h: rpy_, angular_velocity_, angular_acceleration_;
    AngleIndex::YAW = 2 is the third entry) *)
Record body_state := mkBody { b_position : v3; b_velocity : v3; b_acceleration : v3;
  b_rpy : v3; b_angular_velocity : v3; b_angular_acceleration : v3 }.

(** foot_trajectory.h:40-49; theta_ is not changed *)
Definition ft_initialize_rest (o : foot_trajectory) (a b : v3) (h : R) : outcome foot_trajectory :=
  assert_then (le_b (vz b) (vz a + h))
    (Ok (mkTrajectory (cubic_rest (vx a) (vx b)) (cubic_rest (vy a) (vy b)) (cubic_rest (vz a) (vz a + h)) (cubic_rest (h + vz a) (vz b)) (ttheta o))).
(** foot_trajectory.h:62-71; theta_ is not changed *)
Definition ft_initialize_velocities (o : foot_trajectory) (a adot b bdot : v3) (h : R) : outcome foot_trajectory :=
  assert_then (le_b (vz b) (vz a + h))
    (Ok (mkTrajectory (cubic_velocities (vx a) (vx adot) (vx b) (vx bdot)) (cubic_velocities (vy a) (vy adot) (vy b) (vy bdot))
                      (cubic_velocities (vz a) (vz adot) (vz a + h) 0) (cubic_velocities (h + vz a) 0 (vz b) (vz bdot)) (ttheta o))).
(** foot_trajectory.h:86 *)
Definition ft_initialize_states (a b : body_state) (h : R) : outcome foot_trajectory :=
  let pa := b_position a in let va := b_velocity a in let pb := b_position b in let vb := b_velocity b in
  assert_then (le_b (vz pb) (vz pa + h))
    (Ok (mkTrajectory (cubic_velocities (vx pa) (vx va) (vx pb) (vx vb)) (cubic_velocities (vy pa) (vy va) (vy pb) (vy vb))
                      (cubic_velocities (vz pa) (vz va) (vz pa + h) 0) (cubic_velocities (h + vz pa) 0 (vz pb) (vz vb))
                      (cubic_velocities (vz (b_rpy a)) (vz (b_angular_velocity a)) (vz (b_rpy b)) (vz (b_angular_velocity b))))).

(** foot_trajectory.h:107-111 *)
Definition evalx (f : foot_trajectory) (t : R) (k : evaluation_type) : outcome R := eval (tx f) t k.
(** foot_trajectory.h:117-121 *)
Definition evaly (f : foot_trajectory) (t : R) (k : evaluation_type) : outcome R := eval (ty f) t k.
(** foot_trajectory.h:127-138 *)
Definition evalz (f : foot_trajectory) (t : R) (k : evaluation_type) : outcome R :=
  if Rle_dec t (1 / 2) then eval (tz1 f) (t * 2) k else eval (tz2 f) ((t - 1 / 2) * 2) k.
(** foot_trajectory.h:144-148 *)
Definition evalTheta (f : foot_trajectory) (t : R) (k : evaluation_type) : outcome R := eval (ttheta f) t k.
(** foot_trajectory.h:159-169 *)
Definition ft_eval (f : foot_trajectory) (t : R) (k : evaluation_type) : outcome v3 :=
  bind (evalx f t k) (fun x => bind (evaly f t k) (fun y => bind (evalz f t k) (fun z => Ok (V3 x y z)))).
(** the assignment of one component of a vector, foot_trajectory.h:159-169 *)
Definition set_yaw (v : v3) (y : R) : v3 := V3 (vx v) (vy v) y.
(** foot_trajectory.h:178-188 *)
Definition ft_eval_state (f : foot_trajectory) (s : body_state) (t : R) : outcome body_state :=
  bind (ft_eval f t POSITION) (fun p => bind (ft_eval f t VELOCITY) (fun v => bind (ft_eval f t ACCELERATION) (fun a =>
  bind (evalTheta f t POSITION) (fun y => bind (evalTheta f t VELOCITY) (fun w => bind (evalTheta f t ACCELERATION) (fun e =>
  Ok (mkBody p v a (set_yaw (b_rpy s) y) (set_yaw (b_angular_velocity s) w) (set_yaw (b_angular_acceleration s) e)))))))).
