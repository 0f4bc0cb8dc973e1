(** * The bounds of the wheeled robot
    (class RobotParameters of /repo/modules/pepper_mpc/include/pepper_mpc/common.h). Its reading from a file is in ConfigClasses.v. *)
From Coq Require Import List Reals.
From Verif Require Import Base Mat2 PepperTasks PepperLoop.
Local Open Scope R_scope.

(** common.h:91-103: the values which are set by the user *)
Record robot_parameters := mkRobot { rp_base_radius : R; rp_max_nominal_base_velocity : R; rp_max_nominal_base_acceleration : R; rp_max_base_velocity : R;
  rp_max_base_acceleration : R; rp_body_bounds : m2 }.
(** common.h:55-87 finalize() and common.h:135-156, the getters which preview_horizon.h:94-97 calls: base_velocity_bounds_ and base_acceleration_bounds_
    (common.h:70-73, 83-86) are not read anywhere and are omitted *)
Definition rp_bounds (p : robot_parameters) : robot_bounds :=
  mkBounds (circle_bounds (rp_base_radius p)) (circle_bounds (rp_max_nominal_base_velocity p)) (circle_bounds (rp_max_nominal_base_acceleration p)) (rp_body_bounds p).
(** common.h:107-118 setDefaults() *)
Definition rp_defaults : robot_parameters :=
  mkRobot (7 / 10) (1 / 2) 1 (14 / 10) (17 / 10) (M2 (- (6 / 100)) (6 / 100) (- (3 / 100)) (3 / 100)).
