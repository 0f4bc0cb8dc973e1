(** * Specification vocabulary for C90-C92: motions tracked by the inverse kinematics of Pepper, commands for the robot *)
From Coq Require Import String List Reals Arith ZArith.
From Verif Require Import Base Mat3 RSum Matrix Constraints ConstraintsSpec PepperTasksSpec RotarySpec Rotary EulerSpec Rbdl RbdlSpec PepperIk PepperIkSpec PepperIkTasks.
Import ListNotations.
Local Open Scope R_scope.

(** models which can be obtained with the functions of the class after a robot was loaded *)
Inductive reachable (eig : m3 -> euler_type -> v3) (f : features) (fk : list R -> rb) : ikmodel -> Prop :=
| rc_load junk file m m' : describes f fk file -> constructed f m -> ik_load junk f (Some file) fk m = Ok m' -> reachable eig f fk m'
| rc_update g m m' : reachable eig f fk m -> sized f g -> updateState fk g m = Ok m' -> reachable eig f fk m'
| rc_save m m' : reachable eig f fk m -> saveCurrentState m = Ok m' -> reachable eig f fk m'
| rc_correct c t m m' : reachable eig f fk m -> correct eig f fk c t m = Ok m' -> reachable eig f fk m'
| rc_correct_state g c t m m' : reachable eig f fk m -> sized f g -> correct_state eig f fk g c t m = Ok m' -> reachable eig f fk m'.

(** [M] is a motion of the robot, which passes through the state of the model with the velocities [x]; [MS] are the models of the
    robot during this motion *)
Definition moving (f : features) (fk : list R -> rb) (m : ikmodel) (M : R -> rb) (MS : R -> rmodel) (x : nat -> R) : Prop :=
  motion M 0 (mkVec (DOF_NUMBER f) x) /\ M 0 = fk (asVector (ik_gc m)) /\ MS 0 = ik_rbdl m /\ forall s, updated (M s) (MS s).
(** the model at the time [s] *)
Definition at_time (m : ikmodel) (MS : R -> rmodel) (s : R) : ikmodel := ik_set_rbdl m (MS s).
(** velocity of rotation in the world *)
Definition turns_with (O : R -> m3) (w : v3) : Prop := m3_derivative O 0 (m3mul (skew w) (O 0)).

Definition component (i : nat) (v : v3) : R := match i with 0%nat => vx v | 1%nat => vy v | _ => vz v end.
(** components of two vectors, one after another *)
Definition component6 (i : nat) (a b : v3) : R := if (i <? 3)%nat then component i a else component (i - 3) b.
(** [e] is the vector of the antisymmetric part of the rotation from [o] to [r]: if this rotation is by the angle a about the unit
    vector n, then e = sin(a) n *)
Definition orientation_error (o r : m3) (e : v3) : Prop :=
  let d := m3mul r (m3trans o) in skew e = m3scale (1 / 2) (m3add d (m3scale (-1) (m3trans d))).

(** the weight of a task; gains which differ from 1 by less than 1e-12 are taken for 1 *)
Definition weighted (gain g : R) : Prop := if Rlt_dec (Rabs (1 - gain)) 1e-12 then g = 1 else g = gain.
(** a task with [n] rows drives the values [e 0], ..., [e (n-1)] to zero: these are its residuals, multiplied by the weight *)
Definition drives (c : constr) (x : nat -> R) (n : nat) (gain : R) (e : nat -> R) : Prop :=
  getNumberOfConstraints c = n /\ (exists g, weighted gain g /\ forall i, (i < n)%nat -> residual c i x (g * e i)) /\
  (gain <> 0 -> (satisfies c x <-> forall i, (i < n)%nat -> e i = 0)).

(** the robot has a link with this name *)
Definition has_link (fk : list R -> rb) (m : ikmodel) (name : string) : Prop :=
  link (fk (asVector (ik_gc m))) (getLinkId (fk (asVector (ik_gc m))) name).
(** a task which was not used yet, or was used with the same name *)
Definition follows (m : ikmodel) (t : tag_task) : Prop := tt_tag t = None \/ tt_tag t = Some (ik_getLinkTag m (tt_id t)).
(** a controller whose decision variables are those of the robot (WholeBodyController::update() was called) *)
Definition prepared (f : features) (w : wbc) : Prop := exists mp w0, w_structure w = w_structure (wbc_update f mp w0).
(** axes selected by the bits of a flag: 1 is x, 2 is y, 4 is z *)
Definition selected_axes (flag : Z) : list nat := filter (fun i => Z.testbit flag (Z.of_nat i)) [0; 1; 2]%nat.

(** *** C92 *)
(** wheels: coordinates in the frame of the base, directions of their axes *)
Definition wheels : list (R * R * R) := [(0.09, 0.155, 1.07519348146676); (0.09, -0.155, -1.07519348146676); (-0.17, 0, -3.14159265358979323846)].
(** the base moves in its frame with the velocity (u, v) and turns with w: a wheel with the radius 0.07 rolls with the speed [s], when
    the velocity of its centre along its plane is the velocity of its rim *)
Definition rolls (u v w : R) (wheel : R * R * R) (s : R) : Prop :=
  match wheel with (px, py, a) => 0.07 * s = sin a * (u - w * py) - cos a * (v + w * px) end.
Definition wheel_speeds (u v w : R) (s : v3) : Prop := Forall2 (rolls u v w) wheels [vx s; vy s; vz s].
(** the base of the robot is the root: its coordinates are the first three *)
Definition base_is_root (fk : list R -> rb) : Prop :=
  forall x y a q, length q = JOINTS_DOF_NUMBER ->
    exists z, frame (fk ([x; y; a] ++ q)) (getLinkId (fk ([x; y; a] ++ q)) "base_footprint") (Rz a) (V3 x y z).
(** limits which a command must respect *)
Definition slow_enough (f : features) (a b : gcoord) (dt : R) : Prop := forall j, Rabs (angle f b j - angle f a j) / dt <= speed_limit j.
Definition wheels_slow (s : v3) : Prop := Rabs (vx s) <= 6.28319 /\ Rabs (vy s) <= 6.28319 /\ Rabs (vz s) <= 6.28319.
(** the robot moves with constant velocities for a time [t] *)
Definition moved (c : command) (t : R) (g g' : gcoord) : Prop :=
  sized ROOT_PLANAR g' /\
  root_at g' 0 = root_at g 0 + t * vx (cmd_base c) /\ root_at g' 1 = root_at g 1 + t * vy (cmd_base c) /\ root_at g' 2 = root_at g 2 + t * vz (cmd_base c) /\
  forall j, angle ROOT_PLANAR g' j = angle ROOT_PLANAR g j + (angle_in ROOT_PLANAR (cmd_joints c) j - angle ROOT_PLANAR g j) * t / cmd_interval c.
