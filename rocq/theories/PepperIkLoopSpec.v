(** * Specification vocabulary for C100: inverse kinematics of Pepper in a loop *)
From Coq Require Import String List Reals Arith.
From Verif Require Import Base Mat3 RSum Constraints ConstraintsSpec Solution Rbdl RbdlSpec PepperTasksSpec PepperIk PepperIkSpec PepperIkTasks PepperIkTasksSpec PepperIkLoop.
Import ListNotations.
Local Open Scope R_scope.

(** the configuration in a state of the loop: coordinates of the root, then angles of joints *)
Definition configuration (s : ikloop) : list R := asVector (ik_gc (lk_model s)).
(** solutions of the structure that the controller gives to them *)
Definition answers (f : features) (sol : solution) : Prop := forall mp w, solution_for f (wbc_update f mp w) sol.
(** all components of a step are smaller than the tolerance *)
Definition small (tolerance : R) (sol : solution) : Prop := forall i, (i < length (sol_x sol))%nat -> Rabs (nth i (sol_x sol) 0) < tolerance.

(** [st] are the states of the loop after 0, 1, 2, ... iterations *)
Definition states (f : features) (fk : list R -> rb) (mp : motion_parameters) (sols : nat -> solution) (s : ikloop) (st : nat -> ikloop) : Prop :=
  st 0%nat = s /\ forall k, ik_iteration f fk mp (sols k) (st k) = Ok (st (S k)).
(** the step [n] is the first small one *)
Definition first_small (tolerance : R) (sols : nat -> solution) (n : nat) : Prop :=
  small tolerance (sols n) /\ forall k, (k < n)%nat -> ~ small tolerance (sols k).

(** the solution satisfies the bounds of joints, formed in the given state *)
Definition obeys_bounds (f : features) (mp : motion_parameters) (s : ikloop) (sol : solution) : Prop :=
  satisfies (form_jointsBounds (w_structure (wbc_update f mp (lk_wbc s))) (lk_model s)) (point sol).
(** the solution satisfies the task of the reference configuration, formed in the given state *)
Definition obeys_reference (f : features) (gain k : R) (reference : list R) (mp : motion_parameters) (s : ikloop) (sol : solution) : Prop :=
  satisfies (form_jointsReference gain k reference (w_structure (wbc_update f mp (lk_wbc s))) (lk_model s)) (point sol).

(** sum of absolute values in a row of a matrix *)
Definition row_norm (J : Matrix.mat) (i : nat) : R := Rsum (Matrix.mcols J) (fun j => Rabs (Matrix.mget J i j)).

(** the command [c] brings the robot from the state [s] to the state [s'], in which the base is at [P'] instead of [P]: angles of joints are
    those of the new state, they respect the limits (up to 1e-7), the speeds of joints and of wheels too; the base moves with a constant
    velocity; the rotation is the sine of the change of the heading, and the wheels roll accordingly *)
Definition executes (f : features) (fk : list R -> rb) (dt : R) (c : command) (s s' : ikloop) (P P' : v3) : Prop :=
  cmd_joints c = gc_joints (ik_gc (lk_model s')) /\ cmd_interval c = dt /\ almost_within f 1e-7 (ik_gc (lk_model s')) /\
  slow_enough f (ik_gc (lk_model s)) (ik_gc (lk_model s')) dt /\ wheels_slow (cmd_wheels c) /\
  vx P' = vx P + dt * vx (cmd_base c) /\ vy P' = vy P + dt * vy (cmd_base c) /\
  (f = ROOT_PLANAR -> base_is_root fk ->
     sin (root_at (ik_gc (lk_model s')) 2 - root_at (ik_gc (lk_model s)) 2) = dt * vz (cmd_base c) /\
     let a := root_at (ik_gc (lk_model s')) 2 in
     wheel_speeds (cos a * vx (cmd_base c) + sin a * vy (cmd_base c)) (cos a * vy (cmd_base c) - sin a * vx (cmd_base c)) (vz (cmd_base c)) (cmd_wheels c)).

(** the solution was given to the controller, and there was no update since then *)
Definition gives (c : wbc_call) : Prop := match c with WCUpdate _ => False | _ => True end.
Definition given_since (l : list wbc_call) : Prop :=
  exists l1 c l2, l = l1 ++ c :: l2 /\ gives c /\ Forall gives l2.
