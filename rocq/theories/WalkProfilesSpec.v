(** * Specification vocabulary for C73, C74 *)
From Coq Require Import List Reals Arith Sorting.Sorted.
From Verif Require Import Base Matrix Mat2 Mat3 PointMass6z PointMass6zSpec Solution MpcGuess WalkProfiles.
Local Open Scope R_scope.

(** coordinates of the vector (x, y) of a frame rotated by [r] *)
Definition from_frame (r : m2) (x y : R) (a : axis) : R :=
  match a with AxisX => a00 r * x + a01 r * y | AxisY => a10 r * x + a11 r * y end.

(** variables of the k-th interval (CoP) and of the j-th variable step *)
Definition cop_local (sol : solution) (k : nat) (a : axis) : R := nth (2 * k + axis_index a) (sol_x sol) 0.
Definition step_local (N : nat) (sol : solution) (j : nat) (a : axis) : R := nth (2 * N + 2 * j + axis_index a) (sol_x sol) 0.

(** position of the support after [j] variable steps: each step is a displacement given in a frame of its own *)
Fixpoint support_after (N : nat) (Rs : list m2) (support : vec) (sol : solution) (j : nat) (a : axis) : R :=
  match j with
  | O => vget support (axis_index a)
  | S i => support_after N Rs support sol i a + from_frame (nth i Rs m2id) (step_local N sol i AxisX) (step_local N sol i AxisY) a
  end.
(** the number of variable steps which are made before or at the beginning of the i-th interval *)
Definition steps_made (steps : list nat) (i : nat) : nat := length (filter (fun s => Nat.leb s i) steps).
(** the commanded CoP of the i-th interval *)
Definition commanded_cop (N : nat) (steps : list nat) (Rs Rhs : list m2) (support : vec) (sol : solution) (i : nat) (a : axis) : R :=
  support_after N Rs support sol (steps_made steps i) a + from_frame (nth i Rhs m2id) (cop_local sol i AxisX) (cop_local sol i AxisY) a.

(** the states before and after each interval: the state of the model, then the predicted ones *)
Definition cstate_at (cstate : vec) (p : walk_profiles) (k : nat) : vec :=
  match k with O => cstate | S j => mkVec 6 (fun i => vget (wp_cstate p) (6 * j + i)) end.

(** intervals of positive height and non-zero duration; steps in the order of time, the last one within the horizon *)
Definition formed_walk (N : nat) (iv : list walk_interval) (Rhs : list m2) (steps : list nat) (Rs : list m2) (support cstate : vec) : Prop :=
  (0 < N)%nat /\ length iv = N /\ length Rhs = N /\ length Rs = length steps /\ vlen support = 2%nat /\ vlen cstate = 6%nat /\
  (forall v, In v iv -> (0 < wi_T_ms v)%nat /\ 0 < wi_height v) /\ (forall s, In s steps -> (s <= N)%nat) /\ Sorted le steps.

(** a solution [sol] of the problem of a formed horizon, the matrices [M] and the profiles [p] computed from it *)
Definition walk_solved (junk : nat -> nat -> nat -> R) (N : nat) (iv : list walk_interval) (Rhs : list m2) (steps : list nat) (Rs : list m2) (support cstate : vec)
    (sol : solution) (M : walk_matrices) (p : walk_profiles) : Prop :=
  formed_walk N iv Rhs steps Rs support cstate /\ sol_structure sol = structure_wpg N (length steps) /\ length (sol_x sol) = (2 * N + 2 * length steps)%nat /\
  walk_update junk N iv Rhs steps Rs support cstate = Ok M /\ walk_parse (junk 13%nat) M sol = Ok p.

(** position, velocity and acceleration along the axes agree *)
Definition same_motion (s s' : point_mass_state) : Prop := forall a,
  along a (pm_position s) = along a (pm_position s') /\ along a (pm_velocity s) = along a (pm_velocity s') /\ along a (pm_acceleration s) = along a (pm_acceleration s').
