(** * Specification vocabulary for C76-C78 *)
From Coq Require Import String List Reals Arith.
From Verif Require Import Base Matrix Mat2 Mat3 PointMass6z PointMass6zSpec Solution ConstraintType Constraints ConstraintsSpec PepperPreview PepperModel PepperMpc PepperMpcSpec.
Local Open Scope R_scope.

(** the values of the variables *)
Definition point (sol : solution) (j : nat) : R := nth j (sol_x sol) 0.

(** bounds are matrices with the columns [lower bounds, upper bounds] and a row for each axis *)
Definition lower_bound (b : m2) (a : axis) : R := match a with AxisX => a00 b | AxisY => a10 b end.
Definition upper_bound (b : m2) (a : axis) : R := match a with AxisX => a01 b | AxisY => a11 b end.
Definition within (b : m2) (a : axis) (q : R) : Prop := lower_bound b a <= q <= upper_bound b a.
Definition component (v : v2) (a : axis) : R := match a with AxisX => ux v | AxisY => uy v end.

(** data of an interval *)
Definition cop_bounds (v : interval) : option m2 := option_map (fun d => fst (fst (fst (snd d)))) (in_set v).
Definition velocity_bounds (v : interval) : option m2 := option_map (fun d => snd (fst (fst (snd d)))) (in_set v).
Definition acceleration_bounds (v : interval) : option m2 := option_map (fun d => snd (fst (snd d))) (in_set v).
Definition body_bounds (v : interval) : option m2 := option_map (fun d => snd (snd d)) (in_set v).
Definition frame (v : interval) : option m2 := option_map (fun d => fst (fst (fst d))) (in_set v).
Definition velocity_reference (v : interval) : option v2 := option_map (fun d => snd (fst (fst d))) (in_set v).
Definition position_reference (v : interval) : option v2 := option_map (fun d => snd (fst d)) (in_set v).

(** all intervals of the horizon keep [q k a] (interval k, axis a) within the bounds *)
Definition kept_within (l : list interval) (b : interval -> option m2) (q : nat -> axis -> R) : Prop :=
  forall k v m a, nth_error l k = Some v -> b v = Some m -> within m a (q k a).

(** position of the base relative to the body in the frame of the base, after interval [k] *)
Definition base_from_body (N : nat) (model : pepper_state) (p : pepper_profiles) (l : list interval) (k : nat) (a : axis) : R :=
  match nth_error l k with
  | None => 0
  | Some v => match frame v with
    | None => 0
    | Some r => in_frame r (vx (base_at model p (k + 1) AxisX) - vx (body_at N model p (k + 1) AxisX))
                           (vx (base_at model p (k + 1) AxisY) - vx (body_at N model p (k + 1) AxisY)) a
    end
  end.

(** a constraint object of [2 N] rows on [4 N] variables of the class [t], which passes the consistency checks *)
Definition task_object (t : ctype) (N : nat) (c : constr) : Prop :=
  getType c = t /\ usable (4 * N) c /\ getNumberOfConstraints c = (2 * N)%nat.
(** row [i] is an equality and [r] the difference of its sides at [x] *)
Definition residual (c : constr) (i : nat) (x : nat -> R) (r : R) : Prop :=
  exists b, lower c i = Some b /\ upper c i = Some b /\ row_value c i x - b = r.
(** the residuals of the rows of [c] are [gain * e k a] *)
Definition minimizes (N : nat) (c : constr) (x : nat -> R) (gain : R) (e : nat -> axis -> R) : Prop :=
  forall k a, (k < N)%nat -> residual c (2 * k + axis_index a) x (gain * e k a).
