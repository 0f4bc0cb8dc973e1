(** * Specification vocabulary for C10-C13 *)
From Coq Require Import List Arith Reals Bool.
From Verif Require Import Base RSum Matrix ConstraintType HierarchyLevel Constraints.
Import ListNotations.
Open Scope R_scope.

(** the dense matrix of a constraint object: coefficient of variable [j] in row [i] *)
Definition coef (c : constr) (i j : nat) : R :=
  match c_body c with
  | BodyA A => mget A i j
  | BodyAS A off => if (off <=? j)%nat && (j <? off + mcols A)%nat then mget A i (j - off) else 0
  | BodyI ix => if (j =? nth i ix 0)%nat then 1 else 0
  | BodyGI ix G => if (j =? nth i ix 0)%nat then vget G i else 0
  end.

(** value of row [i] at the point [x] *)
Definition row_value (c : constr) (i : nat) (x : nat -> R) : R := Rsum (c_nvars c) (fun j => coef c i j * x j).

(** the bounds of row [i], if there are any *)
Definition lower (c : constr) (i : nat) : option R :=
  match c_bounds c with
  | BoundsB0 => Some 0
  | BoundsB b => Some (vget b i)
  | BoundsL lb => Some (vget lb i)
  | BoundsU _ => None
  | BoundsLU lb _ => Some (vget lb i)
  end.
Definition upper (c : constr) (i : nat) : option R :=
  match c_bounds c with
  | BoundsB0 => Some 0
  | BoundsB b => Some (vget b i)
  | BoundsL _ => None
  | BoundsU ub => Some (vget ub i)
  | BoundsLU _ ub => Some (vget ub i)
  end.

Definition at_least (v : R) (o : option R) : Prop := match o with Some b => b <= v | None => True end.
Definition at_most (v : R) (o : option R) : Prop := match o with Some b => v <= b | None => True end.

(** the point satisfies all constraints of the object *)
Definition satisfies (c : constr) (x : nat -> R) : Prop :=
  forall i, (i < getNumberOfConstraints c)%nat ->
    at_least (row_value c i x) (lower c i) /\ at_most (row_value c i x) (upper c i).

(** consistent object over [nv] variables, with indices in range *)
Definition usable (nv : nat) (c : constr) : Prop :=
  c_nvars c = nv /\ checkConsistency c = true /\
  match c_body c with
  | BodyI ix | BodyGI ix _ => Forall (fun j => (j < nv)%nat) ix
  | _ => True
  end.

(** the constraint objects of the tasks of a level before forming *)
Definition described (cs : nat -> constr) (fo : nat -> formed) (nv : nat) (l : level) : Prop :=
  forall i, In i (lv_tasks l) -> let c := cs (tk_id (ti_task i)) in
    getType c = tk_type (ti_task i) /\ f_n (fo (tk_id (ti_task i))) = getNumberOfConstraints c /\ usable nv c.

(** all constraints of all tasks of a level *)
Definition satisfies_level (cs : nat -> constr) (l : level) (x : nat -> R) : Prop :=
  forall i, In i (lv_tasks l) -> satisfies (cs (tk_id (ti_task i))) x.

(** points for which 1e20 is an infinite bound: values of rows with a missing bound are below it *)
Definition within_infinity (c : constr) (x : nat -> R) : Prop :=
  forall i, (i < getNumberOfConstraints c)%nat -> lower c i = None \/ upper c i = None ->
    - g_infinity <= row_value c i x <= g_infinity.

(** meaning of the containers *)
Definition mrow (A : mat) (r : nat) (x : nat -> R) : R := Rsum (mcols A) (fun j => mget A r j * x j).
Definition sat_AB (k : contAB) (x : nat -> R) : Prop :=
  forall r, (r < mrows (ab_A k))%nat -> mrow (ab_A k) r x = vget (ab_b k) r.
Definition sat_AL (k : contAL) (x : nat -> R) : Prop :=
  forall r, (r < mrows (al_A k))%nat -> vget (al_lb k) r <= mrow (al_A k) r x.
Definition sat_ALU (k : contALU) (x : nat -> R) : Prop :=
  forall r, (r < mrows (alu_A k))%nat -> vget (alu_lb k) r <= mrow (alu_A k) r x <= vget (alu_ub k) r.
Definition sat_ILU (k : contILU) (x : nat -> R) : Prop :=
  forall r, (r < length (ilu_I k))%nat ->
    vget (ilu_lb k) r <= x (nth r (ilu_I k) 0%nat) <= vget (ilu_ub k) r.
(** meaning of the two vectors given to a solver: empty vectors are no bounds *)
Definition sat_bounds (b : vec * vec) (x : nat -> R) : Prop :=
  forall v, (v < vlen (fst b))%nat -> vget (fst b) v <= x v <= vget (snd b) v.

(** sizes of the containers *)
Definition shape_AB (k : contAB) (n nv : nat) : Prop := mrows (ab_A k) = n /\ mcols (ab_A k) = nv /\ vlen (ab_b k) = n.
Definition shape_AL (k : contAL) (n nv : nat) : Prop := mrows (al_A k) = n /\ mcols (al_A k) = nv /\ vlen (al_lb k) = n.
Definition shape_ALU (k : contALU) (n nv : nat) : Prop :=
  mrows (alu_A k) = n /\ mcols (alu_A k) = nv /\ vlen (alu_lb k) = n /\ vlen (alu_ub k) = n.
Definition shape_ILU (k : contILU) (n nv : nat) : Prop :=
  length (ilu_I k) = n /\ ilu_nvars k = nv /\ vlen (ilu_lb k) = n /\ vlen (ilu_ub k) = n.

(** classes of index constraints with gains *)
Definition has_gains (t : ctype) : bool :=
  match t with GILU | GIL | GIU | GIB | GIB0 => true | _ => false end.

(** the bounds imposed on variable [v] by the container: the infinite ones and those of its rows *)
Definition lower_of (k : contILU) (v : nat) (b : R) : Prop :=
  b = - g_infinity \/ exists r, (r < length (ilu_I k))%nat /\ nth r (ilu_I k) 0%nat = v /\ b = vget (ilu_lb k) r.
Definition upper_of (k : contILU) (v : nat) (b : R) : Prop :=
  b = g_infinity \/ exists r, (r < length (ilu_I k))%nat /\ nth r (ilu_I k) 0%nat = v /\ b = vget (ilu_ub k) r.
Definition is_max (P : R -> Prop) (a : R) : Prop := P a /\ forall b, P b -> b <= a.
Definition is_min (P : R -> Prop) (a : R) : Prop := P a /\ forall b, P b -> a <= b.
(** no value of variable [v] satisfies its bounds *)
Definition empty_interval (k : contILU) (v : nat) : Prop :=
  forall y, ~ ((forall b, lower_of k v b -> b <= y) /\ (forall b, upper_of k v b -> y <= b)).
Definition indices_in_range (k : contILU) : Prop := Forall (fun v => (v < ilu_nvars k)%nat) (ilu_I k).
