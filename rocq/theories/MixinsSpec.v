(** * Specification vocabulary for properties C04 and C05 *)
From Coq Require Import List Arith Reals.
From Verif Require Import Base ActiveSet Mixins.
Open Scope R_scope.

(** what activation type [a] of a constraint [lb <= p <= ub] must mean *)
Definition meaningLU (lb ub p : R) (a : act) : Prop :=
  match a with
  | UNDEFINED => lb > ub
  | EQUALITY => lb = ub
  | LOWER_BOUND => lb < ub /\ p <= lb
  | UPPER_BOUND => lb < ub /\ ub <= p
  | INACTIVE => lb < p /\ p < ub
  end.

(** ... of a constraint [lb <= p] *)
Definition meaningL (lb p : R) (a : act) : Prop :=
  match a with
  | LOWER_BOUND => p <= lb
  | INACTIVE => lb < p
  | _ => False
  end.

(** ... of a constraint [p <= ub] *)
Definition meaningU (ub p : R) (a : act) : Prop :=
  match a with
  | UPPER_BOUND => ub <= p
  | INACTIVE => p < ub
  | _ => False
  end.

(** [r] is [s] with the entries of segment [l] satisfying [P] and all others unchanged *)
Definition only_segment (s r : aset) (l : Location) (P : nat -> act -> Prop) : Prop :=
  length r = length s /\
  (forall i, (i < len l)%nat -> exists a, nth_error r (offset l + i) = Some a /\ P i a) /\
  (forall j, (j < offset l \/ offset l + len l <= j)%nat -> nth_error r j = nth_error s j).

(** [v] is the signed violation of [lb <= p <= ub]: zero iff satisfied, otherwise the
    sign tells the violated bound and the magnitude is the distance to it (if both
    bounds are violated, i.e. lb > ub, the lower one is reported) *)
Definition signed_violation (lb ub p v : R) : Prop :=
  (v = 0 <-> lb <= p <= ub) /\
  (v < 0 <-> p < lb) /\ (v < 0 -> Rabs v = lb - p) /\
  (v > 0 <-> lb <= p /\ ub < p) /\ (v > 0 -> Rabs v = p - ub).

(** the violations object has consistent vectors *)
Definition consistent (v : viol) : Prop :=
  length (v_lower v) = length (v_data v) /\ length (v_upper v) = length (v_data v).

(** [r] is [v] with the violations of segment [l] satisfying [P], everything else unchanged *)
Definition only_violations (v r : viol) (l : Location) (P : nat -> R -> Prop) : Prop :=
  consistent r /\ viol_size r = viol_size v /\
  (forall i, (i < len l)%nat -> exists x, viol_get r (offset l + i) = Ok x /\ P i x) /\
  (forall j, (j < offset l \/ offset l + len l <= j)%nat ->
      viol_get r j = viol_get v j /\ viol_getLower r j = viol_getLower v j /\ viol_getUpper r j = viol_getUpper v j).

(** what can be observed of entry [i]: the violation and the differences to the bounds *)
Definition entry (v : viol) (i : nat) : outcome (R * R * R) :=
  bind (viol_get v i) (fun a => bind (viol_getLower v i) (fun b => bind (viol_getUpper v i) (fun c => Ok (a, b, c)))).
