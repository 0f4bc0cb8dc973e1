(** * Properties C04 and C05. Vocabulary in MixinsSpec.v. *)
From Coq Require Import List Arith Reals Lra.
From Verif Require Import Base ActiveSet Mixins MixinsSpec MixinsFacts.
Import ListNotations.
Open Scope R_scope.

(** C04. Two-sided constraints *)
Theorem C04_active_set_two_sided :
  forall (n : nat) (lb ub product : nat -> R) (s : aset) (l : Location),
  n = len l -> (offset l + len l <= length s)%nat ->
  exists r, determineActiveSetLU n lb ub product s l = Ok r /\
            only_segment s r l (fun i => meaningLU (lb i) (ub i) (product i)).
Proof. exact determineLU. Qed.
Print Assumptions C04_active_set_two_sided.

(** C04. Lower bounds *)
Theorem C04_active_set_lower :
  forall (n : nat) (lb product : nat -> R) (s : aset) (l : Location),
  n = len l -> (offset l + len l <= length s)%nat ->
  exists r, determineActiveSetL n lb product s l = Ok r /\
            only_segment s r l (fun i => meaningL (lb i) (product i)).
Proof. exact determineL. Qed.
Print Assumptions C04_active_set_lower.

(** C04. Upper bounds *)
Theorem C04_active_set_upper :
  forall (n : nat) (ub product : nat -> R) (s : aset) (l : Location),
  n = len l -> (offset l + len l <= length s)%nat ->
  exists r, determineActiveSetU n ub product s l = Ok r /\
            only_segment s r l (fun i => meaningU (ub i) (product i)).
Proof. exact determineU. Qed.
Print Assumptions C04_active_set_upper.

(** C04. Equalities *)
Theorem C04_active_set_equality :
  forall (s : aset) (l : Location), (offset l + len l <= length s)%nat ->
  exists r, determineActiveSetB s l = Ok r /\ only_segment s r l (fun _ a => a = EQUALITY).
Proof. exact determineB. Qed.
Print Assumptions C04_active_set_equality.

(** C04. The meanings are exclusive: the type is determined by the bounds and the product. *)
Theorem C04_meaning_unique :
  forall (lb ub p : R) (a b : act), meaningLU lb ub p a -> meaningLU lb ub p b -> a = b.
Proof. intros lb ub p a b; destruct a, b; simpl; intros; try reflexivity; lra. Qed.
Print Assumptions C04_meaning_unique.

(** C04. Wrong sizes and locations are rejected. *)
Theorem C04_rejected :
  forall (n : nat) (lb ub b product : nat -> R) (s : aset) (l : Location),
  n <> len l \/ (len l > 0 /\ offset l + len l > length s)%nat ->
  determineActiveSetLU n lb ub product s l = Throw /\
  determineActiveSetL n lb product s l = Throw /\
  determineActiveSetU n b product s l = Throw.
Proof. exact determine_rejects. Qed.
Print Assumptions C04_rejected.

Example C04_case :
  exists r, determineActiveSetLU 2 (fun _ => 0) (fun _ => 1) (fun i => INR i) (repeat UNDEFINED 3) (mkLoc 1 2) = Ok r
         /\ meaningLU 0 1 (INR 0) LOWER_BOUND /\ meaningLU 0 1 (INR 1) UPPER_BOUND /\ nth_error r 0 = Some UNDEFINED.
Proof.
  destruct (C04_active_set_two_sided 2 (fun _ => 0) (fun _ => 1) (fun i => INR i) (repeat UNDEFINED 3) (mkLoc 1 2))
    as (r & E & _ & _ & F); [reflexivity|simpl; auto|].
  exists r. split; [exact E|]. split; [simpl; lra|]. split; [simpl; lra|].
  rewrite (F 0%nat); [reflexivity|simpl; auto].
Qed.

(** C05. Two-sided constraints *)
Theorem C05_violations_two_sided :
  forall (n : nat) (lb ub product : nat -> R) (v : viol) (l : Location),
  n = len l -> consistent v -> (offset l + len l <= viol_size v)%nat ->
  exists r, computeViolationsLU n lb ub product v l = Ok r /\
            only_violations v r l (fun i => signed_violation (lb i) (ub i) (product i)).
Proof. exact violationsLU. Qed.
Print Assumptions C05_violations_two_sided.

(** C05. Equalities with right hand side [b], and with zero right hand side *)
Theorem C05_violations_equality :
  forall (n : nat) (b product : nat -> R) (v : viol) (l : Location),
  n = len l -> consistent v -> (offset l + len l <= viol_size v)%nat ->
  exists r, computeViolationsB n b product v l = Ok r /\
            only_violations v r l (fun i => signed_violation (b i) (b i) (product i)).
Proof. exact violationsB. Qed.
Print Assumptions C05_violations_equality.

Theorem C05_violations_equality_zero :
  forall (n : nat) (product : nat -> R) (v : viol) (l : Location),
  n = len l -> consistent v -> (offset l + len l <= viol_size v)%nat ->
  exists r, computeViolationsB0 n product v l = Ok r /\
            only_violations v r l (fun i => signed_violation 0 0 (product i)).
Proof. exact violationsB0. Qed.
Print Assumptions C05_violations_equality_zero.

(** C05. Lower and upper bounds *)
Theorem C05_violations_lower :
  forall (n : nat) (lb product : nat -> R) (v : viol) (l : Location),
  n = len l -> consistent v -> (offset l + len l <= viol_size v)%nat ->
  exists r, computeViolationsL n lb product v l = Ok r /\
            only_violations v r l
              (fun i x => (x = 0 <-> lb i <= product i) /\ x <= 0 /\ (x < 0 -> Rabs x = lb i - product i)).
Proof. exact violationsL. Qed.
Print Assumptions C05_violations_lower.

Theorem C05_violations_upper :
  forall (n : nat) (ub product : nat -> R) (v : viol) (l : Location),
  n = len l -> consistent v -> (offset l + len l <= viol_size v)%nat ->
  exists r, computeViolationsU n ub product v l = Ok r /\
            only_violations v r l
              (fun i x => (x = 0 <-> product i <= ub i) /\ 0 <= x /\ (x > 0 -> Rabs x = product i - ub i)).
Proof. exact violationsU. Qed.
Print Assumptions C05_violations_upper.

(** C05. The raw differences returned by getLower / getUpper *)
Theorem C05_bound_differences :
  forall (n : nat) (lb ub product : nat -> R) (v : viol) (l : Location),
  n = len l -> consistent v -> (offset l + len l <= viol_size v)%nat ->
  exists r, computeViolationsLU n lb ub product v l = Ok r /\
    forall i, (i < len l)%nat -> viol_getLower r (offset l + i) = Ok (product i - lb i) /\
                          viol_getUpper r (offset l + i) = Ok (product i - ub i).
Proof. exact violations_raw. Qed.
Print Assumptions C05_bound_differences.

Example C05_case :
  signed_violation 0 1 3 2 /\ signed_violation 0 1 (-3) (-3) /\ consistent (mkViol [1] [2] [3]).
Proof.
  unfold signed_violation, consistent; repeat split; intros; try lra; try reflexivity;
    try (rewrite Rabs_pos_eq; lra); rewrite Rabs_left; lra.
Qed.
