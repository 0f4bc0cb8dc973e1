(** * Property C75: violations and active sets of the levels of a hierarchy. Vocabulary in MixinsSpec.v. *)
From Coq Require Import List Arith Reals.
From Verif Require Import Base ActiveSet Mixins MixinsSpec ViolationsFacts.
Import ListNotations.
Local Open Scope R_scope.

(** copyTo: rejected exactly if the location does not fit or has another length than the source; all three
    vectors are copied, nothing else is changed *)
Theorem C75_copy_to : forall v l o,
  consistent v -> consistent o ->
  (~ ((offset l + len l <= viol_size v)%nat /\ len l = viol_size o) -> viol_copyTo v l o = Throw) /\
  ((offset l + len l <= viol_size v)%nat -> len l = viol_size o ->
    exists r, viol_copyTo v l o = Ok r /\ consistent r /\ viol_size r = viol_size v /\
      (forall i, (i < len l)%nat -> entry r (offset l + i) = entry o i) /\
      (forall j, (j < offset l \/ offset l + len l <= j)%nat -> entry r j = entry v j)).
Proof. exact viol_copyTo_spec. Qed.
Theorem C75_copy_from : forall v l o,
  consistent v -> consistent o ->
  (~ ((offset l + len l <= viol_size o)%nat /\ len l = viol_size v) -> viol_copyFrom v o l = Throw) /\
  ((offset l + len l <= viol_size o)%nat -> len l = viol_size v ->
    exists r, viol_copyFrom v o l = Ok r /\ consistent r /\ viol_size r = len l /\
      (forall i, (i < len l)%nat -> entry r i = entry o (offset l + i))).
Proof. exact viol_copyFrom_spec. Qed.
Theorem C75_round_trip : forall v l o r t,
  consistent v -> consistent o -> consistent t -> viol_size t = viol_size o ->
  viol_copyTo v l o = Ok r -> viol_copyFrom t r l = Ok o.
Proof. exact viol_round_trip. Qed.
Theorem C75_zero : forall v,
  consistent v ->
  consistent (viol_setZero v) /\ viol_size (viol_setZero v) = viol_size v /\
  forall i, (i < viol_size v)%nat -> entry (viol_setZero v) i = Ok (0, 0, 0).
Proof. exact viol_setZero_spec. Qed.
Theorem C75_zero_segment : forall v l,
  consistent v ->
  ((viol_size v < offset l + len l)%nat -> viol_setZero_location v l = Throw) /\
  ((offset l + len l <= viol_size v)%nat ->
    exists r, viol_setZero_location v l = Ok r /\ consistent r /\ viol_size r = viol_size v /\
      (forall i, (i < len l)%nat -> entry r (offset l + i) = Ok (0, 0, 0)) /\
      (forall j, (j < offset l \/ offset l + len l <= j)%nat -> entry r j = entry v j)).
Proof. exact viol_setZero_location_spec. Qed.
Theorem C75_initialised_from : forall junk v l o,
  consistent v -> consistent o ->
  ((viol_size o < offset l + len l)%nat -> viol_initialize_from junk v o l = Throw) /\
  ((offset l + len l <= viol_size o)%nat ->
    exists r, viol_initialize_from junk v o l = Ok r /\ consistent r /\ viol_size r = len l /\
      (forall i, (i < len l)%nat -> entry r i = entry o (offset l + i))).
Proof. exact viol_initialize_from_spec. Qed.
Theorem C75_initialised : forall junk v n,
  consistent (viol_initialize junk v n) /\ viol_size (viol_initialize junk v n) = n.
Proof. exact viol_initialize_spec. Qed.
(** ActiveSet::initialize *)
Theorem C75_levels_initialised : forall n (nctr : list nat),
  (n <= length nctr)%nat ->
  exists s, ass_initialize n nctr = Ok s /\ length s = n /\
    forall i, (i < n)%nat -> exists k a, nth_error nctr i = Some k /\ nth_error s i = Some a /\ length a = k /\ forall t, In t a -> t = UNDEFINED.
Proof. exact levels_initialised. Qed.
(** the vector of sizes is read without a check *)
Theorem C75_levels_overrun : forall n (nctr : list nat),
  (length nctr < n)%nat -> ass_initialize n nctr = UB.
Proof. exact levels_overrun. Qed.
Theorem C75_level_set : forall (s : asets) lvl t,
  (lvl < length s)%nat -> exists r, ass_set s lvl t = Ok r /\ length r = length s /\
  (forall j, j <> lvl -> nth_error r j = nth_error s j) /\
  (exists a b, nth_error s lvl = Some a /\ nth_error r lvl = Some b /\ length b = length a /\ forall x, In x b -> x = t).
Proof. exact level_set. Qed.
Theorem C75_level_set_rejected : forall (s : asets) lvl t,
  (length s <= lvl)%nat -> ass_set s lvl t = Throw.
Proof. exact level_set_rejected. Qed.

Example C75_case : viol_copyTo (mkViol [1; 2; 3] [4; 5; 6] [7; 8; 9]) (mkLoc 1 2) (mkViol [10; 11] [12; 13] [14; 15]) =
  Ok (mkViol [1; 10; 11] [4; 12; 13] [7; 14; 15]) /\ ass_initialize 2 [1%nat; 2%nat] = Ok [[UNDEFINED]; [UNDEFINED; UNDEFINED]].
Proof. split; reflexivity. Qed.

Print Assumptions C75_copy_to. Print Assumptions C75_copy_from. Print Assumptions C75_round_trip. Print Assumptions C75_zero. Print Assumptions C75_zero_segment. Print Assumptions C75_initialised_from. Print Assumptions C75_initialised. Print Assumptions C75_levels_initialised. Print Assumptions C75_levels_overrun. Print Assumptions C75_level_set. Print Assumptions C75_level_set_rejected.
