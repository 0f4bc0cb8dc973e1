(** * Property C18: milliseconds and seconds in binary64 *)
From Coq Require Import ZArith Reals Lra Lia Bool.
From Flocq Require Import Core.
From Flocq Require Import BinarySingleNaN.
From Verif Require Import Base Time TimeFacts.
Open Scope R_scope.

(** C18. Conversion to seconds and back is the identity below 2^50 ms (35000 years) *)
Theorem C18_round_trip :
  forall t, (0 <= t < 2 ^ 50)%Z -> convertSecondToMillisecond (convertMillisecondToSecond t) = Ok t.
Proof. exact round_trip. Qed.
Print Assumptions C18_round_trip.

(** C18. With truncation at most one millisecond is lost ... *)
Theorem C18_truncation :
  forall t, (0 < t < 2 ^ 50)%Z ->
  truncateSecondToMillisecond (convertMillisecondToSecond t) = Ok t \/
  truncateSecondToMillisecond (convertMillisecondToSecond t) = Ok (t - 1)%Z.
Proof. exact truncation_trip. Qed.
Print Assumptions C18_truncation.

(** C18. ... and it is lost for 1001 ms *)
Theorem C18_truncation_loses_refuted :
  exists t, (0 < t < 2 ^ 50)%Z /\ truncateSecondToMillisecond (convertMillisecondToSecond t) = Ok (t - 1)%Z.
Proof. exists 1001%Z. split; [lia|]. vm_compute. reflexivity. Qed.
Print Assumptions C18_truncation_loses_refuted.

(** C18. Any number of seconds up to 2^40 is converted to the nearest millisecond, up to one rounding of the product *)
Theorem C18_nearest :
  forall s, is_finite s = true -> 0 <= B2R s <= IZR (2 ^ 40) ->
  exists k, convertSecondToMillisecond s = Ok k /\ Rabs (IZR k - 1000 * B2R s) <= / 2 + / IZR (2 ^ 53) * (1000 * B2R s) + / IZR (2 ^ 64).
Proof. exact nearest_millisecond. Qed.
Print Assumptions C18_nearest.

Example C18_case : convertSecondToMillisecond (convertMillisecondToSecond 1001) = Ok 1001%Z /\ (0 < 1001 < 2 ^ 50)%Z.
Proof. split; [vm_compute; reflexivity|lia]. Qed.
