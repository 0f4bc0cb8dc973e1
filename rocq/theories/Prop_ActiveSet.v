(** * Properties C01, C02, C03: locations and active sets.
    Entries are observed with [nth_error] only. *)
From Coq Require Import List Arith ZArith Lia Bool.
From Verif Require Import Base BaseFacts ActiveSet ActiveSetFacts.
Import ListNotations.

(** C01.  Location(o, n).checkLength(m) is true exactly when, in exact integer
    arithmetic, the segment [o, o+n) lies inside a container of [m] elements. *)
Theorem C01_checkLength_overflow_safe :
  forall o n m : Z,
  (0 <= o < 2 ^ 64)%Z -> (0 <= n < 2 ^ 64)%Z -> (0 <= m < 2 ^ 64)%Z ->
  w_checkLength (mkWLoc o n) m = true <-> (o + n <= m)%Z.
Proof. exact w_checkLength_exact. Qed.
Print Assumptions C01_checkLength_overflow_safe.

Example C01_case_overflow :
  w_checkLength (mkWLoc (2 ^ 64 - 1) 2) 5 = false /\
  w_checkLength (mkWLoc 2 3) 5 = true.
Proof. vm_compute; auto. Qed.

(** The natural number version used in the rest of the model is the machine version. *)
Theorem C01_checkLength_model_is_machine :
  forall (l : Location) (m : nat),
  is_size_t (Z.of_nat (offset l)) -> is_size_t (Z.of_nat (len l)) -> is_size_t (Z.of_nat m) ->
  w_checkLength (mkWLoc (Z.of_nat (offset l)) (Z.of_nat (len l))) (Z.of_nat m) = checkLength l m.
Proof. exact Location_check_machine. Qed.
Print Assumptions C01_checkLength_model_is_machine.

(** C02.  Round trip: after a successful copyTo of a set of the length of the
    segment, copyFrom the same segment into any set [t] of that length returns the copied set. *)
Theorem C02_copy_round_trip :
  forall (s : aset) (l : Location) (other r t : aset),
  length other = len l -> length t = len l ->
  as_copyTo s l other = Ok r ->
  as_copyFrom t r l = Ok other.
Proof. exact copy_roundtrip. Qed.
Print Assumptions C02_copy_round_trip.

(** C02.  Effect of copyTo on every entry: entries outside of
    [offset, offset + |other|) are untouched, the size is preserved. *)
Theorem C02_copyTo_frame :
  forall (s : aset) (l : Location) (other r : aset),
  as_copyTo s l other = Ok r ->
  length r = length s /\
  forall i, nth_error r i =
    if (offset l <=? i) && (i <? offset l + length other) then nth_error other (i - offset l)
    else nth_error s i.
Proof. exact copyTo_nth. Qed.
Print Assumptions C02_copyTo_frame.

(** C02.  When copyTo is rejected, and when it is undefined: the length of the
    source is not checked, a source that sticks out of this set is written out of range. *)
Theorem C02_copyTo_outcome :
  forall (s : aset) (l : Location) (other : aset),
  (offset l + len l > length s -> as_copyTo s l other = Throw) /\
  (offset l + len l <= length s -> offset l + length other > length s -> as_copyTo s l other = UB) /\
  (offset l + len l <= length s -> offset l + length other <= length s ->
   exists r, as_copyTo s l other = Ok r).
Proof. exact copyTo_cases. Qed.
Print Assumptions C02_copyTo_outcome.

(** C02.  The unchecked source length: a location of length 1 and a source of
    length 2 overwrite an entry outside of the location. *)
Theorem C02_copyTo_spills_refuted :
  exists (s : aset) (l : Location) (other r : aset) (i : nat),
  as_copyTo s l other = Ok r /\ offset l + len l <= i /\ nth_error r i <> nth_error s i.
Proof.
  exists [INACTIVE; INACTIVE], (mkLoc 0 1), [EQUALITY; EQUALITY], [EQUALITY; EQUALITY], 1.
  repeat split; simpl; auto. discriminate.
Qed.
Print Assumptions C02_copyTo_spills_refuted.

(** C02.  copyFrom / initialize(other, location) return exactly the segment, and
    throw exactly when it does not fit. *)
Theorem C02_copyFrom_outcome :
  forall (s other : aset) (l : Location),
  as_copyFrom s other l =
  if (offset l + len l <=? length other) && (len l =? length s)
  then Ok (firstn (len l) (skipn (offset l) other)) else Throw.
Proof. exact copyFrom_cases. Qed.
Print Assumptions C02_copyFrom_outcome.

Theorem C02_initialize_from_outcome :
  forall (s other : aset) (l : Location),
  as_initialize_from s other l =
  if offset l + len l <=? length other
  then Ok (firstn (len l) (skipn (offset l) other)) else Throw.
Proof. exact initialize_from_spec. Qed.
Print Assumptions C02_initialize_from_outcome.

(** C02.  set(location, type). *)
Theorem C02_set_location :
  forall (s : aset) (l : Location) (t : act),
  (offset l + len l > length s -> as_set_location s l t = Throw) /\
  (offset l + len l <= length s ->
   exists r, as_set_location s l t = Ok r /\ length r = length s /\
   forall i, nth_error r i =
     if (offset l <=? i) && (i <? offset l + len l) then Some t else nth_error s i).
Proof. exact set_location_spec. Qed.
Print Assumptions C02_set_location.

Example C02_case :
  as_copyTo [INACTIVE; INACTIVE; EQUALITY] (mkLoc 1 2) [LOWER_BOUND; UPPER_BOUND]
  = Ok [INACTIVE; LOWER_BOUND; UPPER_BOUND].
Proof. reflexivity. Qed.

(** C03.  Effect of shift on every entry. *)
Theorem C03_shift_effect :
  forall (s : aset) (k : nat) (t : act),
  k < length s ->
  exists r, as_shift s k t = Ok r /\ length r = length s /\
  forall i, nth_error r i =
    if i + k <? length s then nth_error s (i + k)
    else if i <? length s then Some t else None.
Proof. exact shift_spec. Qed.
Print Assumptions C03_shift_effect.

Theorem C03_shift_rejected :
  forall (s : aset) (k : nat) (t : act), length s <= k <-> as_shift s k t = Throw.
Proof. exact shift_throw. Qed.
Print Assumptions C03_shift_rejected.

Theorem C03_shift_compose :
  forall (s : aset) (a b : nat) (t : act),
  a + b < length s ->
  bind (as_shift s a t) (fun s' => as_shift s' b t) = as_shift s (a + b) t.
Proof. exact shift_compose. Qed.
Print Assumptions C03_shift_compose.

Example C03_case :
  as_shift [INACTIVE; LOWER_BOUND; UPPER_BOUND; EQUALITY] 2 INACTIVE
  = Ok [UPPER_BOUND; EQUALITY; INACTIVE; INACTIVE] /\
  as_shift [INACTIVE] 1 INACTIVE = Throw.
Proof. split; reflexivity. Qed.

(** Number of active inequalities. *)
Theorem C03_count_active :
  forall s : aset,
  as_count s = count_occ act_dec s LOWER_BOUND + count_occ act_dec s UPPER_BOUND.
Proof. exact count_spec. Qed.
Print Assumptions C03_count_active.
