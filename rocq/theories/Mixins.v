(** * Model of the active set determination and violation mixins
    (/repo/core/include/humoto/constraints_mixins.h:1030-1384) and of
    /repo/core/include/humoto/violations.h.

    The constraint object is represented by what the mixins read from it: the number
    of constraints, [getProduct(i, x)] for the current solution, and the bounds.
    Vector reads inside of the object are in range because all of them have
    [getNumberOfConstraints()] entries (checkConsistency, see Constraints.v). *)
From Coq Require Import List Arith Reals Bool.
From Verif Require Import Base ActiveSet.
Import ListNotations.
Open Scope R_scope.

(** constraints_mixins.h:1061-1096, body of the loop for two-sided constraints *)
Definition classifyLU (lb ub product : R) : act :=
  if Rgt_dec lb ub then UNDEFINED
  else if Req_EM_T lb ub then EQUALITY
  else if Rle_dec product lb then LOWER_BOUND
  else if Rge_dec product ub then UPPER_BOUND
  else INACTIVE.

(** constraints_mixins.h:1120-1131 *)
Definition classifyL (lb product : R) : act :=
  if Rle_dec product lb then LOWER_BOUND else INACTIVE.

(** constraints_mixins.h:1156-1167 *)
Definition classifyU (ub product : R) : act :=
  if Rge_dec product ub then UPPER_BOUND else INACTIVE.

(** The loop shared by the three mixins (1058-1096, 1117-1132, 1153-1168). *)
Definition determine_loop (n : nat) (classify : nat -> act) (s : aset) (l : Location) : outcome aset :=
  assert_then (n =? len l)%nat
    (for_up (len l) 0 (fun i s => as_put s (offset l + i) (classify i)) s).

(** constraints_mixins.h:1052-1097 ActiveSetDeterminationLUMixin::determineActiveSet *)
Definition determineActiveSetLU (n : nat) (lb ub product : nat -> R) (s : aset) (l : Location) :=
  determine_loop n (fun i => classifyLU (lb i) (ub i) (product i)) s l.

(** constraints_mixins.h:1111-1133 ActiveSetDeterminationLMixin *)
Definition determineActiveSetL (n : nat) (lb product : nat -> R) (s : aset) (l : Location) :=
  determine_loop n (fun i => classifyL (lb i) (product i)) s l.

(** constraints_mixins.h:1147-1169 ActiveSetDeterminationUMixin *)
Definition determineActiveSetU (n : nat) (ub product : nat -> R) (s : aset) (l : Location) :=
  determine_loop n (fun i => classifyU (ub i) (product i)) s l.

(** constraints_mixins.h:1187-1192 ActiveSetDeterminationBMixin *)
Definition determineActiveSetB (s : aset) (l : Location) : outcome aset :=
  as_set_location s l EQUALITY.

(** violations.h:17-23 ViolationsConstraints: three vectors *)
Record viol := mkViol { v_data : list R; v_lower : list R; v_upper : list R }.

(** violations.h:106-109 *)
Definition viol_size (v : viol) : nat := length (v_data v).

(** violations.h:83-97 the reported violation *)
Definition violation_value (lower_bound_diff upper_bound_diff : R) : R :=
  if Rge_dec lower_bound_diff 0
  then (if Rle_dec upper_bound_diff 0 then 0 else upper_bound_diff)
  else lower_bound_diff.

(** violations.h:73-98 set(index, lower_bound_diff, upper_bound_diff); the writes to
    lower_ and upper_ are checked by Eigen *)
Definition viol_set (v : viol) (i : nat) (lo up : R) : outcome viol :=
  assert_then (i <? length (v_data v))%nat
    (assert_then ((i <? length (v_lower v)) && (i <? length (v_upper v)))%nat
      (Ok (mkViol (update (v_data v) i (violation_value lo up))
                  (update (v_lower v) i lo) (update (v_upper v) i up)))).

(** violations.h:34-39, 49-54, 58-63 *)
Definition viol_get (v : viol) (i : nat) : outcome R := read_at (v_data v) i.
(** violations.h:49-54 *)
Definition viol_getLower (v : viol) (i : nat) : outcome R := read_at (v_lower v) i.
(** violations.h:58-63 *)
Definition viol_getUpper (v : viol) (i : nat) : outcome R := read_at (v_upper v) i.

(** Loop shared by the violation mixins (constraints_mixins.h:1234-1381) *)
Definition violations_loop (n : nat) (lo up : nat -> R) (v : viol) (l : Location) : outcome viol :=
  assert_then (n =? len l)%nat
    (for_up (len l) 0 (fun i v => viol_set v (offset l + i) (lo i) (up i)) v).

(** constraints_mixins.h:1234-1249 *)
Definition computeViolationsLU (n : nat) (lb ub product : nat -> R) (v : viol) (l : Location) :=
  violations_loop n (fun i => product i - lb i) (fun i => product i - ub i) v l.

(** constraints_mixins.h:1267-1282 *)
Definition computeViolationsL (n : nat) (lb product : nat -> R) (v : viol) (l : Location) :=
  violations_loop n (fun i => product i - lb i) (fun _ => 0) v l.

(** constraints_mixins.h:1300-1315 *)
Definition computeViolationsU (n : nat) (ub product : nat -> R) (v : viol) (l : Location) :=
  violations_loop n (fun _ => 0) (fun i => product i - ub i) v l.

(** constraints_mixins.h:1333-1348 *)
Definition computeViolationsB (n : nat) (b product : nat -> R) (v : viol) (l : Location) :=
  violations_loop n (fun i => product i - b i) (fun i => product i - b i) v l.

(** constraints_mixins.h:1366-1381 *)
Definition computeViolationsB0 (n : nat) (product : nat -> R) (v : viol) (l : Location) :=
  violations_loop n (fun i => product i) (fun i => product i) v l.

(** violations.h:116-121 setZero() *)
Definition viol_setZero (v : viol) : viol :=
  mkViol (repeat 0 (length (v_data v))) (repeat 0 (length (v_lower v))) (repeat 0 (length (v_upper v))).

(** violations.h:130-137 setZero(location); the segments of lower_ and upper_ are checked by Eigen *)
Definition viol_setZero_location (v : viol) (l : Location) : outcome viol :=
  assert_then (checkLength l (viol_size v))
    (assert_then ((offset l + len l <=? length (v_lower v)) && (offset l + len l <=? length (v_upper v)))%nat
      (bind (copy_into (v_data v) (offset l) (repeat 0 (len l))) (fun d =>
       bind (copy_into (v_lower v) (offset l) (repeat 0 (len l))) (fun lo =>
       bind (copy_into (v_upper v) (offset l) (repeat 0 (len l))) (fun up =>
       Ok (mkViol d lo up)))))).

(** violations.h:205-210 initialize(number): resize; the contents of resized vectors are not initialised ([junk]).
    Eigen keeps the storage, and the values, only if the size does not change *)
Definition resized (junk : nat -> R) (n : nat) (l : list R) : list R :=
  if (length l =? n)%nat then l else map junk (seq 0 n).
(** violations.h:202-207 *)
Definition viol_initialize (junk : nat -> R) (v : viol) (n : nat) : viol :=
  mkViol (resized junk n (v_data v)) (resized junk n (v_lower v)) (resized junk n (v_upper v)).

(** Eigen [segment(offset, length) = other]: asserts the range and equal sizes (violations.h:130-137, 146-154) *)
Definition segment_assign (dst : list R) (l : Location) (src : list R) : outcome (list R) :=
  assert_then ((offset l + len l <=? length dst) && (len l =? length src))%nat
    (copy_into dst (offset l) src).

(** violations.h:146-154 copyTo(location, other) *)
Definition viol_copyTo (v : viol) (l : Location) (o : viol) : outcome viol :=
  assert_then (checkLength l (viol_size v))
    (bind (segment_assign (v_data v) l (v_data o)) (fun d =>
     bind (segment_assign (v_lower v) l (v_lower o)) (fun lo =>
     bind (segment_assign (v_upper v) l (v_upper o)) (fun up =>
     Ok (mkViol d lo up))))).

(** violations.h:163-172 copyFrom(other, location) *)
Definition viol_copyFrom (v o : viol) (l : Location) : outcome viol :=
  assert_then (checkLength l (viol_size o))
    (assert_then (len l =? viol_size v)%nat
      (assert_then ((offset l + len l <=? length (v_lower o)) && (offset l + len l <=? length (v_upper o)))%nat
        (Ok (mkViol (segment (v_data o) (offset l) (len l))
                    (segment (v_lower o) (offset l) (len l))
                    (segment (v_upper o) (offset l) (len l)))))).

(** violations.h:185-198 initialize(other, location) *)
Definition viol_initialize_from (junk : nat -> R) (v o : viol) (l : Location) : outcome viol :=
  assert_then (checkLength l (viol_size o))
    (viol_copyFrom (if (viol_size v =? len l)%nat then v else viol_initialize junk v (len l)) o l).
