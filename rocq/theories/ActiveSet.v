(** * Model of /repo/core/include/humoto/active_set.h *)
From Coq Require Import List Arith Lia Bool.
From Verif Require Import Base.
Import ListNotations.

(** active_set.h:17-37 ConstraintActivationType::Type *)
Inductive act := UNDEFINED | INACTIVE | LOWER_BOUND | UPPER_BOUND | EQUALITY.

(** active_set.h:43-46 ActiveSetConstraints: its only field is the vector [data_]. *)
Definition aset := list act.

(** active_set.h:56-61 / 71-76 operator[] for reading *)
Definition as_get (s : aset) (i : nat) : outcome act := read_at s i.

(** active_set.h:71-76 operator[] for writing *)
Definition as_put (s : aset) (i : nat) (t : act) : outcome aset := write_at s i t.

(** active_set.h:117-124 set(location, type) *)
Definition as_set_location (s : aset) (l : Location) (t : act) : outcome aset :=
  assert_then (checkLength l (length s))
    (copy_into s (offset l) (repeat t (loc_end l - offset l))).

(** active_set.h:104-107 set(type) *)
Definition as_set_all (s : aset) (t : act) : outcome aset :=
  as_set_location s (mkLoc 0 (length s)) t.

(** active_set.h:133-141 copyTo(location, other): the length of [other] is not
    compared with the length of [location]; std::copy writes all of [other].
    [s] and [other] are different objects. *)
Definition as_copyTo (s : aset) (l : Location) (other : aset) : outcome aset :=
  assert_then (checkLength l (length s))
    (copy_into s (offset l) other).

(** active_set.h:150-159 copyFrom(other, location) *)
Definition as_copyFrom (s other : aset) (l : Location) : outcome aset :=
  assert_then (checkLength l (length other))
    (assert_then (len l =? length s)
       (copy_into s 0 (segment other (offset l) (loc_end l - offset l)))).

(** active_set.h:167-171 initialize(n): clear() + resize(n); the new elements are
    value-initialised, i.e. UNDEFINED (= 0) *)
Definition as_initialize (n : nat) : aset := repeat UNDEFINED n.

(** active_set.h:201-206 initialize(n, type) *)
Definition as_initialize_type (n : nat) (t : act) : aset := repeat t n.

(** active_set.h:180-192 initialize(other, location) *)
Definition as_initialize_from (s other : aset) (l : Location) : outcome aset :=
  assert_then (checkLength l (length other))
    (as_copyFrom (if length s =? len l then s else repeat UNDEFINED (len l)) other l).

(** active_set.h:217-230 shift(shift_size, type): std::rotate then std::fill *)
Definition as_shift (s : aset) (k : nat) (t : act) : outcome aset :=
  assert_then (k <? length s)
    (let rotated := skipn k s ++ firstn k s in
     copy_into rotated (length rotated - k) (repeat t k)).

(** active_set.h:238-256 countActiveInequalities: loop with a counter *)
Definition as_count (s : aset) : nat :=
  fold_left (fun n a => match a with LOWER_BOUND | UPPER_BOUND => S n | _ => n end) s 0.

(** active_set.h:278-357 ActiveSet: a vector of ActiveSetConstraints *)
Definition asets := list aset.

(** active_set.h:319-324 set(level_index, type) *)
Definition ass_set (s : asets) (lvl : nat) (t : act) : outcome asets :=
  match nth_error s lvl with
  | None => Throw
  | Some a => bind (as_set_all a t) (fun a' => write_at s lvl a')
  end.

(** active_set.h:354-364 initialize(number_of_levels, number_of_constraints);
    reading number_of_constraints[i] past its end is undefined behaviour *)
Definition ass_initialize (nlevels : nat) (nctr : list nat) : outcome asets :=
  for_up nlevels 0
    (fun i s => match nth_error nctr i with
                | Some n => write_at s i (as_initialize n)
                | None => UB
                end)
    (repeat [] nlevels).
