(** * Common vocabulary of the model.

    Outcomes of C++ functions, [humoto::Location], list (std::vector) access and
    counting loops.  No property is proved here. *)
From Coq Require Import List Arith ZArith Lia Bool.
Import ListNotations.

(** Outcome of running a C++ function.
    - [Ok v]: returns normally with value (or new object state) [v];
    - [Throw]: HUMOTO_THROW_MSG / HUMOTO_ASSERT failure (both throw std::runtime_error,
      /repo/core/include/humoto_helpers.h:70-87; asserts are modelled as active, i.e. DNDEBUG
      is not defined), std::out_of_range, or an Eigen assertion;
    - [UB]: undefined behaviour: out-of-range access through an unchecked iterator,
      read of an uninitialised value, null dereference. *)
Inductive outcome (A : Type) : Type :=
| Ok (a : A)
| Throw
| UB.
Arguments Ok {A} a.
Arguments Throw {A}.
Arguments UB {A}.

(** sequencing of two steps: an exception or undefined behaviour of the first one ends the function (humoto_helpers.h:70-87 throw) *)
Definition bind {A B} (x : outcome A) (f : A -> outcome B) : outcome B :=
  match x with
  | Ok a => f a
  | Throw => Throw
  | UB => UB
  end.

(** [HUMOTO_ASSERT(c, msg)] followed by [x]. (humoto_helpers.h:70-87) *)
Definition assert_then {A} (c : bool) (x : outcome A) : outcome A :=
  if c then x else Throw.

(** [for (i = first; i < first + count; ++i) s = body(i, s);] (the shape of the loops cited by the definitions which use it, e.g. constraints_mixins.h:1061-1096) *)
Fixpoint for_up {S : Type} (count first : nat) (body : nat -> S -> outcome S) (s : S)
  : outcome S :=
  match count with
  | O => Ok s
  | Datatypes.S c => bind (body first s) (for_up c (Datatypes.S first) body)
  end.

(** ** std::vector access *)

(** Replace element [i]; the list is unchanged when [i] is out of range (callers
    check the index first). (no code of its own: assignment to an element of a vector, e.g. active_set.h:56-61) *)
Fixpoint update {A} (l : list A) (i : nat) (v : A) : list A :=
  match l, i with
  | [], _ => []
  | _ :: t, O => v :: t
  | h :: t, S j => h :: update t j v
  end.

(** Write through an index-checked [operator[]] (assertion on the index). (e.g. active_set.h:56-61, Eigen asserts the index) *)
Definition write_at {A} (l : list A) (i : nat) (v : A) : outcome (list A) :=
  assert_then (i <? length l) (Ok (update l i v)).

(** Read through an index-checked [operator[]]. (e.g. active_set.h:71-76, Eigen asserts the index) *)
Definition read_at {A} (l : list A) (i : nat) : outcome A :=
  match nth_error l i with
  | Some v => Ok v
  | None => Throw
  end.

(** std::copy(src.begin(), src.end(), dst.begin() + off): writes all of [src]
    into [dst] at [off]; writing past the end of [dst] is undefined behaviour. (active_set.h:180-192) *)
Definition copy_into {A} (dst : list A) (off : nat) (src : list A) : outcome (list A) :=
  if off + length src <=? length dst
  then Ok (firstn off dst ++ src ++ skipn (off + length src) dst)
  else UB.

(** [v[off .. off+len)] (Eigen segment(), e.g. solution.h:281-299) *)
Definition segment {A} (l : list A) (off len : nat) : list A :=
  firstn len (skipn off l).

(** ** humoto::Location (/repo/core/include/humoto/utility.h:146-267) *)

(** Fields [offset_], [length_]; natural numbers, i.e. no std::size_t wrap-around
    (see [WLocation] below for the machine version and
    [Location_check_machine] in LocationFacts.v for why this is enough). (utility.h:146-267) *)
Record Location := mkLoc { offset : nat; len : nat }.

(** utility.h:231-234 *)
Definition loc_end (l : Location) : nat := offset l + len l.

(** utility.h:208-212; [offset_ <= end()] is kept although it is always true
    without wrap-around. *)
Definition checkLength (l : Location) (max_length : nat) : bool :=
  (offset l <=? loc_end l) && (loc_end l <=? max_length).

(** utility.h:181-185 *)
Definition loc_eqb (a b : Location) : bool :=
  (offset a =? offset b) && (len a =? len b).

(** ** Machine-integer version: std::size_t is an integer modulo 2^64. *)

(** the number of values of std::size_t, the type of the fields of Location, utility.h:148-150 *)
Definition size_t_max_plus_1 : Z := 18446744073709551616%Z. (* 2^64 *)

(** size_t addition (the sums in utility.h:208-234) *)
Definition szadd (a b : Z) : Z := ((a + b) mod size_t_max_plus_1)%Z.

(** values of std::size_t, utility.h:148-150 *)
Definition is_size_t (a : Z) : Prop := (0 <= a < size_t_max_plus_1)%Z.

(** Location with its fields of type std::size_t, utility.h:146-267 *)
Record WLocation := mkWLoc { w_offset : Z; w_len : Z }.

(** utility.h:231-234, with wrap-around *)
Definition w_end (l : WLocation) : Z := szadd (w_offset l) (w_len l).

(** utility.h:208-212, with wrap-around *)
Definition w_checkLength (l : WLocation) (max_length : Z) : bool :=
  ((w_offset l <=? w_end l) && (w_end l <=? max_length))%Z.
