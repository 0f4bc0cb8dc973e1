(** * Conversions of time (/repo/core/include/humoto/time.h) in IEEE-754 binary64 arithmetic (Flocq) *)
From Coq Require Import ZArith Bool.
From Flocq Require Import Core.
From Flocq Require Import BinarySingleNaN.
From Verif Require Import Base.
Open Scope Z_scope.

(** double: binary64 with rounding to the nearest, ties to even *)
Definition double := binary_float 53 1024.
(** the type double, time.h:22-51 *)
Definition prec53 : Prec_gt_0 53 := eq_refl.
(** the type double, time.h:22-51 *)
Definition prec_emax : Prec_lt_emax 53 1024 := eq_refl.
(** conversion of an integer to double; [double_of_Z 1000] is the constant 1000.0 *)
Definition double_of_Z (n : Z) : double := binary_normalize 53 1024 prec53 prec_emax mode_NE n 0 false.
(** division of doubles, time.h:22-25 *)
Definition ddiv (a b : double) : double := Bdiv (prec_gt_0_ := prec53) (prec_lt_emax_ := prec_emax) mode_NE a b.
(** product of doubles, time.h:35-51 *)
Definition dmul (a b : double) : double := Bmult (prec_gt_0_ := prec53) (prec_lt_emax_ := prec_emax) mode_NE a b.
(** ::round (half away from zero) and std::floor (time.h:35-38) *)
Definition dround (a : double) : double := Bnearbyint (prec_lt_emax_ := prec_emax) mode_NA a.
(** std::floor, time.h:48-51 *)
Definition dfloor (a : double) : double := Bnearbyint (prec_lt_emax_ := prec_emax) mode_DN a.
(** static_cast<std::size_t>: truncation, undefined when the value does not fit (time.h:35-51) *)
Definition to_size_t (a : double) : outcome Z :=
  if is_finite a && (0 <=? Btrunc a) && (Btrunc a <? 2 ^ 64) then Ok (Btrunc a) else UB.

(** time.h:22-25 *)
Definition convertMillisecondToSecond (milliseconds : Z) : double := ddiv (double_of_Z milliseconds) (double_of_Z 1000).
(** time.h:35-38 *)
Definition convertSecondToMillisecond (seconds : double) : outcome Z := to_size_t (dround (dmul seconds (double_of_Z 1000))).
(** time.h:48-51 *)
Definition truncateSecondToMillisecond (seconds : double) : outcome Z := to_size_t (dfloor (dmul seconds (double_of_Z 1000))).
