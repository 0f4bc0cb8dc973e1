(** * Numbers in YAML files *)
From Coq Require Import String List ZArith Reals.
From Flocq Require Import Core.
From Verif Require Import Base Config.
Import ListNotations.
Open Scope list_scope.

(** decimal digits, config_yaml/writer.h:39 (precision 15) *)
Definition radix10 : radix := Build_radix 10 eq_refl.
(** bridges/config_yaml/interface/config_yaml/writer.h:39: doubles are printed with digits10 = 15 significant decimal digits,
    correctly rounded. (No bound on the exponent: doubles whose 15 digit decimal overflows are not modelled.) *)
Definition print15 (x : R) : R := round radix10 (FLX_exp 15) ZnearestE x.
(** reader.h:161, 288: the decimal is read as the nearest double *)
Definition parse64 (d : R) : R := round radix2 (FLT_exp (-1074) 53) ZnearestE d.
(** what is read for a double which was written, config_yaml/writer.h:39 and reader.h:161, 288 *)
Definition yaml_number (x : R) : R := parse64 (print15 x).
