(** * Vocabulary for members computed by the configurable classes and for objects made by constructors (C95) *)
From Coq Require Import String List ZArith Arith Reals Bool.
From Verif Require Import Base Matrix Mat2 Config ConfigSpec ConfigClasses.
Import ListNotations.
Open Scope list_scope.
Local Open Scope R_scope.

(** values of entries *)
Definition integer (z : Z) : value := VScalar (SInt z).
Definition number (x : R) : value := VScalar (SReal x).
(** the bounds [m]: the rows are those of x and y, the columns are the lower and the upper bound; a square around zero whose corners are on the circle with the radius [r] *)
Definition square_in (r : R) (m : m2) : Prop := exists b, 0 <= b /\ b * b + b * b = r * r /\ m = M2 (- b) b (- b) b.
(** the object made by the default constructor: its entries and other members *)
Definition entries_are (K : kclass) (vs : list value) : Prop := fst (k_new K) = vs.
Definition made (K : kclass) (vs : list value) (h : k_hidden K) : Prop := entries_are K vs /\ snd (k_new K) = h.
