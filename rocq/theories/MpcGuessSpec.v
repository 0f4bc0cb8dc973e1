(** * Specification vocabulary for C61 *)
From Coq Require Import List Reals.
Import ListNotations.

(** the previous value without its first interval, followed by zeros *)
Definition shifted (x : list R) : list R := skipn 2 x ++ [0; 0]%R.
Definition zeros (n : nat) : list R := repeat 0%R n.

