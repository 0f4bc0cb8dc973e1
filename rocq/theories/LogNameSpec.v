(** * Specification vocabulary for C49 *)
From Coq Require Import String Ascii List NArith.
From Verif Require Import LogName.
Import ListNotations.
Local Open Scope string_scope.
Definition special : list ascii := ["."; "{"; "}"]%char.
(** a nonempty sub-name without '.', '{', '}' / an index which fits in 64 bits *)
Definition plain (p : part) : Prop :=
  match p with
  | Sub s => s <> "" /\ forall c, In c special -> ~ In c (list_ascii_of_string s)
  | Index i => (i < 2 ^ 64 - 1)%N
  end.
