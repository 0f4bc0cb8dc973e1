(** * Names of log entries (/repo/core/include/humoto/logger.h) *)
From Coq Require Import String Ascii List NArith.
From Coq Require Import DecimalString DecimalN.
From Verif Require Import Base.
Import ListNotations.
Local Open Scope string_scope.

(** boost::lexical_cast<std::string> of a std::size_t (logger.h:228-261) *)
Definition decimal (n : N) : string := NilZero.string_of_uint (N.to_uint n).
(** logger.h:41-49 and 58-66 (a zero terminated string: its first character is zero iff it is empty) *)
Definition appendEntryName (name addition : string) : string :=
  append (match name, addition with EmptyString, _ | _, EmptyString => name | _, _ => append name "." end) addition.
(** logger.h:75-81, [index + 1] with 64 bits *)
Definition appendEntryIndex (name : string) (index : N) : string :=
  append (append (append name "{") (decimal ((index + 1) mod 2 ^ 64))) "}".
(** LogEntryName::add, logger.h:228-261; the constructors (178-212) start with the first sub-name *)
Inductive part := Sub (s : string) | Index (i : N).
(** logger.h:228-261 *)
Definition add (name : string) (p : part) : string := match p with Sub s => appendEntryName name s | Index i => appendEntryIndex name i end.
(** a name built by the constructor and add(), logger.h:178-212, 228-261 *)
Definition entry_name (parts : list part) : string := fold_left add parts "".
