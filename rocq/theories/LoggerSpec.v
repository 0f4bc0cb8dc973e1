(** * Specification vocabulary for C47, C48: histories (newest event first) *)
From Coq Require Import String List Arith.
From Verif Require Import Base Logger.
Import ListNotations.
(** messages in the order in which they entered the queue / were written *)
Fixpoint inserted {M} (h : list (event M)) : list M :=
  match h with [] => [] | EInsert m :: t => inserted t ++ [m] | _ :: t => inserted t end.
Fixpoint written {M} (h : list (event M)) : list M :=
  match h with [] => [] | EWrite _ m :: t => written t ++ [m] | _ :: t => written t end.
(** the output in use: that of the last successful initialisation, none once the thread has been stopped *)
Fixpoint active {M} (h : list (event M)) : option dest :=
  match h with [] => None | EBound d :: _ => Some d | EJoined :: _ => None | _ :: t => active t end.
Definition no_request {M} (h : list (event M)) := ~ In ERequest h /\ ~ In EJoined h.

(** the basic logger: messages go to the output given last *)
Fixpoint ideal {M} (current : option dest) (ops : list (basic_op M)) : list (dest * M) :=
  match ops with
  | [] => []
  | BStream s :: t => ideal (Some (ToStream s)) t
  | BFile f _ :: t => ideal (Some (ToFile f)) t
  | BLog m :: t => match current with Some d => (d, m) :: ideal current t | None => ideal current t end
  end.
(** the number of initialisations with a file *)
Fixpoint files {M} (ops : list (basic_op M)) : nat :=
  match ops with [] => 0 | BFile _ _ :: t => S (files t) | _ :: t => files t end.
(** the file system accepts every file; the first operation gives an output *)
Fixpoint all_open {M} (ops : list (basic_op M)) : Prop :=
  match ops with [] => True | BFile _ fs :: t => fs = true /\ all_open t | _ :: t => all_open t end.
