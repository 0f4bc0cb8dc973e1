(** * Left/right containers (/repo/core/include/humoto/leftright.h) *)
From Coq Require Import List Arith.
From Verif Require Import Base.
Import ListNotations.

(** leftright.h:21-27; COUNT has the same value as RIGHT *)
Inductive lr := LR_UNDEFINED | LEFT | RIGHT.
(** the values of the enumeration, leftright.h:21-27 *)
Definition lr_value (x : lr) : nat :=
  match x with LR_UNDEFINED => 0 | LEFT => 1 | RIGHT => 2 end.

(** leftright.h:37-48 *)
Definition lr_invert (x : lr) : outcome lr :=
  match x with
  | LEFT => Ok RIGHT
  | RIGHT => Ok LEFT
  | LR_UNDEFINED => Throw
  end.

Section Container.
Context {A : Type}.

(** leftright.h:57-61: [t_Data data[2]] *)
Definition container := list A.

(** the condition of the assertions of operator[], leftright.h:72-86 *)
Definition is_lr (x : lr) : bool :=
  match x with LEFT | RIGHT => true | LR_UNDEFINED => false end.

(** plain array access: out of range is undefined behaviour (data[i] in leftright.h:72-86) *)
Definition array_read (c : container) (i : nat) : outcome A :=
  match nth_error c i with Some v => Ok v | None => UB end.
(** assignment to data[i], leftright.h:72-76 *)
Definition array_write (c : container) (i : nat) (v : A) : outcome container :=
  if i <? length c then Ok (update c i v) else UB.

(** leftright.h:72-76, 82-86: [operator[]], reading and assigning the result *)
Definition lr_get (c : container) (x : lr) : outcome A :=
  assert_then (is_lr x) (array_read c (lr_value x - 1)).
(** assignment to the result of operator[], leftright.h:72-76 *)
Definition lr_set (c : container) (x : lr) (v : A) : outcome container :=
  assert_then (is_lr x) (array_write c (lr_value x - 1) v).

(** leftright.h:94-115 *)
Definition getLeft (c : container) := lr_get c LEFT.
(** leftright.h:94-115 *)
Definition getRight (c : container) := lr_get c RIGHT.
(** leftright.h:94-115 *)
Definition setLeft (c : container) (v : A) := lr_set c LEFT v.
(** leftright.h:94-115 *)
Definition setRight (c : container) (v : A) := lr_set c RIGHT v.
(** leftright.h:94-115 *)
Definition copyLeft (c from : container) := bind (lr_get from LEFT) (lr_set c LEFT).
(** leftright.h:94-115 *)
Definition copyRight (c from : container) := bind (lr_get from RIGHT) (lr_set c RIGHT).

(** One operation of a history. (leftright.h:37-48, 57-115) *)
Inductive lr_op :=
| OpSet (x : lr) (v : A)
| OpSetLeft (v : A)
| OpSetRight (v : A)
| OpCopyLeft (from : container)
| OpCopyRight (from : container).

(** the effect of one operation, leftright.h:37-48, 57-115 *)
Definition lr_step (c : container) (o : lr_op) : outcome container :=
  match o with
  | OpSet x v => lr_set c x v
  | OpSetLeft v => setLeft c v
  | OpSetRight v => setRight c v
  | OpCopyLeft f => copyLeft c f
  | OpCopyRight f => copyRight c f
  end.

(** operations one after another, leftright.h:37-48, 57-115 *)
Fixpoint lr_run (c : container) (os : list lr_op) : outcome container :=
  match os with
  | [] => Ok c
  | o :: t => bind (lr_step c o) (fun c' => lr_run c' t)
  end.
End Container.
Arguments container : clear implicits.
Arguments lr_op : clear implicits.
