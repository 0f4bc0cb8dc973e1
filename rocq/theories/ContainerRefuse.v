(** * Containers of another kind refuse constraints (C10, C11) *)
From Coq Require Import List Arith Reals.
From Verif Require Import Base Matrix ConstraintType HierarchyLevel HierarchySpec Constraints ConstraintsSpec.

Lemma other_container_refused (c : constr) (off : nat) :
  (ct_isEquality (getType c) = false -> forall k : contAB, copyTo_AB c k off = Throw) /\
  (ct_isEquality (getType c) = true -> forall k : contAL, copyTo_AL c k off = Throw).
Proof. split; intros E k; unfold getType in E; destruct c; cbn in *; repeat match goal with x : body |- _ => destruct x | x : bounds |- _ => destruct x end; cbn in *; try discriminate; reflexivity. Qed.
Lemma bounds_container_refused (c : constr) (off : nat) (k : contILU) : ct_isSimple (getType c) = false \/ has_gains (getType c) = true -> copyTo_ILU c k off = Throw.
Proof. intros E. unfold getType in E; destruct c; cbn in *; repeat match goal with x : body |- _ => destruct x | x : bounds |- _ => destruct x end; cbn in *; destruct E; try discriminate; reflexivity. Qed.
