(** * Property C36. Vocabulary ([two], [valid_op], [writes], [spec_step]) in LeftRightFacts.v. *)
From Coq Require Import List Arith.
From Verif Require Import Base LeftRight LeftRightFacts.
Import ListNotations.

(** C36. invert exchanges the sides, is an involution, has no fixed point, rejects undefined *)
Theorem C36_invert :
  (forall x, x <> LR_UNDEFINED ->
     exists y, lr_invert x = Ok y /\ y <> x /\ y <> LR_UNDEFINED /\ lr_invert y = Ok x) /\
  lr_invert LR_UNDEFINED = Throw.
Proof. exact invert_facts. Qed.
Print Assumptions C36_invert.

(** C36. One write: read back on this side, no change of the other one *)
Theorem C36_write_read_frame :
  forall (A : Type) (c : container A) (o : lr_op A) (x : lr) (v : A),
  two c -> valid_op o -> writes o x v ->
  exists c', lr_step c o = Ok c' /\ two c' /\ lr_get c' x = Ok v /\
             forall y, y <> x -> lr_get c' y = lr_get c y.
Proof. exact @step_frame. Qed.
Print Assumptions C36_write_read_frame.

(** C36. Any history behaves as two independent registers *)
Theorem C36_history :
  forall (A : Type) (os : list (lr_op A)) (l r : A), Forall valid_op os ->
  exists l' r', lr_run [l; r] os = Ok [l'; r'] /\ (l', r') = fold_left spec_step os (l, r).
Proof. exact @run_refines. Qed.
Print Assumptions C36_history.

Theorem C36_reads :
  forall (A : Type) (l r : A),
  getLeft [l; r] = Ok l /\ getRight [l; r] = Ok r /\ lr_get [l; r] LEFT = Ok l /\ lr_get [l; r] RIGHT = Ok r.
Proof. exact @reads. Qed.
Print Assumptions C36_reads.

Theorem C36_undefined_rejected :
  forall (A : Type) (c : container A) (v : A),
  lr_get c LR_UNDEFINED = Throw /\ lr_set c LR_UNDEFINED v = Throw.
Proof. exact @undefined_rejected. Qed.
Print Assumptions C36_undefined_rejected.

Example C36_case :
  Forall valid_op [OpSetLeft 5; OpCopyRight [7; 8]; OpSet LEFT 9] /\
  lr_run [1; 2] [OpSetLeft 5; OpCopyRight [7; 8]; OpSet LEFT 9] = Ok [9; 8].
Proof. split; [repeat constructor; simpl; try discriminate; exists 7, 8; reflexivity|reflexivity]. Qed.
