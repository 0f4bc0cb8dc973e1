(** Specification vocabulary and proofs for C36. *)
From Coq Require Import List Arith Lia.
From Verif Require Import Base LeftRight.
Import ListNotations.

Section S.
Context {A : Type}.

(** an object: the array has two elements *)
Definition two (c : container A) : Prop := exists l r, c = [l; r].

(** what an operation writes, and where *)
Definition writes (o : lr_op A) (x : lr) (v : A) : Prop :=
  match o with
  | OpSet y w => x = y /\ v = w
  | OpSetLeft w => x = LEFT /\ v = w
  | OpSetRight w => x = RIGHT /\ v = w
  | OpCopyLeft f => x = LEFT /\ getLeft f = Ok v
  | OpCopyRight f => x = RIGHT /\ getRight f = Ok v
  end.

(** operations which may be called: a side is given and copied objects are objects *)
Definition valid_op (o : lr_op A) : Prop :=
  match o with
  | OpSet y _ => y <> LR_UNDEFINED
  | OpCopyLeft f | OpCopyRight f => two f
  | _ => True
  end.

(** the abstract specification: two independent registers *)
Definition spec_step (st : A * A) (o : lr_op A) : A * A :=
  match o with
  | OpSet LEFT v | OpSetLeft v => (v, snd st)
  | OpSet RIGHT v | OpSetRight v => (fst st, v)
  | OpSet LR_UNDEFINED _ => st
  | OpCopyLeft f => match f with l :: _ => (l, snd st) | _ => st end
  | OpCopyRight f => match f with _ :: r :: _ => (fst st, r) | _ => st end
  end.

Lemma invert_facts : (forall x, x <> LR_UNDEFINED -> exists y, lr_invert x = Ok y /\ y <> x /\ y <> LR_UNDEFINED /\ lr_invert y = Ok x)
  /\ lr_invert LR_UNDEFINED = Throw.
Proof.
  split; [|reflexivity]. intros [| |] H; [congruence| |].
  - exists RIGHT. repeat split; discriminate.
  - exists LEFT. repeat split; discriminate.
Qed.

Lemma run_refines os : forall l r, Forall valid_op os ->
  exists l' r', lr_run [l; r] os = Ok [l'; r'] /\ (l', r') = fold_left spec_step os (l, r).
Proof.
  induction os as [|o t IH]; intros l r H; simpl.
  - eauto.
  - inversion H; subst. destruct o as [x v|v|v|f|f]; simpl in *.
    + destruct x; [congruence| |]; simpl; apply IH; assumption.
    + apply IH; assumption.
    + apply IH; assumption.
    + destruct H2 as (fl & fr & ->). simpl. apply IH; assumption.
    + destruct H2 as (fl & fr & ->). simpl. apply IH; assumption.
Qed.

Lemma step_frame c o x v : two c -> valid_op o -> writes o x v ->
  exists c', lr_step c o = Ok c' /\ two c' /\ lr_get c' x = Ok v /\ forall y, y <> x -> lr_get c' y = lr_get c y.
Proof.
  intros (l & r & ->) Vo W. destruct o as [y w|w|w|f|f]; simpl in W, Vo.
  - destruct W as [-> ->]. destruct y; [congruence| |]; eexists; (split; [reflexivity|]);
      (split; [eexists; eexists; reflexivity|]); (split; [reflexivity|]); intros [| |]; cbn; intros; try reflexivity; congruence.
  - destruct W as [-> ->]. eexists; (split; [reflexivity|]);
      (split; [eexists; eexists; reflexivity|]); (split; [reflexivity|]); intros [| |]; cbn; intros; try reflexivity; congruence.
  - destruct W as [-> ->]. eexists; (split; [reflexivity|]);
      (split; [eexists; eexists; reflexivity|]); (split; [reflexivity|]); intros [| |]; cbn; intros; try reflexivity; congruence.
  - destruct Vo as (fl & fr & ->). destruct W as [-> W]. simpl in W. inversion W; subst.
    eexists; (split; [reflexivity|]); (split; [eexists; eexists; reflexivity|]); (split; [reflexivity|]); intros [| |]; cbn; intros; try reflexivity; congruence.
  - destruct Vo as (fl & fr & ->). destruct W as [-> W]. simpl in W. inversion W; subst.
    eexists; (split; [reflexivity|]); (split; [eexists; eexists; reflexivity|]); (split; [reflexivity|]); intros [| |]; cbn; intros; try reflexivity; congruence.
Qed.

Lemma reads l r : getLeft [l; r] = Ok l /\ getRight [l; r] = Ok (r : A) /\ lr_get [l; r] LEFT = Ok l /\ lr_get [l; r] RIGHT = Ok r.
Proof. repeat split. Qed.

Lemma undefined_rejected (c : container A) v : lr_get c LR_UNDEFINED = Throw /\ lr_set c LR_UNDEFINED v = Throw.
Proof. split; reflexivity. Qed.
End S.
