From Coq Require Import List Reals Arith Lra Lia Bool.
From Verif Require Import Base BaseFacts Mat3 RSum Matrix SpatialTransform.
Open Scope R_scope.

(** angular and linear part of column [i] *)
Definition angular (m : mat) (i : nat) : v3 := V3 (mget m 0 i) (mget m 1 i) (mget m 2 i).
Definition linear (m : mat) (i : nat) : v3 := V3 (mget m 3 i) (mget m 4 i) (mget m 5 i).

Lemma st_apply_ok t m : mrows m = 6%nat -> exists m', st_apply t 6 (mcols m) m = Ok m' /\ mrows m' = 6%nat /\ mcols m' = mcols m /\
  forall r i, (r < 6)%nat -> (i < mcols m)%nat -> mget m' r i = st_entry t m r i.
Proof.
  intros H. unfold st_apply. destruct (Nat.eqb_spec (mcols m) 0) as [E|E].
  - eexists; split; [reflexivity|]. simpl. split; [reflexivity|]. split; [auto|]. intros; lia.
  - rewrite assert_true by (rewrite H, !Nat.leb_refl; reflexivity). eexists; split; [reflexivity|]. auto.
Qed.
Theorem st_velocity t m m' : mrows m = 6%nat -> st_apply t 6 (mcols m) m = Ok m' ->
  mrows m' = 6%nat /\ mcols m' = mcols m /\
  forall i, (i < mcols m)%nat -> angular m' i = angular m i /\ linear m' i = v3sub (linear m i) (v3cross t (angular m i)).
Proof.
  intros H E. destruct (st_apply_ok t m H) as (m1 & E1 & A & B & C). rewrite E in E1. inversion E1; subst m1.
  repeat split; auto; unfold angular, linear, v3sub, v3cross; rewrite !C by (auto; lia); simpl; f_equal; ring.
Qed.
Theorem st_defined t m : mrows m = 6%nat -> exists m', st_apply t 6 (mcols m) m = Ok m'.
Proof. intros H. destruct (st_apply_ok t m H) as (m1 & E1 & _). eauto. Qed.
Theorem st_compose t1 t2 m m1 m2 m12 : mrows m = 6%nat -> st_apply t1 6 (mcols m) m = Ok m1 -> st_apply t2 6 (mcols m) m1 = Ok m2 ->
  st_apply (v3add t1 t2) 6 (mcols m) m = Ok m12 -> m2 ==m m12.
Proof.
  intros H E1 E2 E3. destruct (st_apply_ok t1 m H) as (x1 & X1 & A1 & B1 & C1). rewrite E1 in X1; inversion X1; subst x1.
  destruct (st_apply_ok t2 m1 A1) as (x2 & X2 & A2 & B2 & C2). rewrite B1 in *. rewrite E2 in X2; inversion X2; subst x2.
  destruct (st_apply_ok (v3add t1 t2) m H) as (x3 & X3 & A3 & B3 & C3). rewrite E3 in X3; inversion X3; subst x3.
  split; [congruence|]. split; [congruence|]. rewrite A2, B2. intros i j Hi Hj. rewrite C2, C3 by assumption.
  destruct i as [|[|[|[|[|[|i]]]]]]; [| | | | | |lia]; simpl; rewrite !C1 by (auto; lia); simpl; ring.
Qed.
Theorem st_inverse t m m1 m2 : mrows m = 6%nat -> st_apply t 6 (mcols m) m = Ok m1 -> st_apply (v3opp t) 6 (mcols m) m1 = Ok m2 -> m2 ==m m.
Proof.
  intros H E1 E2. destruct (st_apply_ok t m H) as (x1 & X1 & A1 & B1 & C1). rewrite E1 in X1; inversion X1; subst x1.
  destruct (st_apply_ok (v3opp t) m1 A1) as (x2 & X2 & A2 & B2 & C2). rewrite B1 in *. rewrite E2 in X2; inversion X2; subst x2.
  split; [congruence|]. split; [congruence|]. rewrite A2, B2. intros i j Hi Hj. rewrite C2 by assumption.
  destruct i as [|[|[|[|[|[|i]]]]]]; [| | | | | |lia]; simpl; rewrite !C1 by (auto; lia); simpl; ring.
Qed.
(** selecting a part = transforming everything and taking the rows *)
Theorem st_selective k t m n : mrows m = 6%nat -> getNumberOfElements k = Ok n ->
  exists full part, st_apply t 6 (mcols m) m = Ok full /\ st_applySelective k t n (mcols m) m = Ok part /\
    mrows part = n /\ mcols part = mcols m /\ part ==m mblock full (match k with TRANSLATION => 3%nat | _ => 0%nat end) 0 n (mcols m).
Proof.
  intros H N. destruct (st_apply_ok t m H) as (f & E & A & B & C). exists f.
  destruct k; simpl in N; try discriminate; inversion N; subst n; clear N; simpl.
  - exists f. repeat split; auto.
  - unfold st_applyGetTranslationPart. destruct (Nat.eqb_spec (mcols m) 0) as [Z|Z].
    + eexists. split; [exact E|]. split; [reflexivity|]. simpl. repeat split; simpl; auto. intros; lia.
    + rewrite assert_true by (rewrite H, !Nat.leb_refl; reflexivity). eexists. split; [exact E|]. split; [reflexivity|]. split; [reflexivity|]. split; [reflexivity|].
      split; [reflexivity|]. split; [reflexivity|]. cbn [mrows mcols mget mblock]. intros i j Hi Hj. rewrite C by lia. reflexivity.
  - unfold st_applyGetRotationPart. rewrite assert_true by (rewrite H, !Nat.eqb_refl; reflexivity). eexists. split; [exact E|]. split; [reflexivity|].
    split; [reflexivity|]. split; [reflexivity|]. split; [reflexivity|]. split; [reflexivity|]. cbn [mrows mcols mget mblock]. intros i j Hi Hj. rewrite C by lia.
    destruct i as [|[|[|i]]]; [| | |lia]; reflexivity.
Qed.
Theorem st_rejected t r c m : st_applySelective SP_UNDEFINED t r c m = Throw /\ getNumberOfElements SP_UNDEFINED = Throw.
Proof. split; reflexivity. Qed.
(** fewer than 6 rows in the argument or a result of the wrong height are caught *)
Theorem st_sizes t r c m m' : (0 < c)%nat -> st_apply t r c m = Ok m' -> r = 6%nat /\ (6 <= mrows m)%nat /\ (c <= mcols m)%nat.
Proof.
  intros H. unfold st_apply. destruct (Nat.eqb_spec c 0); [lia|]. intros E. apply assert_ok in E. destruct E as [E _].
  rewrite !andb_true_iff, Nat.eqb_eq, !Nat.leb_le in E. tauto.
Qed.
