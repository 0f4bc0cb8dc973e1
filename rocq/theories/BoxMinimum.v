(** * A continuous function has a minimum on a box

    Used for the existence of solutions of the optimization problems (C101); no code is modelled here. *)
From Coq Require Import List Arith Bool Reals Lra Lia.
From Verif Require Import RSum.
Import ListNotations.
Local Open Scope R_scope.

(** a box: the coordinates below [n] are between [lo] and [hi] *)
Definition box (n : nat) (lo hi : nat -> R) (x : nat -> R) : Prop := forall i, (i < n)%nat -> lo i <= x i <= hi i.
Definition dist1 (n : nat) (x y : nat -> R) : R := Rsum n (fun i => Rabs (x i - y i)).
(** bounded and Lipschitz continuous on a box *)
Definition tame (n : nat) (lo hi : nat -> R) (F : (nat -> R) -> R) : Prop :=
  exists B K, 0 <= B /\ 0 <= K /\ (forall x, box n lo hi x -> Rabs (F x) <= B) /\
    forall x y, box n lo hi x -> box n lo hi y -> Rabs (F x - F y) <= K * dist1 n x y.

Lemma dist1_nonneg n x y : 0 <= dist1 n x y.
Proof.
  unfold dist1. induction n as [|n IH]; cbn; [lra|]. pose proof (Rabs_pos (x n - y n)). lra.
Qed.
Lemma dist1_self n x : dist1 n x x = 0.
Proof.
  unfold dist1. induction n as [|n IH]; cbn; [reflexivity|]. rewrite IH, Rminus_diag_eq by reflexivity. rewrite Rabs_R0. lra.
Qed.
Lemma dist1_coord n x y i : (i < n)%nat -> Rabs (x i - y i) <= dist1 n x y.
Proof.
  unfold dist1. induction n as [|n IH]; intros L; [lia|]. cbn. pose proof (dist1_nonneg n x y) as P. unfold dist1 in P.
  destruct (Nat.eq_dec i n) as [->|N]; [lra|]. specialize (IH ltac:(lia)). pose proof (Rabs_pos (x n - y n)). lra.
Qed.

(** ** closure properties *)
Lemma tame_const n lo hi c : tame n lo hi (fun _ => c).
Proof.
  exists (Rabs c), 0. split; [apply Rabs_pos|]. split; [lra|]. split; [intros; lra|]. intros x y _ _. rewrite Rminus_diag_eq by reflexivity. rewrite Rabs_R0. lra.
Qed.
Lemma tame_coord n lo hi i : (i < n)%nat -> tame n lo hi (fun x => x i).
Proof.
  intros L. exists (Rabs (lo i) + Rabs (hi i)), 1. pose proof (Rabs_pos (lo i)). pose proof (Rabs_pos (hi i)). split; [lra|]. split; [lra|]. split.
  - intros x B. specialize (B i L). pose proof (Rle_abs (hi i)). pose proof (Rle_abs (- lo i)) as A. rewrite Rabs_Ropp in A. apply Rabs_le. lra.
  - intros x y _ _. rewrite Rmult_1_l. apply dist1_coord. exact L.
Qed.
Lemma tame_plus n lo hi F G : tame n lo hi F -> tame n lo hi G -> tame n lo hi (fun x => F x + G x).
Proof.
  intros (B1 & K1 & P1 & Q1 & H1 & L1) (B2 & K2 & P2 & Q2 & H2 & L2). exists (B1 + B2), (K1 + K2). split; [lra|]. split; [lra|]. split.
  - intros x X. eapply Rle_trans; [apply Rabs_triang|]. specialize (H1 x X). specialize (H2 x X). lra.
  - intros x y X Y. replace (F x + G x - (F y + G y)) with (F x - F y + (G x - G y)) by ring. eapply Rle_trans; [apply Rabs_triang|].
    specialize (L1 x y X Y). specialize (L2 x y X Y). lra.
Qed.
Lemma tame_mult n lo hi F G : tame n lo hi F -> tame n lo hi G -> tame n lo hi (fun x => F x * G x).
Proof.
  intros (B1 & K1 & P1 & Q1 & H1 & L1) (B2 & K2 & P2 & Q2 & H2 & L2). exists (B1 * B2), (K1 * B2 + B1 * K2). split; [apply Rmult_le_pos; assumption|].
  split; [apply Rplus_le_le_0_compat; apply Rmult_le_pos; assumption|]. split.
  - intros x X. rewrite Rabs_mult. apply Rmult_le_compat; try apply Rabs_pos; auto.
  - intros x y X Y. replace (F x * G x - F y * G y) with ((F x - F y) * G x + F y * (G x - G y)) by ring. eapply Rle_trans; [apply Rabs_triang|]. rewrite !Rabs_mult, Rmult_plus_distr_r.
    apply Rplus_le_compat.
    + replace (K1 * B2 * dist1 n x y) with (K1 * dist1 n x y * B2) by ring. apply Rmult_le_compat; try apply Rabs_pos; auto.
    + rewrite Rmult_assoc. apply Rmult_le_compat; try apply Rabs_pos; auto.
Qed.
Lemma tame_ext n lo hi F G : (forall x, F x = G x) -> tame n lo hi F -> tame n lo hi G.
Proof.
  intros E (B & K & P & Q & H & L). exists B, K. split; [exact P|]. split; [exact Q|]. split; [intros x; rewrite <- E; apply H|intros x y; rewrite <- !E; apply L].
Qed.
Lemma tame_sum n lo hi m (F : nat -> (nat -> R) -> R) : (forall i, (i < m)%nat -> tame n lo hi (F i)) -> tame n lo hi (fun x => Rsum m (fun i => F i x)).
Proof.
  induction m as [|m IH]; intros H; [apply (tame_const n lo hi 0)|]. apply (tame_ext n lo hi (fun x => Rsum m (fun i => F i x) + F m x)); [reflexivity|].
  apply tame_plus; [apply IH; intros i L; apply H; lia|apply H; lia].
Qed.

(** ** the last coordinate *)
Definition put (n : nat) (t : R) (x : nat -> R) : nat -> R := fun i => if (i =? n)%nat then t else x i.
Lemma put_box n lo hi t x : lo n <= t <= hi n -> box n lo hi x -> box (S n) lo hi (put n t x).
Proof.
  intros T X i L. unfold put. destruct (Nat.eqb_spec i n) as [->|N]; [exact T|apply X; lia].
Qed.
Lemma put_dist n t s x y : dist1 (S n) (put n t x) (put n s y) = dist1 n x y + Rabs (t - s).
Proof.
  unfold dist1. cbn [Rsum]. f_equal; [|unfold put; rewrite Nat.eqb_refl; reflexivity].
  apply Rsum_ext. intros i L. unfold put. destruct (Nat.eqb_spec i n); [lia|reflexivity].
Qed.
Definition clamp (a b t : R) : R := Rmax a (Rmin b t).
Lemma clamp_in a b t : a <= b -> a <= clamp a b t <= b.
Proof. intros L. unfold clamp, Rmax, Rmin. destruct (Rle_dec b t), (Rle_dec a _); lra. Qed.
Lemma clamp_id a b t : a <= t <= b -> clamp a b t = t.
Proof. intros L. unfold clamp, Rmax, Rmin. destruct (Rle_dec b t), (Rle_dec a _); lra. Qed.
Lemma clamp_dist a b t s : Rabs (clamp a b t - clamp a b s) <= Rabs (t - s).
Proof.
  unfold clamp, Rmax, Rmin. destruct (Rle_dec b t), (Rle_dec b s); repeat destruct (Rle_dec a _); unfold Rabs; repeat destruct (Rcase_abs _); lra.
Qed.

(** a point of a box where the function [F] is the smallest *)
Definition least (n : nat) (lo hi : nat -> R) (F : (nat -> R) -> R) (x : nat -> R) : Prop :=
  box n lo hi x /\ forall y, box n lo hi y -> F x <= F y.

Lemma lipschitz_continuous (f : R -> R) K t : 0 <= K -> (forall s, Rabs (f s - f t) <= K * Rabs (s - t)) -> continuity_pt f t.
Proof.
  intros P H eps E. exists (eps / (K + 1)). split; [apply Rdiv_lt_0_compat; lra|]. intros s [_ D]. cbn in *. unfold R_dist in *.
  eapply Rle_lt_trans; [apply H|]. apply Rle_lt_trans with (K * (eps / (K + 1))); [apply Rmult_le_compat_l; [exact P|lra]|].
  apply Rmult_lt_reg_r with (K + 1); [lra|]. replace (K * (eps / (K + 1)) * (K + 1)) with (K * eps) by (field; lra). lra.
Qed.

Theorem box_minimum : forall n lo hi F, (forall i, (i < n)%nat -> lo i <= hi i) -> tame n lo hi F -> exists x, least n lo hi F x.
Proof.
  induction n as [|n IH]; intros lo hi F O T.
  - destruct T as (B & K & _ & _ & _ & L). exists lo. split; [intros i X; lia|]. intros y Y. assert (X : box 0 lo hi lo) by (intros i X; lia).
    specialize (L lo y X Y). unfold dist1 in L. cbn in L. rewrite Rmult_0_r in L. pose proof (Rle_abs (F lo - F y)). lra.
  - assert (On : lo n <= hi n) by (apply O; lia). set (c := clamp (lo n) (hi n)).
    assert (M : forall t, exists x, least n lo hi (fun x => F (put n (c t) x)) x).
    { intros t. apply IH; [intros i L; apply O; lia|]. destruct T as (B & K & P & Q & H & L). exists B, K. split; [exact P|]. split; [exact Q|].
      pose proof (clamp_in (lo n) (hi n) t On) as C. split; [intros x X; apply H; apply put_box; [exact C|exact X]|].
      intros x y X Y. specialize (L _ _ (put_box n lo hi _ x C X) (put_box n lo hi _ y C Y)). rewrite put_dist, (Rminus_diag_eq (clamp _ _ t)), Rabs_R0, Rplus_0_r in L by reflexivity. exact L. }
    set (E := fun t v => exists x, box n lo hi x /\ v = - F (put n (c t) x)).
    assert (Eb : forall t, bound (E t)).
    { intros t. destruct (M t) as (x & X1 & X2). exists (- F (put n (c t) x)). intros v (y & Y & ->). specialize (X2 y Y). lra. }
    assert (Ee : forall t, exists v, E t v).
    { intros t. destruct (M t) as (x & X1 & _). exists (- F (put n (c t) x)), x. split; [exact X1|reflexivity]. }
    set (m := fun t => - proj1_sig (completeness (E t) (Eb t) (Ee t))).
    assert (Mm : forall t x, least n lo hi (fun x => F (put n (c t) x)) x -> m t = F (put n (c t) x)).
    { intros t x (X1 & X2). unfold m. destruct (completeness (E t) (Eb t) (Ee t)) as [v [V1 V2]]. cbn [proj1_sig].
      assert (A : - F (put n (c t) x) <= v) by (apply V1; exists x; split; [exact X1|reflexivity]).
      assert (B : v <= - F (put n (c t) x)) by (apply V2; intros w (y & Y & ->); specialize (X2 y Y); lra). lra. }
    destruct T as (B & K & P & Q & H & L).
    assert (Half : forall t s, m t <= m s + K * Rabs (t - s)).
    { intros t s. destruct (M t) as (x & X). destruct (M s) as (y & Y). rewrite (Mm t x X), (Mm s y Y). destruct X as [X1 X2]. destruct Y as [Y1 Y2].
      eapply Rle_trans; [apply (X2 y Y1)|]. pose proof (clamp_in (lo n) (hi n) t On) as C1. pose proof (clamp_in (lo n) (hi n) s On) as C2.
      specialize (L _ _ (put_box n lo hi _ y C1 Y1) (put_box n lo hi _ y C2 Y1)). rewrite put_dist, dist1_self, Rplus_0_l in L. fold c in L. fold (c t) (c s) in L.
      pose proof (clamp_dist (lo n) (hi n) t s) as D. fold c in D. fold (c t) (c s) in D.
      pose proof (Rle_abs (F (put n (c t) y) - F (put n (c s) y))). pose proof (Rmult_le_compat_l K _ _ Q D). lra. }
    assert (Lm : forall t s, Rabs (m s - m t) <= K * Rabs (s - t)).
    { intros t s. pose proof (Half t s) as A1. pose proof (Half s t) as A2. rewrite (Rabs_minus_sym t s) in A1. apply Rabs_le. lra. }
    destruct (continuity_ab_min m (lo n) (hi n) On) as (t & T1 & T2).
    { intros t _. apply (lipschitz_continuous m K t Q). intros s. apply Lm. }
    destruct (M t) as (x & X). exists (put n (c t) x). split; [apply put_box; [apply clamp_in; exact On|apply X]|].
    intros y Y. assert (Yn : lo n <= y n <= hi n) by (apply Y; lia). specialize (T1 (y n) Yn). rewrite (Mm t x X) in T1. eapply Rle_trans; [exact T1|].
    destruct (M (y n)) as (z & Z). rewrite (Mm (y n) z Z). destruct Z as [Z1 Z2]. assert (Y' : box n lo hi y) by (intros i Hi; apply Y; lia).
    eapply Rle_trans; [apply (Z2 y Y')|]. unfold c. rewrite (clamp_id _ _ _ Yn).
    assert (Yp : box (S n) lo hi (put n (y n) y)) by (apply put_box; assumption).
    specialize (L _ _ Yp Y). assert (D : dist1 (S n) (put n (y n) y) y = 0).
    { rewrite <- (dist1_self (S n) y). unfold dist1. apply Rsum_ext. intros i Hi. unfold put. destruct (Nat.eqb_spec i n) as [->|N]; reflexivity. }
    rewrite D, Rmult_0_r in L. pose proof (Rle_abs (F (put n (y n) y) - F y)). lra.
Qed.
