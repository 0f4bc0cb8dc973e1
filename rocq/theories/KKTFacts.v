From Coq Require Import List Arith Reals Bool Lra Lia.
From Verif Require Import Base BaseFacts RSum Matrix ConstraintType HierarchyLevel HierarchySpec HierarchyFacts Constraints ConstraintsSpec ConstraintsFacts
  QP QPSpec QPFacts QPFacts2 Solver KKT KKTSpec.
Import ListNotations.
Open Scope R_scope.

Lemma quadratic_expand nv H g x y : mrows H = nv -> mcols H = nv -> vlen g = nv -> symmetric H ->
  quadratic H g y = quadratic H g x + Rsum nv (fun i => (Rsum nv (fun j => mget H i j * x j) + vget g i) * (y i - x i))
    + / 2 * Rsum nv (fun i => Rsum nv (fun j => (y i - x i) * mget H i j * (y j - x j))).
Proof.
  intros H1 H2 H3 [_ S]. unfold quadratic. rewrite H1, H2, H3. rewrite H1 in S.
  assert (E : Rsum nv (fun i => Rsum nv (fun j => (y i - x i) * mget H i j * (y j - x j))) =
    Rsum nv (fun i => Rsum nv (fun j => y i * mget H i j * y j)) - Rsum nv (fun i => Rsum nv (fun j => x i * mget H i j * x j))
    - 2 * Rsum nv (fun i => Rsum nv (fun j => mget H i j * x j) * (y i - x i))).
  { rewrite <- Rsum_scal, <- !Rsum_minus.
    transitivity (Rsum nv (fun i => Rsum nv (fun j => y i * mget H i j * y j - y i * mget H i j * x j))
      - Rsum nv (fun i => Rsum nv (fun j => x i * mget H i j * y j - x i * mget H i j * x j))).
    { rewrite <- Rsum_minus. apply Rsum_ext. intros i Hi. rewrite <- Rsum_minus. apply Rsum_ext. intros. ring. }
    assert (SW : Rsum nv (fun i => Rsum nv (fun j => x i * mget H i j * y j)) = Rsum nv (fun i => Rsum nv (fun j => y i * mget H i j * x j))).
    { rewrite Rsum_swap. apply Rsum_ext. intros i Hi. apply Rsum_ext. intros j Hj. rewrite (S j i) by assumption. ring. }
    assert (L : Rsum nv (fun i => Rsum nv (fun j => mget H i j * x j) * (y i - x i)) =
      Rsum nv (fun i => Rsum nv (fun j => y i * mget H i j * x j)) - Rsum nv (fun i => Rsum nv (fun j => x i * mget H i j * x j))).
    { rewrite <- Rsum_minus. apply Rsum_ext. intros i Hi. rewrite <- Rsum_minus, <- Rsum_scal_r. apply Rsum_ext. intros; ring. }
    replace (Rsum nv (fun i => Rsum nv (fun j => y i * mget H i j * y j) - Rsum nv (fun j => x i * mget H i j * x j)
                               - 2 * (Rsum nv (fun j => mget H i j * x j) * (y i - x i))))
      with (Rsum nv (fun i => Rsum nv (fun j => y i * mget H i j * y j)) - Rsum nv (fun i => Rsum nv (fun j => x i * mget H i j * x j))
            - 2 * Rsum nv (fun i => Rsum nv (fun j => mget H i j * x j) * (y i - x i)))
      by (rewrite <- Rsum_scal, <- !Rsum_minus; reflexivity).
    rewrite L.
    replace (Rsum nv (fun i => Rsum nv (fun j => y i * mget H i j * y j - y i * mget H i j * x j)))
      with (Rsum nv (fun i => Rsum nv (fun j => y i * mget H i j * y j)) - Rsum nv (fun i => Rsum nv (fun j => y i * mget H i j * x j)))
      by (rewrite <- Rsum_minus; apply Rsum_ext; intros; rewrite <- Rsum_minus; reflexivity).
    replace (Rsum nv (fun i => Rsum nv (fun j => x i * mget H i j * y j - x i * mget H i j * x j)))
      with (Rsum nv (fun i => Rsum nv (fun j => x i * mget H i j * y j)) - Rsum nv (fun i => Rsum nv (fun j => x i * mget H i j * x j)))
      by (rewrite <- Rsum_minus; apply Rsum_ext; intros; rewrite <- Rsum_minus; reflexivity).
    rewrite SW. ring. }
  rewrite E.
  assert (G : Rsum nv (fun i => (Rsum nv (fun j => mget H i j * x j) + vget g i) * (y i - x i)) =
    Rsum nv (fun i => Rsum nv (fun j => mget H i j * x j) * (y i - x i)) + (Rsum nv (fun i => vget g i * y i) - Rsum nv (fun i => vget g i * x i))).
  { rewrite <- Rsum_minus, <- Rsum_plus. apply Rsum_ext. intros; ring. }
  rewrite G. lra.
Qed.

(** the linear term of a stationary point vanishes along feasible directions *)
Lemma stationary_direction nv H g A b x y : qp_shape nv H g A b -> stationary H g A x -> feasible A b x -> feasible A b y ->
  Rsum nv (fun i => (Rsum nv (fun j => mget H i j * x j) + vget g i) * (y i - x i)) = 0.
Proof.
  intros (H1 & H2 & H3 & H4 & H5) [lam L] X Y. rewrite H1, H2 in L.
  transitivity (Rsum nv (fun i => Rsum (mrows A) (fun r => lam r * (mget A r i * (y i - x i))))).
  { apply Rsum_ext. intros i Hi. rewrite L by assumption. rewrite <- Rsum_scal_r. apply Rsum_ext. intros; ring. }
  rewrite Rsum_swap. apply Rsum_zero. intros r Hr.
  assert (C : mcols A = nv) by (apply H4; lia).
  rewrite Rsum_scal.
  replace (Rsum nv (fun i => mget A r i * (y i - x i))) with 0; [ring|].
  specialize (X r Hr). specialize (Y r Hr). rewrite C in X, Y. symmetry.
  transitivity (Rsum nv (fun j => mget A r j * y j) - Rsum nv (fun j => mget A r j * x j)); [|lra].
  rewrite <- Rsum_minus. apply Rsum_ext. intros; ring.
Qed.

Theorem kkt_minimises nv H g A b x : qp_shape nv H g A b -> symmetric H -> positive_semidefinite H ->
  feasible A b x -> stationary H g A x -> minimises (quadratic H g) (feasible A b) x.
Proof.
  intros Q S P F ST. split; [exact F|]. intros y Y.
  pose proof (stationary_direction nv H g A b x y Q ST F Y) as Z. destruct Q as (H1 & H2 & H3 & _).
  rewrite (quadratic_expand nv H g x y H1 H2 H3 S). rewrite Z.
  specialize (P (fun i => y i - x i)). rewrite H1, H2 in P. lra.
Qed.

Theorem kkt_unique nv H g A b x y : qp_shape nv H g A b -> symmetric H -> positive_on_kernel H A ->
  feasible A b x -> stationary H g A x -> feasible A b y -> (exists i, (i < nv)%nat /\ y i <> x i) ->
  quadratic H g x < quadratic H g y.
Proof.
  intros Q S P F ST Y (i & Hi & N).
  pose proof (stationary_direction nv H g A b x y Q ST F Y) as Z. destruct Q as (H1 & H2 & H3 & H4 & _).
  rewrite (quadratic_expand nv H g x y H1 H2 H3 S). rewrite Z.
  assert (0 < Rsum nv (fun i => Rsum nv (fun j => (y i - x i) * mget H i j * (y j - x j)))).
  { specialize (P (fun i => y i - x i)). rewrite H1, H2 in P. apply P.
    - intros r Hr. specialize (F r Hr). specialize (Y r Hr).
      transitivity (Rsum (mcols A) (fun j => mget A r j * y j) - Rsum (mcols A) (fun j => mget A r j * x j)); [|lra].
      rewrite <- Rsum_minus. apply Rsum_ext. intros; ring.
    - exists i. split; [lia|]. lra. }
  lra.
Qed.

Theorem direct_kkt lin H g A b nv x : solveDirect lin H g A b nv = Ok x ->
  solves (kkt_matrix H A) (kkt_vector g b) (lin (kkt_matrix H A) (kkt_vector g b)) ->
  vlen x = nv /\ feasible A b (vget x) /\ stationary H g A (vget x).
Proof.
  unfold solveDirect. intros E [LX SV]. apply assert_ok in E. destruct E as [C E]. apply assert_ok in E. destruct E as [C2 E].
  inversion E; subst x. clear E. simpl. rewrite !andb_true_iff, !Nat.eqb_eq in C. destruct C as ((((C3 & C4) & C5) & C6) & C7).
  set (y := lin _ _) in *. destruct SV as [L SV]. simpl in L, SV, LX.
  split; [reflexivity|]. split.
  - intros r Hr. assert (C8 : mcols A = nv) by (rewrite orb_true_iff, !Nat.eqb_eq in C5; lia).
    specialize (SV (nv + r)%nat ltac:(lia)).
    replace (nv + r <? mrows H)%nat with false in SV by lia. replace (nv + r <? vlen g)%nat with false in SV by lia.
    rewrite Rsum_split in SV. rewrite (Rsum_zero (mrows A)) in SV.
    + rewrite C8. rewrite C3 in SV. replace (nv + r - nv)%nat with r in SV by lia. replace (nv + r - vlen g)%nat with r in SV by lia.
      rewrite <- SV, Rplus_0_r. apply Rsum_ext. intros j Hj. replace (j <? nv)%nat with true by lia. reflexivity.
    + intros i Hi. replace (mrows H + i <? mrows H)%nat with false by lia. ring.
  - exists (fun r => - vget y (nv + r)%nat). intros i Hi. rewrite C3 in Hi.
    specialize (SV i ltac:(lia)). replace (i <? mrows H)%nat with true in SV by lia. replace (i <? vlen g)%nat with true in SV by lia.
    rewrite Rsum_split, C3 in SV. rewrite C4.
    assert (T1 : Rsum nv (fun k => (if (k <? nv)%nat then mget H i k else mget A (k - nv) i) * vget y k) = Rsum nv (fun j => mget H i j * vget y j)).
    { apply Rsum_ext. intros k Hk. replace (k <? nv)%nat with true by lia. reflexivity. }
    rewrite T1 in SV. clear T1.
    assert (T2 : Rsum (mrows A) (fun k => (if (nv + k <? nv)%nat then mget H i (nv + k) else mget A (nv + k - nv) i) * vget y (nv + k)) =
      Rsum (mrows A) (fun r => mget A r i * vget y (nv + r)%nat)).
    { apply Rsum_ext. intros k Hk. replace (nv + k <? nv)%nat with false by lia. replace (nv + k - nv)%nat with k by lia. reflexivity. }
    rewrite T2 in SV. clear T2.
    transitivity (- Rsum (mrows A) (fun r => mget A r i * vget y (nv + r)%nat)); [lra|].
    rewrite <- Rsum_opp. apply Rsum_ext. intros; ring.
Qed.

(** the Hessian which the elimination method works with *)
Definition regularized (H : mat) (reg : R) : mat :=
  mkMat (mrows H) (mcols H) (fun i j => mget H i j + if (i =? j)%nat then reg else 0).

Theorem elimination_kkt llt reg H g A b nv x : mrows H = nv -> mcols H = nv -> diagonal H ->
  (forall i, (i < nv)%nat -> mget H i i + reg <> 0) ->
  solveWithElimination llt reg H g A b nv = Ok x ->
  (forall S r, S = mmul A (mkMat nv (mrows A) (fun i r => / (mget H i i + reg) * mget A r i)) ->
     r = vadd (mulv A (mkVec nv (fun i => / (mget H i i + reg) * vget g i))) b -> solves S r (llt S r)) ->
  vlen x = nv /\ feasible A b (vget x) /\ stationary (regularized H reg) g A (vget x).
Proof.
  intros H1 H2 D NZ E SV. unfold solveWithElimination in E. cbv zeta in E. apply assert_ok in E. destruct E as [C E].
  apply assert_ok in E. destruct E as [C2 E]. inversion E; subst x. clear E.
  rewrite !andb_true_iff, !Nat.eqb_eq in C. destruct C as ((((_ & _) & C5) & C6) & C7).
  specialize (SV _ _ eq_refl eq_refl). simpl in SV. destruct SV as [L [L2 SV]]. simpl in L, L2, SV.
  set (lam := llt _ _) in *. simpl. split; [reflexivity|]. split.
  - intros r Hr. specialize (SV r Hr). rewrite C6 in *.
    transitivity (Rsum (mrows A) (fun k => Rsum nv (fun k0 => mget A r k0 * (/ (mget H k0 k0 + reg) * mget A k k0)) * vget lam k)
      - Rsum nv (fun k => mget A r k * (/ (mget H k k + reg) * vget g k))).
    + transitivity (Rsum nv (fun j => Rsum (mrows A) (fun k => mget A r j * (/ (mget H j j + reg) * mget A k j) * vget lam k))
         - Rsum nv (fun k => mget A r k * (/ (mget H k k + reg) * vget g k))).
      * rewrite <- Rsum_minus. apply Rsum_ext. intros j Hj. rewrite Rmult_minus_distr_l. f_equal. rewrite <- Rsum_scal. apply Rsum_ext. intros; ring.
      * f_equal. rewrite Rsum_swap. apply Rsum_ext. intros k Hk. rewrite <- Rsum_scal_r. reflexivity.
    + rewrite SV. ring.
  - exists (vget lam). intros i Hi. simpl in Hi. rewrite H1 in Hi. simpl. rewrite H2.
    rewrite (Rsum_single nv i).
    + rewrite Nat.eqb_refl. rewrite Rmult_minus_distr_l.
      replace ((mget H i i + reg) * (/ (mget H i i + reg) * vget g i)) with (vget g i) by (field; auto).
      replace ((mget H i i + reg) * Rsum (mrows A) (fun k => / (mget H i i + reg) * mget A k i * vget lam k))
        with (Rsum (mrows A) (fun r => vget lam r * mget A r i)); [ring|].
      rewrite <- Rsum_scal. apply Rsum_ext. intros k Hk. field. auto.
    + exact Hi.
    + intros j Hj N. replace (i =? j)%nat with false by (symmetry; apply Nat.eqb_neq; auto). rewrite D by (try lia; auto). ring.
Qed.

Lemma regularized_quadratic nv H g reg x : mrows H = nv -> mcols H = nv ->
  quadratic (regularized H reg) g x = quadratic H g x + / 2 * reg * Rsum nv (fun i => x i * x i).
Proof.
  intros H1 H2. unfold quadratic, regularized. simpl. rewrite H1, H2.
  replace (Rsum nv (fun i => Rsum nv (fun j => x i * (mget H i j + (if (i =? j)%nat then reg else 0)) * x j)))
    with (Rsum nv (fun i => Rsum nv (fun j => x i * mget H i j * x j)) + reg * Rsum nv (fun i => x i * x i)); [lra|].
  rewrite <- Rsum_scal, <- Rsum_plus. apply Rsum_ext. intros i Hi.
  transitivity (Rsum nv (fun j => x i * mget H i j * x j) + Rsum nv (fun j => if (j =? i)%nat then reg * (x j * x j) else 0)).
  - f_equal. rewrite (Rsum_delta nv i (fun j => reg * (x j * x j))); auto.
  - rewrite <- Rsum_plus. apply Rsum_ext. intros j Hj. rewrite (Nat.eqb_sym i j). destruct (j =? i)%nat eqn:J; [|ring].
    apply Nat.eqb_eq in J. subst. ring.
Qed.

(** ** hierarchies *)
Lemma cost_nonneg cs ts x : 0 <= sum_list (map (fun i : tinfo => squared_residuals (cs (tk_id (ti_task i))) x) ts).
Proof.
  induction ts as [|t ts IH]; simpl; [lra|].
  assert (0 <= squared_residuals (cs (tk_id (ti_task t))) x); [|lra].
  apply Rsum_nonneg. intros. pose proof (Rle_0_sqr (residual (cs (tk_id (ti_task t))) i x)). unfold Rsqr in *. lra.
Qed.

(** a symmetric H whose quadratic is bounded below is positive semidefinite *)
Lemma bounded_psd nv H g m : mrows H = nv -> mcols H = nv -> vlen g = nv -> symmetric H ->
  (forall x, m <= quadratic H g x) -> positive_semidefinite H.
Proof.
  intros H1 H2 H3 S B d. rewrite H1, H2. set (q := Rsum nv _). destruct (Rle_dec 0 q) as [|N]; [assumption|exfalso].
  assert (X : forall t, quadratic H g (fun i => t * d i) = / 2 * (t * t) * q + t * Rsum nv (fun i => vget g i * d i)).
  { intros t. unfold quadratic. rewrite H1, H2, H3.
    replace (Rsum nv (fun i => Rsum nv (fun j => t * d i * mget H i j * (t * d j)))) with (t * t * q).
    - replace (Rsum nv (fun i => vget g i * (t * d i))) with (t * Rsum nv (fun i => vget g i * d i)); [ring|].
      rewrite <- Rsum_scal. apply Rsum_ext. intros; ring.
    - unfold q. rewrite <- Rsum_scal. apply Rsum_ext. intros. rewrite <- Rsum_scal. apply Rsum_ext. intros; ring. }
  set (l := Rsum nv (fun i => vget g i * d i)) in *.
  (* adding the values at t and -t *)
  set (t := Rabs m + 1 + / (- q)).
  pose proof (B (fun i => t * d i)) as B1. pose proof (B (fun i => (- t) * d i)) as B2. rewrite X in B1, B2.
  assert (T : 2 * m <= t * t * q) by nra.
  assert (Q : 0 < - q) by lra. pose proof (Rinv_0_lt_compat _ Q) as QI. pose proof (Rabs_pos m) as AP.
  assert (M : - Rabs m <= m) by (unfold Rabs; destruct (Rcase_abs m); lra).
  assert (t * t * (- q) > 2 * Rabs m); [|nra].
  assert (t * (- q) >= 1 ).
  { unfold t. assert (/ - q * - q = 1) by (field; lra). nra. }
  assert (t >= Rabs m + 1) by (unfold t; lra).
  assert (I : / - q * - q = 1) by (field; lra).
  assert (t * t >= 2 * (Rabs m + 1) * / - q).
  { unfold t. nra. }
  nra.
Qed.

Section Hierarchy.
Variables (fo : nat -> formed) (gu : bool) (l0 l0' l1 l1' : level) (cs : nat -> constr) (nv : nat).
Hypotheses (R0 : lreach l0) (F0 : level_form fo gu l0 = Ok l0') (D0 : described cs fo nv l0) (EL0 : equality_level l0).
Hypotheses (R1 : lreach l1) (F1 : level_form fo gu l1 = Ok l1') (D1 : described cs fo nv l1) (EL1 : equality_level l1).

(** everything about the QP which the solver builds *)
Lemma kkt_problem qp : exists o q, getQPProblem (fun l => initializeConstraints_AB cs l nv) cs [l0'; l1'] true qp = Ok (o, q) /\
  qp_shape nv (o_H o) (o_g o) (ab_A q) (ab_b q) /\ mcols (ab_A q) = nv /\ symmetric (o_H o) /\ (o_type o = HESSIAN_DIAGONAL -> diagonal (o_H o)) /\
  (exists k, forall x, quadratic (o_H o) (o_g o) x = / 2 * level_cost cs l1 x + k) /\
  (forall x, feasible (ab_A q) (ab_b q) x <-> satisfies_level cs l0 x).
Proof.
  destruct qp as [o q].
  destruct (objective_full fo gu l1 l1' cs nv o R1 F1 D1 EL1) as (o' & E' & (S1 & S2 & S3) & SY & DI & K).
  destruct (two_levels_AB fo gu true l0 l0' l1 l1' cs nv R0 F0 D0 R1 F1 D1 EL1 o q EL0) as (o2 & q' & E2 & _ & SA).
  destruct (AB_AL_equiv fo gu l0 l0' cs nv q (mkAL (mzero 0 0) (vconst 0 0)) R0 F0 D0) as (ab & al & Ea & El & (A1 & A2 & A3) & _ & S).
  assert (Q : q' = ab /\ o2 = o').
  { rewrite two_levels, E' in E2. cbn [bind] in E2. unfold initializeConstraints_AB in E2 at 1.
    destruct (level_isEquality l0'); [|discriminate]. cbn [assert_then] in E2. rewrite Ea in E2. cbn [bind] in E2. inversion E2; auto. }
  destruct Q as [-> ->]. exists o', ab. split; [exact E2|]. split; [|split; [exact A2|split; [exact SY|split; [exact DI|split; [exact K|]]]]].
  - repeat split; auto. congruence.
  - intros x. rewrite <- SA. reflexivity.
Qed.

Theorem hierarchy_direct p llt lin qp o q x :
  solution_method p = LU \/ solution_method p = QR ->
  getQPProblem (fun l => initializeConstraints_AB cs l nv) cs [l0'; l1'] true qp = Ok (o, q) ->
  solves (kkt_matrix (o_H o) (ab_A q)) (kkt_vector (o_g o) (ab_b q)) (lin (kkt_matrix (o_H o) (ab_A q)) (kkt_vector (o_g o) (ab_b q))) ->
  kkt_solve p llt lin cs [l0'; l1'] nv qp = Ok x ->
  vlen x = nv /\ minimises (level_cost cs l1) (satisfies_level cs l0) (vget x).
Proof.
  intros M EQ SV E. destruct (kkt_problem qp) as (o' & q' & E' & SH & MC & SY & DI & (k & K) & S). rewrite E' in EQ. inversion EQ; subst o' q'.
  unfold kkt_solve in E. rewrite E' in E. cbn [bind kkt_solveHierarchy] in E.
  assert (E2 : solveDirect lin (o_H o) (o_g o) (ab_A q) (ab_b q) nv = Ok x) by (destruct M as [M|M]; rewrite M in E; exact E).
  destruct (direct_kkt _ _ _ _ _ _ _ E2 SV) as (L & F & ST). split; [exact L|].
  assert (P : positive_semidefinite (o_H o)).
  { apply (bounded_psd nv _ (o_g o) k); try (apply SH); [exact SY|]. intros y. rewrite K.
    pose proof (cost_nonneg cs (lv_tasks l1) y). unfold level_cost. lra. }
  destruct (kkt_minimises nv _ _ _ _ _ SH SY P F ST) as [_ MN]. split; [apply S, F|].
  intros y Y. apply S in Y. specialize (MN y Y). rewrite !K in MN. lra.
Qed.

(** the direct method always returns when the linear solver returns a vector of the right size *)
Theorem hierarchy_direct_returns p llt lin qp o q :
  solution_method p = LU \/ solution_method p = QR ->
  getQPProblem (fun l => initializeConstraints_AB cs l nv) cs [l0'; l1'] true qp = Ok (o, q) ->
  solves (kkt_matrix (o_H o) (ab_A q)) (kkt_vector (o_g o) (ab_b q)) (lin (kkt_matrix (o_H o) (ab_A q)) (kkt_vector (o_g o) (ab_b q))) ->
  exists x, kkt_solve p llt lin cs [l0'; l1'] nv qp = Ok x.
Proof.
  intros M EQ [L _]. unfold kkt_solve. rewrite EQ. cbn [bind kkt_solveHierarchy].
  destruct (kkt_problem qp) as (o' & q' & E' & (H1 & H2 & H3 & H4 & H5) & MC & _). rewrite E' in EQ. inversion EQ; subst o' q'.
  assert (X : exists x, solveDirect lin (o_H o) (o_g o) (ab_A q) (ab_b q) nv = Ok x).
  { unfold solveDirect. rewrite H1, H2, H3, H5, MC, !Nat.eqb_refl, orb_true_r. cbn [andb assert_then].
    replace (nv <=? vlen (lin (kkt_matrix (o_H o) (ab_A q)) (kkt_vector (o_g o) (ab_b q))))%nat with true; [eexists; reflexivity|].
    symmetry. apply Nat.leb_le. rewrite L. simpl. lia. }
  destruct M as [-> | ->]; exact X.
Qed.

Theorem hierarchy_elimination p llt lin qp o q x :
  solution_method p = CONSTRAINT_ELIMINATION_LLT -> 0 < elimination_regularization_factor p ->
  let reg := elimination_regularization_factor p in
  getQPProblem (fun l => initializeConstraints_AB cs l nv) cs [l0'; l1'] true qp = Ok (o, q) ->
  (forall S r, S = mmul (ab_A q) (mkMat nv (mrows (ab_A q)) (fun i r => / (mget (o_H o) i i + reg) * mget (ab_A q) r i)) ->
     r = vadd (mulv (ab_A q) (mkVec nv (fun i => / (mget (o_H o) i i + reg) * vget (o_g o) i))) (ab_b q) -> solves S r (llt S r)) ->
  kkt_solve p llt lin cs [l0'; l1'] nv qp = Ok x ->
  vlen x = nv /\
  minimises (fun y => level_cost cs l1 y + reg * Rsum nv (fun i => y i * y i)) (satisfies_level cs l0) (vget x).
Proof.
  intros M RP reg EQ SV E. destruct (kkt_problem qp) as (o' & q' & E' & SH & MC & SY & DI & (k & K) & S). rewrite E' in EQ. inversion EQ; subst o' q'.
  unfold kkt_solve in E. rewrite E' in E. cbn [bind kkt_solveHierarchy] in E. rewrite M in E.
  destruct (o_type o) eqn:T; try discriminate. specialize (DI eq_refl). fold reg in E, RP.
  pose proof SH as (H1 & H2 & H3 & H4 & H5).
  assert (P : positive_semidefinite (o_H o)).
  { apply (bounded_psd nv _ (o_g o) k); auto. intros y. rewrite K.
    pose proof (cost_nonneg cs (lv_tasks l1) y). unfold level_cost. lra. }
  assert (DP : forall i, (i < nv)%nat -> 0 <= mget (o_H o) i i).
  { intros i Hi. specialize (P (fun j => if (j =? i)%nat then 1 else 0)). rewrite H1, H2 in P.
    rewrite (Rsum_single nv i) in P; [|exact Hi|].
    - rewrite (Rsum_single nv i) in P; [|exact Hi|]; rewrite ?Nat.eqb_refl in *; [lra|]. intros j Hj N.
      replace (j =? i)%nat with false by (symmetry; apply Nat.eqb_neq; auto). ring.
    - intros j Hj N. apply Rsum_zero. intros. replace (j =? i)%nat with false by (symmetry; apply Nat.eqb_neq; auto). ring. }
  destruct (elimination_kkt llt reg _ _ _ _ nv x H1 H2 DI ltac:(intros i Hi; specialize (DP i Hi); lra) E SV) as (L & F & ST).
  split; [exact L|].
  assert (SH' : qp_shape nv (regularized (o_H o) reg) (o_g o) (ab_A q) (ab_b q)) by (repeat split; auto).
  assert (SY' : symmetric (regularized (o_H o) reg)).
  { destruct SY as [SY1 SY2]. split; [exact SY1|]. simpl. intros i j Hi Hj. rewrite (SY2 i j) by assumption. rewrite (Nat.eqb_sym j i). reflexivity. }
  assert (P' : positive_semidefinite (regularized (o_H o) reg)).
  { apply (bounded_psd nv _ (o_g o) k); auto. intros y. rewrite (regularized_quadratic nv) by assumption. rewrite K.
    pose proof (cost_nonneg cs (lv_tasks l1) y). unfold level_cost.
    assert (0 <= Rsum nv (fun i => y i * y i)) by (apply Rsum_nonneg; intros; nra).
    assert (0 <= / 2 * reg * Rsum nv (fun i => y i * y i)) by (apply Rmult_le_pos; nra). lra. }
  destruct (kkt_minimises nv _ _ _ _ _ SH' SY' P' F ST) as [_ MN]. split; [apply S, F|].
  intros y Y. apply S in Y. specialize (MN y Y). rewrite !(regularized_quadratic nv), !K in MN by assumption. lra.
Qed.
End Hierarchy.
