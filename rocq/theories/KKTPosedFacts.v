From Coq Require Import List Arith Reals Bool Lra Lia.
From Verif Require Import Base BaseFacts RSum Matrix ConstraintType HierarchyLevel HierarchySpec HierarchyFacts Constraints ConstraintsSpec ConstraintsFacts
  QP QPSpec QPFacts QPFacts2 Solver KKT KKTSpec KKTFacts KKTPosedSpec.
Import ListNotations.
Open Scope R_scope.

(** ** the rows of the matrix of the solver are those of the tasks *)
Definition csize (cs : nat -> constr) (i : tinfo) : nat := getNumberOfConstraints (cs (tk_id (ti_task i))).
Definition before (cs : nat -> constr) (ts : list tinfo) (p : nat) : nat := list_sum (map (csize cs) (firstn p ts)).

Lemma AB_rows nv c k off n : usable nv c -> ct_isEquality (getType c) = true -> shape_AB k n nv -> (off + getNumberOfConstraints c <= n)%nat ->
  exists k', copyTo_AB c k off = Ok (k', (off + getNumberOfConstraints c)%nat) /\ shape_AB k' n nv /\ rows_set (ab_A k) (ab_A k') off (getNumberOfConstraints c) nv (coef c).
Proof.
  intros U EQ SH H. destruct (AB_step nv c k off n (conj U EQ) SH H) as (k' & E & SH' & _). exists k'. split; [exact E|]. split; [exact SH'|].
  destruct SH as (S1 & S2 & S3). unfold copyTo_AB in E.
  destruct (copyBodyTo_ok nv c (ab_A k) (mkLoc off (getNumberOfConstraints c))) as (A' & E2 & RS); cbn [offset len]; auto; try lia.
  assert (G : bind (getCopyLocation (mrows (ab_A k)) (getNumberOfConstraints c) off) (fun l =>
      bind (copyEqualityBoundsTo c (ab_b k) l) (fun b =>
      bind (copyBodyTo c (ab_A k) l) (fun A => Ok (mkAB A b, offset l + len l)%nat))) = Ok (k', (off + getNumberOfConstraints c)%nat)).
  { destruct (c_bounds c); try discriminate E; exact E. }
  rewrite getCopyLocation_ok in G by lia. cbn [bind] in G. apply bind_ok in G. destruct G as (b & _ & G). rewrite E2 in G. cbn [bind] in G.
  injection G as <-. exact RS.
Qed.

Lemma loop_rows cs nv n : forall ts k off,
  (forall i, In i ts -> ct_isEquality (tk_type (ti_task i)) = true /\ getType (cs (tk_id (ti_task i))) = tk_type (ti_task i) /\ usable nv (cs (tk_id (ti_task i)))) ->
  shape_AB k n nv -> (off + list_sum (map (csize cs) ts) <= n)%nat ->
  exists k', copy_loop copyTo_AB ct_isEquality cs ts (k, off) = Ok (k', (off + list_sum (map (csize cs) ts))%nat) /\ shape_AB k' n nv /\
    (forall r x, (r < off)%nat -> mrow (ab_A k') r x = mrow (ab_A k) r x) /\
    (forall p i, nth_error ts p = Some i -> forall r x, (r < csize cs i)%nat -> mrow (ab_A k') (off + before cs ts p + r) x = row_value (cs (tk_id (ti_task i))) r x).
Proof.
  induction ts as [|t ts IH]; intros k off G SH H.
  - exists k. cbn. rewrite Nat.add_0_r. split; [reflexivity|]. split; [exact SH|]. split; [reflexivity|]. intros [|p] i E; discriminate.
  - destruct (G t (or_introl eq_refl)) as (Q & T & U). cbn [copy_loop fst snd]. rewrite Q. cbn [map list_sum fold_right] in H.
    change (fold_right Nat.add 0%nat (map (csize cs) ts)) with (list_sum (map (csize cs) ts)) in H. unfold csize in H at 1.
    destruct (AB_rows nv (cs (tk_id (ti_task t))) k off n U ltac:(rewrite T; exact Q) SH ltac:(lia)) as (k1 & E1 & SH1 & RS). rewrite E1. cbn [bind].
    destruct (IH k1 (off + getNumberOfConstraints (cs (tk_id (ti_task t))))%nat ltac:(intros i I; apply G; right; exact I) SH1 ltac:(lia)) as (k' & E & SH' & O & RW).
    exists k'. rewrite E. cbn [map]. change (list_sum (csize cs t :: map (csize cs) ts)) with (csize cs t + list_sum (map (csize cs) ts))%nat. unfold csize at 2.
    split; [f_equal; f_equal; lia|]. split; [exact SH'|]. destruct SH as (S1 & S2 & S3). split.
    + intros r x R. rewrite O by lia. apply (rows_set_out nv _ _ _ _ _ _ x RS); [exact S2|lia].
    + intros [|p] i Hp r x R; cbn [nth_error] in Hp.
      * injection Hp as <-. unfold before. cbn [firstn map list_sum fold_right]. rewrite O by (unfold csize in R; lia).
        rewrite (rows_set_in nv _ _ _ _ _ _ x RS S2) by (unfold csize in R; lia). unfold row_value. destruct U as (-> & _). apply Rsum_ext. intros j _. do 2 f_equal. lia.
      * rewrite <- (RW p i Hp r x R). unfold before. cbn [firstn map]. change (list_sum (csize cs t :: map (csize cs) (firstn p ts))) with (csize cs t + list_sum (map (csize cs) (firstn p ts)))%nat.
        unfold csize at 1. f_equal. lia.
Qed.
Lemma row_position cs : forall ts r, (r < list_sum (map (csize cs) ts))%nat ->
  exists p i r', nth_error ts p = Some i /\ (r' < csize cs i)%nat /\ r = (before cs ts p + r')%nat.
Proof.
  induction ts as [|t ts IH]; intros r H; [cbn in H; lia|]. cbn [map] in H. change (list_sum (csize cs t :: map (csize cs) ts)) with (csize cs t + list_sum (map (csize cs) ts))%nat in H.
  destruct (lt_dec r (csize cs t)) as [L|L].
  - exists 0%nat, t, r. split; [reflexivity|]. split; [exact L|reflexivity].
  - destruct (IH (r - csize cs t)%nat ltac:(lia)) as (p & i & r' & E & R & Q). exists (S p), i, r'. split; [exact E|]. split; [exact R|].
    unfold before. cbn [firstn map]. change (list_sum (csize cs t :: map (csize cs) (firstn p ts))) with (csize cs t + list_sum (map (csize cs) (firstn p ts)))%nat. unfold before in Q. lia.
Qed.
Lemma nth_ids {A} (g : tinfo -> A) : forall a b : list tinfo, map g a = map g b -> forall k i, nth_error a k = Some i -> exists j, nth_error b k = Some j /\ g j = g i.
Proof.
  induction a as [|x a IH]; intros [|y b] E k i H; try discriminate; [destruct k; discriminate|]. cbn in E. injection E as E0 E1. destruct k as [|k]; cbn in H |- *.
  - injection H as <-. exists y. auto.
  - exact (IH b E1 k i H).
Qed.

(** ** vectors *)
Lemma sum_squares_zero n (f : nat -> R) : Rsum n (fun i => f i * f i) = 0 -> forall i, (i < n)%nat -> f i = 0.
Proof.
  induction n as [|n IH]; intros H i I; [lia|]. cbn [Rsum] in H. assert (0 <= Rsum n (fun i => f i * f i)) by (apply Rsum_nonneg; intros; nra).
  assert (Q : f n * f n = 0) by nra. destruct (Nat.eq_dec i n) as [-> |N]; [nra|]. apply IH; [nra|lia].
Qed.
Lemma sum_squares_pos n (f : nat -> R) i : (i < n)%nat -> f i <> 0 -> 0 < Rsum n (fun i => f i * f i).
Proof.
  intros I N. assert (0 <= Rsum n (fun i => f i * f i)) by (apply Rsum_nonneg; intros; nra).
  destruct (Req_dec (Rsum n (fun i => f i * f i)) 0) as [Z|Z]; [|lra]. exfalso. apply N. exact (sum_squares_zero n f Z i I).
Qed.
(** if any values of the rows can be had, no combination of the rows vanishes *)
Lemma rows_independent m nv (a : nat -> nat -> R) : (forall t : nat -> R, exists x, forall r, (r < m)%nat -> Rsum nv (fun j => a r j * x j) = t r) ->
  forall lam, (forall j, (j < nv)%nat -> Rsum m (fun r => lam r * a r j) = 0) -> forall r, (r < m)%nat -> lam r = 0.
Proof.
  intros T lam Z. apply sum_squares_zero. destruct (T lam) as (x & X).
  transitivity (Rsum m (fun r => Rsum nv (fun j => lam r * (a r j * x j)))).
  { apply Rsum_ext. intros r R. rewrite Rsum_scal, X by exact R. reflexivity. }
  rewrite Rsum_swap. apply Rsum_zero. intros j J. transitivity (Rsum m (fun r => lam r * a r j) * x j); [|rewrite Z by exact J; ring].
  rewrite <- Rsum_scal_r. apply Rsum_ext. intros; ring.
Qed.
(** the quadratic form of the Hessian *)
Lemma form_of_quadratic nv H g d : mrows H = nv -> mcols H = nv -> vlen g = nv ->
  Rsum nv (fun i => Rsum nv (fun j => d i * mget H i j * d j)) = quadratic H g d + quadratic H g (fun i => - d i) - 2 * quadratic H g (fun _ => 0).
Proof.
  intros H1 H2 H3. unfold quadratic. rewrite H1, H2, H3.
  rewrite (Rsum_ext nv (fun i => Rsum nv (fun j => - d i * mget H i j * - d j)) (fun i => Rsum nv (fun j => d i * mget H i j * d j))) by (intros; apply Rsum_ext; intros; ring).
  rewrite (Rsum_zero nv (fun i => Rsum nv (fun j => 0 * mget H i j * 0))) by (intros; apply Rsum_zero; intros; ring).
  rewrite (Rsum_zero nv (fun i => vget g i * 0)) by (intros; ring).
  rewrite (Rsum_ext nv (fun i => vget g i * - d i) (fun i => - (vget g i * d i))) by (intros; ring). rewrite Rsum_opp. lra.
Qed.
Lemma residual_parts c r x : residual c r x + residual c r (fun i => - x i) = 2 * residual c r (fun _ => 0) /\ residual c r x - residual c r (fun _ => 0) = row_value c r x.
Proof.
  unfold residual, row_value. rewrite (Rsum_zero _ (fun j => coef c r j * 0)) by (intros; ring).
  rewrite (Rsum_ext _ (fun j => coef c r j * - x j) (fun j => - (coef c r j * x j))) by (intros; ring). rewrite Rsum_opp. split; ring.
Qed.
Lemma cost_form cs ts d : sum_list (map (fun i => squared_residuals (cs (tk_id (ti_task i))) d) ts) + sum_list (map (fun i => squared_residuals (cs (tk_id (ti_task i))) (fun j => - d j)) ts)
  - 2 * sum_list (map (fun i => squared_residuals (cs (tk_id (ti_task i))) (fun _ => 0)) ts) =
  2 * sum_list (map (fun i => Rsum (csize cs i) (fun r => row_value (cs (tk_id (ti_task i))) r d * row_value (cs (tk_id (ti_task i))) r d)) ts).
Proof.
  induction ts as [|t ts IH]; cbn [map sum_list]; [ring|].
  assert (Q : squared_residuals (cs (tk_id (ti_task t))) d + squared_residuals (cs (tk_id (ti_task t))) (fun j => - d j) - 2 * squared_residuals (cs (tk_id (ti_task t))) (fun _ => 0) =
    2 * Rsum (csize cs t) (fun r => row_value (cs (tk_id (ti_task t))) r d * row_value (cs (tk_id (ti_task t))) r d)).
  { unfold squared_residuals, csize. rewrite <- !Rsum_scal, <- Rsum_plus, <- Rsum_minus. apply Rsum_ext. intros r _. destruct (residual_parts (cs (tk_id (ti_task t))) r d) as [A B].
    rewrite <- B. replace (residual (cs (tk_id (ti_task t))) r (fun i => - d i)) with (2 * residual (cs (tk_id (ti_task t))) r (fun _ => 0) - residual (cs (tk_id (ti_task t))) r d) by lra. ring. }
  lra.
Qed.
Lemma sum_list_nonneg l : (forall v, In v l -> 0 <= v) -> 0 <= sum_list l.
Proof. induction l as [|v l IH]; intros H; cbn [sum_list]; [lra|]. pose proof (H v (or_introl eq_refl)). pose proof (IH ltac:(intros; apply H; right; assumption)). lra. Qed.
Lemma sum_list_zero l : (forall v, In v l -> 0 <= v) -> sum_list l = 0 -> forall v, In v l -> v = 0.
Proof.
  induction l as [|v l IH]; intros H E w I0; [destruct I0|]. destruct I0 as [<-|I]; cbn [sum_list] in E; pose proof (H v (or_introl eq_refl)); pose proof (sum_list_nonneg l ltac:(intros; apply H; right; assumption)); [lra|].
  apply IH; [intros; apply H; right; assumption|lra|exact I].
Qed.

(** ** systems of the solver *)
Lemma kkt_nonsingular nv H A : mrows H = nv -> mcols H = nv -> mcols A = nv -> positive_on_kernel H A ->
  (forall t : nat -> R, exists x, forall r, (r < mrows A)%nat -> Rsum nv (fun j => mget A r j * x j) = t r) -> nonsingular (kkt_matrix H A).
Proof.
  intros H1 H2 H3 P T. split; [reflexivity|]. cbn [kkt_matrix mrows mcols mget]. rewrite H1. intros y Z.
  set (x := y). set (mu := fun r => y (nv + r)%nat).
  assert (ZA : forall r, (r < mrows A)%nat -> Rsum nv (fun j => mget A r j * x j) = 0).
  { intros r R. specialize (Z (nv + r)%nat ltac:(lia)). rewrite Rsum_split in Z. rewrite (Rsum_zero (mrows A)) in Z.
    - rewrite Rplus_0_r in Z. rewrite <- Z. apply Rsum_ext. intros j J. replace (nv + r <? nv)%nat with false by lia. replace (j <? nv)%nat with true by lia. do 3 f_equal; lia.
    - intros i I. replace (nv + r <? nv)%nat with false by lia. replace (nv + i <? nv)%nat with false by lia. ring. }
  assert (ZH : forall i, (i < nv)%nat -> Rsum nv (fun j => mget H i j * x j) + Rsum (mrows A) (fun r => mu r * mget A r i) = 0).
  { intros i I. specialize (Z i ltac:(lia)). rewrite Rsum_split in Z. rewrite <- Z. f_equal; apply Rsum_ext; intros j J.
    - replace (i <? nv)%nat with true by lia. replace (j <? nv)%nat with true by lia. reflexivity.
    - replace (i <? nv)%nat with true by lia. replace (nv + j <? nv)%nat with false by lia. replace (nv + j - nv)%nat with j by lia. unfold mu. ring. }
  assert (X0 : forall j, (j < nv)%nat -> x j = 0).
  { intros j J. destruct (Req_dec (x j) 0) as [E|E]; [exact E|exfalso].
    assert (0 < Rsum nv (fun i => Rsum nv (fun j => x i * mget H i j * x j))).
    { specialize (P x). rewrite H1, H2, H3 in P. apply P; [exact ZA|]. exists j. auto. }
    assert (Q : Rsum nv (fun i => Rsum nv (fun j => x i * mget H i j * x j)) + Rsum (mrows A) (fun r => mu r * Rsum nv (fun j => mget A r j * x j)) = 0).
    { transitivity (Rsum nv (fun i => x i * (Rsum nv (fun j => mget H i j * x j) + Rsum (mrows A) (fun r => mu r * mget A r i)))).
      - transitivity (Rsum nv (fun i => Rsum nv (fun j => x i * mget H i j * x j)) + Rsum nv (fun i => Rsum (mrows A) (fun r => mu r * (mget A r i * x i)))).
        + f_equal. rewrite Rsum_swap. apply Rsum_ext. intros r R. rewrite <- Rsum_scal. reflexivity.
        + rewrite <- Rsum_plus. apply Rsum_ext. intros i I. rewrite Rmult_plus_distr_l, <- !Rsum_scal. f_equal; apply Rsum_ext; intros; ring.
      - apply Rsum_zero. intros i I. rewrite ZH by exact I. ring. }
    rewrite (Rsum_zero (mrows A)) in Q; [lra|]. intros r R. rewrite ZA by exact R. ring. }
  assert (M0 : forall r, (r < mrows A)%nat -> mu r = 0).
  { apply (rows_independent (mrows A) nv (mget A) T). intros j J. specialize (ZH j J). rewrite (Rsum_zero nv) in ZH; [lra|]. intros i I. rewrite X0 by exact I. ring. }
  intros j J. destruct (lt_dec j nv) as [L|L]; [exact (X0 j L)|]. specialize (M0 (j - nv)%nat ltac:(lia)). unfold mu in M0. replace (nv + (j - nv))%nat with j in M0 by lia. exact M0.
Qed.
Lemma schur_positive nv A (w : nat -> R) : mcols A = nv -> (forall i, (i < nv)%nat -> 0 < w i) ->
  (forall t : nat -> R, exists x, forall r, (r < mrows A)%nat -> Rsum nv (fun j => mget A r j * x j) = t r) ->
  positive_definite (mmul A (mkMat nv (mrows A) (fun i r => w i * mget A r i))).
Proof.
  intros H3 W T. split.
  - split; [reflexivity|]. cbn [mmul mrows mcols mget]. intros i j _ _. rewrite H3. apply Rsum_ext. intros; ring.
  - cbn [mmul mrows mcols mget]. rewrite H3. intros d (i & I & N).
    set (v := fun j => Rsum (mrows A) (fun r => d r * mget A r j)).
    assert (E : Rsum (mrows A) (fun i => Rsum (mrows A) (fun j => d i * Rsum nv (fun k => mget A i k * (w k * mget A j k)) * d j)) = Rsum nv (fun k => w k * (v k * v k))).
    { transitivity (Rsum (mrows A) (fun i => Rsum (mrows A) (fun j => Rsum nv (fun k => w k * (d i * mget A i k) * (d j * mget A j k))))).
      { apply Rsum_ext. intros a _. apply Rsum_ext. intros b _. rewrite <- Rsum_scal, <- Rsum_scal_r. apply Rsum_ext. intros; ring. }
      transitivity (Rsum (mrows A) (fun i => Rsum nv (fun k => w k * (d i * mget A i k) * v k))).
      { apply Rsum_ext. intros a _. rewrite Rsum_swap. apply Rsum_ext. intros k _. unfold v. rewrite <- Rsum_scal. reflexivity. }
      rewrite Rsum_swap. apply Rsum_ext. intros k _. unfold v at 2. rewrite <- Rsum_scal_r, <- Rsum_scal. apply Rsum_ext. intros; ring. }
    rewrite E.
    assert (NN : 0 <= Rsum nv (fun k => w k * (v k * v k))) by (apply Rsum_nonneg; intros k K; pose proof (W k K); apply Rmult_le_pos; nra).
    destruct (Req_dec (Rsum nv (fun k => w k * (v k * v k))) 0) as [Z|Z]; [exfalso|lra]. apply N.
    apply (rows_independent (mrows A) nv (mget A) T d); [|exact I]. intros j J. fold (v j).
    destruct (Req_dec (v j) 0) as [V|V]; [exact V|exfalso]. clear E NN.
    assert (G : forall n, (j < n)%nat -> (n <= nv)%nat -> 0 < Rsum n (fun k => w k * (v k * v k))).
    { induction n as [|n IH]; intros A1 A2; [lia|]. cbn [Rsum]. pose proof (W n ltac:(lia)). assert (0 <= v n * v n) by nra.
      destruct (Nat.eq_dec j n) as [-> |NE].
      - assert (0 <= Rsum n (fun k => w k * (v k * v k))) by (apply Rsum_nonneg; intros k K; pose proof (W k ltac:(lia)); apply Rmult_le_pos; nra). assert (0 < v n * v n) by nra. nra.
      - pose proof (IH ltac:(lia) ltac:(lia)). assert (0 <= w n * (v n * v n)) by (apply Rmult_le_pos; lra). lra. }
    pose proof (G nv J ltac:(lia)). lra.
Qed.

Section Posed.
Variables (fo : nat -> formed) (gu : bool) (l0 l0' l1 l1' : level) (cs : nat -> constr) (nv : nat).
Hypotheses (R0 : lreach l0) (F0 : level_form fo gu l0 = Ok l0') (D0 : described cs fo nv l0) (EL0 : equality_level l0).
Hypotheses (R1 : lreach l1) (F1 : level_form fo gu l1 = Ok l1') (D1 : described cs fo nv l1) (EL1 : equality_level l1).
Notation problem_of qp o q := (getQPProblem (fun l => initializeConstraints_AB cs l nv) cs [l0'; l1'] true qp = Ok (o, q)).

(** the rows of the equalities of the QP *)
Lemma qp_rows qp o q : problem_of qp o q ->
  (forall k i, nth_error (lv_tasks l0) k = Some i -> forall r, (r < csize cs i)%nat ->
     (before cs (lv_tasks l0') k + r < mrows (ab_A q))%nat /\ forall x, mrow (ab_A q) (before cs (lv_tasks l0') k + r) x = row_value (cs (tk_id (ti_task i))) r x) /\
  (forall r, (r < mrows (ab_A q))%nat -> exists k i r', nth_error (lv_tasks l0) k = Some i /\ (r' < csize cs i)%nat /\ r = (before cs (lv_tasks l0') k + r')%nat).
Proof.
  intros E. pose proof (form_ok _ _ _ _ (lreach_gf _ R0) F0) as (F & _ & N & _ & _ & _ & NE & _).
  destruct (described_formed _ _ _ _ _ _ F D0) as [D' IDS].
  assert (TY : map (fun i => (tk_id (ti_task i), tk_type (ti_task i))) (lv_tasks l0') = map (fun i => (tk_id (ti_task i), tk_type (ti_task i))) (lv_tasks l0)) by exact (ids_types _ _ _ _ F).
  assert (EQ : forall i, In i (lv_tasks l0') -> ct_isEquality (tk_type (ti_task i)) = true).
  { intros i I. apply (in_map (fun i => (tk_id (ti_task i), tk_type (ti_task i)))) in I. rewrite TY in I. apply in_map_iff in I. destruct I as (j & Ej & J).
    injection Ej as _ Ej. rewrite <- Ej. apply EL0, J. }
  destruct (initializeObjective cs l1' true (fst qp)) as [o'| |] eqn:EO; [|exfalso|exfalso].
  2,3: destruct qp as [o1 q1]; rewrite two_levels in E; cbn [fst] in EO; rewrite EO in E; discriminate E.
  destruct qp as [o1 q1]. rewrite two_levels in E. cbn [fst] in EO. rewrite EO in E. cbn [bind] in E. unfold initializeConstraints_AB in E at 1.
  destruct (level_isEquality l0'); [|discriminate]. cbn [assert_then] in E. unfold getEqualityConstraints in E.
  assert (SZ : n_equality l0' = list_sum (map (csize cs) (lv_tasks l0'))).
  { rewrite NE. assert (FA : filter (fun i => ct_isEquality (tk_type (ti_task i))) (lv_tasks l0') = lv_tasks l0').
    { clear -EQ. induction (lv_tasks l0') as [|t ts IH]; [reflexivity|]. cbn [filter]. rewrite (EQ t (or_introl eq_refl)), IH; [reflexivity|intros; apply EQ; right; assumption]. }
    rewrite FA. unfold sumn, csize. f_equal. apply map_ext_in. intros i I. apply D', I. }
  destruct (loop_rows cs nv (n_equality l0') (lv_tasks l0') (reset_AB q1 (n_equality l0') nv) 0) as (k' & EL & (S1 & S2 & S3) & _ & RW).
  { intros i I. destruct (D' i I) as (T & _ & U). split; [exact (EQ i I)|]. split; [exact T|exact U]. }
  { repeat split. }
  { rewrite SZ. cbn. lia. }
  rewrite EL in E. cbn [bind fst] in E. injection E as _ <-.
  assert (IDX : map (csize cs) (lv_tasks l0') = map (csize cs) (lv_tasks l0)).
  { unfold csize. rewrite <- (map_map (fun i => tk_id (ti_task i)) (fun k => getNumberOfConstraints (cs k)) (lv_tasks l0')), IDS, map_map. reflexivity. }
  split.
  - intros k i K r R. destruct (nth_ids (fun i => tk_id (ti_task i)) _ _ (eq_sym IDS) k i K) as (j & J & IJ).
    assert (CJ : csize cs j = csize cs i) by (unfold csize; rewrite IJ; reflexivity).
    assert (LE : forall ts k t, nth_error ts k = Some t -> (before cs ts k + csize cs t <= list_sum (map (csize cs) ts))%nat).
    { clear. induction ts as [|u ts IH]; intros [|k] t E; try discriminate; unfold before; cbn [firstn map nth_error] in *.
      - injection E as ->. cbn. lia.
      - specialize (IH k t E). unfold before in IH. cbn in IH |- *. unfold list_sum in IH. lia. }
    split; [rewrite S1, SZ; pose proof (LE (lv_tasks l0') k j J); lia|]. intros x. rewrite <- IJ. exact (RW k j J r x ltac:(lia)).
  - intros r R. rewrite S1, SZ in R. destruct (row_position cs _ r R) as (k & i & r' & K & R' & ->).
    destruct (nth_ids (fun i => tk_id (ti_task i)) _ _ IDS k i K) as (j & J & IJ). exists k, j, r'. split; [exact J|]. split; [|reflexivity].
    unfold csize in *. rewrite IJ. exact R'.
Qed.
Lemma qp_attainable qp o q : problem_of qp o q -> mcols (ab_A q) = nv -> attainable cs l0 ->
  forall t : nat -> R, exists x, forall r, (r < mrows (ab_A q))%nat -> Rsum nv (fun j => mget (ab_A q) r j * x j) = t r.
Proof.
  intros E C A t. destruct (qp_rows qp o q E) as [RW SJ]. destruct (A (fun k r => t (before cs (lv_tasks l0') k + r)%nat)) as (x & X). exists x. intros r R.
  destruct (SJ r R) as (k & i & r' & K & R' & ->). destruct (RW k i K r' R') as [_ Q]. specialize (Q x). unfold mrow in Q. rewrite C in Q. rewrite Q. exact (X k i K r' R').
Qed.
Lemma qp_positive qp o q : problem_of qp o q -> mrows (o_H o) = nv -> mcols (o_H o) = nv -> vlen (o_g o) = nv -> mcols (ab_A q) = nv ->
  (exists k, forall x, quadratic (o_H o) (o_g o) x = / 2 * level_cost cs l1 x + k) -> observable cs nv l0 l1 -> positive_on_kernel (o_H o) (ab_A q).
Proof.
  intros E H1 H2 H3 C (k & K) OB d ZA (i & I & N). rewrite H1 in *. rewrite H2. rewrite C in ZA. rewrite (form_of_quadratic nv _ (o_g o) d H1 H2 H3), !K.
  destruct (qp_rows qp o q E) as [RW _]. pose proof (cost_form cs (lv_tasks l1) d) as CF. unfold level_cost.
  set (ss := sum_list (map (fun i => Rsum (csize cs i) (fun r => row_value (cs (tk_id (ti_task i))) r d * row_value (cs (tk_id (ti_task i))) r d)) (lv_tasks l1))) in *.
  assert (NN : forall v, In v (map (fun i => Rsum (csize cs i) (fun r => row_value (cs (tk_id (ti_task i))) r d * row_value (cs (tk_id (ti_task i))) r d)) (lv_tasks l1)) -> 0 <= v).
  { intros v V. apply in_map_iff in V. destruct V as (j & <- & _). apply Rsum_nonneg. intros; nra. }
  pose proof (sum_list_nonneg _ NN) as S0. fold ss in S0. destruct (Req_dec ss 0) as [Z|Z]; [exfalso|lra].
  apply N. apply OB; [|exact I]. intros j [J|J] r R.
  - apply In_nth_error in J. destruct J as (p & P). destruct (RW p j P r R) as [L Q]. rewrite <- (Q d). unfold mrow. rewrite C. apply ZA, L.
  - pose proof (sum_list_zero _ NN Z _ (in_map _ _ _ J)) as Q. cbv beta in Q. exact (sum_squares_zero _ _ Q r R).
Qed.

Theorem posed_direct p llt lin qp : solution_method p = LU \/ solution_method p = QR -> attainable cs l0 -> observable cs nv l0 l1 -> solves_nonsingular lin ->
  exists x, kkt_solve p llt lin cs [l0'; l1'] nv qp = Ok x /\ vlen x = nv /\ only_minimiser nv (level_cost cs l1) (satisfies_level cs l0) (vget x).
Proof.
  intros M AT OB LN. destruct (kkt_problem fo gu l0 l0' l1 l1' cs nv R0 F0 D0 EL0 R1 F1 D1 EL1 qp) as (o & q & E & SH & C & SY & _ & KK & S).
  pose proof SH as (H1 & H2 & H3 & H4 & H5).
  pose proof (qp_positive qp o q E H1 H2 H3 C KK OB) as PK.
  assert (SV : solves (kkt_matrix (o_H o) (ab_A q)) (kkt_vector (o_g o) (ab_b q)) (lin (kkt_matrix (o_H o) (ab_A q)) (kkt_vector (o_g o) (ab_b q)))).
  { apply LN; [apply (kkt_nonsingular nv); auto; exact (qp_attainable qp o q E C AT)|]. cbn. lia. }
  destruct (hierarchy_direct_returns fo gu l0 l0' l1 l1' cs nv R0 F0 D0 EL0 R1 F1 D1 EL1 p llt lin qp o q M E SV) as (x & EX).
  destruct (hierarchy_direct fo gu l0 l0' l1 l1' cs nv R0 F0 D0 EL0 R1 F1 D1 EL1 p llt lin qp o q x M E SV EX) as (L & MN). exists x. split; [exact EX|]. split; [exact L|]. split; [exact MN|].
  assert (ST : feasible (ab_A q) (ab_b q) (vget x) /\ stationary (o_H o) (o_g o) (ab_A q) (vget x)).
  { unfold kkt_solve in EX. rewrite E in EX. cbn [bind kkt_solveHierarchy] in EX.
    assert (E2 : solveDirect lin (o_H o) (o_g o) (ab_A q) (ab_b q) nv = Ok x) by (destruct M as [M|M]; rewrite M in EX; exact EX).
    apply (direct_kkt _ _ _ _ _ _ _ E2 SV). }
  intros y [Y1 Y2] i I. destruct (Req_dec (y i) (vget x i)) as [Q|Q]; [exact Q|exfalso]. destruct KK as (k & K).
  pose proof (kkt_unique nv _ _ _ _ (vget x) y SH SY PK (proj1 ST) (proj2 ST) (proj2 (S y) Y1) ltac:(exists i; auto)) as LT. rewrite !K in LT.
  destruct MN as [MN _]. pose proof (Y2 _ MN). lra.
Qed.

Theorem posed_elimination p llt lin qp : solution_method p = CONSTRAINT_ELIMINATION_LLT -> 0 < elimination_regularization_factor p ->
  (forall i, In i (lv_tasks l1) -> ct_isSimple (tk_type (ti_task i)) = true) -> attainable cs l0 -> solves_positive llt ->
  exists x, kkt_solve p llt lin cs [l0'; l1'] nv qp = Ok x /\ vlen x = nv /\
    only_minimiser nv (fun y => level_cost cs l1 y + elimination_regularization_factor p * Rsum nv (fun i => y i * y i)) (satisfies_level cs l0) (vget x).
Proof.
  intros M RP SI AT LP. set (reg := elimination_regularization_factor p) in *.
  destruct (kkt_problem fo gu l0 l0' l1 l1' cs nv R0 F0 D0 EL0 R1 F1 D1 EL1 qp) as (o & q & E & SH & C & SY & DI & (k & K) & S).
  pose proof SH as (H1 & H2 & H3 & H4 & H5).
  assert (TD : o_type o = HESSIAN_DIAGONAL).
  { destruct (initialize_entries fo gu l1 l1' cs nv true (fst qp) R1 F1 D1 EL1) as (o' & EO & _ & _ & T & _). destruct qp as [o1 q1]. rewrite two_levels in E. cbn [fst] in EO. rewrite EO in E. cbn [bind] in E.
    apply bind_ok in E. destruct E as (q2 & _ & E). injection E as <- _. rewrite T.
    assert (SL : level_isSimple l1' = true); [|rewrite SL; reflexivity].
    pose proof (form_ok _ _ _ _ (lreach_gf _ R1) F1) as (F & _ & N & P & NG & NS & _ & _). pose proof (ids_types _ _ _ _ F) as TY.
    assert (G : forall i, In i (lv_tasks l1') -> simp i = true).
    { intros i I. apply (in_map (fun i => (tk_id (ti_task i), tk_type (ti_task i)))) in I. rewrite TY in I. apply in_map_iff in I. destruct I as (j & Ej & J).
      injection Ej as _ Ej. unfold simp, simple_task. rewrite <- Ej. apply SI, J. }
    assert (FA : filter simp (lv_tasks l1') = lv_tasks l1').
    { clear -G. induction (lv_tasks l1') as [|t ts IH]; [reflexivity|]. cbn [filter]. rewrite (G t (or_introl eq_refl)), IH; [reflexivity|intros; apply G; right; assumption]. }
    unfold level_isSimple. rewrite NS, FA, <- N. apply Nat.eqb_refl. }
  specialize (DI TD).
  assert (P : positive_semidefinite (o_H o)).
  { apply (bounded_psd nv _ (o_g o) k); auto. intros y. rewrite K. pose proof (cost_nonneg cs (lv_tasks l1) y). unfold level_cost. lra. }
  assert (DP : forall i, (i < nv)%nat -> 0 <= mget (o_H o) i i).
  { intros i Hi. specialize (P (fun j => if (j =? i)%nat then 1 else 0)). rewrite H1, H2 in P.
    rewrite (Rsum_single nv i) in P; [|exact Hi|].
    - rewrite (Rsum_single nv i) in P; [|exact Hi|]; rewrite ?Nat.eqb_refl in *; [lra|]. intros j Hj N.
      replace (j =? i)%nat with false by (symmetry; apply Nat.eqb_neq; auto). ring.
    - intros j Hj N. apply Rsum_zero. intros. replace (j =? i)%nat with false by (symmetry; apply Nat.eqb_neq; auto). ring. }
  assert (SV : forall S r, S = mmul (ab_A q) (mkMat nv (mrows (ab_A q)) (fun i r => / (mget (o_H o) i i + reg) * mget (ab_A q) r i)) ->
     r = vadd (mulv (ab_A q) (mkVec nv (fun i => / (mget (o_H o) i i + reg) * vget (o_g o) i))) (ab_b q) -> solves S r (llt S r)).
  { intros S1 r -> ->. apply LP; [|reflexivity]. apply (schur_positive nv (ab_A q) (fun i => / (mget (o_H o) i i + reg)) C); [|exact (qp_attainable qp o q E C AT)].
    intros i I. apply Rinv_0_lt_compat. pose proof (DP i I). lra. }
  assert (EX : exists x, solveWithElimination llt reg (o_H o) (o_g o) (ab_A q) (ab_b q) nv = Ok x).
  { unfold solveWithElimination. cbv zeta. rewrite H1, H2, H3, C, H5, !Nat.leb_refl, !Nat.eqb_refl. cbn [andb assert_then].
    destruct (SV _ _ eq_refl eq_refl) as [L _]. cbn [mmul mcols] in L. rewrite L, Nat.eqb_refl. cbn [assert_then]. eexists. reflexivity. }
  destruct EX as (x & EX). exists x.
  assert (EK : kkt_solve p llt lin cs [l0'; l1'] nv qp = Ok x) by (unfold kkt_solve; rewrite E; cbn [bind kkt_solveHierarchy]; rewrite M, TD; exact EX).
  destruct (hierarchy_elimination fo gu l0 l0' l1 l1' cs nv R0 F0 D0 EL0 R1 F1 D1 EL1 p llt lin qp o q x M RP E SV EK) as (L & MN).
  split; [exact EK|]. split; [exact L|]. split; [exact MN|]. fold reg in MN.
  destruct (elimination_kkt llt reg _ _ _ _ nv x H1 H2 DI ltac:(intros i Hi; specialize (DP i Hi); lra) EX SV) as (_ & FE & ST).
  assert (SH' : qp_shape nv (regularized (o_H o) reg) (o_g o) (ab_A q) (ab_b q)) by (repeat split; auto).
  assert (SY' : symmetric (regularized (o_H o) reg)).
  { destruct SY as [SY1 SY2]. split; [exact SY1|]. simpl. intros i j Hi Hj. rewrite (SY2 i j) by assumption. rewrite (Nat.eqb_sym j i). reflexivity. }
  assert (PK : positive_on_kernel (regularized (o_H o) reg) (ab_A q)).
  { intros d _ (i & I & N). cbn [regularized mrows mcols mget] in *. rewrite H1 in *. rewrite H2.
    pose proof (regularized_quadratic nv (o_H o) (vconst nv 0) reg d H1 H2) as RQ. unfold quadratic, regularized in RQ. cbn [mrows mcols mget vlen vget vconst] in RQ. rewrite H1, H2 in RQ.
    specialize (P d). rewrite H1, H2 in P. pose proof (sum_squares_pos nv d i I N). nra. }
  intros y [Y1 Y2] i I. destruct (Req_dec (y i) (vget x i)) as [Q|Q]; [exact Q|exfalso].
  pose proof (kkt_unique nv _ _ _ _ (vget x) y SH' SY' PK FE ST (proj2 (S y) Y1) ltac:(exists i; auto)) as LT. rewrite !(regularized_quadratic nv), !K in LT by assumption.
  destruct MN as [MN _]. pose proof (Y2 _ MN). cbv beta in *. lra.
Qed.
(** the elimination method refuses everything but simple tasks on the second level *)
Theorem elimination_refused p llt lin qp i : solution_method p = CONSTRAINT_ELIMINATION_LLT ->
  In i (lv_tasks l1) -> ct_isSimple (tk_type (ti_task i)) = false -> (0 < getNumberOfConstraints (cs (tk_id (ti_task i))))%nat ->
  kkt_solve p llt lin cs [l0'; l1'] nv qp = Throw.
Proof.
  intros M I NS POS. destruct (kkt_problem fo gu l0 l0' l1 l1' cs nv R0 F0 D0 EL0 R1 F1 D1 EL1 qp) as (o & q & E & _).
  unfold kkt_solve. rewrite E. cbn [bind kkt_solveHierarchy]. rewrite M.
  assert (T : o_type o <> HESSIAN_DIAGONAL); [|destruct (o_type o); try reflexivity; contradiction].
  destruct (initialize_entries fo gu l1 l1' cs nv true (fst qp) R1 F1 D1 EL1) as (o' & EO & _ & _ & T & _). destruct qp as [o1 q1]. rewrite two_levels in E. cbn [fst] in EO. rewrite EO in E. cbn [bind] in E.
  apply bind_ok in E. destruct E as (q2 & _ & E). injection E as <- _. rewrite T.
  assert (SL : level_isSimple l1' = false); [|rewrite SL; discriminate].
  pose proof (form_ok _ _ _ _ (lreach_gf _ R1) F1) as (F & _ & N & P & NG & NSM & _ & _). pose proof (ids_types _ _ _ _ F) as TY.
  destruct (described_formed _ _ _ _ _ _ F D1) as [D' IDS].
  assert (G : exists j, In j (lv_tasks l1') /\ simp j = false /\ (0 < tk_n (ti_task j))%nat).
  { apply (in_map (fun i => (tk_id (ti_task i), tk_type (ti_task i)))) in I. rewrite <- TY in I. apply in_map_iff in I. destruct I as (j & Ej & J). injection Ej as Ei Ej.
    exists j. split; [exact J|]. split; [unfold simp, simple_task; rewrite Ej; exact NS|]. destruct (D' j J) as (_ & -> & _). rewrite Ei. exact POS. }
  destruct G as (j & J & SJ & PJ). unfold level_isSimple. rewrite NSM, N. apply Nat.eqb_neq. intros Q. clear -Q J SJ PJ.
  assert (LE : forall ts, (sumn (filter simp ts) <= sumn ts)%nat).
  { clear. induction ts as [|t ts IH]; [cbn; lia|]. cbn [filter]. unfold sumn in *. destruct (simp t); cbn [map list_sum fold_right] in *; unfold list_sum in *; lia. }
  revert Q. induction (lv_tasks l1') as [|t ts IH]; [destruct J|]. intros Q. cbn [filter] in Q. destruct J as [-> |J].
  - rewrite SJ in Q. pose proof (LE ts). unfold sumn in *. cbn [map list_sum fold_right] in Q. unfold list_sum in *. lia.
  - apply (IH J). pose proof (LE ts). unfold sumn in *. destruct (simp t); cbn [map list_sum fold_right] in Q; unfold list_sum in *; lia.
Qed.
End Posed.
