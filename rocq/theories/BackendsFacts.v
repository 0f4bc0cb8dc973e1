(** * Proofs for C85 *)
From Coq Require Import List Arith Reals Bool Lra Lia ZifyBool.
From Verif Require Import Base BaseFacts RSum Matrix ActiveSet ConstraintType HierarchyLevel HierarchySpec HierarchyFacts
  Constraints ConstraintsSpec ConstraintsFacts RowsSpec RowsFacts QP QPSpec QPFacts QPFacts2 Problem ProblemSpec ProblemFacts ProblemFacts2
  QpoasesBridge QpoasesBridgeSpec QpoasesBridgeFacts Backends BackendsSpec.
Import ListNotations.
Open Scope R_scope.

(** ** regularization *)
Lemma regularize_effect f o : mrows (o_H o) = mcols (o_H o) ->
  exists o', regularize f o = Ok o' /\ mrows (o_H o') = mrows (o_H o) /\ mcols (o_H o') = mcols (o_H o) /\ o_g o' = o_g o /\
    forall i j, (i < mrows (o_H o))%nat -> (j < mrows (o_H o))%nat -> mget (o_H o') i j = mget (o_H o) i j + (if (i =? j)%nat then f else 0).
Proof.
  intros SQ. unfold regularize.
  destruct (for_up_inv (fun k H => mrows H = mrows (o_H o) /\ mcols H = mcols (o_H o) /\
      forall i j, mget H i j = mget (o_H o) i j + (if (i =? j)%nat && (i <? k)%nat then f else 0))
     (fun i H => mset_o H i i (mget H i i + f)) (mrows (o_H o)) 0 (o_H o)) as (H & E & RH & CH & G).
  - split; [reflexivity|]. split; [reflexivity|]. intros i j. replace ((i =? j)%nat && (i <? 0)%nat) with false by lia. lra.
  - intros k H Hk (RH & CH & G). unfold mset_o. rewrite assert_true by lia. eexists. split; [reflexivity|]. cbn [mrows mcols mget].
    split; [exact RH|]. split; [exact CH|]. intros i j. destruct ((i =? k)%nat && (j =? k)%nat) eqn:Q.
    + assert (i = k /\ j = k) as [-> ->] by lia. rewrite G. replace ((k =? k)%nat && (k <? k)%nat) with false by lia.
      replace ((k =? k)%nat && (k <? S k)%nat) with true by lia. lra.
    + rewrite G. replace ((i =? j)%nat && (i <? S k)%nat) with ((i =? j)%nat && (i <? k)%nat) by lia. reflexivity.
  - rewrite E. cbn [bind]. eexists. split; [reflexivity|]. cbn [o_H o_g]. split; [exact RH|]. split; [exact CH|]. split; [reflexivity|].
    intros i j Hi Hj. rewrite G. replace ((i =? j)%nat && (i <? 0 + mrows (o_H o))%nat) with (i =? j)%nat by lia. reflexivity.
Qed.

Lemma quadratic_regularized n H H' g f x : mrows H = n -> mcols H = n -> mrows H' = n -> mcols H' = n ->
  (forall i j, (i < n)%nat -> (j < n)%nat -> mget H' i j = mget H i j + (if (i =? j)%nat then f else 0)) ->
  quadratic H' g x = quadratic H g x + / 2 * f * Rsum n (fun i => x i * x i).
Proof.
  intros A B A' B' G. unfold quadratic. rewrite A, B, A', B'.
  assert (E : Rsum n (fun i => Rsum n (fun j => x i * mget H' i j * x j)) =
              Rsum n (fun i => Rsum n (fun j => x i * mget H i j * x j)) + f * Rsum n (fun i => x i * x i)).
  { rewrite <- Rsum_scal, <- Rsum_plus. apply Rsum_ext. intros i Hi.
    replace (f * (x i * x i)) with (Rsum n (fun j => if (j =? i)%nat then f * (x i * x j) else 0)) by (rewrite Rsum_delta by exact Hi; reflexivity).
    rewrite <- Rsum_plus. apply Rsum_ext. intros j Hj. rewrite G by assumption. rewrite (Nat.eqb_sym j i). destruct (i =? j)%nat; ring. }
  rewrite E. ring.
Qed.

Lemma regularized_ok cs nv l up f o : 0 <= f -> objective_of cs nv l up o ->
  exists o' k, regularized f o = Ok o' /\ sizes o' nv /\
    forall x, quadratic (if up then o_H o' else symmetric_of_lower (o_H o')) (o_g o') x = / 2 * regularized_cost cs l nv f x + k.
Proof.
  intros F ((S1 & S2 & S3) & k & K). unfold regularized. destruct (Rle_dec 0 f) as [_|N]; [|contradiction].
  destruct (Rlt_dec 0 f) as [_|N].
  - destruct (regularize_effect f o) as (o' & E & R1 & C1 & G1 & M); [congruence|]. exists o', k. split; [exact E|].
    split; [split; [congruence|split; congruence]|]. intros x. rewrite G1. unfold regularized_cost.
    rewrite (quadratic_regularized nv (if up then o_H o else symmetric_of_lower (o_H o)) _ (o_g o) f x).
    + rewrite K. ring.
    + destruct up; exact S1.
    + destruct up; exact S2.
    + destruct up; cbn [symmetric_of_lower mrows]; congruence.
    + destruct up; cbn [symmetric_of_lower mcols]; congruence.
    + intros i j Hi Hj. rewrite S1 in M. destruct up; [apply M; assumption|]. unfold symmetric_of_lower. cbn [mget].
      destruct (j <=? i)%nat; [apply M; assumption|]. rewrite M by assumption. rewrite (Nat.eqb_sym j i). reflexivity.
  - assert (f = 0) by lra. subst f. exists o, k. split; [reflexivity|]. split; [split; [|split]; assumption|]. intros x. rewrite K. unfold regularized_cost. lra.
Qed.

(** a minimum of one cost is a minimum of the other one *)
Lemma minimum_shift (c1 c2 : (nat -> R) -> R) k x y : (forall z, c1 z = / 2 * c2 z + k) -> c1 x <= c1 y <-> c2 x <= c2 y.
Proof. intros E. rewrite !E. lra. Qed.

(** ** QuadProg++ *)
Theorem quadprogpp_solves (fo : nat -> formed) (gu : bool) (p p1 : problem) (cs : nat -> constr) (nv : nat) (l0 l1 : level) (f : R)
    (qp : objective * qpc_AB_AL) :
  preach p -> pb_formHierarchy fo gu p = Ok p1 -> described_problem cs fo nv p -> pb_levels p = [l0; l1] -> equality_level l1 -> 0 <= f ->
  exists a, quadprogpp_call cs (pb_levels p1) nv f qp = Ok a /\ mrows (qg_G a) = nv /\ mcols (qg_G a) = nv /\
    forall x, minimum (quadprogpp_cost a) (quadprogpp_feasible a) x <->
              minimum (regularized_cost cs l1 nv f) (satisfies_level cs l0) x.
Proof.
  intros P E D L EL F. destruct (two_formed fo gu p p1 l0 l1 P E L) as (l0' & l1' & L' & R0 & R1 & F0 & F1 & _).
  unfold described_problem in D. rewrite L in D. inversion D as [|? ? D0 D']. subst. inversion D' as [|? ? D1 _]. subst.
  destruct qp as [o q].
  destruct (two_levels_AB_AL fo gu true l0 l0' l1 l1' cs nv R0 F0 D0 R1 F1 D1 EL o q) as (o' & q' & Q & OO & S).
  destruct (regularized_ok cs nv l1 true f o' F OO) as (o'' & k & RG & (S1 & S2 & S3) & K).
  unfold quadprogpp_call. rewrite L', Q. cbn [bind fst snd]. rewrite RG. cbn [bind]. eexists. split; [reflexivity|]. cbn [qg_G].
  split; [exact S1|]. split; [exact S2|].
  assert (FE : forall x, quadprogpp_feasible (mkQuadprogpp (o_H o'') (o_g o'') (mtrans (ab_A (q_eq q'))) (vopp (ab_b (q_eq q')))
                 (mtrans (al_A (q_ineq q'))) (vopp (al_lb (q_ineq q')))) x <-> satisfies_level cs l0 x).
  { intros x. rewrite <- S. unfold quadprogpp_feasible, sat_AB, sat_AL, mrow. cbn [qg_CE qg_ce qg_CI qg_ci mtrans mrows mcols mget vopp vget].
    split; intros [A B]; (split; intros r Hr; [specialize (A r Hr)|specialize (B r Hr)]); lra. }
  assert (CO : forall x y, quadprogpp_cost (mkQuadprogpp (o_H o'') (o_g o'') (mtrans (ab_A (q_eq q'))) (vopp (ab_b (q_eq q')))
                 (mtrans (al_A (q_ineq q'))) (vopp (al_lb (q_ineq q')))) x <= quadprogpp_cost (mkQuadprogpp (o_H o'') (o_g o'') (mtrans (ab_A (q_eq q'))) (vopp (ab_b (q_eq q')))
                 (mtrans (al_A (q_ineq q'))) (vopp (al_lb (q_ineq q')))) y <-> regularized_cost cs l1 nv f x <= regularized_cost cs l1 nv f y).
  { intros x y. apply minimum_shift with (k := k). exact K. }
  intros x. unfold minimum. rewrite FE. split; intros [A B]; (split; [exact A|]); intros y Hy; apply CO, B, FE, Hy.
Qed.

(** ** QPs with simple bounds *)
Lemma feasible_satisfies cs nv s p1 l0' l1' x : ready cs nv s p1 l0' l1' ->
  sat_ALU (q_general (qo_con s)) x -> sat_bounds (q_lb (qo_con s), q_ub (qo_con s)) x -> satisfies_level cs l0' x.
Proof.
  intros RD SA SB i Hi j Hj. rewrite <- (rd_len _ _ _ _ _ _ RD i Hi) in Hj.
  assert (B : lower_or_inf (cs (tk_id (ti_task i))) j <= row_value (cs (tk_id (ti_task i))) j x <= upper_or_inf (cs (tk_id (ti_task i))) j).
  { destruct (rd_rows _ _ _ _ _ _ RD i j Hi Hj) as (_ & LE & U & T & RW). unfold row_of in RW. destruct (simp i) eqn:Si.
    - destruct RW as (GE & _). destruct (row_index cs nv s p1 l0' l1' i j RD Hi Hj Si) as (y & BV & Hy & _ & _ & RV & _).
      destruct (lower_largest cs nv s p1 l0' l1' y RD ltac:(lia) Hy) as ((_ & LL) & (_ & SU) & _).
      specialize (LL i j Hi BV). specialize (SU i j Hi BV). destruct (rd_bounds _ _ _ _ _ _ RD ltac:(lia)) as (VL & VU & _).
      specialize (SB y). cbn [fst snd] in SB. rewrite VL in SB. specialize (SB Hy). rewrite RV. lra.
    - destruct RW as (LT & R1 & R2 & R3). destruct (rd_alu _ _ _ _ _ _ RD) as (SA1 & _). specialize (SA (offset (ti_loc i) + j)%nat). rewrite SA1 in SA.
      specialize (SA ltac:(lia)). rewrite R1, R2, R3 in SA. exact SA. }
  unfold lower_or_inf, upper_or_inf in B. unfold at_least, at_most. destruct (lower _ j), (upper _ j); lra.
Qed.

(** levels before and after forming have the same tasks *)
Lemma satisfies_formed fo gu l l' cs x : lreach l -> level_form fo gu l = Ok l' -> satisfies_level cs l' x <-> satisfies_level cs l x.
Proof.
  intros W E. destruct (form_rows fo gu l l' W E) as (TI & _ & _). unfold task_ids in TI.
  split; intros H i Hi; apply (in_map (fun i => (tk_id (ti_task i), tk_type (ti_task i)))) in Hi.
  - rewrite <- TI in Hi. apply in_map_iff in Hi. destruct Hi as (i' & E' & Hi'). injection E' as E' _. rewrite <- E'. apply H, Hi'.
  - rewrite TI in Hi. apply in_map_iff in Hi. destruct Hi as (i' & E' & Hi'). injection E' as E' _. rewrite <- E'. apply H, Hi'.
Qed.

(** the constraints of the QP with simple bounds *)
Lemma bounds_qp fo gu up p p1 cs nv l0 l1 o q o' q' : preach p -> pb_formHierarchy fo gu p = Ok p1 -> described_problem cs fo nv p -> qp_hierarchy p l0 l1 ->
  getQPProblem (fun l => initializeConstraints_ILU_ALU cs l nv) cs (pb_levels p1) up (o, q) = Ok (o', q') ->
  objective_of cs nv l1 up o' /\
  (forall x, sat_ALU (q_general q') x /\ sat_bounds (q_lb q', q_ub q') x -> satisfies_level cs l0 x) /\
  (forall x, reasonable cs l0 nv x -> satisfies_level cs l0 x -> sat_ALU (q_general q') x /\ sat_bounds (q_lb q', q_ub q') x) /\
  mcols (alu_A (q_general q')) = nv.
Proof.
  intros P E D T Q. pose proof T as (L & EL & NG). destruct (two_formed fo gu p p1 l0 l1 P E L) as (l0' & l1' & L' & R0 & R1 & F0 & F1 & _).
  pose proof D as DP. unfold described_problem in D. rewrite L in D. inversion D as [|? ? D0 D']. subst. inversion D' as [|? ? D1 _]. subst.
  rewrite L' in Q.
  destruct (two_levels_ILU_ALU fo gu up l0 l0' l1 l1' cs nv R0 F0 D0 R1 F1 D1 EL o q NG) as [_ EQ]. destruct (EQ _ Q) as [OO EQ2].
  cbn [fst snd] in OO, EQ2. split; [exact OO|].
  assert (I : exists s, qpo_initialize cs (pb_levels p1) nv (mkQpo o q 0 0 None) = Ok s /\ qo_con s = q').
  { unfold qpo_initialize. rewrite L'. cbn [qo_obj qo_con]. rewrite two_levels in Q |- *.
    destruct (objective_any fo gu l1 l1' cs nv true o R1 F1 D1 EL) as (o2 & E2 & _). rewrite E2. cbn [bind].
    apply bind_ok in Q. destruct Q as (o3 & _ & Q). apply bind_ok in Q. destruct Q as (q3 & Q3 & Q). injection Q as <- <-.
    rewrite Q3. cbn [bind fst snd]. eexists. split; reflexivity. }
  destruct I as (s & I & Es). destruct (init_ready fo gu p p1 cs nv l0 l1 _ s P E DP T I) as (k0 & k1 & RD & K0 & K1).
  rewrite F0 in K0. injection K0 as <-. split; [|split].
  - intros x [A B]. rewrite <- Es in A, B. apply (satisfies_formed fo gu l0 l0' cs x R0 F0). eapply feasible_satisfies; eassumption.
  - intros x [W X] SX. apply EQ2; assumption.
  - rewrite <- Es. apply (rd_alu _ _ _ _ _ _ RD).
Qed.

Theorem qpmad_solves (fo : nat -> formed) (gu : bool) (p p1 : problem) (cs : nat -> constr) (nv : nat) (l0 l1 : level) (f : R)
    (qp : objective * qpc_ILU_ALU) :
  preach p -> pb_formHierarchy fo gu p = Ok p1 -> described_problem cs fo nv p -> qp_hierarchy p l0 l1 -> 0 <= f ->
  ((exists x, reasonable cs l0 nv x /\ satisfies_level cs l0 x) -> exists a, qpmad_call cs (pb_levels p1) nv f qp = Ok a) /\
  forall a, qpmad_call cs (pb_levels p1) nv f qp = Ok a ->
    (forall x, minimum (qpmad_cost a) (qpmad_feasible a) x ->
       satisfies_level cs l0 x /\
       forall y, reasonable cs l0 nv y -> satisfies_level cs l0 y -> regularized_cost cs l1 nv f x <= regularized_cost cs l1 nv f y) /\
    (forall x, reasonable cs l0 nv x -> minimum (regularized_cost cs l1 nv f) (satisfies_level cs l0) x ->
       minimum (qpmad_cost a) (qpmad_feasible a) x).
Proof.
  intros P E D T F. pose proof T as (L & EL & NG). destruct (two_formed fo gu p p1 l0 l1 P E L) as (l0' & l1' & L' & R0 & R1 & F0 & F1 & _).
  pose proof D as DP. unfold described_problem in D. rewrite L in D. inversion D as [|? ? D0 D']. subst. inversion D' as [|? ? D1 _]. subst.
  destruct qp as [o q]. split.
  - intros (x & [W X] & SX).
    destruct (two_levels_ILU_ALU fo gu false l0 l0' l1 l1' cs nv R0 F0 D0 R1 F1 D1 EL o q NG) as [EX EQ].
    destruct EX as (r & Er); [exists x; split; [exact W|split; [exact X|exact SX]]|]. destruct (EQ _ Er) as [OO _].
    destruct (regularized_ok cs nv l1 false f (fst r) F OO) as (o'' & k & RG & _).
    unfold qpmad_call. rewrite L', Er. cbn [bind]. rewrite RG. cbn [bind]. eexists. reflexivity.
  - intros a H. unfold qpmad_call in H. apply bind_ok in H. destruct H as ([o' q'] & Q & H).
    destruct (bounds_qp fo gu false p p1 cs nv l0 l1 o q o' q' P E DP T Q) as (OO & S1 & S2 & _). cbn [fst snd] in H.
    destruct (regularized_ok cs nv l1 false f o' F OO) as (o'' & k & RG & _ & K). rewrite RG in H. cbn [bind] in H. injection H as <-.
    set (a := mkQpmad _ _ _ _ _ _ _).
    assert (FE : forall x, qpmad_feasible a x <-> sat_ALU (q_general q') x /\ sat_bounds (q_lb q', q_ub q') x) by (intros x; reflexivity).
    assert (CO : forall x y, qpmad_cost a x <= qpmad_cost a y <-> regularized_cost cs l1 nv f x <= regularized_cost cs l1 nv f y).
    { intros x y. apply minimum_shift with (k := k). exact K. }
    clearbody a. split.
    + intros x [A B]. split; [apply S1, FE, A|]. intros y Ry Sy. apply CO, B, FE, S2; assumption.
    + intros x Rx [A B]. split; [apply FE, S2; assumption|]. intros y Hy. apply CO, B, S1, FE, Hy.
Qed.

(** ** qpOASES: buffers *)
Lemma div_mod_pos (n i j : nat) : (j < n)%nat -> ((i * n + j) / n = i /\ (i * n + j) mod n = j)%nat.
Proof.
  intros H. split.
  - rewrite (Nat.mul_comm i n). rewrite Nat.add_comm, Nat.mul_comm, Nat.div_add by lia. rewrite Nat.div_small by lia. reflexivity.
  - rewrite Nat.add_comm, Nat.mod_add by lia. apply Nat.mod_small, H.
Qed.

Lemma qpoases_cost_quadratic s n x : qo_nv s = n -> sizes (qo_obj s) n ->
  qpoases_cost (qpoases_call s) x = quadratic (o_H (qo_obj s)) (o_g (qo_obj s)) x.
Proof.
  intros N (S1 & S2 & S3). unfold qpoases_cost, quadratic, qpoases_call. cbn [qa_nV qa_H qa_g]. rewrite N, S1, S2, S3. f_equal. f_equal.
  rewrite Rsum_swap. apply Rsum_ext. intros i Hi. apply Rsum_ext. intros j Hj. unfold col_major. rewrite S1.
  destruct (div_mod_pos n j i Hi) as [-> ->]. ring.
Qed.

Lemma qpoases_feasible_sat s n x : qo_nv s = n -> qo_nc s = mrows (alu_A (q_general (qo_con s))) ->
  ((0 < mrows (alu_A (q_general (qo_con s))))%nat -> mcols (alu_A (q_general (qo_con s))) = n) ->
  ((0 < qo_nb s)%nat -> vlen (q_lb (qo_con s)) = n) -> ((qo_nb s = 0)%nat -> vlen (q_lb (qo_con s)) = 0%nat) ->
  (qpoases_feasible (qpoases_call s) x <-> sat_ALU (q_general (qo_con s)) x /\ sat_bounds (q_lb (qo_con s), q_ub (qo_con s)) x).
Proof.
  intros N NC MC VL VL0. unfold qpoases_feasible, qpoases_call. cbn [qa_nV qa_nC qa_A qa_lb qa_ub qa_lbA qa_ubA].
  fold (qo_nb s). rewrite N.
  assert (G : forall r, (r < qo_nc s)%nat -> Rsum n (fun j => row_major (alu_A (q_general (qo_con s))) (r * n + j) * x j) = mrow (alu_A (q_general (qo_con s))) r x).
  { intros r Hr. unfold mrow. rewrite MC by lia. apply Rsum_ext. intros j Hj. unfold row_major. rewrite MC by lia. destruct (div_mod_pos n r j Hj) as [-> ->]. reflexivity. }
  unfold sat_ALU, sat_bounds. cbn [fst snd]. rewrite <- NC. split; intros [A B]; (split; [intros r Hr|intros v Hv]).
  - destruct (A r Hr) as (M & EM & BW). replace (0 <? qo_nc s)%nat with true in * by lia. injection EM as <-. rewrite G in BW by exact Hr. exact BW.
  - destruct (Nat.eq_dec (qo_nb s) 0) as [Z|Z]; [rewrite (VL0 Z) in Hv; lia|].
    assert (Z' : (0 < qo_nb s)%nat) by lia. rewrite (VL Z') in Hv. specialize (B v Hv). replace (0 <? qo_nb s)%nat with true in B by lia. exact B.
  - replace (0 <? qo_nc s)%nat with true by lia. eexists. split; [reflexivity|]. rewrite G by exact Hr. exact (A r Hr).
  - destruct (0 <? qo_nb s)%nat eqn:Z; [|split; exact Logic.I]. apply B. rewrite VL by lia. exact Hv.
Qed.

Lemma empty_bounds fo gu up p p1 cs nv l0 l1 o q o' q' : preach p -> pb_formHierarchy fo gu p = Ok p1 -> described_problem cs fo nv p -> qp_hierarchy p l0 l1 ->
  getQPProblem (fun l => initializeConstraints_ILU_ALU cs l nv) cs (pb_levels p1) up (o, q) = Ok (o', q') ->
  length (ilu_I (q_bounds q')) = 0%nat -> vlen (q_lb q') = 0%nat.
Proof.
  intros P E D (L & _) Q Z. destruct (two_formed fo gu p p1 l0 l1 P E L) as (l0' & l1' & L' & _). rewrite L', two_levels in Q.
  apply bind_ok in Q. destruct Q as (o3 & _ & Q). apply bind_ok in Q. destruct Q as (q3 & Q3 & Q). injection Q as <- <-.
  unfold initializeConstraints_ILU_ALU in Q3. apply bind_ok in Q3. destruct Q3 as (g & _ & Q3). apply bind_ok in Q3. destruct Q3 as (b & _ & Q3).
  apply bind_ok in Q3. destruct Q3 as (v & Ev & Q3). injection Q3 as <-. cbn [q_bounds q_lb] in *.
  unfold initializeSolutionBounds in Ev. rewrite Z in Ev. cbn in Ev. injection Ev as <-. reflexivity.
Qed.

Theorem qpoases_solves (fo : nat -> formed) (gu : bool) (p p1 : problem) (cs : nat -> constr) (nv : nat) (l0 l1 : level) (s0 s : qpo) :
  preach p -> pb_formHierarchy fo gu p = Ok p1 -> described_problem cs fo nv p -> qp_hierarchy p l0 l1 ->
  qpo_initialize cs (pb_levels p1) nv s0 = Ok s ->
  (forall x, minimum (qpoases_cost (qpoases_call s)) (qpoases_feasible (qpoases_call s)) x ->
     satisfies_level cs l0 x /\
     forall y, reasonable cs l0 nv y -> satisfies_level cs l0 y -> level_cost cs l1 x <= level_cost cs l1 y) /\
  (forall x, reasonable cs l0 nv x -> minimum (level_cost cs l1) (satisfies_level cs l0) x ->
     minimum (qpoases_cost (qpoases_call s)) (qpoases_feasible (qpoases_call s)) x).
Proof.
  intros P E D T I. destruct (init_ready fo gu p p1 cs nv l0 l1 s0 s P E D T I) as (l0' & l1' & RD & F0 & F1).
  unfold qpo_initialize in I. apply bind_ok in I. destruct I as ([o' q'] & Q & I). cbn [fst snd] in I. injection I as <-.
  destruct (bounds_qp fo gu true p p1 cs nv l0 l1 _ _ o' q' P E D T Q) as ((SZ & k & K) & S1 & S2 & MC). set (s := mkQpo _ _ _ _ _) in *.
  assert (FE : forall x, qpoases_feasible (qpoases_call s) x <-> sat_ALU (q_general q') x /\ sat_bounds (q_lb q', q_ub q') x).
  { intros x. apply (qpoases_feasible_sat s nv x); [reflexivity|reflexivity|intros _; exact MC| |].
    - intros Z. rewrite (rd_nb _ _ _ _ _ _ RD) in Z. apply (rd_bounds _ _ _ _ _ _ RD Z).
    - intros Z. eapply empty_bounds; eassumption. }
  assert (CO : forall x y, qpoases_cost (qpoases_call s) x <= qpoases_cost (qpoases_call s) y <-> level_cost cs l1 x <= level_cost cs l1 y).
  { intros x y. apply minimum_shift with (k := k). intros z. rewrite (qpoases_cost_quadratic s nv z eq_refl SZ). apply K. }
  clearbody s. split.
  - intros x [A B]. split; [apply S1, FE, A|]. intros y Ry Sy. apply CO, B, FE, S2; assumption.
  - intros x Rx [A B]. split; [apply FE, S2; assumption|]. intros y Hy. apply CO, B, S1, FE, Hy.
Qed.

(** the points among which the library looks for a minimum *)
Theorem qpoases_points (fo : nat -> formed) (gu : bool) (p p1 : problem) (cs : nat -> constr) (nv : nat) (l0 l1 : level) (s0 s : qpo) :
  preach p -> pb_formHierarchy fo gu p = Ok p1 -> described_problem cs fo nv p -> qp_hierarchy p l0 l1 ->
  qpo_initialize cs (pb_levels p1) nv s0 = Ok s ->
  (forall x, qpoases_feasible (qpoases_call s) x -> satisfies_level cs l0 x) /\
  (forall x, reasonable cs l0 nv x -> satisfies_level cs l0 x -> qpoases_feasible (qpoases_call s) x) /\
  (forall x, qpoases_feasible (qpoases_call s) x -> forall i, In i (lv_tasks l0) -> simple_task (ti_task i) = true -> (0 < getNumberOfConstraints (cs (tk_id (ti_task i))))%nat ->
     forall v, (v < nv)%nat -> - g_infinity <= x v <= g_infinity).
Proof.
  intros P E D T I. destruct (init_ready fo gu p p1 cs nv l0 l1 s0 s P E D T I) as (l0' & l1' & RD & F0 & F1).
  unfold qpo_initialize in I. apply bind_ok in I. destruct I as ([o' q'] & Q & I). cbn [fst snd] in I. injection I as <-.
  destruct (bounds_qp fo gu true p p1 cs nv l0 l1 _ _ o' q' P E D T Q) as ((SZ & k & K) & S1 & S2 & MC). set (s := mkQpo _ _ _ _ _) in *.
  assert (FE : forall x, qpoases_feasible (qpoases_call s) x <-> sat_ALU (q_general q') x /\ sat_bounds (q_lb q', q_ub q') x).
  { intros x. apply (qpoases_feasible_sat s nv x); [reflexivity|reflexivity|intros _; exact MC| |].
    - intros Z. rewrite (rd_nb _ _ _ _ _ _ RD) in Z. apply (rd_bounds _ _ _ _ _ _ RD Z).
    - intros Z. eapply empty_bounds; eassumption. }
  split; [intros x A; apply S1, FE, A|]. split; [intros x A B; apply FE, S2; assumption|].
  intros x A i Hi Si Ni v Hv. apply FE in A. destruct A as [_ A].
  assert (NS : (0 < n_simple l0')%nat).
  { destruct T as (L & _). destruct (two_formed fo gu p p1 l0 l1 P E L) as (l0'' & l1'' & _ & R0 & _ & F0' & _). rewrite F0 in F0'. injection F0' as <-.
    destruct (form_rows fo gu l0 l0' R0 F0) as (TI & _ & _). unfold task_ids in TI.
    apply (in_map (fun i => (tk_id (ti_task i), tk_type (ti_task i)))) in Hi. rewrite <- TI in Hi. apply in_map_iff in Hi. destruct Hi as (i' & Ei & Hi'). injection Ei as Ei Et.
    rewrite <- Ei, <- (rd_len _ _ _ _ _ _ RD i' Hi') in Ni. destruct (rd_rows _ _ _ _ _ _ RD i' 0%nat Hi' Ni) as (_ & B & _ & _ & RW).
    assert (Ss : simp i' = true) by (unfold simp, simple_task in *; rewrite Et; exact Si).
    unfold row_of in RW. rewrite Ss in RW. lia. }
  destruct (rd_bounds _ _ _ _ _ _ RD NS) as (VL & VU & M). specialize (A v). cbn [fst snd] in A. unfold s in VL, VU, M. cbn [qo_con] in VL, VU, M.
  rewrite VL in A. specialize (A Hv). destruct (M v Hv) as ((_ & M1) & (_ & M2)).
  specialize (M1 (- g_infinity) (or_introl eq_refl)). specialize (M2 g_infinity (or_introl eq_refl)). lra.
Qed.

(** ** problems of one level with new solvers *)
Theorem one_level_solves (fo : nat -> formed) (gu : bool) (p p1 : problem) (cs : nat -> constr) (nv : nat) (l : level) (f : R) (o : objective) :
  preach p -> pb_formHierarchy fo gu p = Ok p1 -> described_problem cs fo nv p -> pb_levels p = [l] -> equality_level l -> 0 <= f ->
  (exists s, qpo_initialize cs (pb_levels p1) nv qpo_new = Ok s /\
     forall x, minimum (qpoases_cost (qpoases_call s)) (qpoases_feasible (qpoases_call s)) x <-> minimum (level_cost cs l) (fun _ => True) x) /\
  (exists a, quadprogpp_call cs (pb_levels p1) nv f (o, empty_AB_AL) = Ok a /\
     forall x, minimum (quadprogpp_cost a) (quadprogpp_feasible a) x <-> minimum (regularized_cost cs l nv f) (fun _ => True) x) /\
  (exists a, qpmad_call cs (pb_levels p1) nv f (o, empty_ILU_ALU) = Ok a /\
     forall x, minimum (qpmad_cost a) (qpmad_feasible a) x <-> minimum (regularized_cost cs l nv f) (fun _ => True) x).
Proof.
  intros P E D L EL F. destruct (one_formed fo gu p p1 l P E L) as (l' & L' & R0 & F0 & _).
  unfold described_problem in D. rewrite L in D. inversion D as [|? ? D0 _]. subst. split; [|split].
  - destruct (objective_any fo gu l l' cs nv true empty_objective R0 F0 D0 EL) as (o' & Eo & SZ & k & K).
    unfold qpo_initialize. rewrite L'. cbn [getQPProblem fst snd qpo_new qo_obj qo_con]. rewrite Eo. cbn [bind fst snd]. eexists. split; [reflexivity|].
    set (s := mkQpo _ _ _ _ _).
    assert (FE : forall x, qpoases_feasible (qpoases_call s) x).
    { intros x. split; [intros r Hr; cbn in Hr; lia|]. intros v _. split; exact Logic.I. }
    assert (CO : forall x y, qpoases_cost (qpoases_call s) x <= qpoases_cost (qpoases_call s) y <-> level_cost cs l x <= level_cost cs l y).
    { intros x y. apply minimum_shift with (k := k). intros z. rewrite (qpoases_cost_quadratic s nv z eq_refl SZ). apply K. }
    intros x. split; intros [_ B]; (split; [try apply FE; try exact Logic.I|]); intros y _; apply CO, B; try apply FE; exact Logic.I.
  - destruct (objective_any fo gu l l' cs nv true o R0 F0 D0 EL) as (o' & Eo & OO).
    destruct (regularized_ok cs nv l true f o' F OO) as (o'' & k & RG & _ & K).
    unfold quadprogpp_call. rewrite L'. cbn [getQPProblem fst snd]. rewrite Eo. cbn [bind fst snd]. rewrite RG. cbn [bind]. eexists. split; [reflexivity|].
    set (a := mkQuadprogpp _ _ _ _ _ _).
    assert (FE : forall x, quadprogpp_feasible a x) by (intros x; split; intros r Hr; cbn in Hr; lia).
    assert (CO : forall x y, quadprogpp_cost a x <= quadprogpp_cost a y <-> regularized_cost cs l nv f x <= regularized_cost cs l nv f y).
    { intros x y. apply minimum_shift with (k := k). exact K. }
    intros x. split; intros [_ B]; (split; [try apply FE; try exact Logic.I|]); intros y _; apply CO, B; try apply FE; exact Logic.I.
  - destruct (objective_any fo gu l l' cs nv false o R0 F0 D0 EL) as (o' & Eo & OO).
    destruct (regularized_ok cs nv l false f o' F OO) as (o'' & k & RG & _ & K).
    unfold qpmad_call. rewrite L'. cbn [getQPProblem fst snd]. rewrite Eo. cbn [bind fst snd]. rewrite RG. cbn [bind]. eexists. split; [reflexivity|].
    set (a := mkQpmad _ _ _ _ _ _ _).
    assert (FE : forall x, qpmad_feasible a x) by (intros x; split; intros r Hr; cbn in Hr; lia).
    assert (CO : forall x y, qpmad_cost a x <= qpmad_cost a y <-> regularized_cost cs l nv f x <= regularized_cost cs l nv f y).
    { intros x y. apply minimum_shift with (k := k). exact K. }
    intros x. split; intros [_ B]; (split; [try apply FE; try exact Logic.I|]); intros y _; apply CO, B; try apply FE; exact Logic.I.
Qed.

(** a negative regularization factor is refused *)
Theorem negative_factor (cs : nat -> constr) (levels : list level) (nv : nat) (f : R) (qp : objective * qpc_AB_AL) (qp' : objective * qpc_ILU_ALU) :
  f < 0 -> (forall a, quadprogpp_call cs levels nv f qp <> Ok a) /\ (forall a, qpmad_call cs levels nv f qp' <> Ok a).
Proof.
  intros F. split; intros a H; [unfold quadprogpp_call in H|unfold qpmad_call in H]; apply bind_ok in H; destruct H as (qp1 & _ & H);
    unfold regularized in H; (destruct (Rle_dec 0 f) as [X|_]; [lra|]); discriminate.
Qed.
