From Coq Require Import List Arith Reals Lra Lia Bool ZifyBool.
From Verif Require Import Base BaseFacts RSum Matrix ConstraintType HierarchyLevel HierarchySpec HierarchyFacts
  Constraints ConstraintsSpec ConstraintsFacts QP QPSpec QPFacts.
Import ListNotations.
Open Scope R_scope.

Lemma ids_types fo gu l l' : Forall2 (formed_from fo gu) (lv_tasks l) (lv_tasks l') ->
  map (fun i => (tk_id (ti_task i), tk_type (ti_task i))) (lv_tasks l') = map (fun i => (tk_id (ti_task i), tk_type (ti_task i))) (lv_tasks l).
Proof. intros F. apply formed_map in F. tauto. Qed.

Lemma sumn_filter_all p ts : sumn (filter p ts) = sumn ts -> forall i, In i ts -> p i = false -> tk_n (ti_task i) = 0%nat.
Proof.
  induction ts as [|h t IH]; intros E i H P; [destruct H|]. simpl in E.
  assert (LE : forall q, (sumn (filter p q) <= sumn q)%nat).
  { clear. induction q as [|a q IH]; simpl; [lia|]. destruct (p a); rewrite ?sumn_cons; lia. }
  specialize (LE t). rewrite (sumn_cons h t) in E. destruct H as [->|H].
  - rewrite P in E. lia.
  - destruct (p h); [rewrite sumn_cons in E|]; apply IH; auto; lia.
Qed.

Lemma equality_counts fo gu l l' : lreach l -> level_form fo gu l = Ok l' ->
  (forall i, In i (lv_tasks l) -> ct_isEquality (tk_type (ti_task i)) = true) -> level_isEquality l' = true.
Proof.
  intros R E H. pose proof (form_ok _ _ _ _ (lreach_gf _ R) E) as (F & _ & Q & _ & _ & _ & NE & _).
  unfold level_isEquality. rewrite Q, NE. apply Nat.eqb_eq. f_equal.
  apply ids_types in F.
  assert (G : forall i, In i (lv_tasks l') -> ct_isEquality (tk_type (ti_task i)) = true).
  { intros i Hi. assert (In (tk_id (ti_task i), tk_type (ti_task i)) (map (fun i => (tk_id (ti_task i), tk_type (ti_task i))) (lv_tasks l'))).
    { apply in_map_iff. exists i. auto. }
    rewrite F in H0. apply in_map_iff in H0. destruct H0 as (j & Ej & Hj). injection Ej as E1 E2. rewrite <- E2. apply H. assumption. }
  clear -G. induction (lv_tasks l') as [|h t IH]; [reflexivity|]. simpl. rewrite (G h) by (simpl; auto). f_equal. apply IH.
  intros; apply G; simpl; auto.
Qed.

Lemma good_level fo gu l l' cs nv : lreach l -> level_form fo gu l = Ok l' -> described cs fo nv l -> equality_level l ->
  Forall (good nv cs) (lv_tasks l') /\ lv_tasks l' <> [].
Proof.
  intros R E D EL. pose proof (form_ok _ _ _ _ (lreach_gf _ R) E) as (F & _ & Q & P & _).
  split.
  - destruct (described_formed _ _ _ _ _ _ F D) as [A _]. apply Forall_forall. intros o Ho. destruct (A o Ho) as (A1 & A2 & A3).
    apply ids_types in F.
    assert (In (tk_id (ti_task o), tk_type (ti_task o)) (map (fun i => (tk_id (ti_task i), tk_type (ti_task i))) (lv_tasks l))).
    { rewrite <- F. apply in_map_iff. exists o. auto. }
    apply in_map_iff in H. destruct H as (j & Ej & Hj). injection Ej as E1 E2. destruct (EL j Hj) as [B1 B2].
    unfold good. rewrite A1. rewrite <- E2. auto.
  - intros N. rewrite Q, N in P. unfold sumn in P. simpl in P. lia.
Qed.

Lemma lgram_simple fo gu l l' cs nv i j : lreach l -> level_form fo gu l = Ok l' -> described cs fo nv l ->
  level_isSimple l' = true -> i <> j -> lgram cs (lv_tasks l') i j = 0.
Proof.
  intros R E D S N. pose proof (form_ok _ _ _ _ (lreach_gf _ R) E) as (F & _ & Q & _ & _ & NS & _).
  destruct (described_formed _ _ _ _ _ _ F D) as [A _].
  unfold level_isSimple in S. apply Nat.eqb_eq in S. rewrite Q, NS in S. symmetry in S.
  pose proof (sumn_filter_all _ _ S) as Z. unfold lgram.
  assert (G : forall o, In o (lv_tasks l') -> gram (cs (tk_id (ti_task o))) i j = 0).
  { intros o Ho. destruct (A o Ho) as (A1 & A2 & A3). destruct (simp o) eqn:SO.
    - apply gram_simple; [|exact N]. rewrite A1. exact SO.
    - specialize (Z o Ho SO). unfold gram. rewrite <- A2, Z. reflexivity. }
  clear -G. induction (lv_tasks l') as [|h t IH]; [reflexivity|]. simpl. rewrite (G h) by (simpl; auto). rewrite IH; [ring|].
  intros; apply G; simpl; auto.
Qed.

Lemma level_cost_ids cs l l' x :
  map (fun i => tk_id (ti_task i)) (lv_tasks l') = map (fun i => tk_id (ti_task i)) (lv_tasks l) -> level_cost cs l' x = level_cost cs l x.
Proof.
  intros E. unfold level_cost.
  rewrite <- (map_map (fun i => tk_id (ti_task i)) (fun n => squared_residuals (cs n) x)), E, map_map. reflexivity.
Qed.

(** the common part: entries *)
Lemma initialize_entries fo gu l l' cs nv up o :
  lreach l -> level_form fo gu l = Ok l' -> described cs fo nv l -> equality_level l ->
  exists o', initializeObjective cs l' up o = Ok o' /\ sizes o' nv /\ o_status o' = QP_INITIALIZED /\
    o_type o' = (if level_isSimple l' then HESSIAN_DIAGONAL else if up then HESSIAN_GENERIC else HESSIAN_LOWER_TRIANGULAR) /\
    (forall i j, (i < nv)%nat -> (j < nv)%nat -> up = true \/ (j <= i)%nat -> mget (o_H o') i j = lgram cs (lv_tasks l') i j) /\
    (forall i, (i < nv)%nat -> vget (o_g o') i = - latb cs (lv_tasks l') i).
Proof.
  intros R E D EL. destruct (good_level _ _ _ _ _ _ R E D EL) as [G N].
  pose proof (form_ok _ _ _ _ (lreach_gf _ R) E) as (F & _ & Q & P & _).
  unfold initializeObjective. rewrite (equality_counts _ _ _ _ R E) by (intros i Hi; apply EL in Hi; tauto).
  replace (0 <? level_getNumberOfConstraints l')%nat with true by lia. cbn [assert_then].
  destruct (getObjective_ok nv cs l' (o_H o, o_g o) G N) as (s & Es & (L1 & L2 & L3) & (V1 & V2)). rewrite Es. cbn [bind].
  destruct up.
  - destruct (symm_ok nv (fst s) L1 L2) as (M & EM & M1 & M2 & M3). rewrite EM. cbn [bind].
    eexists. split; [reflexivity|]. split; [repeat split; auto|]. split; [reflexivity|]. split; [reflexivity|]. split.
    + intros i j Hi Hj _. cbn [o_H]. rewrite M3 by assumption. destruct (i <? j)%nat eqn:LT.
      * rewrite L3 by lia. apply lgram_sym.
      * apply L3; lia.
    + intros i Hi. cbn [o_g vopp vget]. rewrite V2 by assumption. reflexivity.
  - cbn [bind]. eexists. split; [reflexivity|]. split; [repeat split; auto|]. split; [reflexivity|]. split; [reflexivity|]. split.
    + intros i j Hi Hj [?|J]; [discriminate|]. cbn [o_H]. apply L3; assumption.
    + intros i Hi. cbn [o_g vopp vget]. rewrite V2 by assumption. reflexivity.
Qed.

Lemma quadratic_entries nv H g h b x : mrows H = nv -> mcols H = nv -> vlen g = nv ->
  (forall i j, (i < nv)%nat -> (j < nv)%nat -> mget H i j = h i j) -> (forall i, (i < nv)%nat -> vget g i = - b i) ->
  quadratic H g x = / 2 * (Rsum nv (fun i => Rsum nv (fun j => x i * h i j * x j)) - 2 * Rsum nv (fun i => b i * x i)).
Proof.
  intros A B C D E. unfold quadratic. rewrite A, B, C.
  rewrite (Rsum_ext nv (fun i => vget g i * x i) (fun i => - (b i * x i))) by (intros i Hi; rewrite E by assumption; ring).
  rewrite Rsum_opp.
  rewrite (Rsum_ext nv _ (fun i => Rsum nv (fun j => x i * h i j * x j))).
  - lra.
  - intros i Hi. apply Rsum_ext. intros j Hj. rewrite D by assumption. reflexivity.
Qed.

Lemma cost_of_formed fo gu l l' cs nv x : lreach l -> level_form fo gu l = Ok l' -> described cs fo nv l ->
  level_cost cs l x = Rsum nv (fun i => Rsum nv (fun j => x i * lgram cs (lv_tasks l') i j * x j)) - 2 * Rsum nv (fun i => latb cs (lv_tasks l') i * x i)
    + sum_list (map (fun t => rhs_sq (cs (tk_id (ti_task t)))) (lv_tasks l')).
Proof.
  intros R E D. pose proof (form_ok _ _ _ _ (lreach_gf _ R) E) as (F & _).
  destruct (described_formed _ _ _ _ _ _ F D) as [A ID].
  rewrite <- (level_cost_ids cs l l' x ID). unfold level_cost. apply lcost_split. intros t Ht. destruct (A t Ht) as (_ & _ & U). apply U.
Qed.

Theorem objective_full fo gu l l' cs nv o :
  lreach l -> level_form fo gu l = Ok l' -> described cs fo nv l -> equality_level l ->
  exists o', initializeObjective cs l' true o = Ok o' /\ sizes o' nv /\ symmetric (o_H o') /\
    (o_type o' = HESSIAN_DIAGONAL -> diagonal (o_H o')) /\
    exists k, forall x, quadratic (o_H o') (o_g o') x = / 2 * level_cost cs l x + k.
Proof.
  intros R E D EL. destruct (initialize_entries fo gu l l' cs nv true o R E D EL) as (o' & Eo & (S1 & S2 & S3) & _ & T & H & G).
  exists o'. split; [exact Eo|]. split; [repeat split; auto|]. split; [|split].
  - split; [lia|]. rewrite S1. intros i j Hi Hj. rewrite !H by auto. apply lgram_sym.
  - intros TD. intros i j Hi Hj N. rewrite S1 in Hi. rewrite S2 in Hj. rewrite H by auto.
    apply (lgram_simple fo gu l l' cs nv); auto. rewrite T in TD. destruct (level_isSimple l'); [reflexivity|discriminate].
  - exists (- / 2 * sum_list (map (fun t => rhs_sq (cs (tk_id (ti_task t)))) (lv_tasks l'))). intros x.
    rewrite (quadratic_entries nv _ _ (lgram cs (lv_tasks l')) (latb cs (lv_tasks l'))); auto.
    rewrite (cost_of_formed fo gu l l' cs nv x R E D). lra.
Qed.

Theorem objective_lower fo gu l l' cs nv o :
  lreach l -> level_form fo gu l = Ok l' -> described cs fo nv l -> equality_level l ->
  exists o', initializeObjective cs l' false o = Ok o' /\ sizes o' nv /\
    (o_type o' = HESSIAN_DIAGONAL -> diagonal (symmetric_of_lower (o_H o'))) /\
    exists k, forall x, quadratic (symmetric_of_lower (o_H o')) (o_g o') x = / 2 * level_cost cs l x + k.
Proof.
  intros R E D EL. destruct (initialize_entries fo gu l l' cs nv false o R E D EL) as (o' & Eo & (S1 & S2 & S3) & _ & T & H & G).
  assert (HS : forall i j, (i < nv)%nat -> (j < nv)%nat -> mget (symmetric_of_lower (o_H o')) i j = lgram cs (lv_tasks l') i j).
  { intros i j Hi Hj. unfold symmetric_of_lower. cbn [mget]. destruct (j <=? i)%nat eqn:L.
    - apply H; auto. right. lia.
    - rewrite H; auto; [apply lgram_sym|right; lia]. }
  exists o'. split; [exact Eo|]. split; [repeat split; auto|]. split.
  - intros TD. intros i j Hi Hj N. cbn [mrows mcols symmetric_of_lower] in Hi, Hj. rewrite HS by lia.
    apply (lgram_simple fo gu l l' cs nv); auto. rewrite T in TD. destruct (level_isSimple l'); [reflexivity|discriminate].
  - exists (- / 2 * sum_list (map (fun t => rhs_sq (cs (tk_id (ti_task t)))) (lv_tasks l'))). intros x.
    rewrite (quadratic_entries nv _ _ (lgram cs (lv_tasks l')) (latb cs (lv_tasks l'))); auto.
    rewrite (cost_of_formed fo gu l l' cs nv x R E D). lra.
Qed.

(** ** levels with inequalities are rejected *)
Lemma for_up_noub {S} (body : nat -> S -> outcome S) : (forall i s, body i s <> UB) -> forall n f s, for_up n f body s <> UB.
Proof.
  intros H n. induction n as [|n IH]; intros f s; cbn [for_up]; [discriminate|].
  specialize (H f s). destruct (body f s); cbn [bind]; auto; congruence.
Qed.
Lemma mset_noub m i j v : mset_o m i j v <> UB.
Proof. unfold mset_o, assert_then. destruct (_ && _); discriminate. Qed.
Lemma msetb_noub m i j v : mset_block_o m i j v <> UB.
Proof. unfold mset_block_o, assert_then. destruct (_ && _); discriminate. Qed.
Lemma vseg_noub v l s : vset_segment v l s <> UB.
Proof. unfold vset_segment, assert_then. destruct (_ && _); discriminate. Qed.
Lemma vset_noub v i s : vset_o v i s <> UB.
Proof. unfold vset_o, assert_then. destruct (_ <? _)%nat; discriminate. Qed.
Lemma bind_noub {A B} (x : outcome A) (f : A -> outcome B) : x <> UB -> (forall a, f a <> UB) -> bind x f <> UB.
Proof. intros H G. destruct x; simpl; auto; discriminate. Qed.

Lemma bodyget_noub c H : body_getATA c H <> UB.
Proof.
  unfold body_getATA, et_getATA, et_getATA_off, gram_loop, add_diagonal.
  destruct (c_body c); apply for_up_noub; intros; auto using msetb_noub, mset_noub.
Qed.
Lemma bodyadd_noub c H : body_addATA c H <> UB.
Proof.
  unfold body_addATA, et_addATA, et_addATA_off, gram_loop, add_diagonal.
  destruct (c_body c); apply for_up_noub; intros; auto using msetb_noub, mset_noub.
Qed.
Lemma ATb_noub A b : ATb A b <> UB.
Proof. unfold ATb, assert_then. destruct (_ =? _)%nat; discriminate. Qed.
Lemma boundsget_noub c g : bounds_getATb c g <> UB.
Proof.
  unfold bounds_getATb. destruct (c_bounds c), (c_body c); try discriminate; auto using ATb_noub.
  - apply bind_noub; auto using ATb_noub. intros. unfold assert_then. destruct (_ <=? _)%nat; [apply vseg_noub|discriminate].
  - apply for_up_noub. intros. apply vset_noub.
Qed.
Lemma boundsadd_noub c g : bounds_addATb c g <> UB.
Proof.
  unfold bounds_addATb. destruct (c_bounds c), (c_body c); try discriminate.
  - apply bind_noub; auto using ATb_noub. intros. unfold assert_then. destruct (_ =? _)%nat; discriminate.
  - apply bind_noub; auto using ATb_noub. intros. apply vseg_noub.
  - apply for_up_noub. intros. apply vset_noub.
Qed.
Lemma get_noub c s : getATAandATb c s <> UB.
Proof.
  unfold getATAandATb. destruct (ct_isEquality _); [|discriminate]. apply bind_noub; [apply bodyget_noub|].
  intros. apply bind_noub; [apply boundsget_noub|]. discriminate.
Qed.
Lemma add_noub c s : addATAandATb c s <> UB.
Proof.
  unfold addATAandATb. destruct (ct_isEquality _); [|discriminate]. apply bind_noub; [apply bodyadd_noub|].
  intros. apply bind_noub; [apply boundsadd_noub|]. discriminate.
Qed.
Lemma loop_reject cs ts : forall s, (exists t, In t ts /\ ct_isEquality (getType (cs (tk_id (ti_task t)))) = false) ->
  objective_loop cs ts s = Throw.
Proof.
  induction ts as [|h ts IH]; intros s (t & Ht & E); [destruct Ht|]. cbn [objective_loop].
  pose proof (add_noub (cs (tk_id (ti_task h))) s) as NU. destruct Ht as [->|Ht].
  - unfold addATAandATb. rewrite E. reflexivity.
  - destruct (addATAandATb (cs (tk_id (ti_task h))) s); cbn [bind]; try congruence. apply IH. eauto.
Qed.

Theorem objective_reject fo gu l l' cs nv up o :
  lreach l -> level_form fo gu l = Ok l' -> described cs fo nv l ->
  (exists i, In i (lv_tasks l) /\ ct_isEquality (tk_type (ti_task i)) = false) -> initializeObjective cs l' up o = Throw.
Proof.
  intros R E D (i & Hi & N). pose proof (form_ok _ _ _ _ (lreach_gf _ R) E) as (F & _ & Q & P & _).
  destruct (described_formed _ _ _ _ _ _ F D) as [A _]. apply ids_types in F.
  assert (In (tk_id (ti_task i), tk_type (ti_task i)) (map (fun i => (tk_id (ti_task i), tk_type (ti_task i))) (lv_tasks l'))) as Hj.
  { rewrite F. apply in_map_iff. exists i. auto. }
  apply in_map_iff in Hj. destruct Hj as (j & Ej & Hj). injection Ej as E1 E2.
  assert (NE : ct_isEquality (getType (cs (tk_id (ti_task j)))) = false).
  { destruct (A j Hj) as (A1 & _). rewrite A1, E2. exact N. }
  unfold initializeObjective, assert_then. destruct (level_isEquality l'); [|reflexivity].
  destruct (0 <? level_getNumberOfConstraints l')%nat; [|reflexivity].
  unfold getObjective. destruct (lv_tasks l') as [|h ts] eqn:T; [destruct Hj|].
  destruct Hj as [->|Hj].
  - unfold getATAandATb. rewrite NE. reflexivity.
  - pose proof (get_noub (cs (tk_id (ti_task h))) (o_H o, o_g o)) as NU.
    destruct (getATAandATb (cs (tk_id (ti_task h))) (o_H o, o_g o)); cbn [bind]; try congruence.
    rewrite loop_reject by eauto. reflexivity.
Qed.

(** ** getQPProblem *)
Lemma objective_history fo gu l l' cs nv up o1 o2 :
  lreach l -> level_form fo gu l = Ok l' -> described cs fo nv l -> equality_level l ->
  exists r1 r2, initializeObjective cs l' up o1 = Ok r1 /\ initializeObjective cs l' up o2 = Ok r2 /\
    o_type r1 = o_type r2 /\ o_status r1 = o_status r2 /\ sizes r1 nv /\ sizes r2 nv /\
    (forall i j, (i < nv)%nat -> (j < nv)%nat -> up = true \/ (j <= i)%nat -> mget (o_H r1) i j = mget (o_H r2) i j) /\
    (forall i, (i < nv)%nat -> vget (o_g r1) i = vget (o_g r2) i).
Proof.
  intros R E D EL. destruct (initialize_entries fo gu l l' cs nv up o1 R E D EL) as (r1 & E1 & S1 & T1 & U1 & H1 & G1).
  destruct (initialize_entries fo gu l l' cs nv up o2 R E D EL) as (r2 & E2 & S2 & T2 & U2 & H2 & G2).
  exists r1, r2. repeat (split; [solve [auto | congruence]|]). split.
  - intros. rewrite H1, H2 by assumption. reflexivity.
  - intros. rewrite G1, G2 by assumption. reflexivity.
Qed.

Theorem two_levels {Q} (init : level -> Q -> outcome Q) cs l0 l1 up o q :
  getQPProblem init cs [l0; l1] up (o, q) =
  bind (initializeObjective cs l1 up o) (fun o' => bind (init l0 q) (fun q' => Ok (o', q'))).
Proof. reflexivity. Qed.

Theorem one_level_keeps {Q} (init : level -> Q -> outcome Q) cs l0 up o q r :
  getQPProblem init cs [l0] up (o, q) = Ok r -> snd r = q.
Proof. simpl. intros E. apply bind_ok in E. destruct E as (o' & _ & E). inversion E. reflexivity. Qed.

Theorem level_count {Q} (init : level -> Q -> outcome Q) cs ls up qp r :
  getQPProblem init cs ls up qp = Ok r -> (1 <= length ls <= 2)%nat.
Proof. destruct ls as [|a [|b [|c ls]]]; simpl; intros E; try discriminate; lia. Qed.

Lemma objective_any fo gu l l' cs nv up o :
  lreach l -> level_form fo gu l = Ok l' -> described cs fo nv l -> equality_level l ->
  exists o', initializeObjective cs l' up o = Ok o' /\ objective_of cs nv l up o'.
Proof.
  intros R E D EL. destruct up.
  - destruct (objective_full fo gu l l' cs nv o R E D EL) as (o' & E' & S & _ & _ & K). exists o'. split; [exact E'|]. split; assumption.
  - destruct (objective_lower fo gu l l' cs nv o R E D EL) as (o' & E' & S & _ & K). exists o'. split; [exact E'|]. split; assumption.
Qed.

(** indices of the bounds container *)
Definition row_range (nv : nat) (k : contILU) (r : nat) (x : nat -> R) : Prop := (nth r (ilu_I k) 0 < nv)%nat.
Lemma ILU_step_range nv c k off n : usable nv c /\ plain_indices c ->
  shape_ILU k n nv -> (off + getNumberOfConstraints c <= n)%nat ->
  exists k', copyTo_ILU c k off = Ok (k', (off + getNumberOfConstraints c)%nat) /\ shape_ILU k' n nv /\
    (forall r x, (r < off)%nat -> row_range nv k' r x <-> row_range nv k r x) /\
    (forall x, True ->
       ((forall r, (off <= r < off + getNumberOfConstraints c)%nat -> row_range nv k' r x) <-> True)).
Proof.
  intros UP SH H. destruct (ILU_step nv c k off n UP SH H) as (k' & E & SH' & _). exists k'. split; [exact E|]. split; [exact SH'|].
  destruct UP as [(NV & CC & IX) [ix PI]]. unfold copyTo_ILU in E. rewrite PI in E. rewrite PI in IX.
  apply bind_ok in E. destruct E as (l & El & E). apply bind_ok in E. destruct E as (bs & _ & E).
  apply bind_ok in E. destruct E as (I' & EI & E). inversion E; subst k'. clear E.
  destruct SH as (S1 & _). rewrite getCopyLocation_ok in El by lia. inversion El; subst l.
  unfold iset_segment in EI. apply assert_ok in EI. destruct EI as [_ EI]. simpl in EI.
  assert (NI : getNumberOfConstraints c = length ix) by (unfold getNumberOfConstraints; rewrite PI; reflexivity).
  unfold row_range; simpl. split.
  - intros r x Hr. rewrite (nth_copy_into_out _ _ _ _ _ EI) by lia. tauto.
  - intros x _. split; [auto|]. intros _ r Hr. rewrite (nth_copy_into _ _ _ _ _ EI) by lia.
    rewrite Forall_forall in IX. apply IX, nth_In. lia.
Qed.

Lemma ILU_range fo gu l l' cs nv k ilu :
  lreach l -> level_form fo gu l = Ok l' -> described cs fo nv l ->
  (forall i, In i (lv_tasks l) -> has_gains (tk_type (ti_task i)) = false) ->
  getSimpleConstraints cs l' k nv = Ok ilu -> indices_in_range ilu.
Proof.
  intros R E D NG G. apply lreach_gf in R. destruct (form_ok _ _ _ _ R E) as (F & _ & N & Pos & NGen & NS & _).
  destruct (described_formed _ _ _ _ _ _ F D) as [D' IDS].
  assert (NG' : forall i, In i (lv_tasks l') -> has_gains (tk_type (ti_task i)) = false).
  { destruct (formed_map _ _ _ _ F) as [M _]. intros i Hi.
    apply (in_map (fun i => (tk_id (ti_task i), tk_type (ti_task i)))) in Hi. rewrite M in Hi. apply in_map_iff in Hi.
    destruct Hi as (j & Ej & Hj). injection Ej as _ Ej. rewrite <- Ej. auto. }
  destruct (copy_loop_ok copyTo_ILU ct_isSimple cs (fun n k => shape_ILU k n nv) (row_range nv) getNumberOfConstraints (fun _ _ => True)
              (fun c => usable nv c /\ plain_indices c) (fun _ _ => True)
              ltac:(intros; apply ILU_step_range; assumption) (n_simple l') (lv_tasks l')
              (reset_ILU k (n_simple l') nv) 0%nat)
    as (ilu' & E2 & S2 & _ & R2).
  { intros i Hi Si. destruct (D' i Hi) as (T & _ & U). split; [exact U|]. eapply plain_of_type; [exact U| |]; rewrite T; auto. }
  { repeat split. unfold reset_ILU, iresize. simpl. rewrite map_length, seq_length. reflexivity. }
  { rewrite (sum_sizes cs getNumberOfConstraints) by (intros; apply D'; assumption). simpl. unfold simp, simple_task in NS. lia. }
  rewrite (sum_sizes cs getNumberOfConstraints) in R2 by (intros; apply D'; assumption).
  unfold simp, simple_task in NS. rewrite <- NS in R2. cbn [Nat.add] in R2.
  unfold getSimpleConstraints in G. rewrite E2 in G. cbn [bind fst] in G.
  assert (RR : forall r, (r < n_simple l')%nat -> row_range nv ilu' r (fun _ => 0)).
  { intros r Hr. apply (proj2 (R2 (fun _ => 0) ltac:(auto))); [auto|lia]. }
  destruct S2 as (S2 & S3 & _).
  destruct (0 <? n_simple l')%nat eqn:Z; inversion G; subst ilu.
  - apply Forall_forall. intros v Hv. apply (In_nth _ _ 0%nat) in Hv. destruct Hv as (r & Hr & <-).
    rewrite S3. apply RR. lia.
  - unfold indices_in_range, reset_ILU, iresize. simpl. replace (n_simple l') with 0%nat by lia. constructor.
Qed.

(** the simple constraints alone *)
Lemma simple_ILU fo gu l l' cs nv kilu ilu :
  lreach l -> level_form fo gu l = Ok l' -> described cs fo nv l ->
  (forall i, In i (lv_tasks l) -> has_gains (tk_type (ti_task i)) = false) -> getSimpleConstraints cs l' kilu nv = Ok ilu ->
  forall x, (forall i, In i (lv_tasks l) -> simple_task (ti_task i) = true -> within_infinity (cs (tk_id (ti_task i))) x) ->
    (sat_ILU ilu x <-> forall i, In i (lv_tasks l) -> simple_task (ti_task i) = true -> satisfies (cs (tk_id (ti_task i))) x).
Proof.
  intros R E D NG G x W. apply lreach_gf in R. destruct (form_ok _ _ _ _ R E) as (F & _ & N & Pos & NGen & NS & _).
  destruct (described_formed _ _ _ _ _ _ F D) as [D' IDS]. destruct (formed_map _ _ _ _ F) as [M _].
  assert (B : forall i, In i (lv_tasks l') -> exists j, In j (lv_tasks l) /\ tk_id (ti_task j) = tk_id (ti_task i) /\ tk_type (ti_task j) = tk_type (ti_task i)).
  { intros i Hi. apply (in_map (fun i => (tk_id (ti_task i), tk_type (ti_task i)))) in Hi. rewrite M in Hi. apply in_map_iff in Hi.
    destruct Hi as (j & Ej & Hj). injection Ej as E1 E2. exists j. auto. }
  assert (B' : forall i, In i (lv_tasks l) -> exists j, In j (lv_tasks l') /\ tk_id (ti_task j) = tk_id (ti_task i) /\ tk_type (ti_task j) = tk_type (ti_task i)).
  { intros i Hi. apply (in_map (fun i => (tk_id (ti_task i), tk_type (ti_task i)))) in Hi. rewrite <- M in Hi. apply in_map_iff in Hi.
    destruct Hi as (j & Ej & Hj). injection Ej as E1 E2. exists j. auto. }
  assert (NG' : forall i, In i (lv_tasks l') -> has_gains (tk_type (ti_task i)) = false).
  { intros i Hi. destruct (B i Hi) as (j & Hj & _ & <-). apply NG, Hj. }
  destruct (copy_loop_ok copyTo_ILU ct_isSimple cs (fun n k => shape_ILU k n nv) row_ILU getNumberOfConstraints satisfies
              (fun c => usable nv c /\ plain_indices c) within_infinity
              ltac:(intros; apply ILU_step; assumption) (n_simple l') (lv_tasks l')
              (reset_ILU kilu (n_simple l') nv) 0%nat)
    as (ilu' & E2 & S2 & _ & R2).
  { intros i Hi Si. destruct (D' i Hi) as (T & _ & U). split; [exact U|]. eapply plain_of_type; [exact U| |]; rewrite T; auto. }
  { repeat split. unfold reset_ILU, iresize. simpl. rewrite map_length, seq_length. reflexivity. }
  { rewrite (sum_sizes cs getNumberOfConstraints) by (intros; apply D'; assumption). simpl. unfold simp, simple_task in NS. lia. }
  rewrite (sum_sizes cs getNumberOfConstraints) in R2 by (intros; apply D'; assumption).
  unfold simp, simple_task in NS. rewrite <- NS in R2. cbn [Nat.add] in R2.
  unfold getSimpleConstraints in G. rewrite E2 in G. cbn [bind fst] in G.
  assert (W' : forall i, In i (lv_tasks l') -> ct_isSimple (tk_type (ti_task i)) = true -> within_infinity (cs (tk_id (ti_task i))) x).
  { intros i Hi Si. destruct (B i Hi) as (j & Hj & <- & Et). apply W; [exact Hj|]. unfold simple_task. rewrite Et. exact Si. }
  specialize (R2 x W').
  assert (A2 : sat_ILU ilu x <-> (forall i, In i (lv_tasks l') -> ct_isSimple (tk_type (ti_task i)) = true -> satisfies (cs (tk_id (ti_task i))) x)).
  { rewrite <- R2. unfold sat_ILU. destruct (0 <? n_simple l')%nat eqn:Z; injection G as <-.
    - destruct S2 as (S2 & _). rewrite S2. split; intros A r Hr; apply A; lia.
    - unfold reset_ILU, iresize; simpl. rewrite map_length, seq_length. split; intros A r Hr; lia. }
  rewrite A2. unfold simple_task. split.
  - intros H i Hi Si. destruct (B' i Hi) as (j & Hj & <- & Et). apply H; [exact Hj|]. rewrite Et. exact Si.
  - intros H i Hi Si. destruct (B i Hi) as (j & Hj & <- & Et). apply H; [exact Hj|]. rewrite Et. exact Si.
Qed.

Section TwoLevels.
Variables (fo : nat -> formed) (gu up : bool) (l0 l0' l1 l1' : level) (cs : nat -> constr) (nv : nat).
Hypotheses (R0 : lreach l0) (F0 : level_form fo gu l0 = Ok l0') (D0 : described cs fo nv l0).
Hypotheses (R1 : lreach l1) (F1 : level_form fo gu l1 = Ok l1') (D1 : described cs fo nv l1) (EL : equality_level l1).

Theorem two_levels_AB_AL o q :
  exists o' q', getQPProblem (fun l => initializeConstraints_AB_AL cs l nv) cs [l0'; l1'] up (o, q) = Ok (o', q') /\
    objective_of cs nv l1 up o' /\ forall x, (sat_AB (q_eq q') x /\ sat_AL (q_ineq q') x) <-> satisfies_level cs l0 x.
Proof.
  destruct (objective_any fo gu l1 l1' cs nv up o R1 F1 D1 EL) as (o' & E' & OO).
  destruct (AB_AL_equiv fo gu l0 l0' cs nv (q_eq q) (q_ineq q) R0 F0 D0) as (ab & al & Ea & El & _ & _ & S).
  exists o', (mkQAB al ab). rewrite two_levels, E'. cbn [bind]. unfold initializeConstraints_AB_AL. rewrite Ea. cbn [bind].
  rewrite El. cbn [bind]. split; [reflexivity|]. split; [exact OO|exact S].
Qed.

Theorem two_levels_AB o q : equality_level l0 ->
  exists o' q', getQPProblem (fun l => initializeConstraints_AB cs l nv) cs [l0'; l1'] up (o, q) = Ok (o', q') /\
    objective_of cs nv l1 up o' /\ forall x, sat_AB q' x <-> satisfies_level cs l0 x.
Proof.
  intros EL0. destruct (objective_any fo gu l1 l1' cs nv up o R1 F1 D1 EL) as (o' & E' & OO).
  destruct (AB_AL_equiv fo gu l0 l0' cs nv q (mkAL (mzero 0 0) (vconst 0 0)) R0 F0 D0) as (ab & al & Ea & El & _ & (SA & _) & S).
  exists o', ab. rewrite two_levels, E'. cbn [bind]. unfold initializeConstraints_AB.
  assert (EQ : level_isEquality l0' = true) by (apply (equality_counts fo gu l0); auto; intros i Hi; apply EL0 in Hi; tauto).
  rewrite EQ. cbn [assert_then]. rewrite Ea. cbn [bind]. split; [reflexivity|]. split; [exact OO|].
  intros x. rewrite <- S. split; [|tauto]. intros A. split; [exact A|]. intros r Hr. exfalso. rewrite SA in Hr.
  unfold level_getNumberOfInequalityConstraintsOneSided, level_getNumberOfInequalityConstraints in Hr.
  pose proof (form_ok _ _ _ _ (lreach_gf _ R0) F0) as (FF & _ & Q & _ & _ & _ & NE & NT).
  unfold level_isEquality in EQ. apply Nat.eqb_eq in EQ.
  assert (Z : n_twosided l0' = 0%nat).
  { rewrite NT. apply ids_types in FF.
    assert (G : forall i, In i (lv_tasks l0') -> ct_isTwoSided (tk_type (ti_task i)) = false).
    { intros i Hi. assert (H : In (tk_id (ti_task i), tk_type (ti_task i)) (map (fun i => (tk_id (ti_task i), tk_type (ti_task i))) (lv_tasks l0'))).
      { apply in_map_iff. exists i. auto. }
      rewrite FF in H. apply in_map_iff in H. destruct H as (j & Ej & Hj). injection Ej as E1 E2. rewrite <- E2.
      destruct (EL0 j Hj) as [B _]. destruct (tk_type (ti_task j)); try discriminate; reflexivity. }
    clear -G. induction (lv_tasks l0') as [|h t IH]; [reflexivity|]. simpl. rewrite (G h) by (simpl; auto). apply IH.
    intros; apply G; simpl; auto. }
  lia.
Qed.

Theorem two_levels_ILU_ALU o q :
  (forall i, In i (lv_tasks l0) -> has_gains (tk_type (ti_task i)) = false) ->
  ((exists x, (forall i, In i (lv_tasks l0) -> within_infinity (cs (tk_id (ti_task i))) x) /\
      (forall v, (v < nv)%nat -> - g_infinity <= x v <= g_infinity) /\ satisfies_level cs l0 x) ->
   exists r, getQPProblem (fun l => initializeConstraints_ILU_ALU cs l nv) cs [l0'; l1'] up (o, q) = Ok r) /\
  forall r, getQPProblem (fun l => initializeConstraints_ILU_ALU cs l nv) cs [l0'; l1'] up (o, q) = Ok r ->
    objective_of cs nv l1 up (fst r) /\
    forall x, (forall i, In i (lv_tasks l0) -> within_infinity (cs (tk_id (ti_task i))) x) ->
      (forall v, (v < nv)%nat -> - g_infinity <= x v <= g_infinity) ->
      ((sat_ALU (q_general (snd r)) x /\ sat_bounds (q_lb (snd r), q_ub (snd r)) x) <-> satisfies_level cs l0 x).
Proof.
  intros NG. rewrite two_levels.
  destruct (objective_any fo gu l1 l1' cs nv up o R1 F1 D1 EL) as (o' & E' & OO). rewrite E'. cbn [bind].
  destruct (ILU_ALU_equiv fo gu l0 l0' cs nv (q_general q) (q_bounds q) R0 F0 D0 NG) as (alu & ilu & Ea & El & _ & (SI1 & SI2 & _) & S).
  pose proof (ILU_range fo gu l0 l0' cs nv (q_bounds q) ilu R0 F0 D0 NG El) as IR.
  unfold initializeConstraints_ILU_ALU. rewrite Ea. cbn [bind]. rewrite El. cbn [bind].
  split.
  - intros (x & W & X & SL). destruct (initializeSolutionBounds ilu) as [b| |] eqn:B; [eexists; reflexivity| |].
    + exfalso. apply (S x W) in SL. destruct SL as [_ SL].
      destruct (Nat.eq_dec (length (ilu_I ilu)) 0) as [Z|Z].
      { unfold initializeSolutionBounds in B. rewrite Z in B. discriminate. }
      apply (solution_bounds ilu IR) in B; [|lia]. destruct B as (v & Hv & EM). apply (EM (x v)).
      rewrite SI2 in Hv. specialize (X v Hv). split.
      * intros b [->|(r & Hr & <- & ->)]; [lra|]. apply SL, Hr.
      * intros b [->|(r & Hr & <- & ->)]; [lra|]. apply SL, Hr.
    + exfalso. revert B. unfold initializeSolutionBounds. destruct (_ =? 0)%nat; [discriminate|]. apply for_up_noub.
      intros i [lb ub]. unfold tighten, assert_then. destruct (_ && _); [|discriminate].
      apply bind_noub; [destruct (Rlt_dec _ _); [apply vset_noub|discriminate]|]. intros.
      apply bind_noub; [destruct (Rlt_dec _ _); [apply vset_noub|discriminate]|]. intros. destruct (Rlt_dec _ _); discriminate.
  - intros r E. destruct (initializeSolutionBounds ilu) as [b| |] eqn:B; try discriminate. inversion E; subst r. cbn [fst snd q_general q_lb q_ub].
    split; [exact OO|]. intros x W X. rewrite <- (S x W).
    pose proof (solution_bounds_points ilu b x IR B) as SB. rewrite SI2 in SB. specialize (SB X).
    rewrite <- surjective_pairing. rewrite SB. reflexivity.
Qed.
(** the problem is constructed exactly if the simple constraints have a common point within the infinity *)
Theorem two_levels_accepted o q :
  (forall i, In i (lv_tasks l0) -> has_gains (tk_type (ti_task i)) = false) ->
  ((exists r, getQPProblem (fun l => initializeConstraints_ILU_ALU cs l nv) cs [l0'; l1'] up (o, q) = Ok r) <->
   exists x, (forall i, In i (lv_tasks l0) -> simple_task (ti_task i) = true -> satisfies (cs (tk_id (ti_task i))) x) /\
     forall v, (v < nv)%nat -> - g_infinity <= x v <= g_infinity).
Proof.
  intros NG. rewrite two_levels.
  destruct (objective_any fo gu l1 l1' cs nv up o R1 F1 D1 EL) as (o' & E' & OO). rewrite E'. cbn [bind].
  destruct (ILU_ALU_equiv fo gu l0 l0' cs nv (q_general q) (q_bounds q) R0 F0 D0 NG) as (alu & ilu & Ea & El & _ & (SI1 & SI2 & _) & _).
  pose proof (ILU_range fo gu l0 l0' cs nv (q_bounds q) ilu R0 F0 D0 NG El) as IR.
  pose proof (simple_ILU fo gu l0 l0' cs nv (q_bounds q) ilu R0 F0 D0 NG El) as SI.
  unfold initializeConstraints_ILU_ALU. rewrite Ea. cbn [bind]. rewrite El. cbn [bind].
  assert (WI : forall x, (forall v, (v < nv)%nat -> - g_infinity <= x v <= g_infinity) ->
     forall i, In i (lv_tasks l0) -> simple_task (ti_task i) = true -> within_infinity (cs (tk_id (ti_task i))) x).
  { intros x X i Hi Si. destruct (D0 i Hi) as (T & _ & U). assert (P : plain_indices (cs (tk_id (ti_task i)))).
    { eapply plain_of_type; [exact U| |]; rewrite T; [exact Si|apply NG, Hi]. }
    destruct P as (ix & P). intros r Hr _. rewrite <- (getProduct_row nv _ r x U Hr). destruct U as (_ & _ & UI). unfold getNumberOfConstraints in Hr. unfold getProduct. rewrite P in *.
    apply X. rewrite Forall_forall in UI. apply UI. apply nth_In. exact Hr. }
  split.
  - intros (r & E). destruct (initializeSolutionBounds ilu) as [b| |] eqn:B; try discriminate.
    assert (Y : exists x, (forall v, (v < nv)%nat -> - g_infinity <= x v <= g_infinity) /\ sat_ILU ilu x).
    { destruct (Nat.eq_dec (length (ilu_I ilu)) 0) as [Z|Z].
      - exists (fun _ => 0). split; [intros; unfold g_infinity; lra|]. intros r' Hr. lia.
      - destruct (solution_bounds ilu IR) as [SB1 SB2]; [lia|].
        destruct SB2 as (lb & ub & Eb & _ & _ & Hb).
        { intros v Hv EM. assert (X : exists v, (v < ilu_nvars ilu)%nat /\ empty_interval ilu v) by (exists v; auto). apply SB1 in X. congruence. }
        assert (LE : forall v, (v < ilu_nvars ilu)%nat -> vget lb v <= vget ub v).
        { intros v Hv. destruct (Rle_or_lt (vget lb v) (vget ub v)) as [LE|LT]; [exact LE|]. exfalso.
          assert (X : exists v, (v < ilu_nvars ilu)%nat /\ empty_interval ilu v).
          { exists v. split; [exact Hv|]. destruct (Hb v Hv) as ((M1 & _) & (M2 & _)). intros y [Y1 Y2]. apply Y1 in M1. apply Y2 in M2. lra. }
          apply SB1 in X. congruence. }
        exists (vget lb). rewrite SI2 in Hb, LE. split.
        + intros v Hv. specialize (LE v Hv). destruct (Hb v Hv) as ((_ & M1) & (_ & M2)). split; [apply M1; left; reflexivity|]. apply Rle_trans with (vget ub v); [exact LE|apply M2; left; reflexivity].
        + intros r' Hr. assert (Hv : (nth r' (ilu_I ilu) 0 < nv)%nat) by (unfold indices_in_range in IR; rewrite Forall_forall in IR; rewrite <- SI2; apply IR, nth_In, Hr).
          specialize (LE _ Hv). destruct (Hb _ Hv) as ((_ & M1) & (_ & M2)). split.
          * apply M1. right. exists r'. auto.
          * apply Rle_trans with (vget ub (nth r' (ilu_I ilu) 0%nat)); [exact LE|]. apply M2. right. exists r'. auto. }
    destruct Y as (x & X & Y). exists x. split; [|exact X]. apply SI; [apply WI, X|exact Y].
  - intros (x & SL & X). destruct (initializeSolutionBounds ilu) as [b| |] eqn:B; [eexists; reflexivity| |].
    + exfalso. apply SI in SL; [|apply WI, X].
      destruct (Nat.eq_dec (length (ilu_I ilu)) 0) as [Z|Z].
      { unfold initializeSolutionBounds in B. rewrite Z in B. discriminate. }
      apply (solution_bounds ilu IR) in B; [|lia]. destruct B as (v & Hv & EM). apply (EM (x v)).
      rewrite SI2 in Hv. specialize (X v Hv). split.
      * intros b [->|(r & Hr & <- & ->)]; [lra|]. apply SL, Hr.
      * intros b [->|(r & Hr & <- & ->)]; [lra|]. apply SL, Hr.
    + exfalso. revert B. unfold initializeSolutionBounds. destruct (_ =? 0)%nat; [discriminate|]. apply for_up_noub.
      intros i [lb ub]. unfold tighten, assert_then. destruct (_ && _); [|discriminate].
      apply bind_noub; [destruct (Rlt_dec _ _); [apply vset_noub|discriminate]|]. intros.
      apply bind_noub; [destruct (Rlt_dec _ _); [apply vset_noub|discriminate]|]. intros. destruct (Rlt_dec _ _); discriminate.
Qed.
End TwoLevels.
