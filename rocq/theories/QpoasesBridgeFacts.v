(** * Proofs for C84 *)
From Coq Require Import List Arith Reals Bool Lra Lia ZifyBool.
From Verif Require Import Base BaseFacts RSum Matrix ActiveSet ConstraintType HierarchyLevel HierarchySpec HierarchyFacts
  Constraints ConstraintsSpec ConstraintsFacts RowsSpec RowsFacts QP QPSpec QPFacts QPFacts2 Problem ProblemSpec ProblemFacts ProblemFacts2
  QpoasesBridge QpoasesBridgeSpec.
Import ListNotations.
Open Scope R_scope.

(** ** the solver after initialize() *)
Definition row_of (s : qpo) (n_gen : nat) (i : tinfo) (c : constr) (j : nat) : Prop :=
  if simp i then (n_gen <= offset (ti_loc i))%nat /\ rep_ILU (q_bounds (qo_con s)) (offset (ti_loc i) + j - n_gen) c j
  else (offset (ti_loc i) + len (ti_loc i) <= n_gen)%nat /\ rep_ALU (q_general (qo_con s)) (offset (ti_loc i) + j) c j.

Record ready (cs : nat -> constr) (nv : nat) (s : qpo) (p1 : problem) (l0' l1' : level) : Prop := mkReady {
  rd_levels : pb_levels p1 = [l0'; l1'];
  rd_active : pb_initializeActiveSet p1 = Ok [repeat UNDEFINED (level_getNumberOfConstraints l0'); repeat UNDEFINED (level_getNumberOfConstraints l1')];
  rd_nc : qo_nc s = n_general l0';
  rd_nb : qo_nb s = n_simple l0';
  rd_bv : qo_bv s = nv;
  rd_nv : qo_nv s = nv;
  rd_pos : (0 < n_general l0' + n_simple l0')%nat;
  rd_alu : shape_ALU (q_general (qo_con s)) (n_general l0') nv;
  rd_ilu : shape_ILU (q_bounds (qo_con s)) (n_simple l0') nv;
  rd_range : indices_in_range (q_bounds (qo_con s));
  rd_bounds : (0 < n_simple l0')%nat -> vlen (q_lb (qo_con s)) = nv /\ vlen (q_ub (qo_con s)) = nv /\
     forall v, (v < nv)%nat -> is_max (lower_of (q_bounds (qo_con s)) v) (vget (q_lb (qo_con s)) v) /\
                               is_min (upper_of (q_bounds (qo_con s)) v) (vget (q_ub (qo_con s)) v);
  rd_len : forall i, In i (lv_tasks l0') -> len (ti_loc i) = getNumberOfConstraints (cs (tk_id (ti_task i)));
  rd_rows : forall i j, In i (lv_tasks l0') -> (j < len (ti_loc i))%nat ->
     len (ti_loc i) = getNumberOfConstraints (cs (tk_id (ti_task i))) /\ (offset (ti_loc i) + len (ti_loc i) <= n_general l0' + n_simple l0')%nat /\
     usable nv (cs (tk_id (ti_task i))) /\ ct_isSimple (getType (cs (tk_id (ti_task i)))) = simp i /\
     row_of s (n_general l0') i (cs (tk_id (ti_task i))) j;
  rd_cover : forall r, (r < n_general l0' + n_simple l0')%nat -> exists i j, In i (lv_tasks l0') /\ (j < len (ti_loc i))%nat /\ r = (offset (ti_loc i) + j)%nat;
  rd_plain : forall i, In i (lv_tasks l0') -> has_gains (getType (cs (tk_id (ti_task i)))) = false
}.

Lemma two_formed fo gu p p1 l0 l1 : preach p -> pb_formHierarchy fo gu p = Ok p1 -> pb_levels p = [l0; l1] ->
  exists l0' l1', pb_levels p1 = [l0'; l1'] /\ lreach l0 /\ lreach l1 /\ level_form fo gu l0 = Ok l0' /\ level_form fo gu l1 = Ok l1' /\
    pb_initializeActiveSet p1 = Ok [repeat UNDEFINED (level_getNumberOfConstraints l0'); repeat UNDEFINED (level_getNumberOfConstraints l1')].
Proof.
  intros P E L. destruct (preach_wf p P) as [W _]. destruct (formed_levels fo gu p p1 P E) as (F & _ & _).
  destruct (problem_form_effect fo gu p p1 P E) as (_ & _ & A). rewrite L in *.
  inversion F as [|a l0' b t H0 F1 E1 E2]. subst. inversion F1 as [|a l1' b t' H1 F2 E3 E4]. subst. inversion F2. subst.
  inversion W as [|? ? W0 W1]. subst. inversion W1 as [|? ? W2 _]. subst.
  exists l0', l1'. split; [reflexivity|]. split; [exact W0|]. split; [exact W2|]. split; [exact H0|]. split; [exact H1|].
  rewrite A. cbn [map]. destruct (form_rows fo gu l0 l0' W0 H0) as (_ & Q0 & _). destruct (form_rows fo gu l1 l1' W2 H1) as (_ & Q1 & _).
  rewrite Q0, Q1. reflexivity.
Qed.

Lemma init_ready fo gu p p1 cs nv l0 l1 s0 s :
  preach p -> pb_formHierarchy fo gu p = Ok p1 -> described_problem cs fo nv p -> qp_hierarchy p l0 l1 ->
  qpo_initialize cs (pb_levels p1) nv s0 = Ok s ->
  exists l0' l1', ready cs nv s p1 l0' l1' /\ level_form fo gu l0 = Ok l0' /\ level_form fo gu l1 = Ok l1'.
Proof.
  intros P E D (L & EL & NG) I. destruct (two_formed fo gu p p1 l0 l1 P E L) as (l0' & l1' & L' & R0 & R1 & F0 & F1 & A).
  exists l0', l1'. split; [|split; assumption]. unfold described_problem in D. rewrite L in D. inversion D as [|? ? D0 D']. subst.
  unfold qpo_initialize in I. rewrite L' in I. cbn [getQPProblem fst snd] in I.
  apply bind_ok in I. destruct I as (r & Er & I). injection I as <-. cbn [qo_nc qo_nb qo_bv qo_nv qo_con].
  apply bind_ok in Er. destruct Er as (o' & Eo & Er). apply bind_ok in Er. destruct Er as (q & Eq & Er). injection Er as <-. cbn [snd].
  destruct (level_rows fo gu l0 l0' cs nv (q_general (qo_con s0)) (q_bounds (qo_con s0)) R0 F0 D0 NG) as (alu & ilu & Ea & El & SA & SI & RW).
  pose proof (ILU_range fo gu l0 l0' cs nv (q_bounds (qo_con s0)) ilu R0 F0 D0 NG El) as IR.
  unfold initializeConstraints_ILU_ALU in Eq. rewrite Ea in Eq. cbn [bind] in Eq. rewrite El in Eq. cbn [bind] in Eq.
  apply bind_ok in Eq. destruct Eq as (b & Eb & Eq). injection Eq as <-.
  destruct SA as (SA1 & SA2 & SA3 & SA4). destruct SI as (SI1 & SI2 & SI3 & SI4).
  pose proof (lreach_gf l0 R0) as GF. destruct (form_ok fo gu l0 l0' GF F0) as (F & LF & N & Pos & _).
  destruct (described_formed _ _ _ _ _ _ F D0) as [DD _].
  assert (NG' : forall i, In i (lv_tasks l0') -> has_gains (tk_type (ti_task i)) = false).
  { destruct (formed_map _ _ _ _ F) as [M _]. intros i Hi.
    apply (in_map (fun i => (tk_id (ti_task i), tk_type (ti_task i)))) in Hi. rewrite M in Hi. apply in_map_iff in Hi.
    destruct Hi as (j & Ej & Hj). injection Ej as _ Ej. rewrite <- Ej. auto. }
  constructor; cbn [qo_nc qo_nb qo_bv qo_nv qo_con q_general q_bounds q_lb q_ub].
  - exact L'.
  - exact A.
  - exact SA1.
  - exact SI1.
  - exact SI2.
  - reflexivity.
  - exact Pos.
  - split; [exact SA1|split; [exact SA2|split; assumption]].
  - split; [exact SI1|split; [exact SI2|split; assumption]].
  - exact IR.
  - intros Z. assert (NE : initializeSolutionBounds ilu <> Throw) by (rewrite Eb; discriminate).
    destruct (solution_bounds ilu IR) as [SB1 SB2]; [rewrite SI1; exact Z|].
    destruct SB2 as (lb & ub & Eb' & V1 & V2 & M).
    { intros v Hv EM. apply NE. apply SB1. exists v. split; assumption. }
    rewrite Eb in Eb'. injection Eb' as ->. cbn [fst snd]. rewrite SI2 in *. split; [exact V1|]. split; [exact V2|exact M].
  - intros i Hi. destruct (DD i Hi) as (_ & TN & _). apply In_nth_error in Hi. destruct Hi as [q Hq].
    rewrite (locs_nth _ _ _ _ LF Hq). exact TN.
  - intros i j Hi Hj. destruct (RW i j Hi Hj) as (Q1 & Q2). split; [exact Q1|].
    destruct (DD i Hi) as (T & _ & U). unfold row_of. cbn [qo_con q_general q_bounds].
    unfold level_getNumberOfConstraints in N. rewrite T. destruct (simp i) eqn:Si.
    + destruct Q2 as [Q2 Q3]. split; [lia|]. split; [exact U|]. split; [exact Si|]. split; [lia|exact Q3].
    + destruct Q2 as [Q2 Q3]. split; [lia|]. split; [exact U|]. split; [exact Si|]. split; [exact Q2|exact Q3].
  - intros r Hr. destruct (locs_cover (lv_tasks l0') 0 r LF) as (k & i & Ek & B).
    { unfold level_getNumberOfConstraints in N. lia. }
    exists i, (r - offset (ti_loc i))%nat. split; [eapply nth_error_In; exact Ek|]. lia.
  - intros i Hi. destruct (DD i Hi) as (T & _ & _). rewrite T. apply NG', Hi.
Qed.

(** ** getActiveSet() *)
Definition act_general (w : R) : act := if Req_EM_T w (-1) then LOWER_BOUND else if Req_EM_T w 0 then INACTIVE else UPPER_BOUND.
Definition act_bound (s : qpo) (wsb : nat -> R) (i : nat) : act :=
  let v := nth i (ilu_I (q_bounds (qo_con s))) 0%nat in
  if Req_EM_T (wsb v) (-1) then
    if Rlt_dec (vget (ilu_lb (q_bounds (qo_con s))) i) (vget (q_lb (qo_con s)) v) then INACTIVE else LOWER_BOUND
  else if Req_EM_T (wsb v) 0 then INACTIVE
  else if Rlt_dec (vget (q_ub (qo_con s)) v) (vget (ilu_ub (q_bounds (qo_con s))) i) then INACTIVE else UPPER_BOUND.
Definition act_row (s : qpo) (wsb wsc : nat -> R) (r : nat) : act :=
  if (r <? qo_nc s)%nat then act_general (wsc r) else act_bound s wsb (r - qo_nc s).

Lemma general_status_ok w : w = -1 \/ w = 0 \/ w = 1 -> general_status w = Ok (act_general w).
Proof.
  intros H. unfold general_status, act_general. destruct (Req_EM_T w (-1)); [reflexivity|]. destruct (Req_EM_T w 0); [reflexivity|].
  destruct (Req_EM_T w 1); [reflexivity|]. exfalso. destruct H as [H|[H|H]]; contradiction.
Qed.

Lemma put_first_ok v rest i t : (i < length v)%nat -> put_first (v :: rest) i t = Ok (update v i t :: rest).
Proof.
  intros H. unfold put_first, read_at. cbn [nth_error bind]. unfold as_put, write_at, assert_then.
  replace (i <? length v)%nat with true by lia. cbn [bind length update]. reflexivity.
Qed.

Lemma put_loop (f : nat -> outcome act) (F : nat -> act) off n : forall first v rest,
  (forall i, (first <= i < first + n)%nat -> f i = Ok (F (off + i)%nat)) -> (off + first + n <= length v)%nat ->
  exists v', for_up n first (fun i a => bind (f i) (put_first a (off + i))) (v :: rest) = Ok (v' :: rest) /\ length v' = length v /\
    forall r, nth_error v' r = if (off + first <=? r)%nat && (r <? off + first + n)%nat then Some (F r) else nth_error v r.
Proof.
  induction n as [|n IH]; intros first v rest H L; cbn [for_up].
  - exists v. split; [reflexivity|]. split; [reflexivity|]. intros r.
    replace ((off + first <=? r)%nat && (r <? off + first + 0)%nat) with false by lia. reflexivity.
  - rewrite H by lia. cbn [bind]. rewrite put_first_ok by lia. cbn [bind].
    destruct (IH (S first) (update v (off + first) (F (off + first)%nat)) rest) as (v' & E & L' & N).
    { intros i Hi. apply H. lia. } { rewrite update_length. lia. }
    exists v'. split; [exact E|]. split; [rewrite L', update_length; reflexivity|]. intros r. rewrite N, nth_error_update.
    destruct (Nat.eq_dec r (off + first)) as [->|Ne].
    + replace ((off + S first <=? off + first)%nat && (off + first <? off + S first + n)%nat) with false by lia.
      replace ((off + first <=? off + first)%nat && (off + first <? off + first + S n)%nat) with true by lia.
      replace ((off + first =? off + first)%nat && (off + first <? length v)%nat) with true by lia. reflexivity.
    + replace ((off + first =? r)%nat && (off + first <? length v)%nat) with false by lia.
      replace ((off + S first <=? r)%nat && (r <? off + S first + n)%nat) with ((off + first <=? r)%nat && (r <? off + first + S n)%nat) by lia.
      reflexivity.
Qed.

Lemma set_second a b t : ass_set [a; b] 1 t = Ok [a; repeat t (length b)].
Proof.
  unfold ass_set. cbn [nth_error]. unfold as_set_all, as_set_location. cbn [offset len].
  rewrite assert_true; [|unfold checkLength, loc_end; cbn [offset len]; lia]. unfold loc_end; cbn [offset len].
  rewrite Nat.add_0_l, Nat.sub_0_r. unfold copy_into. rewrite repeat_length, Nat.add_0_l, Nat.leb_refl. cbn [bind firstn].
  rewrite skipn_all. rewrite app_nil_r, app_nil_l. reflexivity.
Qed.

Lemma get_ok cs nv s p1 l0' l1' wsb wsc : ready cs nv s p1 l0' l1' ->
  working (n_general l0') wsc -> working nv wsb ->
  exists v, qpo_getActiveSet wsb wsc s p1 = Ok [v; repeat EQUALITY (level_getNumberOfConstraints l1')] /\
    length v = level_getNumberOfConstraints l0' /\ forall r, (r < length v)%nat -> nth_error v r = Some (act_row s wsb wsc r).
Proof.
  intros R WC WB. destruct R as [L A NC NB BV NV Pos SA SI IR BD LN RW CV PL].
  unfold qpo_getActiveSet. rewrite BV, NV. replace (nv <? nv)%nat with false by lia. rewrite andb_false_r.
  rewrite A. cbn [bind]. rewrite NC, NB. replace (n_general l0' + n_simple l0' =? 0)%nat with false by lia.
  rewrite set_second. cbn [bind]. rewrite repeat_length.
  destruct (put_loop (fun i => general_status (wsc i)) (act_row s wsb wsc) 0 (n_general l0') 0
              (repeat UNDEFINED (level_getNumberOfConstraints l0')) [repeat EQUALITY (level_getNumberOfConstraints l1')]) as (v1 & E1 & L1 & N1).
  { intros i Hi. cbn [Nat.add]. rewrite general_status_ok by (apply WC; lia). unfold act_row. rewrite NC.
    replace (i <? n_general l0')%nat with true by lia. reflexivity. }
  { rewrite repeat_length. unfold level_getNumberOfConstraints. lia. }
  cbn [Nat.add] in E1, N1. unfold asets, aset in *. rewrite E1. cbn [bind]. rewrite repeat_length in L1.
  destruct (put_loop (bound_status s wsb) (act_row s wsb wsc) (n_general l0') (n_simple l0') 0 v1 [repeat EQUALITY (level_getNumberOfConstraints l1')]) as (v2 & E2 & L2 & N2).
  { intros i Hi. destruct SI as (SI1 & SI2 & SI3 & SI4). unfold indices_in_range in IR. rewrite Forall_forall in IR.
    assert (Hv : (nth i (ilu_I (q_bounds (qo_con s))) 0 < nv)%nat). { rewrite <- SI2. apply IR, nth_In. lia. }
    destruct (BD ltac:(lia)) as (BL & BU & _).
    unfold bound_status. cbv zeta. rewrite BV. rewrite assert_true by lia. unfold act_row. rewrite NC.
    replace (n_general l0' + i <? n_general l0')%nat with false by lia. replace (n_general l0' + i - n_general l0')%nat with i by lia.
    unfold act_bound. cbv zeta. destruct (WB _ Hv) as [W|[W|W]]; rewrite W.
    - destruct (Req_EM_T (-1) (-1)) as [_|X]; [|destruct X; reflexivity]. rewrite assert_true by lia.
      destruct (Rlt_dec _ _); reflexivity.
    - destruct (Req_EM_T 0 (-1)) as [X|_]; [lra|]. destruct (Req_EM_T 0 0) as [_|X]; [reflexivity|destruct X; reflexivity].
    - destruct (Req_EM_T 1 (-1)) as [X|_]; [lra|]. destruct (Req_EM_T 1 0) as [X|_]; [lra|].
      destruct (Req_EM_T 1 1) as [_|X]; [|destruct X; reflexivity]. rewrite assert_true by lia.
      destruct (Rlt_dec _ _); reflexivity. }
  { rewrite L1. unfold level_getNumberOfConstraints. lia. }
  exists v2. split; [exact E2|]. split; [lia|]. intros r Hr. rewrite N2, Nat.add_0_r, N1. rewrite L2, L1 in Hr. unfold level_getNumberOfConstraints in Hr.
  destruct ((n_general l0' <=? r)%nat && (r <? n_general l0' + n_simple l0')%nat) eqn:Q; [reflexivity|].
  replace ((0 <=? r)%nat && (r <? n_general l0')%nat) with true by lia. reflexivity.
Qed.

(** a simple row of a task *)
Lemma row_index cs nv s p1 l0' l1' i j : ready cs nv s p1 l0' l1' -> In i (lv_tasks l0') -> (j < len (ti_loc i))%nat -> simp i = true ->
  exists v, bounds_variable (cs (tk_id (ti_task i))) j v /\ (v < nv)%nat /\ (n_general l0' <= offset (ti_loc i))%nat /\
    v = nth (offset (ti_loc i) + j - n_general l0') (ilu_I (q_bounds (qo_con s))) 0%nat /\
    (forall x : nat -> R, row_value (cs (tk_id (ti_task i))) j x = x v) /\
    vget (ilu_lb (q_bounds (qo_con s))) (offset (ti_loc i) + j - n_general l0') = lower_or_inf (cs (tk_id (ti_task i))) j /\
    vget (ilu_ub (q_bounds (qo_con s))) (offset (ti_loc i) + j - n_general l0') = upper_or_inf (cs (tk_id (ti_task i))) j.
Proof.
  intros RD Hi Hj Si. destruct (rd_rows _ _ _ _ _ _ RD i j Hi Hj) as (N & B & U & T & Q). unfold row_of in Q. rewrite Si in *.
  destruct Q as (G & Q1 & Q2 & Q3). pose proof (rd_plain _ _ _ _ _ _ RD i Hi) as PG.
  destruct (plain_of_type _ _ U T PG) as (ix & PI). exists (nth j ix 0%nat).
  assert (RV : forall x : nat -> R, row_value (cs (tk_id (ti_task i))) j x = x (nth j ix 0%nat)).
  { intros x. rewrite <- (getProduct_row nv) by (auto; lia). unfold getProduct. rewrite PI. reflexivity. }
  assert (LJ : (j < length ix)%nat). { unfold getNumberOfConstraints in N. rewrite PI in N. lia. }
  split; [unfold bounds_variable; rewrite PI; apply nth_error_nth'; exact LJ|].
  destruct U as (_ & _ & U). rewrite PI in U. rewrite Forall_forall in U.
  split; [apply U, nth_In, LJ|]. split; [exact G|].
  split; [|split; [exact RV|split; assumption]].
  specialize (Q1 (fun v => INR v)). rewrite RV in Q1. apply INR_eq in Q1. symmetry. exact Q1.
Qed.

Lemma fits_two (v v' : aset) p1 l0' l1' : pb_levels p1 = [l0'; l1'] -> length v = level_getNumberOfConstraints l0' ->
  length v' = level_getNumberOfConstraints l1' -> fits [v; v'] p1.
Proof.
  intros L A B. split; [unfold pb_getNumberOfLevels; rewrite L; reflexivity|].
  intros i l a Hl Ha. rewrite L in Hl. destruct i as [|[|i]]; cbn in Hl, Ha.
  - injection Hl as <-. injection Ha as <-. exact A.
  - injection Hl as <-. injection Ha as <-. exact B.
  - destruct i; discriminate.
Qed.

(** ** the reported active set *)
Lemma simp_bounds nv c j y : usable nv c -> bounds_variable c j y -> ct_isSimple (getType c) = true.
Proof. unfold bounds_variable, getType. intros _. destruct (c_body c), (c_bounds c); cbn; intros H; try contradiction; reflexivity. Qed.
Lemma bounds_variable_fun c j y y' : bounds_variable c j y -> bounds_variable c j y' -> y = y'.
Proof. unfold bounds_variable. destruct (c_body c); try contradiction. congruence. Qed.
Lemma bounds_variable_general c j y : bounds_variable c j y -> (j < getNumberOfConstraints c)%nat.
Proof. unfold bounds_variable, getNumberOfConstraints. destruct (c_body c); try contradiction. intros H. apply nth_error_Some. congruence. Qed.

Lemma bounded_rows cs nv s p1 l0' l1' y i j : ready cs nv s p1 l0' l1' -> In i (lv_tasks l0') ->
  bounds_variable (cs (tk_id (ti_task i))) j y -> (j < len (ti_loc i))%nat /\ simp i = true.
Proof.
  intros RD Hi B. pose proof (bounds_variable_general _ _ _ B) as J. rewrite <- (rd_len _ _ _ _ _ _ RD i Hi) in J.
  destruct (rd_rows _ _ _ _ _ _ RD i j Hi J) as (N & _ & U & T & _).
  split; [exact J|]. rewrite <- T. eapply simp_bounds; eassumption.
Qed.

(** rows of the container which bound variable [y] and rows of tasks which do *)
Lemma container_row cs nv s p1 l0' l1' r : ready cs nv s p1 l0' l1' -> (r < n_simple l0')%nat ->
  exists i j, In i (lv_tasks l0') /\ (j < len (ti_loc i))%nat /\ simp i = true /\
    (offset (ti_loc i) + j = n_general l0' + r)%nat /\
    bounds_variable (cs (tk_id (ti_task i))) j (nth r (ilu_I (q_bounds (qo_con s))) 0%nat) /\
    vget (ilu_lb (q_bounds (qo_con s))) r = lower_or_inf (cs (tk_id (ti_task i))) j /\
    vget (ilu_ub (q_bounds (qo_con s))) r = upper_or_inf (cs (tk_id (ti_task i))) j.
Proof.
  intros RD Hr. destruct (rd_cover _ _ _ _ _ _ RD (n_general l0' + r)%nat) as (i & j & Hi & Hj & Er); [lia|].
  destruct (rd_rows _ _ _ _ _ _ RD i j Hi Hj) as (_ & _ & _ & _ & Q). unfold row_of in Q.
  destruct (simp i) eqn:Si; [|destruct Q as [Q _]; exfalso; lia].
  destruct (row_index cs nv s p1 l0' l1' i j RD Hi Hj Si) as (v & BV & _ & _ & Ev & _ & B1 & B2).
  replace (offset (ti_loc i) + j - n_general l0')%nat with r in * by lia.
  exists i, j. split; [exact Hi|]. split; [exact Hj|]. split; [exact Si|]. split; [symmetry; exact Er|].
  split; [rewrite <- Ev; exact BV|]. split; assumption.
Qed.

Lemma lower_largest cs nv s p1 l0' l1' y : ready cs nv s p1 l0' l1' -> (0 < n_simple l0')%nat -> (y < nv)%nat ->
  largest_lower cs l0' y (vget (q_lb (qo_con s)) y) /\ smallest_upper cs l0' y (vget (q_ub (qo_con s)) y) /\
  (vget (q_lb (qo_con s)) y = - g_infinity \/
   exists i j, In i (lv_tasks l0') /\ bounds_variable (cs (tk_id (ti_task i))) j y /\ vget (q_lb (qo_con s)) y = lower_or_inf (cs (tk_id (ti_task i))) j) /\
  (vget (q_ub (qo_con s)) y = g_infinity \/
   exists i j, In i (lv_tasks l0') /\ bounds_variable (cs (tk_id (ti_task i))) j y /\ vget (q_ub (qo_con s)) y = upper_or_inf (cs (tk_id (ti_task i))) j).
Proof.
  intros RD NS Hy. destruct (rd_bounds _ _ _ _ _ _ RD NS) as (_ & _ & M). destruct (M y Hy) as ((M1 & M2) & (M3 & M4)).
  destruct (rd_ilu _ _ _ _ _ _ RD) as (SI1 & _).
  assert (RI : forall i j, In i (lv_tasks l0') -> bounds_variable (cs (tk_id (ti_task i))) j y ->
     lower_of (q_bounds (qo_con s)) y (lower_or_inf (cs (tk_id (ti_task i))) j) /\
     upper_of (q_bounds (qo_con s)) y (upper_or_inf (cs (tk_id (ti_task i))) j)).
  { intros i j Hi B. destruct (bounded_rows cs nv s p1 l0' l1' y i j RD Hi B) as [Hj Si].
    destruct (row_index cs nv s p1 l0' l1' i j RD Hi Hj Si) as (v & BV & _ & GE & Ev & _ & B1 & B2).
    rewrite (bounds_variable_fun _ _ _ _ B BV) in *.
    destruct (rd_rows _ _ _ _ _ _ RD i j Hi Hj) as (_ & LE & _).
    split; right; exists (offset (ti_loc i) + j - n_general l0')%nat; (split; [lia|]); (split; [symmetry; exact Ev|]); symmetry; assumption. }
  split; [split; [apply M2; left; reflexivity|intros i j Hi B; apply M2, RI; assumption]|].
  split; [split; [apply M4; left; reflexivity|intros i j Hi B; apply M4, RI; assumption]|].
  split.
  - destruct M1 as [M1|(r & Hr & Ey & M1)]; [left; exact M1|right]. rewrite SI1 in Hr.
    destruct (container_row cs nv s p1 l0' l1' r RD Hr) as (i & j & Hi & Hj & Si & Er & BV & B1 & B2).
    exists i, j. split; [exact Hi|]. split; [rewrite <- Ey; exact BV|]. rewrite M1. exact B1.
  - destruct M3 as [M3|(r & Hr & Ey & M3)]; [left; exact M3|right]. rewrite SI1 in Hr.
    destruct (container_row cs nv s p1 l0' l1' r RD Hr) as (i & j & Hi & Hj & Si & Er & BV & B1 & B2).
    exists i, j. split; [exact Hi|]. split; [rewrite <- Ey; exact BV|]. rewrite M3. exact B2.
Qed.

Lemma row_reports cs nv s p1 l0' l1' wsb wsc i j : ready cs nv s p1 l0' l1' ->
  working (n_general l0') wsc -> working nv wsb -> In i (lv_tasks l0') -> (j < len (ti_loc i))%nat ->
  reports cs l0' wsb wsc i j (act_row s wsb wsc (offset (ti_loc i) + j)).
Proof.
  intros RD WC WB Hi Hj. destruct (rd_rows _ _ _ _ _ _ RD i j Hi Hj) as (N & LE & U & T & Q). unfold row_of in Q.
  pose proof (rd_nc _ _ _ _ _ _ RD) as NC. unfold reports. cbv zeta. destruct (simp i) eqn:Si.
  - destruct Q as (GE & Q). unfold act_row. rewrite NC. replace (offset (ti_loc i) + j <? n_general l0')%nat with false by lia.
    destruct (row_index cs nv s p1 l0' l1' i j RD Hi Hj Si) as (v & BV & Hv & _ & Ev & _ & B1 & B2).
    set (r := (offset (ti_loc i) + j - n_general l0')%nat) in *.
    destruct (lower_largest cs nv s p1 l0' l1' v RD ltac:(lia) Hv) as (LL & SU & _ & _).
    unfold act_bound. cbv zeta. rewrite <- Ev, B1, B2.
    assert (Q1 : forall y, bounds_variable (cs (tk_id (ti_task i))) j y -> y = v) by (intros y B; eapply bounds_variable_fun; eassumption).
    split; [|split].
    + destruct (Req_EM_T _ _); [destruct (Rlt_dec _ _); auto|]. destruct (Req_EM_T _ _); [auto|]. destruct (Rlt_dec _ _); auto.
    + intros X. unfold simp in Si. congruence.
    + intros y By. rewrite (Q1 y By) in *. clear y By.
      destruct LL as (LL1 & LL2). destruct SU as (SU1 & SU2).
      destruct (WB v Hv) as [W|[W|W]]; rewrite W.
      * destruct (Req_EM_T (-1) (-1)) as [_|X]; [|destruct X; reflexivity].
        split; [|split; [destruct (Rlt_dec _ _); discriminate|intros [X _]; lra]].
        destruct (Rlt_dec (lower_or_inf (cs (tk_id (ti_task i))) j) (vget (q_lb (qo_con s)) v)) as [lt|ge].
        -- split; [discriminate|]. intros [_ (X1 & X2)]. exfalso.
           destruct (lower_largest cs nv s p1 l0' l1' v RD ltac:(lia) Hv) as (_ & _ & [E|(i' & j' & Hi' & B' & E)] & _); [lra|].
           specialize (X2 i' j' Hi' B'). lra.
        -- split; [intros _; split; [reflexivity|]|reflexivity].
           specialize (LL2 i j Hi BV). split; [lra|]. intros i' j' Hi' B'.
           destruct (lower_largest cs nv s p1 l0' l1' v RD ltac:(lia) Hv) as ((_ & L') & _). specialize (L' i' j' Hi' B'). lra.
      * destruct (Req_EM_T 0 (-1)) as [X|_]; [lra|]. destruct (Req_EM_T 0 0) as [_|X]; [|destruct X; reflexivity].
        split; (split; [discriminate|intros [X _]; lra]).
      * destruct (Req_EM_T 1 (-1)) as [X|_]; [lra|]. destruct (Req_EM_T 1 0) as [X|_]; [lra|].
        split; [split; [destruct (Rlt_dec _ _); discriminate|intros [X _]; lra]|].
        destruct (Rlt_dec (vget (q_ub (qo_con s)) v) (upper_or_inf (cs (tk_id (ti_task i))) j)) as [lt|ge].
        -- split; [discriminate|]. intros [_ (X1 & X2)]. exfalso.
           destruct (lower_largest cs nv s p1 l0' l1' v RD ltac:(lia) Hv) as (_ & _ & _ & [E|(i' & j' & Hi' & B' & E)]); [lra|].
           specialize (X2 i' j' Hi' B'). lra.
        -- split; [intros _; split; [reflexivity|]|reflexivity].
           specialize (SU2 i j Hi BV). split; [lra|]. intros i' j' Hi' B'.
           destruct (lower_largest cs nv s p1 l0' l1' v RD ltac:(lia) Hv) as (_ & (_ & L') & _). specialize (L' i' j' Hi' B'). lra.
  - destruct Q as (LT & Q). unfold act_row. rewrite NC. replace (offset (ti_loc i) + j <? n_general l0')%nat with true by lia.
    split; [|split].
    + unfold act_general. destruct (Req_EM_T _ _); [auto|]. destruct (Req_EM_T _ _); auto.
    + intros _. unfold act_of, act_general.
      split; [intros ->|split; intros ->].
      * destruct (Req_EM_T (-1) (-1)) as [_|X]; [reflexivity|destruct X; reflexivity].
      * destruct (Req_EM_T 0 (-1)) as [X|_]; [lra|]. destruct (Req_EM_T 0 0) as [_|X]; [reflexivity|destruct X; reflexivity].
      * destruct (Req_EM_T 1 (-1)) as [X|_]; [lra|]. destruct (Req_EM_T 1 0) as [X|_]; [lra|]. reflexivity.
    + intros y B. apply (simp_bounds nv) in B; [|exact U]. congruence.
Qed.

(** C84: what getActiveSet() reports *)
Theorem bridge_reports (fo : nat -> formed) (gu : bool) (p p1 : problem) (cs : nat -> constr) (nv : nat) (l0 l1 : level)
    (s0 s : qpo) (wsb wsc : nat -> R) :
  preach p -> pb_formHierarchy fo gu p = Ok p1 -> described_problem cs fo nv p -> qp_hierarchy p l0 l1 ->
  qpo_initialize cs (pb_levels p1) nv s0 = Ok s -> working (qo_nc s) wsc -> working nv wsb ->
  exists v0 v1, qpo_getActiveSet wsb wsc s p1 = Ok [v0; v1] /\ fits [v0; v1] p1 /\ Forall (eq EQUALITY) v1 /\
    forall l i j, nth_error (pb_levels p1) 0 = Some l -> In i (lv_tasks l) -> (j < len (ti_loc i))%nat ->
      exists t, nth_error v0 (offset (ti_loc i) + j) = Some t /\ reports cs l wsb wsc i j t.
Proof.
  intros P E D T I WC WB. destruct (init_ready fo gu p p1 cs nv l0 l1 s0 s P E D T I) as (l0' & l1' & RD & _).
  rewrite (rd_nc _ _ _ _ _ _ RD) in WC.
  destruct (get_ok cs nv s p1 l0' l1' wsb wsc RD WC WB) as (v & G & Lv & Nv).
  exists v, (repeat EQUALITY (level_getNumberOfConstraints l1')). split; [exact G|].
  split; [eapply fits_two; [exact (rd_levels _ _ _ _ _ _ RD)|exact Lv|apply repeat_length]|].
  split; [apply Forall_forall; intros t Ht; apply repeat_spec in Ht; auto|].
  intros l i j Hl Hi Hj. rewrite (rd_levels _ _ _ _ _ _ RD) in Hl. cbn in Hl. injection Hl as <-.
  exists (act_row s wsb wsc (offset (ti_loc i) + j)). split.
  - apply Nv. rewrite Lv. destruct (rd_rows _ _ _ _ _ _ RD i j Hi Hj) as (_ & LE & _). unfold level_getNumberOfConstraints. lia.
  - apply row_reports with (nv := nv) (p1 := p1) (l1' := l1'); assumption.
Qed.

(** C84: the report is true, in the tasks after processActiveSet() *)
Theorem bridge_true (fo : nat -> formed) (gu : bool) (p p1 : problem) (cs : nat -> constr) (nv : nat) (l0 l1 : level)
    (s0 s : qpo) (wsb wsc x : nat -> R) :
  preach p -> pb_formHierarchy fo gu p = Ok p1 -> described_problem cs fo nv p -> qp_hierarchy p l0 l1 ->
  qpo_initialize cs (pb_levels p1) nv s0 = Ok s -> working (qo_nc s) wsc -> working nv wsb ->
  truthful (qo_con s) wsb wsc x ->
  (forall i j, In i (lv_tasks l0) -> - g_infinity < row_value (cs (tk_id (ti_task i))) j x < g_infinity) ->
  exists a p2, qpo_getActiveSet wsb wsc s p1 = Ok a /\ pb_processActiveSet p1 a = Ok p2 /\
    (forall l i, nth_error (pb_levels p2) 0 = Some l -> In i (lv_tasks l) ->
       length (tk_actual (ti_task i)) = getNumberOfConstraints (cs (tk_id (ti_task i))) /\
       forall j t, nth_error (tk_actual (ti_task i)) j = Some t -> status_true (cs (tk_id (ti_task i))) x j t) /\
    (forall l i, nth_error (pb_levels p2) 1 = Some l -> In i (lv_tasks l) -> Forall (eq EQUALITY) (tk_actual (ti_task i))).
Proof.
  intros P E D T I WC WB TR FIN. destruct (init_ready fo gu p p1 cs nv l0 l1 s0 s P E D T I) as (l0' & l1' & RD & F0 & F1).
  rewrite (rd_nc _ _ _ _ _ _ RD) in WC.
  destruct (get_ok cs nv s p1 l0' l1' wsb wsc RD WC WB) as (v & G & Lv & Nv).
  pose proof (rd_levels _ _ _ _ _ _ RD) as L'.
  assert (FT : fits [v; repeat EQUALITY (level_getNumberOfConstraints l1')] p1)
    by (eapply fits_two; [exact L'|exact Lv|apply repeat_length]).
  destruct (problem_process fo gu p p1 [v; repeat EQUALITY (level_getNumberOfConstraints l1')] P E) as (PP & _).
  destruct (PP FT) as (p2 & E2 & _ & Q). exists [v; repeat EQUALITY (level_getNumberOfConstraints l1')], p2.
  split; [exact G|]. split; [exact E2|]. split.
  - intros l i Hl Hi.
    destruct (Q 0%nat l0' v ltac:(rewrite L'; reflexivity) eq_refl) as (l2 & Hl2 & TI & LOC & SEG). rewrite Hl in Hl2. injection Hl2 as <-.
    specialize (SEG i Hi).
    apply In_nth_error in Hi. destruct Hi as [q Hq].
    assert (exists i0, nth_error (lv_tasks l0') q = Some i0 /\ ti_loc i0 = ti_loc i /\ tk_id (ti_task i0) = tk_id (ti_task i)) as (i0 & Hi0 & Eloc & Eid).
    { pose proof (f_equal (fun m => nth_error m q) LOC) as X1. pose proof (f_equal (fun m => nth_error m q) TI) as X2. unfold task_ids in X2. cbv beta in X1, X2.
      rewrite !nth_error_map, Hq in X1, X2. cbn [option_map] in X1, X2.
      destruct (nth_error (lv_tasks l0') q) as [i0|]; [|discriminate]. cbn [option_map] in X1, X2. exists i0. split; [reflexivity|]. split; congruence. }
    apply nth_error_In in Hi0. rewrite <- Eloc in SEG. rewrite <- Eid.
    pose proof (rd_len _ _ _ _ _ _ RD i0 Hi0) as LN.
    assert (LB : (0 < len (ti_loc i0) -> offset (ti_loc i0) + len (ti_loc i0) <= length v)%nat).
    { intros Z. destruct (rd_rows _ _ _ _ _ _ RD i0 0%nat Hi0 Z) as (_ & LE & _). rewrite Lv. unfold level_getNumberOfConstraints. lia. }
    split.
    + rewrite SEG, <- LN. destruct (Nat.eq_dec (len (ti_loc i0)) 0) as [Z|Z]; [rewrite Z; reflexivity|]. apply segment_length, LB. lia.
    + intros j t Ht. rewrite SEG, nth_error_segment in Ht. destruct (j <? len (ti_loc i0))%nat eqn:J; [|discriminate].
      assert (Hj : (j < len (ti_loc i0))%nat) by lia.
      rewrite Nv in Ht by (specialize (LB ltac:(lia)); lia). injection Ht as <-.
      assert (FI : - g_infinity < row_value (cs (tk_id (ti_task i0))) j x < g_infinity).
      { assert (TL : exists i1, In i1 (lv_tasks l0) /\ tk_id (ti_task i1) = tk_id (ti_task i0)).
        { destruct (preach_wf p P) as [W _]. destruct T as (T & _). rewrite T in W. inversion W as [|? ? W0 _]. subst.
          destruct (form_rows fo gu l0 l0' W0 F0) as (TI0 & _ & _). apply (in_map (fun i => (tk_id (ti_task i), tk_type (ti_task i)))) in Hi0.
          unfold task_ids in TI0. rewrite TI0 in Hi0. apply in_map_iff in Hi0. destruct Hi0 as (i1 & E1 & H1). exists i1. split; [exact H1|congruence]. }
        destruct TL as (i1 & H1 & E1). rewrite <- E1. apply FIN, H1. }
      destruct (rd_rows _ _ _ _ _ _ RD i0 j Hi0 Hj) as (_ & LE & U & TT & RW). unfold row_of in RW.
      destruct TR as (TR1 & TR2). destruct (simp i0) eqn:Si.
      * destruct RW as (GE & RW). destruct (row_index cs nv s p1 l0' l1' i0 j RD Hi0 Hj Si) as (y & BV & Hy & _ & Ey & RV & B1 & B2).
        rewrite RV in FI. unfold act_row. rewrite (rd_nc _ _ _ _ _ _ RD). replace (offset (ti_loc i0) + j <? n_general l0')%nat with false by lia.
        set (r := (offset (ti_loc i0) + j - n_general l0')%nat) in *. unfold act_bound. cbv zeta. rewrite <- Ey, B1, B2.
        destruct (lower_largest cs nv s p1 l0' l1' y RD ltac:(lia) Hy) as ((_ & LL) & (_ & SU) & _).
        specialize (LL i0 j Hi0 BV). specialize (SU i0 j Hi0 BV).
        destruct (rd_bounds _ _ _ _ _ _ RD ltac:(lia)) as (VL & VU & _).
        destruct (TR2 y ltac:(rewrite VL; exact Hy)) as (TL & TU).
        destruct (Req_EM_T (wsb y) (-1)) as [W|W].
        -- destruct (Rlt_dec _ _) as [lt|ge]; [exact Logic.I|]. cbn [status_true]. rewrite RV. specialize (TL W).
           unfold lower_or_inf in *. destruct (lower (cs (tk_id (ti_task i0))) j) as [b|]; [f_equal; lra|exfalso; lra].
        -- destruct (Req_EM_T (wsb y) 0) as [W0|W0]; [exact Logic.I|].
           assert (W1 : wsb y = 1) by (destruct (WB y Hy) as [X|[X|X]]; [contradiction|contradiction|exact X]).
           destruct (Rlt_dec _ _) as [lt|ge]; [exact Logic.I|]. cbn [status_true]. rewrite RV. specialize (TU W1).
           unfold upper_or_inf in *. destruct (upper (cs (tk_id (ti_task i0))) j) as [b|]; [f_equal; lra|exfalso; lra].
      * destruct RW as (LT & R1 & R2 & R3). unfold act_row. rewrite (rd_nc _ _ _ _ _ _ RD). replace (offset (ti_loc i0) + j <? n_general l0')%nat with true by lia.
        destruct (rd_alu _ _ _ _ _ _ RD) as (SA1 & _).
        destruct (TR1 (offset (ti_loc i0) + j)%nat ltac:(rewrite SA1; lia)) as (TL & TU). rewrite R1 in TL, TU.
        unfold act_general. destruct (Req_EM_T _ (-1)) as [W|W].
        -- cbn [status_true]. specialize (TL W). unfold lower_or_inf in *. destruct (lower (cs (tk_id (ti_task i0))) j) as [b|]; [f_equal; lra|exfalso; lra].
        -- destruct (Req_EM_T _ 0) as [W0|W0]; [exact Logic.I|].
           assert (W1 : wsc (offset (ti_loc i0) + j)%nat = 1).
           { destruct (WC (offset (ti_loc i0) + j)%nat ltac:(lia)) as [X|[X|X]]; [contradiction|contradiction|exact X]. }
           cbn [status_true]. specialize (TU W1). unfold upper_or_inf in *. destruct (upper (cs (tk_id (ti_task i0))) j) as [b|]; [f_equal; lra|exfalso; lra].
  - intros l i Hl Hi.
    destruct (Q 1%nat l1' (repeat EQUALITY (level_getNumberOfConstraints l1')) ltac:(rewrite L'; reflexivity) eq_refl) as (l2 & Hl2 & TI & LOC & SEG).
    rewrite Hl in Hl2. injection Hl2 as <-. rewrite (SEG i Hi). apply Forall_forall. intros t Ht. apply In_nth_error in Ht. destruct Ht as [u Hu].
    rewrite nth_error_segment, nth_error_repeat in Hu. destruct (u <? _)%nat; [|discriminate]. destruct (_ <? _)%nat; [congruence|discriminate].
Qed.

(** ** setActiveSet() *)
Lemma get_first_ok v rest i : get_first (v :: rest) i = match nth_error v i with Some t => Ok t | None => Throw end.
Proof.
  unfold get_first, as_get, read_at. cbn [nth_error bind]. reflexivity.
Qed.

Lemma guess_loop_constraints v rest n : (n <= length v)%nat -> (forall i, (i < n)%nat -> nth_error v i <> Some UNDEFINED) ->
  exists g, for_up n 0 (fun i g => bind (get_first (v :: rest) i) (fun t => bind (guess_constraint t) (fun q => Ok (update g i q))))
              (repeat ST_INACTIVE n) = Ok g /\ length g = n /\
    forall i t, (i < n)%nat -> nth_error v i = Some t -> exists q, nth_error g i = Some q /\ guess_means t q.
Proof.
  intros L ND.
  destruct (for_up_inv (fun k g => length g = n /\ forall i t, (i < k)%nat -> nth_error v i = Some t -> exists q, nth_error g i = Some q /\ guess_means t q)
     (fun i g => bind (get_first (v :: rest) i) (fun t => bind (guess_constraint t) (fun q => Ok (update g i q)))) n 0 (repeat ST_INACTIVE n)) as (g & E & LG & G).
  - split; [apply repeat_length|]. intros i t Hi. lia.
  - intros i g Hi (LG & G). rewrite get_first_ok. destruct (nth_error v i) as [t|] eqn:Et; [|apply nth_error_None in Et; lia].
    cbn [bind]. assert (t <> UNDEFINED). { intros ->. apply (ND i); [lia|exact Et]. }
    assert (GC : exists q, guess_constraint t = Ok q /\ guess_means t q) by (destruct t; try contradiction; eexists; split; reflexivity).
    destruct GC as (q & Eq & GM). rewrite Eq. cbn [bind]. eexists. split; [reflexivity|]. split; [rewrite update_length; exact LG|].
    intros k t' Hk Ek. rewrite nth_error_update. destruct (Nat.eq_dec i k) as [<-|Ne].
    + replace ((i =? i)%nat && (i <? length g)%nat) with true by lia. exists q. split; [reflexivity|]. congruence.
    + replace ((i =? k)%nat && (i <? length g)%nat) with false by lia. apply G; [lia|exact Ek].
  - exists g. split; [exact E|]. split; [exact LG|]. intros i t Hi. apply G. lia.
Qed.

Lemma guess_loop_bounds (v : list act) rest (I : list nat) nc bv : (nc + length I <= length v)%nat -> Forall (fun y => (y < bv)%nat) I ->
  (forall i, (i < length I)%nat -> nth_error v (nc + i) <> Some UNDEFINED) ->
  exists g, for_up (length I) 0 (fun i g => bind (get_first (v :: rest) (nc + i)) (fun t => bind (guess_bound t) (fun o =>
            Ok (match o with Some q => update g (nth i I 0%nat) q | None => g end)))) (repeat ST_INACTIVE bv) = Ok g /\ length g = bv /\
    forall y, (y < bv)%nat -> exists q, nth_error g y = Some q /\
      ((exists r t, (r < length I)%nat /\ nth r I 0%nat = y /\ nth_error v (nc + r) = Some t /\ t <> INACTIVE /\ guess_means t q /\
          forall r', (r < r' < length I)%nat -> nth r' I 0%nat = y -> nth_error v (nc + r') = Some INACTIVE) \/
       ((forall r, (r < length I)%nat -> nth r I 0%nat = y -> nth_error v (nc + r) = Some INACTIVE) /\ q = ST_INACTIVE)).
Proof.
  intros L F ND. rewrite Forall_forall in F.
  destruct (for_up_inv (fun k g => length g = bv /\ forall y, (y < bv)%nat -> exists q, nth_error g y = Some q /\
      ((exists r t, (r < k)%nat /\ nth r I 0%nat = y /\ nth_error v (nc + r) = Some t /\ t <> INACTIVE /\ guess_means t q /\
          forall r', (r < r' < k)%nat -> nth r' I 0%nat = y -> nth_error v (nc + r') = Some INACTIVE) \/
       ((forall r, (r < k)%nat -> nth r I 0%nat = y -> nth_error v (nc + r) = Some INACTIVE) /\ q = ST_INACTIVE)))
     (fun i g => bind (get_first (v :: rest) (nc + i)) (fun t => bind (guess_bound t) (fun o =>
            Ok (match o with Some q => update g (nth i I 0%nat) q | None => g end)))) (length I) 0 (repeat ST_INACTIVE bv)) as (g & E & LG & G).
  - split; [apply repeat_length|]. intros y Hy. exists ST_INACTIVE. split.
    + rewrite nth_error_repeat. replace (y <? bv)%nat with true by lia. reflexivity.
    + right. split; [intros r Hr; lia|reflexivity].
  - intros i g Hi (LG & G). rewrite get_first_ok. destruct (nth_error v (nc + i)) as [t|] eqn:Et; [|apply nth_error_None in Et; lia].
    cbn [bind]. assert (NU : t <> UNDEFINED). { intros ->. apply (ND i); [lia|exact Et]. }
    assert (Hv : (nth i I 0 < bv)%nat) by (apply F, nth_In; lia).
    assert (DI : t = INACTIVE \/ t <> INACTIVE) by (destruct t; ((left; reflexivity) || (right; discriminate))).
    destruct DI as [->|NI].
    + cbn [guess_bound bind]. eexists. split; [reflexivity|]. split; [exact LG|]. intros y Hy. destruct (G y Hy) as (q & Eq & Q).
      exists q. split; [exact Eq|]. destruct Q as [(r & t & Hr & Er & Ev & N & GM & Lt)|(A & ->)].
      * left. exists r, t. split; [lia|]. split; [exact Er|]. split; [exact Ev|]. split; [exact N|]. split; [exact GM|].
        intros r' Hr' Er'. destruct (Nat.eq_dec r' i) as [->|Ne]; [exact Et|]. apply Lt; [lia|exact Er'].
      * right. split; [|reflexivity]. intros r Hr Er. destruct (Nat.eq_dec r i) as [->|Ne]; [exact Et|]. apply A; [lia|exact Er].
    + assert (GC : exists q, guess_bound t = Ok (Some q) /\ guess_means t q) by (destruct t; try contradiction; eexists; split; reflexivity).
      destruct GC as (q & Eq & GM). rewrite Eq. cbn [bind]. eexists. split; [reflexivity|]. split; [rewrite update_length; exact LG|].
      intros y Hy. rewrite nth_error_update. destruct (Nat.eq_dec (nth i I 0%nat) y) as [Ey|Ney].
      * replace ((nth i I 0 =? y)%nat && (nth i I 0 <? length g)%nat) with true by lia. exists q. split; [reflexivity|].
        left. exists i, t. split; [lia|]. split; [exact Ey|]. split; [exact Et|]. split; [exact NI|]. split; [exact GM|]. intros r' Hr'. lia.
      * replace ((nth i I 0 =? y)%nat && (nth i I 0 <? length g)%nat) with false by lia.
        destruct (G y Hy) as (q' & Eq' & Q). exists q'. split; [exact Eq'|]. destruct Q as [(r & t' & Hr & Er & Ev & N & GM' & Lt)|(A & ->)].
        -- left. exists r, t'. split; [lia|]. split; [exact Er|]. split; [exact Ev|]. split; [exact N|]. split; [exact GM'|].
           intros r' Hr' Er'. apply Lt; [|exact Er']. assert (r' <> i) by (intros ->; contradiction). lia.
        -- right. split; [|reflexivity]. intros r Hr Er. apply A; [|exact Er]. assert (r <> i) by (intros ->; contradiction). lia.
  - exists g. split; [exact E|]. split; [exact LG|]. exact G.
Qed.

Lemma for_up_throw {S : Type} (body : nat -> S -> outcome S) (r : nat) : (forall i g, body i g <> UB) -> (forall g, body r g = Throw) ->
  forall n first s, (first <= r < first + n)%nat -> for_up n first body s = Throw.
Proof.
  intros NU T. induction n as [|n IH]; intros first s H; [lia|]. cbn [for_up].
  destruct (Nat.eq_dec first r) as [->|Ne]; [rewrite T; reflexivity|].
  destruct (body first s) as [s'| |] eqn:E; [cbn [bind]; apply IH; lia|reflexivity|exfalso; eapply NU, E].
Qed.

Lemma get_first_read (v : list act) rest i : get_first (v :: rest) i <> UB.
Proof. rewrite get_first_ok. destruct (nth_error v i); discriminate. Qed.

(** setActiveSet() with a list of statuses *)
Lemma set_ok cs nv s p1 l0' l1' (v : list act) rest : ready cs nv s p1 l0' l1' ->
  ((n_general l0' + n_simple l0' <= length v)%nat -> (forall r, (r < n_general l0' + n_simple l0')%nat -> nth_error v r <> Some UNDEFINED) ->
     exists gb gc s', qpo_setActiveSet (v :: rest) s = Ok s' /\ qo_guess s' = Some (gb, gc) /\
       qo_obj s' = qo_obj s /\ qo_con s' = qo_con s /\ length gc = n_general l0' /\ length gb = nv /\
       (forall r t, (r < n_general l0')%nat -> nth_error v r = Some t -> exists q, nth_error gc r = Some q /\ guess_means t q) /\
       (forall y, (y < nv)%nat -> exists q, nth_error gb y = Some q /\
          ((exists r t, (r < n_simple l0')%nat /\ nth r (ilu_I (q_bounds (qo_con s))) 0%nat = y /\ nth_error v (n_general l0' + r) = Some t /\ t <> INACTIVE /\ guess_means t q /\
              forall r', (r < r' < n_simple l0')%nat -> nth r' (ilu_I (q_bounds (qo_con s))) 0%nat = y -> nth_error v (n_general l0' + r') = Some INACTIVE) \/
           ((forall r, (r < n_simple l0')%nat -> nth r (ilu_I (q_bounds (qo_con s))) 0%nat = y -> nth_error v (n_general l0' + r) = Some INACTIVE) /\ q = ST_INACTIVE)))) /\
  ((exists r, (r < n_general l0' + n_simple l0')%nat /\ (nth_error v r = None \/ nth_error v r = Some UNDEFINED)) ->
     qpo_setActiveSet (v :: rest) s = Throw).
Proof.
  intros RD. destruct RD as [L A NC NB BV NV Pos SA SI IR BD LN RW CV PL]. destruct SI as (SI1 & SI2 & SI3 & SI4). split.
  - intros Lv ND. destruct (guess_loop_constraints v rest (n_general l0')) as (gc & E1 & L1 & G1); [lia|intros i Hi; apply ND; lia|].
    destruct (guess_loop_bounds v rest (ilu_I (q_bounds (qo_con s))) (n_general l0') nv) as (gb & E2 & L2 & G2).
    { rewrite SI1. exact Lv. } { rewrite <- SI2. exact IR. } { rewrite SI1. intros i Hi. apply ND. lia. }
    rewrite SI1 in E2, G2. unfold qpo_setActiveSet. rewrite NC, NB, BV, E1. cbn [bind]. rewrite E2. cbn [bind].
    exists gb, gc. eexists. split; [reflexivity|]. cbn [qo_guess qo_obj qo_con]. split; [reflexivity|]. split; [reflexivity|]. split; [reflexivity|].
    split; [exact L1|]. split; [exact L2|]. split; [exact G1|exact G2].
  - intros (r & Hr & V). unfold qpo_setActiveSet. rewrite NC, NB, BV. destruct (Nat.lt_ge_cases r (n_general l0')) as [lt|ge].
    + rewrite (for_up_throw _ r); [reflexivity| | |lia].
      * intros i g. pose proof (get_first_read v rest i) as U. destruct (get_first (v :: rest) i) as [t| |]; [|discriminate|contradiction].
        destruct t; discriminate.
      * intros g. rewrite get_first_ok. destruct V as [V|V]; rewrite V; reflexivity.
    + match goal with |- bind ?m _ = _ => destruct m as [gc| |] eqn:E1 end; cbn [bind]; [|reflexivity|exfalso].
      * rewrite (for_up_throw _ (r - n_general l0')); [reflexivity| | |lia].
        -- intros i g. pose proof (get_first_read v rest (n_general l0' + i)) as U. destruct (get_first (v :: rest) (n_general l0' + i)) as [t| |]; [|discriminate|contradiction].
           destruct t; discriminate.
        -- intros g. replace (n_general l0' + (r - n_general l0'))%nat with r by lia. rewrite get_first_ok. destruct V as [V|V]; rewrite V; reflexivity.
      * revert E1. generalize (repeat ST_INACTIVE (n_general l0')). generalize 0%nat. generalize (n_general l0') as m. clear. induction m as [|n IH]; intros k g; cbn [for_up]; [discriminate|].
        pose proof (get_first_read v rest k) as U. destruct (get_first (v :: rest) k) as [t| |]; [|discriminate|contradiction].
        destruct t; cbn [bind guess_constraint]; try apply IH. discriminate.
Qed.

(** rows of variable [y] in the container and in the tasks *)
Lemma container_of_task cs nv s p1 l0' l1' i j y : ready cs nv s p1 l0' l1' -> In i (lv_tasks l0') -> bounds_variable (cs (tk_id (ti_task i))) j y ->
  exists r, (r < n_simple l0')%nat /\ (offset (ti_loc i) + j = n_general l0' + r)%nat /\ nth r (ilu_I (q_bounds (qo_con s))) 0%nat = y /\ (y < nv)%nat.
Proof.
  intros RD Hi B. destruct (bounded_rows _ _ _ _ _ _ _ _ _ RD Hi B) as [Hj Si].
  destruct (row_index cs nv s p1 l0' l1' i j RD Hi Hj Si) as (y' & BV & Hy & GE & Ey & _).
  rewrite (bounds_variable_fun _ _ _ _ B BV) in *. destruct (rd_rows _ _ _ _ _ _ RD i j Hi Hj) as (_ & LE & _).
  exists (offset (ti_loc i) + j - n_general l0')%nat. split; [lia|]. split; [lia|]. split; [symmetry; exact Ey|exact Hy].
Qed.

Lemma last_active_rows cs nv s p1 l0' l1' (v : list act) y q : ready cs nv s p1 l0' l1' ->
  ((exists r t, (r < n_simple l0')%nat /\ nth r (ilu_I (q_bounds (qo_con s))) 0%nat = y /\ nth_error v (n_general l0' + r) = Some t /\ t <> INACTIVE /\ guess_means t q /\
      forall r', (r < r' < n_simple l0')%nat -> nth r' (ilu_I (q_bounds (qo_con s))) 0%nat = y -> nth_error v (n_general l0' + r') = Some INACTIVE) \/
   ((forall r, (r < n_simple l0')%nat -> nth r (ilu_I (q_bounds (qo_con s))) 0%nat = y -> nth_error v (n_general l0' + r) = Some INACTIVE) /\ q = ST_INACTIVE)) ->
  last_active cs l0' v y q.
Proof.
  intros RD [(r & t & Hr & Ey & Et & NI & GM & Lt)|(A & Eq)].
  - left. destruct (container_row _ _ _ _ _ _ _ RD Hr) as (i & j & Hi & Hj & Si & Er & BV & _ & _). rewrite Ey in BV.
    exists i, j, t. rewrite Er. split; [exact Hi|]. split; [exact BV|]. split; [exact Et|]. split; [exact NI|]. split; [exact GM|].
    intros i' j' Hi' B' Q. destruct (container_of_task _ _ _ _ _ _ _ _ _ RD Hi' B') as (r' & Hr' & Er' & Ey' & _). rewrite Er'. apply Lt; [lia|exact Ey'].
  - right. split; [|exact Eq]. intros i' j' Hi' B'. destruct (container_of_task _ _ _ _ _ _ _ _ _ RD Hi' B') as (r' & Hr' & Er' & Ey' & _). rewrite Er'. apply A; assumption.
Qed.

Theorem bridge_guess (fo : nat -> formed) (gu : bool) (p p1 : problem) (cs : nat -> constr) (nv : nat) (l0 l1 : level) (s0 s : qpo) (a : asets) :
  preach p -> pb_formHierarchy fo gu p = Ok p1 -> described_problem cs fo nv p -> qp_hierarchy p l0 l1 ->
  qpo_initialize cs (pb_levels p1) nv s0 = Ok s -> fits a p1 ->
  forall v, nth_error a 0 = Some v ->
  (~ In UNDEFINED v -> exists gb gc s', qpo_setActiveSet a s = Ok s' /\ qo_guess s' = Some (gb, gc) /\ qo_obj s' = qo_obj s /\ qo_con s' = qo_con s /\
     length gc = mrows (alu_A (q_general (qo_con s))) /\ length gb = nv /\
     forall l, nth_error (pb_levels p1) 0 = Some l ->
       (forall i j, In i (lv_tasks l) -> (j < len (ti_loc i))%nat -> simple_task (ti_task i) = false ->
          exists t q, nth_error v (offset (ti_loc i) + j) = Some t /\ nth_error gc (offset (ti_loc i) + j) = Some q /\ guess_means t q) /\
       (forall y, (y < nv)%nat -> exists q, nth_error gb y = Some q /\ last_active cs l v y q)) /\
  (In UNDEFINED v -> qpo_setActiveSet a s = Throw).
Proof.
  intros P E D T I FT v Hv. destruct (init_ready fo gu p p1 cs nv l0 l1 s0 s P E D T I) as (l0' & l1' & RD & F0 & F1).
  pose proof (rd_levels _ _ _ _ _ _ RD) as L'. destruct FT as [FT1 FT2]. destruct a as [|v' rest]; [discriminate|]. cbn in Hv. injection Hv as ->.
  assert (Lv : length v = (n_general l0' + n_simple l0')%nat) by (apply (FT2 0%nat l0' v); [rewrite L'; reflexivity|reflexivity]).
  destruct (set_ok cs nv s p1 l0' l1' v rest RD) as [SO ST]. split.
  - intros NU. destruct SO as (gb & gc & s' & ES & EG & EO & EC & LC & LB & G1 & G2); [lia| |].
    { intros r _ X. apply NU. eapply nth_error_In, X. }
    exists gb, gc, s'. split; [exact ES|]. split; [exact EG|]. split; [exact EO|]. split; [exact EC|].
    split; [rewrite LC; symmetry; apply (rd_alu _ _ _ _ _ _ RD)|]. split; [exact LB|].
    intros l Hl. rewrite L' in Hl. cbn in Hl. injection Hl as <-. split.
    + intros i j Hi Hj Si. destruct (rd_rows _ _ _ _ _ _ RD i j Hi Hj) as (_ & LE & _ & _ & Q). unfold row_of in Q. unfold simp in Q.
      rewrite Si in Q. destruct Q as [LT _].
      destruct (nth_error v (offset (ti_loc i) + j)) as [t|] eqn:Et; [|apply nth_error_None in Et; lia].
      destruct (G1 (offset (ti_loc i) + j)%nat t) as (q & Eq & GM); [lia|exact Et|]. exists t, q. split; [reflexivity|]. split; assumption.
    + intros y Hy. destruct (G2 y Hy) as (q & Eq & Q). exists q. split; [exact Eq|]. eapply last_active_rows; eassumption.
  - intros U. apply ST. apply In_nth_error in U. destruct U as [r Hr]. exists r. split; [|right; exact Hr].
    rewrite <- Lv. apply nth_error_Some. congruence.
Qed.

(** ** a reported active set used as a guess *)
Lemma attained cs nv s p1 l0' l1' y : ready cs nv s p1 l0' l1' -> bounded_variable cs l0' y ->
  (exists i j, In i (lv_tasks l0') /\ bounds_variable (cs (tk_id (ti_task i))) j y /\ largest_lower cs l0' y (lower_or_inf (cs (tk_id (ti_task i))) j)) /\
  (exists i j, In i (lv_tasks l0') /\ bounds_variable (cs (tk_id (ti_task i))) j y /\ smallest_upper cs l0' y (upper_or_inf (cs (tk_id (ti_task i))) j)).
Proof.
  intros RD ((i & j & Hi & B) & F). destruct (container_of_task _ _ _ _ _ _ _ _ _ RD Hi B) as (r & Hr & _ & _ & Hy).
  destruct (lower_largest cs nv s p1 l0' l1' y RD ltac:(lia) Hy) as (LL & SU & AL & AU). destruct (F i j Hi B) as [FL FU]. split.
  - destruct AL as [AL|(i' & j' & Hi' & B' & E')].
    + exists i, j. split; [exact Hi|]. split; [exact B|]. replace (lower_or_inf (cs (tk_id (ti_task i))) j) with (vget (q_lb (qo_con s)) y); [exact LL|].
      destruct LL as [_ LL]. specialize (LL i j Hi B). lra.
    + exists i', j'. split; [exact Hi'|]. split; [exact B'|]. rewrite <- E'. exact LL.
  - destruct AU as [AU|(i' & j' & Hi' & B' & E')].
    + exists i, j. split; [exact Hi|]. split; [exact B|]. replace (upper_or_inf (cs (tk_id (ti_task i))) j) with (vget (q_ub (qo_con s)) y); [exact SU|].
      destruct SU as [_ SU]. specialize (SU i j Hi B). lra.
    + exists i', j'. split; [exact Hi'|]. split; [exact B'|]. rewrite <- E'. exact SU.
Qed.

Theorem bridge_complete (fo : nat -> formed) (gu : bool) (p p1 : problem) (cs : nat -> constr) (nv : nat) (l0 l1 : level)
    (s0 s : qpo) (wsb wsc : nat -> R) (v : aset) (rest : asets) :
  preach p -> pb_formHierarchy fo gu p = Ok p1 -> described_problem cs fo nv p -> qp_hierarchy p l0 l1 ->
  qpo_initialize cs (pb_levels p1) nv s0 = Ok s -> working (qo_nc s) wsc -> working nv wsb ->
  qpo_getActiveSet wsb wsc s p1 = Ok (v :: rest) ->
  forall l y, nth_error (pb_levels p1) 0 = Some l -> bounded_variable cs l y ->
    (wsb y = -1 -> exists i j, In i (lv_tasks l) /\ bounds_variable (cs (tk_id (ti_task i))) j y /\ nth_error v (offset (ti_loc i) + j) = Some LOWER_BOUND) /\
    (wsb y = 1 -> exists i j, In i (lv_tasks l) /\ bounds_variable (cs (tk_id (ti_task i))) j y /\ nth_error v (offset (ti_loc i) + j) = Some UPPER_BOUND).
Proof.
  intros P E D T I WC WB G l y Hl B. destruct (init_ready fo gu p p1 cs nv l0 l1 s0 s P E D T I) as (l0' & l1' & RD & _).
  rewrite (rd_levels _ _ _ _ _ _ RD) in Hl. cbn in Hl. injection Hl as <-. rewrite (rd_nc _ _ _ _ _ _ RD) in WC.
  destruct (get_ok cs nv s p1 l0' l1' wsb wsc RD WC WB) as (v' & G' & Lv & Nv). rewrite G in G'. injection G' as -> ->.
  assert (N : forall i j, In i (lv_tasks l0') -> bounds_variable (cs (tk_id (ti_task i))) j y ->
     nth_error v' (offset (ti_loc i) + j) = Some (act_row s wsb wsc (offset (ti_loc i) + j)) /\ reports cs l0' wsb wsc i j (act_row s wsb wsc (offset (ti_loc i) + j))).
  { intros i j Hi Bi. destruct (bounded_rows _ _ _ _ _ _ _ _ _ RD Hi Bi) as [Hj _]. split.
    - apply Nv. rewrite Lv. destruct (rd_rows _ _ _ _ _ _ RD i j Hi Hj) as (_ & LE & _). unfold level_getNumberOfConstraints. lia.
    - eapply row_reports; eassumption. }
  destruct (attained cs nv s p1 l0' l1' y RD B) as ((i1 & j1 & H1 & B1 & A1) & (i2 & j2 & H2 & B2 & A2)). split; intros W.
  - exists i1, j1. split; [exact H1|]. split; [exact B1|]. destruct (N i1 j1 H1 B1) as (N1 & _ & _ & N3). rewrite N1. f_equal. apply (N3 y B1). split; assumption.
  - exists i2, j2. split; [exact H2|]. split; [exact B2|]. destruct (N i2 j2 H2 B2) as (N1 & _ & _ & N3). rewrite N1. f_equal. apply (N3 y B2). split; assumption.
Qed.

Theorem bridge_round_trip (fo : nat -> formed) (gu : bool) (p p1 : problem) (cs : nat -> constr) (nv : nat) (l0 l1 : level)
    (s0 s : qpo) (wsb wsc : nat -> R) :
  preach p -> pb_formHierarchy fo gu p = Ok p1 -> described_problem cs fo nv p -> qp_hierarchy p l0 l1 ->
  qpo_initialize cs (pb_levels p1) nv s0 = Ok s -> working (qo_nc s) wsc -> working nv wsb ->
  exists a gb gc s', qpo_getActiveSet wsb wsc s p1 = Ok a /\ qpo_setActiveSet a s = Ok s' /\ qo_guess s' = Some (gb, gc) /\
    length gc = qo_nc s /\ length gb = nv /\
    (forall r, (r < qo_nc s)%nat -> exists q, nth_error gc r = Some q /\ qstatus_of (wsc r) q) /\
    (forall l y, nth_error (pb_levels p1) 0 = Some l -> (y < nv)%nat -> exists q, nth_error gb y = Some q /\
       (bounded_variable cs l y -> qstatus_of (wsb y) q) /\
       ((forall i j, In i (lv_tasks l) -> ~ bounds_variable (cs (tk_id (ti_task i))) j y) -> q = ST_INACTIVE)).
Proof.
  intros P E D T I WC WB. destruct (init_ready fo gu p p1 cs nv l0 l1 s0 s P E D T I) as (l0' & l1' & RD & _).
  rewrite (rd_nc _ _ _ _ _ _ RD) in *.
  destruct (get_ok cs nv s p1 l0' l1' wsb wsc RD WC WB) as (v & G & Lv & Nv). unfold level_getNumberOfConstraints in Lv.
  exists [v; repeat EQUALITY (level_getNumberOfConstraints l1')].
  destruct (set_ok cs nv s p1 l0' l1' v [repeat EQUALITY (level_getNumberOfConstraints l1')] RD) as [SO _].
  destruct SO as (gb & gc & s' & ES & EG & EO & EC & LC & LB & G1 & G2); [lia| |].
  { intros r Hr X. rewrite Nv in X by lia. injection X as X. unfold act_row, act_general, act_bound in X. cbv zeta in X.
    destruct (r <? qo_nc s)%nat; destruct (Req_EM_T _ _); try discriminate; try (destruct (Rlt_dec _ _); discriminate);
      destruct (Req_EM_T _ _); try discriminate; destruct (Rlt_dec _ _); discriminate. }
  exists gb, gc, s'. split; [exact G|]. split; [exact ES|]. split; [exact EG|]. split; [exact LC|]. split; [exact LB|]. split.
  - intros r Hr. destruct (G1 r _ Hr (Nv r ltac:(lia))) as (q & Eq & GM). exists q. split; [exact Eq|]. unfold act_row in GM.
    rewrite (rd_nc _ _ _ _ _ _ RD) in GM. replace (r <? n_general l0')%nat with true in GM by lia. unfold act_general in GM.
    split; [intros W|split; intros W]; rewrite W in GM.
    + destruct (Req_EM_T (-1) (-1)) as [_|X]; [exact GM|destruct X; reflexivity].
    + destruct (Req_EM_T 0 (-1)) as [X|_]; [lra|]. destruct (Req_EM_T 0 0) as [_|X]; [exact GM|destruct X; reflexivity].
    + destruct (Req_EM_T 1 (-1)) as [X|_]; [lra|]. destruct (Req_EM_T 1 0) as [X|_]; [lra|exact GM].
  - intros l y Hl Hy. rewrite (rd_levels _ _ _ _ _ _ RD) in Hl. cbn in Hl. injection Hl as <-.
    destruct (G2 y Hy) as (q & Eq & Q). exists q. split; [exact Eq|]. apply (last_active_rows cs nv s p1 l0' l1') in Q; [|exact RD]. split.
    + intros B. destruct (attained cs nv s p1 l0' l1' y RD B) as ((i1 & j1 & H1 & B1 & A1) & (i2 & j2 & H2 & B2 & A2)).
      assert (N : forall i j, In i (lv_tasks l0') -> bounds_variable (cs (tk_id (ti_task i))) j y ->
         nth_error v (offset (ti_loc i) + j) = Some (act_row s wsb wsc (offset (ti_loc i) + j)) /\ reports cs l0' wsb wsc i j (act_row s wsb wsc (offset (ti_loc i) + j))).
      { intros i j Hi Bi. destruct (bounded_rows _ _ _ _ _ _ _ _ _ RD Hi Bi) as [Hj _]. split.
        - apply Nv. rewrite Lv. destruct (rd_rows _ _ _ _ _ _ RD i j Hi Hj) as (_ & LE & _). lia.
        - eapply row_reports; eassumption. }
      destruct Q as [(i & j & t & Hi & Bi & Et & NI & GM & _)|(AI & Eq')].
      * destruct (N i j Hi Bi) as (N1 & N2 & _ & N3). rewrite Et in N1. injection N1 as N1. rewrite <- N1 in N2, N3. destruct (N3 y Bi) as [Y1 Y2].
        destruct N2 as [-> | [-> | ->]]; [|contradiction|].
        -- destruct Y1 as [Y1 _]. destruct (Y1 eq_refl) as [W _]. rewrite W. cbn in GM. subst q. split; [reflexivity|split; intros X; lra].
        -- destruct Y2 as [Y2 _]. destruct (Y2 eq_refl) as [W _]. rewrite W. cbn in GM. subst q. split; [intros X; lra|split; [intros X; lra|reflexivity]].
      * subst q. destruct (WB y Hy) as [W|[W|W]]; rewrite W.
        -- exfalso. destruct (N i1 j1 H1 B1) as (N1 & _ & _ & N3). destruct (N3 y B1) as [Y1 _]. rewrite (AI i1 j1 H1 B1) in N1. injection N1 as N1.
           rewrite <- N1 in Y1. destruct Y1 as [_ Y1]. discriminate Y1. split; assumption.
        -- split; [intros X; lra|split; [reflexivity|intros X; lra]].
        -- exfalso. destruct (N i2 j2 H2 B2) as (N1 & _ & _ & N3). destruct (N3 y B2) as [_ Y1]. rewrite (AI i2 j2 H2 B2) in N1. injection N1 as N1.
           rewrite <- N1 in Y1. destruct Y1 as [_ Y1]. discriminate Y1. split; assumption.
    + intros NB. destruct Q as [(i & j & t & Hi & Bi & _)|(_ & Eq')]; [exfalso; eapply NB; eassumption|exact Eq'].
Qed.

(** ** initialize() *)
Theorem bridge_initialize (fo : nat -> formed) (gu : bool) (p p1 : problem) (cs : nat -> constr) (nv : nat) (l0 l1 : level) (s0 : qpo) (x : nat -> R) :
  preach p -> pb_formHierarchy fo gu p = Ok p1 -> described_problem cs fo nv p -> qp_hierarchy p l0 l1 ->
  satisfies_level cs l0 x -> (forall i, In i (lv_tasks l0) -> within_infinity (cs (tk_id (ti_task i))) x) ->
  (forall v, (v < nv)%nat -> - g_infinity <= x v <= g_infinity) ->
  exists s, qpo_initialize cs (pb_levels p1) nv s0 = Ok s /\ qo_nv s = nv /\ qo_guess s = None.
Proof.
  intros P E D (L & EL & NG) SX W X. destruct (two_formed fo gu p p1 l0 l1 P E L) as (l0' & l1' & L' & R0 & R1 & F0 & F1 & _).
  unfold described_problem in D. rewrite L in D. inversion D as [|? ? D0 D']. subst. inversion D' as [|? ? D1 _]. subst.
  destruct (two_levels_ILU_ALU fo gu true l0 l0' l1 l1' cs nv R0 F0 D0 R1 F1 D1 EL (qo_obj s0) (qo_con s0) NG) as [EX _].
  destruct EX as (r & Er); [exists x; split; [exact W|split; [exact X|exact SX]]|].
  unfold qpo_initialize. rewrite L', Er. cbn [bind]. eexists. split; [reflexivity|]. split; reflexivity.
Qed.

(** initialize() succeeds exactly if the simple constraints of the first level have a common point within the infinity of the library *)
Theorem bridge_accepted (fo : nat -> formed) (gu : bool) (p p1 : problem) (cs : nat -> constr) (nv : nat) (l0 l1 : level) (s0 : qpo) :
  preach p -> pb_formHierarchy fo gu p = Ok p1 -> described_problem cs fo nv p -> qp_hierarchy p l0 l1 ->
  (exists x, (forall i, In i (lv_tasks l0) -> simple_task (ti_task i) = true -> satisfies (cs (tk_id (ti_task i))) x) /\
     forall v, (v < nv)%nat -> - g_infinity <= x v <= g_infinity) <->
  exists s, qpo_initialize cs (pb_levels p1) nv s0 = Ok s.
Proof.
  intros P E D (L & EL & NG). destruct (two_formed fo gu p p1 l0 l1 P E L) as (l0' & l1' & L' & R0 & R1 & F0 & F1 & _).
  unfold described_problem in D. rewrite L in D. inversion D as [|? ? D0 D']. subst. inversion D' as [|? ? D1 _]. subst.
  rewrite <- (two_levels_accepted fo gu true l0 l0' l1 l1' cs nv R0 F0 D0 R1 F1 D1 EL (qo_obj s0) (qo_con s0) NG).
  unfold qpo_initialize. rewrite L'. split.
  - intros (r & Er). rewrite Er. cbn [bind]. eexists. reflexivity.
  - intros (s & Es). apply bind_ok in Es. destruct Es as (r & Er & _). exists r. exact Er.
Qed.

(** ** problems of one level *)
Lemma one_formed fo gu p p1 l : preach p -> pb_formHierarchy fo gu p = Ok p1 -> pb_levels p = [l] ->
  exists l', pb_levels p1 = [l'] /\ lreach l /\ level_form fo gu l = Ok l' /\
    pb_initializeActiveSet p1 = Ok [repeat UNDEFINED (level_getNumberOfConstraints l')].
Proof.
  intros P E L. destruct (preach_wf p P) as [W _]. destruct (formed_levels fo gu p p1 P E) as (F & _ & _).
  destruct (problem_form_effect fo gu p p1 P E) as (_ & _ & A). rewrite L in *.
  inversion F as [|a l' b t H0 F1 E1 E2]. subst. inversion F1. subst. inversion W as [|? ? W0 W1]. subst.
  exists l'. split; [reflexivity|]. split; [exact W0|]. split; [exact H0|].
  rewrite A. cbn [map]. destruct (form_rows fo gu l l' W0 H0) as (_ & Q0 & _). rewrite Q0. reflexivity.
Qed.

(** the objective of a single level with a new solver: everything is reported as an equality *)
Theorem bridge_one_level (fo : nat -> formed) (gu : bool) (p p1 : problem) (cs : nat -> constr) (nv : nat) (l : level) (wsb wsc : nat -> R) :
  preach p -> pb_formHierarchy fo gu p = Ok p1 -> described_problem cs fo nv p -> pb_levels p = [l] -> equality_level l ->
  exists s v, qpo_initialize cs (pb_levels p1) nv qpo_new = Ok s /\ qpo_getActiveSet wsb wsc s p1 = Ok [v] /\ fits [v] p1 /\ Forall (eq EQUALITY) v.
Proof.
  intros P E D L EL. destruct (one_formed fo gu p p1 l P E L) as (l' & L' & R0 & F0 & A).
  unfold described_problem in D. rewrite L in D. inversion D as [|? ? D0 _]. subst.
  destruct (objective_any fo gu l l' cs nv true empty_objective R0 F0 D0 EL) as (o' & Eo & _).
  eexists. exists (repeat EQUALITY (level_getNumberOfConstraints l')). split.
  { unfold qpo_initialize. rewrite L'. cbn [getQPProblem fst snd qpo_new qo_obj qo_con]. rewrite Eo. cbn [bind fst snd]. reflexivity. }
  split.
  - unfold qpo_getActiveSet, qo_nb, qo_bv. cbn [qo_con qo_nc qo_nv empty_ILU_ALU q_bounds q_general ilu_I ilu_nvars alu_A mzero mrows length Nat.ltb Nat.leb andb Nat.add Nat.eqb].
    rewrite A. cbn [bind]. unfold ass_set. cbn [nth_error]. unfold as_set_all, as_set_location. cbn [offset len].
    rewrite assert_true; [|unfold checkLength, loc_end; cbn [offset len]; lia]. unfold loc_end; cbn [offset len].
    rewrite Nat.add_0_l, Nat.sub_0_r. unfold copy_into. rewrite !repeat_length, Nat.add_0_l, Nat.leb_refl. cbn [bind firstn].
    rewrite skipn_all2 by (rewrite repeat_length; lia). rewrite app_nil_r, app_nil_l. reflexivity.
  - split.
    + split; [unfold pb_getNumberOfLevels; rewrite L'; reflexivity|]. intros i k a Hk Ha. rewrite L' in Hk. destruct i as [|i]; [|destruct i; discriminate].
      cbn in Hk, Ha. injection Hk as <-. injection Ha as <-. apply repeat_length.
    + apply Forall_forall. intros t Ht. apply repeat_spec in Ht. auto.
Qed.

(** a solver used for a problem of two levels and then for a problem of one level *)
Theorem bridge_reuse_throws (fo fo' : nat -> formed) (gu gu' : bool) (p p1 p' p1' : problem) (cs cs' : nat -> constr) (nv nv' : nat) (l0 l1 l' : level)
    (s0 s s' : qpo) (wsb wsc : nat -> R) (a : asets) :
  preach p -> pb_formHierarchy fo gu p = Ok p1 -> described_problem cs fo nv p -> qp_hierarchy p l0 l1 -> qpo_initialize cs (pb_levels p1) nv s0 = Ok s ->
  preach p' -> pb_formHierarchy fo' gu' p' = Ok p1' -> pb_levels p' = [l'] -> qpo_initialize cs' (pb_levels p1') nv' s = Ok s' ->
  qo_con s' = qo_con s /\ qpo_getActiveSet wsb wsc s' p1' <> Ok a.
Proof.
  intros P E D T I P' E' L I'. destruct (init_ready fo gu p p1 cs nv l0 l1 s0 s P E D T I) as (l0' & l1' & RD & _).
  destruct (one_formed fo' gu' p' p1' l' P' E' L) as (k & K & _ & _ & A).
  unfold qpo_initialize in I'. rewrite K in I'. cbn [getQPProblem fst snd] in I'. apply bind_ok in I'. destruct I' as (r & Er & I').
  apply bind_ok in Er. destruct Er as (o & Eo & Er). injection Er as <-. injection I' as <-. cbn [snd qo_con]. split; [reflexivity|].
  unfold qpo_getActiveSet, qo_nb, qo_bv. cbn [qo_con qo_nc qo_nv]. destruct (_ && _); [discriminate|].
  rewrite A. cbn [bind]. replace (_ + _ =? 0)%nat with false; [cbn; discriminate|].
  destruct (rd_alu _ _ _ _ _ _ RD) as (SA & _). destruct (rd_ilu _ _ _ _ _ _ RD) as (SI & _). pose proof (rd_pos _ _ _ _ _ _ RD). lia.
Qed.

(** a problem of one level with a new solver: the guess of bounds given to the library is empty *)
Theorem bridge_one_level_guess (fo : nat -> formed) (gu : bool) (p p1 : problem) (cs : nat -> constr) (nv : nat) (l : level) (a : asets) :
  preach p -> pb_formHierarchy fo gu p = Ok p1 -> described_problem cs fo nv p -> pb_levels p = [l] -> equality_level l ->
  exists s s', qpo_initialize cs (pb_levels p1) nv qpo_new = Ok s /\ qpo_setActiveSet a s = Ok s' /\ qo_nv s' = nv /\ qo_guess s' = Some ([], []).
Proof.
  intros P E D L EL. destruct (one_formed fo gu p p1 l P E L) as (l' & L' & R0 & F0 & A).
  unfold described_problem in D. rewrite L in D. inversion D as [|? ? D0 _]. subst.
  destruct (objective_any fo gu l l' cs nv true empty_objective R0 F0 D0 EL) as (o' & Eo & _).
  eexists. eexists. split.
  { unfold qpo_initialize. rewrite L'. cbn [getQPProblem fst snd qpo_new qo_obj qo_con]. rewrite Eo. cbn [bind fst snd]. reflexivity. }
  split; [reflexivity|]. split; reflexivity.
Qed.
