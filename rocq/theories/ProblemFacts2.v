(** Proofs for C83: evaluation of a solution. *)
From Coq Require Import List Arith Bool Reals Lra Lia ZifyBool.
From Verif Require Import Base BaseFacts ActiveSet ActiveSetFacts Mixins MixinsSpec MixinsFacts ConstraintType HierarchyLevel HierarchySpec
  HierarchyFacts RSum Matrix Constraints ConstraintsSpec ConstraintsFacts Problem ProblemSpec ViolationsFacts ProblemFacts.
Import ListNotations.
Local Open Scope nat_scope.

Section Loop.
  Context {S O : Type} (f : constr -> S -> Location -> outcome S) (obs : S -> nat -> O) (size : S -> nat) (wf : S -> Prop)
          (P : constr -> nat -> O -> Prop) (good : constr -> Prop) (cs : nat -> constr).
  Hypothesis step : forall c s l, good c -> wf s -> len l = getNumberOfConstraints c -> offset l + len l <= size s ->
    exists r, f c s l = Ok r /\ wf r /\ size r = size s /\
      (forall j, j < len l -> P c j (obs r (offset l + j))) /\
      (forall j, j < offset l \/ offset l + len l <= j -> obs r j = obs s j).

  Lemma tasks_loop_ok ts : forall start s, locs_from start ts -> wf s -> start + sumn ts <= size s ->
    (forall i, In i ts -> good (cs (tk_id (ti_task i))) /\ tk_n (ti_task i) = getNumberOfConstraints (cs (tk_id (ti_task i)))) ->
    exists r, tasks_loop f cs ts s = Ok r /\ wf r /\ size r = size s /\
      (forall i j, In i ts -> j < len (ti_loc i) -> P (cs (tk_id (ti_task i))) j (obs r (offset (ti_loc i) + j))) /\
      (forall j, j < start -> obs r j = obs s j).
  Proof.
    induction ts as [|t ts IH]; intros start s Lo W Z G; cbn [tasks_loop].
    - exists s. split; [reflexivity|]. split; [exact W|]. split; [reflexivity|]. split; [intros i j []|reflexivity].
    - destruct Lo as [L1 L2]. rewrite sumn_cons in Z. destruct (G t (or_introl eq_refl)) as [Gt Nt].
      destruct (step (cs (tk_id (ti_task t))) s (ti_loc t)) as (s1 & E1 & W1 & Z1 & P1 & U1); try assumption.
      { rewrite L1. exact Nt. }
      { rewrite L1. cbn [offset len]. lia. }
      rewrite L1 in P1, U1. cbn [offset len] in P1, U1.
      destruct (IH (start + tk_n (ti_task t)) s1 L2 W1) as (r & E & Wr & Zr & Pr & Ur).
      { lia. }
      { intros i Hi. apply G. right; exact Hi. }
      exists r. rewrite E1. cbn [bind]. split; [exact E|]. split; [exact Wr|]. split; [congruence|]. split.
      + intros i j [<-|Hi] Hj; [|apply Pr; assumption]. rewrite L1 in *. cbn [offset len] in *. rewrite Ur by lia. apply P1. exact Hj.
      + intros j Hj. rewrite Ur by lia. apply U1. lia.
  Qed.
End Loop.

Lemma product_defined_usable nv c x : usable nv c -> product_defined c (mkVec nv x) = true.
Proof.
  intros (NV & CC & IX). unfold checkConsistency in CC. apply andb_true_iff in CC. destruct CC as [_ CC].
  unfold product_defined. cbn [vlen]. destruct (c_body c) as [A|A off|ix|ix G]; try lia.
  - apply forallb_forall. intros j Hj. rewrite Forall_forall in IX. specialize (IX j Hj). lia.
  - apply forallb_forall. intros j Hj. rewrite Forall_forall in IX. specialize (IX j Hj). lia.
Qed.

Definition status_at (c : constr) (x : nat -> R) (j : nat) (o : option act) : Prop := exists a, o = Some a /\ status_means c x j a.
Definition violation_at (c : constr) (x : nat -> R) (j : nat) (o : outcome R) : Prop := exists v, o = Ok v /\ violation_means c x j v.

Lemma determine_step nv x c s l : usable nv c -> len l = getNumberOfConstraints c -> offset l + len l <= length s ->
  exists r, task_determineActiveSet c (mkVec nv x) s l = Ok r /\ length r = length s /\
    (forall j, j < len l -> status_at c x j (nth_error r (offset l + j))) /\
    (forall j, j < offset l \/ offset l + len l <= j -> nth_error r j = nth_error s j).
Proof.
  intros U L Z. unfold task_determineActiveSet. rewrite (product_defined_usable nv c x U), orb_true_r.
  assert (PR : forall i, i < len l -> getProduct c i (mkVec nv x) = row_value c i x) by (intros i Hi; apply getProduct_row; [exact U|lia]).
  unfold status_at, status_means, assert_then. destruct (c_bounds c) as [|b|lb|ub|lb ub].
  - destruct (determineB s l Z) as (r & E & L1 & A & B). exists r. auto.
  - destruct (determineB s l Z) as (r & E & L1 & A & B). exists r. auto.
  - destruct (determineL (getNumberOfConstraints c) (vget lb) (fun i => getProduct c i (mkVec nv x)) s l (eq_sym L) Z) as (r & E & L1 & A & B).
    exists r. split; [exact E|]. split; [exact L1|]. split; [|exact B]. intros j Hj. rewrite <- PR by exact Hj. exact (A j Hj).
  - destruct (determineU (getNumberOfConstraints c) (vget ub) (fun i => getProduct c i (mkVec nv x)) s l (eq_sym L) Z) as (r & E & L1 & A & B).
    exists r. split; [exact E|]. split; [exact L1|]. split; [|exact B]. intros j Hj. rewrite <- PR by exact Hj. exact (A j Hj).
  - destruct (determineLU (getNumberOfConstraints c) (vget lb) (vget ub) (fun i => getProduct c i (mkVec nv x)) s l (eq_sym L) Z) as (r & E & L1 & A & B).
    exists r. split; [exact E|]. split; [exact L1|]. split; [|exact B]. intros j Hj. rewrite <- PR by exact Hj. exact (A j Hj).
Qed.

Lemma signed_two_sided (lb ub y v : R) : signed_violation lb ub y v ->
  (v = 0 <-> lb <= y /\ y <= ub)%R /\ ((v < 0)%R <-> ~ (lb <= y)%R) /\ ((v < 0)%R -> v = y - lb)%R /\ ((v > 0)%R -> v = y - ub)%R.
Proof.
  intros (A & B & C & D & E). split; [exact A|]. split; [rewrite B; split; lra|]. split.
  - intros N. specialize (C N). rewrite Rabs_left in C by exact N. lra.
  - intros N. specialize (E N). rewrite Rabs_pos_eq in E by lra. lra.
Qed.

Lemma violation_step nv x c v l : usable nv c -> consistent v -> len l = getNumberOfConstraints c -> offset l + len l <= viol_size v ->
  exists r, task_computeViolations c (mkVec nv x) v l = Ok r /\ consistent r /\ viol_size r = viol_size v /\
    (forall j, j < len l -> violation_at c x j (viol_get r (offset l + j))) /\
    (forall j, j < offset l \/ offset l + len l <= j -> viol_get r j = viol_get v j).
Proof.
  intros U W L Z. unfold task_computeViolations. rewrite (product_defined_usable nv c x U), orb_true_r. unfold assert_then.
  assert (PR : forall i, i < len l -> getProduct c i (mkVec nv x) = row_value c i x) by (intros i Hi; apply getProduct_row; [exact U|lia]).
  set (p := fun i => getProduct c i (mkVec nv x)) in *.
  assert (FIN : forall o Q, (exists r, o = Ok r /\ only_violations v r l Q) ->
    (forall j w, j < len l -> Q j w -> violation_means c x j w) ->
    exists r, o = Ok r /\ consistent r /\ viol_size r = viol_size v /\
    (forall j, j < len l -> violation_at c x j (viol_get r (offset l + j))) /\
    (forall j, j < offset l \/ offset l + len l <= j -> viol_get r j = viol_get v j)).
  { intros o Q (r & E & C1 & S1 & A & B) HQ. exists r. split; [exact E|]. split; [exact C1|]. split; [exact S1|]. split.
    - intros j Hj. destruct (A j Hj) as (w & Ew & Hw). exists w. split; [exact Ew|]. apply HQ; assumption.
    - intros j Hj. apply (B j Hj). }
  unfold violation_means, lower, upper.
  destruct (c_bounds c) as [|b|lb|ub|lb ub] eqn:Eb.
  - eapply FIN; [exact (violationsB0 (getNumberOfConstraints c) p v l (eq_sym L) W Z)|]. intros j w Hj Q. cbv beta in Q. unfold p in Q. rewrite PR in Q by exact Hj.
    unfold violation_means, lower, upper. rewrite Eb. cbn [at_least at_most]. apply signed_two_sided in Q. destruct Q as (A & B & C & D).
    split; [exact A|]. split; [exact B|]. split; intros N; eexists; (split; [reflexivity|]); [rewrite (C N)|rewrite (D N)]; ring.
  - eapply FIN; [exact (violationsB (getNumberOfConstraints c) (vget b) p v l (eq_sym L) W Z)|]. intros j w Hj Q. cbv beta in Q. unfold p in Q. rewrite PR in Q by exact Hj.
    unfold violation_means, lower, upper. rewrite Eb. cbn [at_least at_most]. apply signed_two_sided in Q. destruct Q as (A & B & C & D).
    split; [exact A|]. split; [exact B|]. split; intros N; eexists; (split; [reflexivity|]); [exact (C N)|exact (D N)].
  - eapply FIN; [exact (violationsL (getNumberOfConstraints c) (vget lb) p v l (eq_sym L) W Z)|]. intros j w Hj Q. cbv beta in Q. unfold p in Q. rewrite PR in Q by exact Hj.
    unfold violation_means, lower, upper. rewrite Eb. cbn [at_least at_most]. destruct Q as (A & B & C).
    split; [rewrite A; tauto|]. split.
    { split; [intros N N'; apply A in N'; lra|]. intros N. destruct (Req_dec w 0); [exfalso; apply N, A; assumption|lra]. }
    split; [|lra]. intros N. eexists. split; [reflexivity|]. specialize (C N). rewrite Rabs_left in C by exact N. lra.
  - eapply FIN; [exact (violationsU (getNumberOfConstraints c) (vget ub) p v l (eq_sym L) W Z)|]. intros j w Hj Q. cbv beta in Q. unfold p in Q. rewrite PR in Q by exact Hj.
    unfold violation_means, lower, upper. rewrite Eb. cbn [at_least at_most]. destruct Q as (A & B & C).
    split; [rewrite A; tauto|]. split; [split; [lra|tauto]|]. split; [lra|].
    intros N. eexists. split; [reflexivity|]. specialize (C N). rewrite Rabs_pos_eq in C by lra. lra.
  - eapply FIN; [exact (violationsLU (getNumberOfConstraints c) (vget lb) (vget ub) p v l (eq_sym L) W Z)|]. intros j w Hj Q. cbv beta in Q. unfold p in Q. rewrite PR in Q by exact Hj.
    unfold violation_means, lower, upper. rewrite Eb. cbn [at_least at_most]. apply signed_two_sided in Q. destruct Q as (A & B & C & D).
    split; [exact A|]. split; [exact B|]. split; intros N; eexists; (split; [reflexivity|]); [exact (C N)|exact (D N)].
Qed.

Lemma formed_described fo gu p p1 cs nv i l : preach p -> pb_formHierarchy fo gu p = Ok p1 -> described_problem cs fo nv p ->
  nth_error (pb_levels p1) i = Some l ->
  locs_from 0 (lv_tasks l) /\ level_getNumberOfConstraints l = sumn (lv_tasks l) /\
  forall k, In k (lv_tasks l) -> usable nv (cs (tk_id (ti_task k))) /\ tk_n (ti_task k) = getNumberOfConstraints (cs (tk_id (ti_task k))).
Proof.
  intros H E D Hl. destruct (preach_wf p H) as [W1 W2]. destruct (formed_levels fo gu p p1 H E) as (F & C & _).
  unfold described_problem in D. rewrite Forall_forall in W1, D.
  destruct (Forall2_nth_r _ _ _ F i l Hl) as (l0 & Hl0 & El0). apply nth_error_In in Hl0.
  destruct (form_ok fo gu l0 l (lreach_gf l0 (W1 l0 Hl0)) El0) as (F2 & Lo & N & _). split; [exact Lo|]. split; [exact N|].
  destruct (described_formed _ _ _ _ _ _ F2 (D l0 Hl0)) as [G _]. intros k Hk. destruct (G k Hk) as (_ & A & B). auto.
Qed.

Theorem problem_determine (fo : nat -> formed) (gu : bool) (p p1 : problem) (cs : nat -> constr) (nv : nat) (x : nat -> R) :
  preach p -> pb_formHierarchy fo gu p = Ok p1 -> described_problem cs fo nv p ->
  exists s, pb_determineActiveSet cs (mkVec nv x) p1 = Ok s /\ fits s p1 /\
    forall i l a, nth_error (pb_levels p1) i = Some l -> nth_error s i = Some a ->
      forall k j, In k (lv_tasks l) -> j < len (ti_loc k) ->
        exists t, nth_error a (offset (ti_loc k) + j) = Some t /\ status_means (cs (tk_id (ti_task k))) x j t.
Proof.
  intros H E D. destruct (formed_levels fo gu p p1 H E) as (F & C & _).
  unfold pb_determineActiveSet. rewrite (pb_counts_len p1 C). cbn [bind]. rewrite over_levels_eq by apply map_length.
  set (Q := fun (l : level) (_ : aset) (a : aset) => length a = level_getNumberOfConstraints l /\
      forall k j, In k (lv_tasks l) -> j < len (ti_loc k) -> status_at (cs (tk_id (ti_task k))) x j (nth_error a (offset (ti_loc k) + j))).
  destruct (zipM_ok (level_determineActiveSet cs (mkVec nv x)) Q (pb_levels p1) (map (fun l => as_initialize (level_getNumberOfConstraints l)) (pb_levels p1)) (map_length _ _)) as (s & Es & Ls & Hs).
  { intros i l s0 Hl Hs0. rewrite nth_error_map, Hl in Hs0. cbn in Hs0. injection Hs0 as <-.
    destruct (formed_described fo gu p p1 cs nv i l H E D Hl) as (Lo & N & G).
    unfold level_determineActiveSet.
    destruct (tasks_loop_ok (fun c s loc => task_determineActiveSet c (mkVec nv x) s loc) (fun (a : aset) j => nth_error a j) (@length act) (fun _ => True)
      (fun c j o => status_at c x j o) (usable nv) cs) with (ts := lv_tasks l) (start := 0) (s := as_initialize (level_getNumberOfConstraints l))
      as (r & Er & _ & Lr & Pr & _).
    - intros c s l0 U _ L Z. destruct (determine_step nv x c s l0 U L Z) as (r & A1 & A2 & A3 & A4). exists r. auto.
    - exact Lo.
    - exact I.
    - unfold as_initialize. rewrite repeat_length. lia.
    - exact G.
    - exists r. split; [exact Er|]. unfold as_initialize in Lr. rewrite repeat_length in Lr. split; [exact Lr|exact Pr]. }
  exists s. split; [exact Es|]. split.
  - split; [exact Ls|]. intros i l a Hl Ha. destruct (Hs i l (as_initialize (level_getNumberOfConstraints l)) Hl) as (a' & Ha' & L' & _).
    { rewrite nth_error_map, Hl. reflexivity. }
    rewrite Ha in Ha'. injection Ha' as <-. exact L'.
  - intros i l a Hl Ha. destruct (Hs i l (as_initialize (level_getNumberOfConstraints l)) Hl) as (a' & Ha' & _ & P').
    { rewrite nth_error_map, Hl. reflexivity. }
    rewrite Ha in Ha'. injection Ha' as <-. exact P'.
Qed.

Lemma viol_fresh junk n : consistent (viol_initialize junk (mkViol [] [] []) n) /\ viol_size (viol_initialize junk (mkViol [] [] []) n) = n.
Proof.
  unfold consistent, viol_size, viol_initialize, resized. cbn [v_data v_lower v_upper length].
  destruct (0 =? n) eqn:E; cbn [length]; rewrite ?map_length, ?seq_length; repeat split; lia.
Qed.

Theorem problem_violations (junk : nat -> R) (fo : nat -> formed) (gu : bool) (p p1 : problem) (cs : nat -> constr) (nv : nat) (x : nat -> R) :
  preach p -> pb_formHierarchy fo gu p = Ok p1 -> described_problem cs fo nv p ->
  exists vs, pb_computeViolations junk cs (mkVec nv x) p1 = Ok vs /\ length vs = pb_getNumberOfLevels p1 /\
    forall i l v, nth_error (pb_levels p1) i = Some l -> nth_error vs i = Some v ->
      consistent v /\ viol_size v = level_getNumberOfConstraints l /\
      forall k j, In k (lv_tasks l) -> j < len (ti_loc k) ->
        exists w, viol_get v (offset (ti_loc k) + j) = Ok w /\ violation_means (cs (tk_id (ti_task k))) x j w.
Proof.
  intros H E D. destruct (formed_levels fo gu p p1 H E) as (F & C & _).
  unfold pb_computeViolations, pb_getNumberOfLevels. rewrite C.
  pose proof (viols_initialize_eq junk (map level_getNumberOfConstraints (pb_levels p1))) as V. rewrite map_length in V.
  rewrite V, map_map. cbn [bind]. rewrite over_levels_eq by apply map_length.
  set (g := fun l => viol_initialize junk (mkViol [] [] []) (level_getNumberOfConstraints l)).
  set (Q := fun (l : level) (_ : viol) (v : viol) => consistent v /\ viol_size v = level_getNumberOfConstraints l /\
      forall k j, In k (lv_tasks l) -> j < len (ti_loc k) -> violation_at (cs (tk_id (ti_task k))) x j (viol_get v (offset (ti_loc k) + j))).
  destruct (zipM_ok (level_computeViolations cs (mkVec nv x)) Q (pb_levels p1) (map g (pb_levels p1)) (map_length _ _)) as (s & Es & Ls & Hs).
  { intros i l s0 Hl Hs0. rewrite nth_error_map, Hl in Hs0. cbn in Hs0. injection Hs0 as <-.
    destruct (formed_described fo gu p p1 cs nv i l H E D Hl) as (Lo & N & G).
    destruct (viol_fresh junk (level_getNumberOfConstraints l)) as [C0 Z0]. fold (g l) in C0, Z0.
    unfold level_computeViolations.
    destruct (tasks_loop_ok (fun c s loc => task_computeViolations c (mkVec nv x) s loc) viol_get viol_size consistent
      (fun c j o => violation_at c x j o) (usable nv) cs) with (ts := lv_tasks l) (start := 0) (s := g l)
      as (r & Er & Wr & Lr & Pr & _).
    - intros c s l0 U W L Z. exact (violation_step nv x c s l0 U W L Z).
    - exact Lo.
    - exact C0.
    - lia.
    - exact G.
    - exists r. split; [exact Er|]. split; [exact Wr|]. split; [congruence|exact Pr]. }
  exists s. split; [exact Es|]. split; [exact Ls|].
  intros i l a Hl Ha. destruct (Hs i l (g l) Hl) as (a' & Ha' & P').
  { rewrite nth_error_map, Hl. reflexivity. }
  rewrite Ha in Ha'. injection Ha' as <-. exact P'.
Qed.

Lemma formed_satisfies fo gu p p1 cs nv x : preach p -> pb_formHierarchy fo gu p = Ok p1 -> described_problem cs fo nv p ->
  (satisfies_problem cs p1 x <-> satisfies_problem cs p x).
Proof.
  intros H E D. destruct (preach_wf p H) as [W1 W2]. destruct (formed_levels fo gu p p1 H E) as (F & C & _).
  unfold satisfies_problem. revert F W1. generalize (pb_levels p) as lp, (pb_levels p1) as lq. clear. intros lp lq F.
  induction F as [|a b la lb Hab F IH]; intros W; [reflexivity|]. inversion W; subst.
  assert (I : satisfies_level cs b x <-> satisfies_level cs a x).
  { apply satisfies_level_ids. destruct (form_rows fo gu a b) as (T & _); [assumption|exact Hab|].
    unfold task_ids in T. apply (f_equal (map fst)) in T. rewrite !map_map in T. exact T. }
  split; intros G; inversion G; subst; constructor; try (apply I; assumption); apply IH; assumption.
Qed.

Theorem violations_zero_iff (junk : nat -> R) (fo : nat -> formed) (gu : bool) (p p1 : problem) (cs : nat -> constr) (nv : nat) (x : nat -> R) :
  preach p -> pb_formHierarchy fo gu p = Ok p1 -> described_problem cs fo nv p ->
  exists vs, pb_computeViolations junk cs (mkVec nv x) p1 = Ok vs /\
    ((forall v r w, In v vs -> viol_get v r = Ok w -> w = 0%R) <-> satisfies_problem cs p x).
Proof.
  intros H E D. destruct (problem_violations junk fo gu p p1 cs nv x H E D) as (vs & Ev & Lv & Pv). exists vs. split; [exact Ev|].
  rewrite <- (formed_satisfies fo gu p p1 cs nv x H E D). unfold satisfies_problem, pb_getNumberOfLevels in *. rewrite Forall_forall. split.
  - intros Zr l Hl k Hk j Hj. apply In_nth_error in Hl. destruct Hl as [i Hl].
    destruct (nth_error vs i) as [v|] eqn:Hv; [|apply nth_error_None in Hv; assert (i < length (pb_levels p1)) by (apply nth_error_Some; congruence); lia].
    destruct (Pv i l v Hl Hv) as (_ & _ & P). destruct (formed_described fo gu p p1 cs nv i l H E D Hl) as (Lo & N & G).
    apply In_nth_error in Hk as Hk'. destruct Hk' as [q Hq]. pose proof (locs_nth _ _ _ _ Lo Hq) as Lk.
    destruct (G k Hk) as [_ Nk]. destruct (P k j Hk) as (w & Ew & Mw); [rewrite Lk; cbn [len]; lia|].
    apply (Zr v _ w) in Ew; [|eapply nth_error_In; exact Hv]. apply Mw; exact Ew.
  - intros S v r w Hv Ew. apply In_nth_error in Hv. destruct Hv as [i Hv].
    destruct (nth_error (pb_levels p1) i) as [l|] eqn:Hl; [|apply nth_error_None in Hl; assert (i < length vs) by (apply nth_error_Some; congruence); lia].
    destruct (Pv i l v Hl Hv) as (_ & Z & P). destruct (formed_described fo gu p p1 cs nv i l H E D Hl) as (Lo & N & G).
    assert (Hr : r < viol_size v).
    { unfold viol_get, read_at in Ew. destruct (nth_error (v_data v) r) eqn:Q; [|discriminate]. unfold viol_size. apply nth_error_Some. congruence. }
    destruct (locs_cover (lv_tasks l) 0 r Lo) as (q & k & Hq & Rk); [lia|]. apply nth_error_In in Hq.
    destruct (P k (r - offset (ti_loc k)) Hq) as (w' & Ew' & Mw); [lia|].
    replace (offset (ti_loc k) + (r - offset (ti_loc k))) with r in Ew' by lia. rewrite Ew in Ew'. injection Ew' as <-.
    apply Mw. apply (S l); [eapply nth_error_In; exact Hl|exact Hq|].
    destruct (G k Hq) as [_ Nk]. apply In_nth_error in Hq. destruct Hq as [q' Hq]. pose proof (locs_nth _ _ _ _ Lo Hq) as Lk. rewrite Lk in Rk |- *. cbn [offset len] in *. lia.
Qed.

(** determining the active set and distributing it *)
Theorem determined_tasks (fo : nat -> formed) (gu : bool) (p p1 : problem) (cs : nat -> constr) (nv : nat) (x : nat -> R) :
  preach p -> pb_formHierarchy fo gu p = Ok p1 -> described_problem cs fo nv p ->
  exists s p2, pb_determineActiveSet cs (mkVec nv x) p1 = Ok s /\ pb_processActiveSet p1 s = Ok p2 /\
    forall l k, In l (pb_levels p2) -> In k (lv_tasks l) ->
      length (tk_actual (ti_task k)) = getNumberOfConstraints (cs (tk_id (ti_task k))) /\
      forall j, j < length (tk_actual (ti_task k)) ->
        exists t, nth_error (tk_actual (ti_task k)) j = Some t /\ status_means (cs (tk_id (ti_task k))) x j t.
Proof.
  intros H E D. destruct (problem_determine fo gu p p1 cs nv x H E D) as (s & Es & Fs & Ps).
  destruct (problem_process fo gu p p1 s H E) as [A _]. destruct (A Fs) as (p2 & E2 & N2 & P2).
  exists s, p2. split; [exact Es|]. split; [exact E2|]. intros l2 k Hl2 Hk. apply In_nth_error in Hl2. destruct Hl2 as [i Hl2].
  destruct Fs as [Ls Zs]. unfold pb_getNumberOfLevels in *.
  assert (Hi : i < length (pb_levels p2)) by (apply nth_error_Some; congruence).
  destruct (nth_error (pb_levels p1) i) as [l|] eqn:Hl; [|apply nth_error_None in Hl; lia].
  destruct (nth_error s i) as [a|] eqn:Ha; [|apply nth_error_None in Ha; lia].
  destruct (P2 i l a Hl Ha) as (l2' & Hl2' & T2 & M2 & A2). rewrite Hl2 in Hl2'. injection Hl2' as <-.
  rewrite (A2 k Hk).
  apply In_nth_error in Hk. destruct Hk as [q Hk].
  assert (Hq : exists k1, nth_error (lv_tasks l) q = Some k1 /\ tk_id (ti_task k1) = tk_id (ti_task k) /\ ti_loc k1 = ti_loc k).
  { pose proof (f_equal (fun m => nth_error m q) M2) as M. cbv beta in M. rewrite !nth_error_map, Hk in M.
    unfold task_ids in T2. pose proof (f_equal (fun m => nth_error m q) T2) as T. cbv beta in T. rewrite !nth_error_map, Hk in T.
    destruct (nth_error (lv_tasks l) q) as [k1|]; [|discriminate]. cbn in M, T. exists k1. split; [reflexivity|]. split; congruence. }
  destruct Hq as (k1 & Hk1 & I1 & L1). rewrite <- I1, <- L1.
  destruct (formed_described fo gu p p1 cs nv i l H E D Hl) as (Lo & N & G).
  pose proof (locs_nth _ _ _ _ Lo Hk1) as Lk. pose proof (locs_range _ _ _ _ Lo Hk1) as Rk.
  apply nth_error_In in Hk1. destruct (G k1 Hk1) as [_ Nk].
  pose proof (Zs i l a Hl Ha) as La.
  assert (SL : length (segment a (offset (ti_loc k1)) (len (ti_loc k1))) = len (ti_loc k1)).
  { unfold segment. rewrite firstn_length, skipn_length. lia. }
  rewrite SL. split; [rewrite Lk; cbn [len]; exact Nk|]. intros j Hj.
  destruct (Ps i l a Hl Ha k1 j Hk1 Hj) as (t & Et & Mt). exists t. split; [|exact Mt].
  rewrite <- Et. rewrite nth_error_segment. replace (j <? len (ti_loc k1)) with true by lia. reflexivity.
Qed.
