From Coq Require Import String List Reals Arith Lra Lia Bool ZArith ZifyBool.
From Verif Require Import Base BaseFacts RSum Matrix Mat2 Mat3 ActiveSet ActiveSetFacts ConstraintType HierarchyLevel Constraints ConstraintsSpec ConstraintsFacts BlockMatrix Condense Eigentools SelectRowsFacts
  PointMass6z PointMass6zSpec PointMass6zFacts TripleIntegratorSpec Solution Task StanceFSM PepperPreview MpcGuess MpcGuessFacts PepperModel PepperMpc PepperMpcFacts2 PepperTasks PepperTasksSpec PepperTasksFacts PepperTasksFacts2
  WalkProfiles WalkProfilesSpec WalkProfilesFacts WalkProfilesFacts2 WalkTasks WalkTasksSpec.
Import ListNotations.
Local Open Scope R_scope.

(** ** selection of velocities *)
Lemma select_ok m k : small m -> mrows m = (3 * k)%nat -> (0 < k)%nat -> (0 < mcols m)%nat ->
  exists r, select_velocities m = Ok r /\ mrows r = k /\ mcols r = mcols m /\ forall i j, (i < k)%nat -> (j < mcols m)%nat -> mget r i j = mget m (3 * i + 1) j.
Proof.
  intros S HR NK HC.
  destruct (selectRows_ok m 3 1 S ltac:(lia) ltac:(lia)) as (v & E & EC & ER & EG).
  unfold select_velocities, selection_mul. cbn [velocity_selector step_size first_index]. rewrite E. cbn [bind].
  assert (VR : map_rows v = Z.of_nat k). { destruct (Z.lt_trichotomy (map_rows v) (Z.of_nat k)) as [Q|[Q|Q]]; [|exact Q|].
    - destruct (Z.lt_ge_cases (map_rows v) 0) as [Q'|Q'].
      + specialize (ER 0%Z ltac:(lia)). lia.
      + specialize (ER (map_rows v) ltac:(lia)). lia.
    - specialize (ER (Z.of_nat k) ltac:(lia)). lia. }
  assert (VB : map_base v = 1%Z /\ map_inner v = 3%Z /\ map_outer v = Z.of_nat (mrows m)).
  { unfold selectRows in E. cbv zeta in E. apply bind_ok in E. destruct E as (c & _ & E). injection E as <-. cbn. auto. }
  destruct VB as (B1 & B2 & B3). unfold map_eval.
  replace (((map_rows v =? 0) || (map_cols v =? 0) || ((0 <=? map_base v) && (0 <? map_inner v) && (0 <=? map_outer v) &&
       (map_base v + (map_rows v - 1) * map_inner v + (map_cols v - 1) * map_outer v <? Z.of_nat (mrows m * mcols m))))%Z) with true.
  2: { symmetry. rewrite B1, B2, B3, VR, EC. rewrite Nat2Z.inj_mul, HR. apply orb_true_iff. right. nia. }
  eexists. split; [reflexivity|]. cbn [mrows mcols mget]. split; [lia|]. split; [lia|]. intros i j Hi Hj. rewrite EG by lia. f_equal; lia.
Qed.

(** ** a task of two rows for each of [k] items *)
Lemma residual_row nv A b x i g q s r : mcols A = nv -> vget (mulv A (vec_of_list x)) i = g * q -> vget b i = - g * s -> r = g * (q + s) ->
  residual (mkConstr nv (BodyA A) (BoundsB b)) i (fun j => nth j x 0) r.
Proof.
  intros HC HQ HB ->. unfold residual, lower, upper. cbn [c_bounds]. eexists. split; [reflexivity|]. split; [reflexivity|]. rewrite row_A by exact HC. rewrite HQ, HB. ring.
Qed.

Section Tasks.
Variables (junk : nat -> nat -> nat -> R) (N : nat) (iv : list walk_interval) (Rhs : list m2) (steps : list nat) (Rs : list m2) (support cstate : vec) (sol : solution)
  (M : walk_matrices) (p : walk_profiles).
Hypothesis (HS : walk_solved junk N iv Rhs steps Rs support cstate sol M p).
Let n := length steps.
Let st := structure_wpg N n.
Let x := point sol.

Lemma wsizes : (0 < N /\ mrows (wmS M) = 6 * N /\ mcols (wmS M) = 2 * N + 2 * n /\ mrows (wms M) = 6 * N /\ mcols (wms M) = 1 /\
  mrows (wmSdz M) = 2 * N /\ mcols (wmSdz M) = 2 * N + 2 * n /\ mrows (wmsdz M) = 2 * N)%nat.
Proof.
  destruct HS as (HF & _ & _ & EM & EP). destruct (walk_rows junk N iv Rhs steps Rs support cstate HF) as (M' & EM' & R). rewrite EM in EM'. injection EM' as <-.
  destruct R as (_ & _ & _ & _ & _ & _ & _ & R1 & R2 & (R3 & R3') & R4 & R5 & R6 & _). destruct HF as (HN & _). repeat split; assumption.
Qed.
Lemma wnvars : Solution.getNumberOfVariables st = (2 * N + 2 * n)%nat.
Proof. unfold st. destruct (loc_wpg N n) as (_ & _ & E & _). rewrite E. lia. Qed.
Lemma wvalues i : vget (wp_cstate p) i = vget (mulv (wmS M) (vec_of_list (sol_x sol))) i + mget (wms M) i 0 /\
  vget (wp_dcop p) i = vget (mulv (wmSdz M) (vec_of_list (sol_x sol))) i + mget (wmsdz M) i 0.
Proof.
  destruct HS as (HF & H1 & H2 & _ & EP). unfold walk_parse in EP. destruct (solution_parts_wpg N n sol H1 H2) as (P1 & P2). rewrite P1, P2 in EP. cbn [bind] in EP.
  assert (J : forall A k, vget (mulv A (vcat (vec_of_list (firstn (N * 2) (sol_x sol))) (vec_of_list (skipn (N * 2) (sol_x sol))))) k = vget (mulv A (vec_of_list (sol_x sol))) k).
  { intros A k. apply mulv_ext. intros j _. cbn [vcat vec_of_list vget vlen]. rewrite firstn_length, H2. replace (Nat.min (N * 2) (2 * N + 2 * length steps)) with (N * 2)%nat by lia.
    destruct (Nat.ltb_spec j (N * 2)) as [Q|Q]; [apply nth_firstn_0; exact Q|]. rewrite nth_skipn_0. f_equal. lia. }
  repeat (apply bind_ok in EP; let y := fresh "y" in let E := fresh "E" in destruct EP as (y & E & EP)). injection EP as <-. cbn [wp_cstate wp_dcop].
  repeat match goal with H : affine _ _ _ = Ok _ |- _ => unfold affine in H; apply assert_ok in H; let Q := fresh "Q" in destruct H as [_ Q]; injection Q as <- end.
  cbn [vadd vget vec_of]. rewrite !J. split; reflexivity.
Qed.

Lemma com_velocity_entry k v a : com_velocity cstate p k v a = vget (wp_cstate p) (3 * (2 * k + axis_index a) + 1).
Proof. unfold com_velocity, state_of, cstate_at. rewrite Nat.add_1_r. destruct a; cbn [axis_index along convertCoMState_to_3d pm_velocity vx vy vget]; f_equal; lia. Qed.

Lemma com_velocity_task jk g refs : (Z.of_nat (6 * N) < 2 ^ 53)%Z -> length refs = N ->
  exists c, form_comVelocity jk g st N refs M = Ok c /\ walk_object AB N n (2 * N) c /\
  forall k v r a, nth_error iv k = Some v -> nth_error refs k = Some r -> residual c (2 * k + axis_index a) x (g * (com_velocity cstate p k v a - component r a)).
Proof.
  intros HSM LR. destruct wsizes as (HN & S1 & S2 & S3 & S4 & _). unfold form_comVelocity. rewrite wnvars.
  destruct (fill_pairs_ok N (vec_at refs) (fun k => nth k refs v2zero) (mkVec (N * 2) (jk 0%nat)) (le_n _)) as (b & -> & L & H).
  { intros i Hi. unfold vec_at. rewrite (nth_error_nth' refs v2zero) by lia. reflexivity. }
  cbn [bind vlen] in L |- *.
  destruct (select_ok (wmS M) (2 * N)) as (A & -> & AR & AC & AE); [unfold small; lia|lia|lia|lia|]. cbn [bind].
  destruct (select_ok (wms M) (2 * N)) as (s & -> & sR & sC & sE); [unfold small; lia|lia|lia|lia|]. cbn [bind].
  rewrite assert_true by lia. eexists. split; [reflexivity|]. split.
  - split; [reflexivity|]. split; [|cbn [getNumberOfConstraints c_body mscale mrows]; lia]. split; [reflexivity|]. split; [|exact I]. unfold checkConsistency.
    cbn [getNumberOfConstraints c_body c_bounds c_nvars bounds_size_ok vlen mscale mrows mcols]. lia.
  - intros k v r a E HR. assert (Hk : (k < N)%nat) by (rewrite <- LR; apply nth_error_Some; rewrite HR; discriminate).
    assert (Hi : (2 * k + axis_index a < 2 * N)%nat) by (destruct a; cbn [axis_index]; lia).
    destruct (wvalues (3 * (2 * k + axis_index a) + 1)) as (W & _). rewrite com_velocity_entry, W.
    apply (residual_row _ _ _ _ _ g (vget (mulv (wmS M) (vec_of_list (sol_x sol))) (3 * (2 * k + axis_index a) + 1)) (mget (wms M) (3 * (2 * k + axis_index a) + 1) 0 - component r a)).
    + cbn [mscale mcols]. lia.
    + rewrite mulv_scale. f_equal. cbn [mulv vget]. rewrite AC. apply Rsum_ext. intros j Hj. rewrite AE by assumption. reflexivity.
    + cbn [vget]. rewrite sE by lia. rewrite (H k a Hk). rewrite (nth_error_nth refs k v2zero HR). reflexivity.
    + ring.
Qed.

Lemma cop_velocity_task jk g : exists c, form_copVelocity jk g st M = Ok c /\ walk_object AB N n (2 * N) c /\
  forall k a, (k < N)%nat -> residual c (2 * k + axis_index a) x (g * vget (wp_dcop p) (2 * k + axis_index a)).
Proof.
  destruct wsizes as (HN & _ & _ & _ & _ & S1 & S2 & S3). unfold form_copVelocity, getMatrixPart, setMatrixPart. rewrite wnvars.
  destruct (loc_wpg N n) as (L1 & L2 & _). fold st in L1, L2. rewrite L1, L2. cbn [offset len mrows].
  unfold getb. rewrite !assert_true by lia. cbn [bind]. unfold putb, mset_block_o.
  repeat (rewrite assert_true by (cbn [mscale mblock mrows mcols]; lia); cbn [bind]). cbn [mrows mset_block].
  repeat (rewrite assert_true by (cbn [mscale mblock mset_block mrows mcols]; lia); cbn [bind]).
  eexists. split; [reflexivity|]. split.
  - split; [reflexivity|]. split; [|cbn [getNumberOfConstraints c_body mset_block mrows]; lia]. split; [reflexivity|]. split; [|exact I]. unfold checkConsistency.
    cbn [getNumberOfConstraints c_body c_bounds c_nvars bounds_size_ok vlen vec_of mscale mset_block mrows mcols]. lia.
  - intros k a Hk. assert (Hi : (2 * k + axis_index a < 2 * N)%nat) by (destruct a; cbn [axis_index]; lia).
    destruct (wvalues (2 * k + axis_index a)) as (_ & W). rewrite W.
    apply (residual_row _ _ _ _ _ g (vget (mulv (wmSdz M) (vec_of_list (sol_x sol))) (2 * k + axis_index a)) (mget (wmsdz M) (2 * k + axis_index a) 0)).
    + cbn [mset_block mcols]. reflexivity.
    + rewrite <- mulv_scale. cbn [mulv vget mset_block mscale mcols mget mrows mblock]. rewrite S2. apply Rsum_ext. intros j Hj. f_equal. unfold in_block.
      cbn [mset_block mscale mblock mrows mcols mget].
      replace ((0 <=? 2 * k + axis_index a)%nat && (2 * k + axis_index a <? 0 + mrows (wmSdz M))%nat) with true by lia. cbn [andb].
      destruct (Nat.ltb_spec j (N * 2)) as [Q|Q].
      * replace ((N * 2 <=? j)%nat && (j <? N * 2 + n * 2)%nat) with false by lia. replace ((0 <=? j)%nat && (j <? 0 + N * 2)%nat) with true by lia.
        rewrite !Nat.sub_0_r. reflexivity.
      * replace ((N * 2 <=? j)%nat && (j <? N * 2 + n * 2)%nat) with true by lia. rewrite Nat.sub_0_r. cbn [Nat.add]. replace (N * 2 + (j - N * 2))%nat with j by lia. reflexivity.
    + cbn [vec_of mscale vget mget]. ring.
    + ring.
Qed.

Lemma cop_position_task g : let c := zt_constr (zero_form st (new_copPosition g)) in
  walk_object GIB0 N n (2 * N) c /\ minimizes N c x g (fun k a => cop_local sol k a).
Proof.
  cbv zeta. destruct wsizes as (HN & _). unfold zero_form, new_copPosition, zero_new. cbn [zt_location zt_gain zt_id zt_constr].
  assert (E : zero_location st (mkZT g true (mkLoc 0 0) COP (mkConstr 0 (BodyGI [] (vconst 0 0)) BoundsB0)) = mkLoc 0 (N * 2)).
  { unfold zero_location. cbn [zt_id]. replace (String.eqb COP "") with false by reflexivity. apply (loc_wpg N n). }
  rewrite E. unfold loc_eqb. cbn [offset len]. replace (((0 =? 0) && (N * 2 =? 0))%nat) with false by lia. cbn [zt_constr]. rewrite wnvars.
  set (ix := map (fun i => (0 + i)%nat) (seq 0 (N * 2))). assert (LI : length ix = (2 * N)%nat) by (unfold ix; rewrite map_length, seq_length; lia).
  assert (FI : Forall (fun j => (j < 2 * N + 2 * n)%nat) ix).
  { apply Forall_forall. intros j Hj. apply in_map_iff in Hj. destruct Hj as (i & <- & Hi). apply in_seq in Hi. lia. }
  split.
  - split; [reflexivity|]. split; [|exact LI]. split; [reflexivity|]. split; [|exact FI]. unfold checkConsistency. cbn [getNumberOfConstraints c_body c_bounds c_nvars bounds_size_ok vlen vconst].
    rewrite LI. lia.
  - intros k a Hk. exists 0. split; [reflexivity|]. split; [reflexivity|]. unfold row_value, coef. cbn [c_nvars c_body].
    assert (K : (2 * k + axis_index a < N * 2)%nat) by (destruct a; cbn [axis_index]; lia).
    unfold ix. rewrite nth_indices by exact K. rewrite Rsum_pick by lia. cbn [vconst vget]. unfold x, point, cop_local. cbn [Nat.add]. ring.
Qed.

(** ** bounds *)
Lemma state_at index states k : indexed N index states -> (k < N)%nat -> exists w, getWalkState index states k = Ok w /\ state_bounds index states k = Some w.
Proof.
  intros (L & H) Hk. unfold getWalkState, state_bounds, vec_at. destruct (nth_error index k) as [s|] eqn:E; [|apply nth_error_None in E; lia].
  cbn [bind]. specialize (H s (nth_error_In _ _ E)). destruct (nth_error states s) as [w|] eqn:E'; [|apply nth_error_None in E'; lia]. eauto.
Qed.
Definition bounds_at (index : list nat) (states : list walk_bounds) (k : nat) : walk_bounds :=
  match state_bounds index states k with Some w => w | None => mkWB DS m2id m2id end.
Lemma state_at' index states k : indexed N index states -> (k < N)%nat -> getWalkState index states k = Ok (bounds_at index states k) /\ state_bounds index states k = Some (bounds_at index states k).
Proof. intros H Hk. destruct (state_at index states k H Hk) as (w & E1 & E2). unfold bounds_at. rewrite E2. auto. Qed.

Lemma index_task off m lb ub (g : nat -> m2) q : (off + 2 * m <= 2 * N + 2 * n)%nat -> vlen lb = (2 * m)%nat -> vlen ub = (2 * m)%nat ->
  (forall i a, (i < m)%nat -> vget lb (2 * i + axis_index a) = lower_bound (g i) a /\ vget ub (2 * i + axis_index a) = upper_bound (g i) a) ->
  (forall k a, (k < m)%nat -> x (off + (2 * k + axis_index a))%nat = q k a) ->
  let c := mkConstr (2 * N + 2 * n) (BodyI (map (fun i => (off + i)%nat) (seq 0 (m * 2)))) (BoundsLU lb ub) in
  walk_object ILU N n (2 * m) c /\ (satisfies c x <-> forall k a, (k < m)%nat -> within (g k) a (q k a)).
Proof.
  intros HO L1 L2 HB HX. cbv zeta.
  set (ix := map (fun i => (off + i)%nat) (seq 0 (m * 2))). assert (LI : length ix = (2 * m)%nat) by (unfold ix; rewrite map_length, seq_length; lia).
  assert (FI : Forall (fun j => (j < 2 * N + 2 * n)%nat) ix).
  { apply Forall_forall. intros j Hj. apply in_map_iff in Hj. destruct Hj as (i & <- & Hi). apply in_seq in Hi. lia. }
  split.
  - split; [reflexivity|]. split; [|exact LI]. split; [reflexivity|]. split; [|exact FI]. unfold checkConsistency. cbn [getNumberOfConstraints c_body c_bounds c_nvars bounds_size_ok vlen].
    rewrite LI. lia.
  - rewrite (satisfies_pairs (2 * N + 2 * n) (BodyI ix) lb ub x m q (mzero 0 0) g); [reflexivity|exact LI| | |].
    + intros k a Hk. cbn [mzero mget]. rewrite (proj1 (HB k a Hk)), Rminus_0_r. reflexivity.
    + intros k a Hk. cbn [mzero mget]. rewrite (proj2 (HB k a Hk)), Rminus_0_r. reflexivity.
    + intros k a Hk. cbn [mzero mget]. rewrite Rplus_0_r. unfold row_value, coef. cbn [c_nvars c_body].
      assert (K : (2 * k + axis_index a < m * 2)%nat) by (destruct a; cbn [axis_index]; lia).
      unfold ix. rewrite nth_indices by exact K. rewrite Rsum_pick by lia. rewrite <- HX by exact Hk. ring.
Qed.

Lemma cop_bounds_task jk old index states : indexed N index states -> exists c, form_copBounds jk old st index states = Ok c /\ walk_object ILU N n (2 * N) c /\
  (satisfies c x <-> forall k w a, state_bounds index states k = Some w -> (k < N)%nat -> within (wb_cop w) a (cop_local sol k a)).
Proof.
  intros HI. unfold form_copBounds. destruct (loc_wpg N n) as (L & _). fold st in L. rewrite L. cbn [offset len]. rewrite Nat.div_mul by lia. rewrite fill_indices_ok, wnvars. cbn [bind].
  destruct (fill_bounds_ok jk (N * 2) N (getCoPBounds_walk index states) (fun k => wb_cop (bounds_at index states k)) (le_n _)) as (lb & ub & -> & L1 & L2 & H).
  { intros i Hi. unfold getCoPBounds_walk. rewrite (proj1 (state_at' index states i HI Hi)). reflexivity. }
  cbn [bind fst snd]. eexists. split; [reflexivity|].
  destruct (index_task 0 N lb ub (fun k => wb_cop (bounds_at index states k)) (fun k a => cop_local sol k a)) as (T & I); [lia|lia|lia|exact H| |].
  { intros k a Hk. reflexivity. }
  split; [exact T|]. rewrite I. split.
  - intros Q k w a E Hk. specialize (Q k a Hk). unfold bounds_at in Q. rewrite E in Q. exact Q.
  - intros Q k a Hk. apply (Q k _ a (proj2 (state_at' index states k HI Hk)) Hk).
Qed.

Lemma footstep_bounds_task jk old index states : indexed N index states -> (forall s, In s steps -> (s < N)%nat) ->
  exists c, form_footstepBounds jk old false st steps index states = Ok c /\ walk_object ILU N n (2 * n) c /\
  (satisfies c x <-> forall j k w a, nth_error steps j = Some k -> state_bounds index states k = Some w -> within (wb_fd w) a (step_local N sol j a)).
Proof.
  intros HI HB. unfold form_footstepBounds. destruct (loc_wpg N n) as (_ & L & _). fold st in L. rewrite L. cbn [offset len]. fold n. rewrite fill_indices_ok, wnvars. cbn [bind].
  assert (HT : forall j, (j < n)%nat -> exists k, nth_error steps j = Some k /\ nth j steps 0%nat = k /\ (k < N)%nat).
  { intros j Hj. destruct (nth_error steps j) as [k|] eqn:E; [|apply nth_error_None in E; unfold n in Hj; lia]. exists k. split; [reflexivity|]. split; [exact (nth_error_nth steps j 0%nat E)|].
    exact (HB k (nth_error_In _ _ E)). }
  destruct (fill_bounds_ok jk (n * 2) n (fun i => bind (getFootPositionBounds steps index states i) (fun b => Ok b)) (fun j => wb_fd (bounds_at index states (nth j steps 0%nat))) (le_n _)) as (lb & ub & -> & L1 & L2 & H).
  { intros j Hj. destruct (HT j Hj) as (k & E & E' & Hk). unfold getFootPositionBounds. unfold vec_at at 1. rewrite E. cbn [bind]. rewrite (proj1 (state_at' index states k HI Hk)), E'. reflexivity. }
  cbn [bind fst snd]. eexists. split; [reflexivity|].
  destruct (index_task (N * 2) n lb ub (fun j => wb_fd (bounds_at index states (nth j steps 0%nat))) (fun j a => step_local N sol j a)) as (T & I); [lia|lia|lia|exact H| |].
  { intros j a Hj. unfold x, point, step_local. f_equal. lia. }
  split; [exact T|]. rewrite I. split.
  - intros Q j k w a E E2. assert (Hj : (j < n)%nat) by (apply nth_error_Some; rewrite E; discriminate). specialize (Q j a Hj). rewrite (nth_error_nth steps j 0%nat E) in Q. unfold bounds_at in Q. rewrite E2 in Q. exact Q.
  - intros Q j a Hj. destruct (HT j Hj) as (k & E & E' & Hk). rewrite E'. apply (Q j k _ a E (proj2 (state_at' index states k HI Hk))).
Qed.

Lemma fixed_within w a q : within (fixed_bounds (is_RSS (wb_type w)) (wb_fd w)) a q <-> q = fixed_step w a.
Proof. unfold within, fixed_bounds, fixed_step, is_RSS. destruct (wb_type w), a; cbn [lower_bound upper_bound a00 a01 a10 a11]; split; intros; lra. Qed.
Lemma fixed_footsteps_task jk old index states : indexed N index states -> (forall s, In s steps -> (s < N)%nat) ->
  exists c, form_footstepBounds jk old true st steps index states = Ok c /\ walk_object ILU N n (2 * n) c /\
  (satisfies c x <-> forall j k w a, nth_error steps j = Some k -> state_bounds index states k = Some w -> step_local N sol j a = fixed_step w a).
Proof.
  intros HI HB. unfold form_footstepBounds. destruct (loc_wpg N n) as (_ & L & _). fold st in L. rewrite L. cbn [offset len]. fold n. rewrite fill_indices_ok, wnvars. cbn [bind].
  assert (HT : forall j, (j < n)%nat -> exists k, nth_error steps j = Some k /\ nth j steps 0%nat = k /\ (k < N)%nat).
  { intros j Hj. destruct (nth_error steps j) as [k|] eqn:E; [|apply nth_error_None in E; unfold n in Hj; lia]. exists k. split; [reflexivity|]. split; [exact (nth_error_nth steps j 0%nat E)|].
    exact (HB k (nth_error_In _ _ E)). }
  set (g := fun j => let w := bounds_at index states (nth j steps 0%nat) in fixed_bounds (is_RSS (wb_type w)) (wb_fd w)).
  match goal with |- context [fill_bounds jk (n * 2) n ?f] => destruct (fill_bounds_ok jk (n * 2) n f g (le_n _)) as (lb & ub & -> & L1 & L2 & H) end.
  { intros j Hj. destruct (HT j Hj) as (k & E & E' & Hk). unfold getFootPositionBounds, vec_at. rewrite E. cbn [bind]. rewrite (proj1 (state_at' index states k HI Hk)). cbn [bind].
    unfold g. rewrite E'. reflexivity. }
  cbn [bind fst snd]. eexists. split; [reflexivity|].
  destruct (index_task (N * 2) n lb ub g (fun j a => step_local N sol j a)) as (T & I); [lia|lia|lia|exact H| |].
  { intros j a Hj. unfold x, point, step_local. f_equal. lia. }
  split; [exact T|]. rewrite I. unfold g. split.
  - intros Q j k w a E E2. assert (Hj : (j < n)%nat) by (apply nth_error_Some; rewrite E; discriminate). specialize (Q j a Hj). cbv zeta in Q. apply fixed_within in Q.
    rewrite (nth_error_nth steps j 0%nat E) in Q. unfold bounds_at in Q. rewrite E2 in Q. exact Q.
  - intros Q j a Hj. destruct (HT j Hj) as (k & E & E' & Hk). rewrite E'. apply fixed_within. apply (Q j k _ a E (proj2 (state_at' index states k HI Hk))).
Qed.
End Tasks.
