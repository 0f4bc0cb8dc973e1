From Coq Require Import String List Reals Arith Lra Lia Bool ZArith ZifyBool.
From Verif Require Import Base BaseFacts RSum Matrix Mat2 Mat3 ActiveSet ConstraintType HierarchyLevel Constraints ConstraintsSpec ConstraintsFacts Condense PointMass6z PointMass6zSpec
  Solution Task PepperPreview MpcGuess MpcGuessFacts PepperModel PepperMpc PepperMpcSpec PepperMpcFacts PepperMpcFacts2 PepperTasks PepperTasksSpec.
Import ListNotations.
Local Open Scope R_scope.

(** ** filling vectors *)
Lemma pair_index t i : (t < 2)%nat -> (i < 2)%nat -> (2 * t + i = t * 2 + i)%nat.
Proof. lia. Qed.
Lemma fill_pairs_ok n f g v : (n * 2 <= vlen v)%nat -> (forall i, (i < n)%nat -> f i = Ok (g i)) ->
  exists v', fill_pairs n f v = Ok v' /\ vlen v' = vlen v /\ forall i a, (i < n)%nat -> vget v' (2 * i + axis_index a) = component (g i) a.
Proof.
  intros Hn Hf. unfold fill_pairs.
  destruct (for_up_inv (fun k (w : vec) => vlen w = vlen v /\ forall i a, (i < k)%nat -> vget w (2 * i + axis_index a) = component (g i) a)
    (fun i v => bind (f i) (fun a => vset_segment v (mkLoc (i * 2) 2) (vec2 a))) n 0 v) as (v' & E & L & H).
  - split; [reflexivity|]. intros i a Hi. lia.
  - intros i s Hi (L & H). rewrite Hf by lia. cbn [bind]. unfold vset_segment. rewrite assert_true by (cbn; lia).
    eexists. split; [reflexivity|]. cbn [vlen vget offset len]. split; [exact L|]. intros j a Hj. unfold in_block.
    destruct (Nat.eq_dec j i) as [->|N].
    + destruct a; cbn [axis_index]; (replace ((i * 2 <=? _)%nat && _) with true by lia); cbn [vec2 vget component].
      * replace (2 * i + 0 - i * 2)%nat with 0%nat by lia. reflexivity.
      * replace (2 * i + 1 - i * 2)%nat with 1%nat by lia. reflexivity.
    + replace ((i * 2 <=? 2 * j + axis_index a)%nat && _) with false by (destruct a; cbn [axis_index]; lia). apply H. lia.
  - exists v'. split; [exact E|]. split; [exact L|]. intros i a Hi. apply H. lia.
Qed.
Lemma fill_bounds_ok junk rows n f g : (n * 2 <= rows)%nat -> (forall i, (i < n)%nat -> f i = Ok (g i)) ->
  exists lb ub, fill_bounds junk rows n f = Ok (lb, ub) /\ vlen lb = rows /\ vlen ub = rows /\
  forall i a, (i < n)%nat -> vget lb (2 * i + axis_index a) = lower_bound (g i) a /\ vget ub (2 * i + axis_index a) = upper_bound (g i) a.
Proof.
  intros Hn Hf. unfold fill_bounds.
  destruct (fill_pairs_ok n (fun i => bind (f i) (fun b => Ok (col_0 b))) (fun i => col_0 (g i)) (mkVec rows (junk 0%nat)) Hn) as (lb & -> & L1 & H1).
  { intros i Hi. rewrite Hf by exact Hi. reflexivity. }
  destruct (fill_pairs_ok n (fun i => bind (f i) (fun b => Ok (col_1 b))) (fun i => col_1 (g i)) (mkVec rows (junk 1%nat)) Hn) as (ub & -> & L2 & H2).
  { intros i Hi. rewrite Hf by exact Hi. reflexivity. }
  cbn [bind]. exists lb, ub. split; [reflexivity|]. split; [exact L1|]. split; [exact L2|]. intros i a Hi. rewrite H1, H2 by exact Hi. destruct a; split; reflexivity.
Qed.
Lemma bounds_minus_ok lb ub s : vlen lb = mrows s -> vlen ub = mrows s ->
  bounds_minus (lb, ub) s = Ok (BoundsLU (mkVec (vlen lb) (fun i => vget lb i - mget s i 0)) (mkVec (vlen ub) (fun i => vget ub i - mget s i 0))).
Proof. intros H1 H2. unfold bounds_minus, vminus_o. cbn [fst snd]. rewrite !assert_true by lia. reflexivity. Qed.

Lemma fill_indices_ok n off old :
  fill_indices (n * 2) n off old = Ok (map (fun i => (off + i)%nat) (seq 0 (n * 2))).
Proof.
  unfold fill_indices.
  destruct (for_up_inv (fun k (w : list nat) => length w = (n * 2)%nat /\ forall i, (i < k * 2)%nat -> nth_error w i = Some (off + i)%nat)
    (fun i ix => bind (write_at ix (i * 2) (off + i * 2)%nat) (fun ix => write_at ix (i * 2 + 1) (off + i * 2 + 1)%nat)) n 0 (iresize old (n * 2))) as (w & E & L & H).
  - split; [unfold iresize; rewrite map_length, seq_length; reflexivity|]. intros i Hi. lia.
  - intros i s Hi (L & H). unfold write_at. rewrite assert_true by lia. cbn [bind]. rewrite update_length, assert_true by lia.
    eexists. split; [reflexivity|]. rewrite !update_length. split; [exact L|]. intros j Hj. rewrite !nth_error_update, !update_length.
    destruct (Nat.eq_dec j (i * 2 + 1)) as [->|N1].
    + replace (i * 2 + 1 <? length s)%nat with true by lia. rewrite ?Nat.eqb_refl. cbn [andb]. f_equal. lia.
    + replace (i * 2 + 1 =? j)%nat with false by lia. cbn [andb]. destruct (Nat.eq_dec j (i * 2)) as [->|N2].
      * replace (i * 2 <? length s)%nat with true by lia. rewrite ?Nat.eqb_refl. reflexivity.
      * replace (i * 2 =? j)%nat with false by lia. apply H. lia.
  - rewrite E. f_equal. apply nth_error_ext. intros i. destruct (Nat.lt_ge_cases i (n * 2)) as [Hi|Hi].
    + rewrite H by lia. rewrite nth_error_map. rewrite (nth_error_nth' (seq 0 (n * 2)) 0%nat) by (rewrite seq_length; exact Hi). rewrite seq_nth by exact Hi. reflexivity.
    + rewrite !(proj2 (nth_error_None _ _)); [reflexivity|rewrite map_length, seq_length; exact Hi|lia].
Qed.
Lemma nth_indices off n i : (i < n)%nat -> nth i (map (fun i => (off + i)%nat) (seq 0 n)) 0%nat = (off + i)%nat.
Proof. intros H. rewrite (nth_indep _ 0%nat (off + 0)%nat) by (rewrite map_length, seq_length; exact H). rewrite (map_nth (fun i => (off + i)%nat)), seq_nth by exact H. reflexivity. Qed.

(** ** rows of constraint objects *)
Lemma row_A nv A b x i : mcols A = nv -> row_value (mkConstr nv (BodyA A) b) i (fun j => nth j x 0) = vget (mulv A (vec_of_list x)) i.
Proof. intros H. unfold row_value, coef. cbn [c_nvars c_body mulv vget vec_of_list]. rewrite H. reflexivity. Qed.
Lemma row_AS nv A b x i : (mcols A <= nv)%nat -> row_value (mkConstr nv (BodyAS A 0) b) i (fun j => nth j x 0) = vget (mulv A (vec_of_list (firstn (mcols A) x))) i.
Proof.
  intros H. unfold row_value, coef. cbn [c_nvars c_body mulv vget vec_of_list]. replace nv with (mcols A + (nv - mcols A))%nat by lia. rewrite Rsum_split.
  rewrite (Rsum_zero (nv - mcols A)); [rewrite Rplus_0_r; apply Rsum_ext|]; intros k Hk.
  - replace ((0 <=? k)%nat && (k <? 0 + mcols A)%nat) with true by lia. rewrite nth_firstn_0 by exact Hk. rewrite Nat.sub_0_r. reflexivity.
  - replace ((0 <=? mcols A + k)%nat && (mcols A + k <? 0 + mcols A)%nat) with false by lia. ring.
Qed.
Lemma mulv_scale g A x i : vget (mulv (mscale g A) x) i = g * vget (mulv A x) i.
Proof. cbn [mulv vget mscale mget mcols]. rewrite <- Rsum_scal. apply Rsum_ext. intros. ring. Qed.
Lemma Rsum_pick n j (v : R) (x : nat -> R) : (j < n)%nat -> Rsum n (fun k => (if (k =? j)%nat then v else 0) * x k) = v * x j.
Proof.
  intros H. rewrite (Rsum_single _ j); [rewrite Nat.eqb_refl; reflexivity|exact H|]. intros k Hk N. replace (k =? j)%nat with false by lia. ring.
Qed.

Lemma row_split N i : (i < 2 * N)%nat -> exists k a, (k < N)%nat /\ i = (2 * k + axis_index a)%nat.
Proof.
  intros H. exists (i / 2)%nat. pose proof (Nat.div_mod i 2 ltac:(lia)) as D. pose proof (Nat.mod_upper_bound i 2 ltac:(lia)) as U.
  destruct (Nat.eq_dec (i mod 2) 0) as [E|E].
  - exists AxisX. cbn [axis_index]. split; [|lia]. apply Nat.div_lt_upper_bound; lia.
  - exists AxisY. cbn [axis_index]. split; [|lia]. apply Nat.div_lt_upper_bound; lia.
Qed.

(** rows within bounds *)
Lemma satisfies_pairs nv body lb ub x N (q : nat -> axis -> R) (s : mat) (g : nat -> m2) :
  getNumberOfConstraints (mkConstr nv body (BoundsLU lb ub)) = (2 * N)%nat ->
  (forall k a, (k < N)%nat -> vget lb (2 * k + axis_index a) = lower_bound (g k) a - mget s (2 * k + axis_index a) 0) ->
  (forall k a, (k < N)%nat -> vget ub (2 * k + axis_index a) = upper_bound (g k) a - mget s (2 * k + axis_index a) 0) ->
  (forall k a, (k < N)%nat -> row_value (mkConstr nv body (BoundsLU lb ub)) (2 * k + axis_index a) x + mget s (2 * k + axis_index a) 0 = q k a) ->
  (satisfies (mkConstr nv body (BoundsLU lb ub)) x <-> forall k a, (k < N)%nat -> within (g k) a (q k a)).
Proof.
  intros HN HL HU HQ. unfold satisfies. rewrite HN. unfold lower, upper, at_least, at_most. cbn [c_bounds]. split.
  - intros H k a Hk. destruct (H (2 * k + axis_index a)%nat) as [H1 H2]; [destruct a; cbn [axis_index]; lia|].
    rewrite HL in H1 by exact Hk. rewrite HU in H2 by exact Hk. unfold within. rewrite <- (HQ k a Hk). lra.
  - intros H i Hi. destruct (row_split N i Hi) as (k & a & Hk & ->). specialize (H k a Hk). unfold within in H. rewrite <- (HQ k a Hk) in H. rewrite HL, HU by exact Hk. lra.
Qed.
Lemma kept_iff l N (b : interval -> option m2) (g : nat -> m2) q : length l = N ->
  (forall k v, nth_error l k = Some v -> b v = Some (g k)) ->
  ((forall k a, (k < N)%nat -> within (g k) a (q k a)) <-> kept_within l b q).
Proof.
  intros HN HG. unfold kept_within. split.
  - intros H k v m a Hv Hm. rewrite (HG k v Hv) in Hm. injection Hm as <-. apply H. rewrite <- HN. apply nth_error_Some. rewrite Hv. discriminate.
  - intros H k a Hk. destruct (nth_error l k) as [v|] eqn:E; [|apply nth_error_None in E; lia]. exact (H k v (g k) a E (HG k v E)).
Qed.

Definition data_at (l : list interval) (k : nat) : m2 * v2 * v2 * (m2 * m2 * m2 * m2) :=
  match nth_error l k with
  | Some v => match in_set v with Some d => d | None => (m2id, v2zero, v2zero, (m2id, m2id, m2id, m2id)) end
  | None => (m2id, v2zero, v2zero, (m2id, m2id, m2id, m2id))
  end.
Lemma data_at_set N l k v : formed_horizon N l -> nth_error l k = Some v -> in_set v = Some (data_at l k).
Proof.
  intros (_ & H) E. unfold data_at. rewrite E. destruct (in_set v) eqn:S; [reflexivity|]. exfalso. apply (proj2 (H v (nth_error_In _ _ E))). exact S.
Qed.
Lemma interval_data_ok N l k : formed_horizon N l -> (k < N)%nat -> interval_data l k = Ok (data_at l k).
Proof.
  intros F Hk. unfold interval_data, vec_at. destruct (nth_error l k) as [v|] eqn:E.
  - cbn [bind]. rewrite (data_at_set N l k v F E). reflexivity.
  - apply nth_error_None in E. destruct F as [F _]. lia.
Qed.

Section Tasks.
Variables (junk : nat -> nat -> nat -> R) (N : nat) (l : list interval) (model : pepper_state) (sol : solution) (M : pepper_matrices) (p : pepper_profiles).
Hypothesis (HS : solved junk N l model sol M p).
Let st := structure_pepper N.
Let x := point sol.

Lemma sizes : (mrows (pmAp M) = 2 * N /\ mcols (pmAp M) = 4 * N /\ mrows (pmsp M) = 2 * N /\
  mrows (pmAjs M) = 2 * N /\ mcols (pmAjs M) = 2 * N /\ mrows (pmsjs M) = 2 * N /\
  mrows (pmAas M) = 2 * N /\ mcols (pmAas M) = 2 * N /\ mrows (pmsas M) = 2 * N /\
  mrows (pmAps M) = 2 * N /\ mcols (pmAps M) = 2 * N /\ mrows (pmsps M) = 2 * N /\
  mrows (pmApd M) = 2 * N /\ mcols (pmApd M) = 4 * N /\ mrows (pmspd M) = 2 * N)%nat.
Proof.
  destruct HS as (HN & HL & _ & _ & H3 & _). destruct (update_rows junk N l model HN HL) as (M' & E & R). rewrite E in H3. injection H3 as ->.
  destruct R as (_ & _ & _ & R). repeat match goal with H : _ /\ _ |- _ => destruct H end. repeat split; assumption.
Qed.
Lemma horizon : formed_horizon N l.
Proof. apply HS. Qed.
Lemma horizon_length_N : length l = N.
Proof. apply (proj1 horizon). Qed.
Lemma nvars : Solution.getNumberOfVariables st = (4 * N)%nat.
Proof. unfold st. destruct (loc_pepper N) as (_ & _ & E & _). rewrite E. lia. Qed.
Lemma at_k k : (k < N)%nat -> exists v, nth_error l k = Some v /\ in_set v = Some (data_at l k).
Proof.
  intros Hk. destruct (nth_error l k) as [v|] eqn:E.
  - exists v. split; [reflexivity|]. exact (data_at_set N l k v horizon E).
  - apply nth_error_None in E. rewrite horizon_length_N in E. lia.
Qed.
Lemma rotation_k k : (k < N)%nat -> exists v, nth_error l k = Some v /\ in_rotation v = Ok (fst (fst (fst (data_at l k)))) /\ frame v = Some (fst (fst (fst (data_at l k)))).
Proof.
  intros Hk. destruct (at_k k Hk) as (v & E & D). exists v. split; [exact E|]. unfold in_rotation, frame. rewrite D. destruct (data_at l k) as (((r & ?) & ?) & ?). split; reflexivity.
Qed.

(** values of the affine expressions *)
Lemma value_sp k a : (k < N)%nat -> vget (mulv (pmAp M) (vec_of_list (sol_x sol))) (2 * k + axis_index a) + mget (pmsp M) (2 * k + axis_index a) 0 = vget (pp_cop p) (2 * k + axis_index a).
Proof.
  intros Hk. destruct HS as (HN & HL & _ & H2 & _ & H4). unfold parseSolution in H4. apply bind_ok in H4. destruct H4 as (c & _ & H4). apply bind_ok in H4. destruct H4 as (d & E & H4).
  repeat (apply bind_ok in H4; destruct H4 as (? & _ & H4)). injection H4 as <-. cbn [pp_cop]. unfold affine in E. apply assert_ok in E. destruct E as [_ E]. injection E as <-. reflexivity.
Qed.
Lemma value_jerk k a : (k < N)%nat -> vget (mulv (pmAjs M) (vec_of_list (first_half N sol))) (2 * k + axis_index a) + mget (pmsjs M) (2 * k + axis_index a) 0 = vget (pp_jerk p) (2 * k + axis_index a).
Proof.
  intros Hk. pose proof sizes as (_ & _ & _ & _ & JC & _). destruct HS as (HN & HL & _ & H2 & _ & H4). unfold parseSolution in H4. apply bind_ok in H4. destruct H4 as (c & _ & H4).
  apply bind_ok in H4. destruct H4 as (d & _ & H4). apply bind_ok in H4. destruct H4 as (xb & EX & H4). apply bind_ok in H4. destruct H4 as (j & E & H4).
  repeat (apply bind_ok in H4; destruct H4 as (? & _ & H4)). injection H4 as <-. cbn [pp_jerk]. unfold affine in E. apply assert_ok in E. destruct E as [_ E]. injection E as <-.
  cbn [vadd vget vec_of]. f_equal. unfold vsegment in EX. apply assert_ok in EX. destruct EX as [_ EX]. injection EX as <-. apply mulv_ext. intros i Hi. rewrite JC in Hi.
  unfold first_half. cbn [vec_of_list vget]. rewrite nth_firstn_0 by exact Hi. reflexivity.
Qed.
Lemma value_tasks k a : (k < N)%nat ->
  vget (mulv (pmAas M) (vec_of_list (first_half N sol))) (2 * k + axis_index a) + mget (pmsas M) (2 * k + axis_index a) 0 = vz (base_at model p (k + 1) a) /\
  vget (mulv (pmAps M) (vec_of_list (first_half N sol))) (2 * k + axis_index a) + mget (pmsps M) (2 * k + axis_index a) 0 = vx (base_at model p (k + 1) a) /\
  vget (mulv (pmApd M) (vec_of_list (sol_x sol))) (2 * k + axis_index a) + mget (pmspd M) (2 * k + axis_index a) 0 = base_from_body N model p l k a.
Proof.
  intros Hk. destruct (rotation_k k Hk) as (v & E & HR & HF). destruct (profile_tasks junk N l model sol M p k v a _ HS E HR) as (P1 & P2 & P3).
  unfold base_from_body. rewrite E, HF. split; [exact P1|]. split; [exact P2|exact P3].
Qed.

(** ** bounds *)
Lemma base_acceleration_bounds jk : exists c, form_baseAccelerationBounds jk st l M = Ok c /\ task_object ASLU N c /\
  (satisfies c x <-> kept_within l acceleration_bounds (fun k a => vz (base_at model p (k + 1) a))).
Proof.
  pose proof sizes as SZ. unfold form_baseAccelerationBounds. rewrite horizon_length_N, nvars.
  destruct (fill_bounds_ok jk (N * 2) N (getNominalBaseAccelerationBounds l) (fun k => snd (fst (snd (data_at l k)))) (le_n _)) as (lb & ub & -> & L1 & L2 & H).
  { intros i Hi. unfold getNominalBaseAccelerationBounds. rewrite (interval_data_ok N l i horizon Hi). cbn [bind]. destruct (data_at l i) as (((?, ?), ?), (((?, ?), ?), ?)). reflexivity. }
  cbn [bind]. rewrite bounds_minus_ok by lia. cbn [bind]. eexists. split; [reflexivity|]. split.
  { split; [reflexivity|]. split; [|cbn [getNumberOfConstraints c_body]; lia]. split; [reflexivity|]. split; [|exact I]. unfold checkConsistency. cbn [getNumberOfConstraints c_body c_bounds c_nvars bounds_size_ok vlen].
    destruct HS as (HN & _). lia. }
  erewrite (satisfies_pairs (4 * N) (BodyAS (pmAas M) 0) _ _ x N _ (pmsas M)).
  - apply kept_iff; [exact horizon_length_N|]. intros k v E. unfold acceleration_bounds. rewrite (data_at_set N l k v horizon E). reflexivity.
  - cbn [getNumberOfConstraints c_body]. lia.
  - intros k a Hk. cbn [vget]. rewrite (proj1 (H k a Hk)). reflexivity.
  - intros k a Hk. cbn [vget]. rewrite (proj2 (H k a Hk)). reflexivity.
  - intros k a Hk. unfold x, point. rewrite row_AS by lia. replace (mcols (pmAas M)) with (2 * N)%nat by lia. apply (proj1 (value_tasks k a Hk)).
Qed.

Lemma cop_position_bounds jk : exists c, form_copPositionBounds jk st l M = Ok c /\ task_object ALU N c /\
  (satisfies c x <-> kept_within l cop_bounds (fun k a => vget (pp_cop p) (2 * k + axis_index a))).
Proof.
  pose proof sizes as SZ. unfold form_copPositionBounds. rewrite horizon_length_N, nvars.
  destruct (fill_bounds_ok jk (N * 2) N (getCoPBounds l) (fun k => fst (fst (fst (snd (data_at l k))))) (le_n _)) as (lb & ub & -> & L1 & L2 & H).
  { intros i Hi. unfold getCoPBounds. rewrite (interval_data_ok N l i horizon Hi). cbn [bind]. destruct (data_at l i) as (((?, ?), ?), (((?, ?), ?), ?)). reflexivity. }
  cbn [bind]. rewrite bounds_minus_ok by lia. cbn [bind]. eexists. split; [reflexivity|]. split.
  { split; [reflexivity|]. split; [|cbn [getNumberOfConstraints c_body]; lia]. split; [reflexivity|]. split; [|exact I]. unfold checkConsistency. cbn [getNumberOfConstraints c_body c_bounds c_nvars bounds_size_ok vlen].
    destruct HS as (HN & _). lia. }
  erewrite (satisfies_pairs (4 * N) (BodyA (pmAp M)) _ _ x N _ (pmsp M)).
  - apply kept_iff; [exact horizon_length_N|]. intros k v E. unfold cop_bounds. rewrite (data_at_set N l k v horizon E). reflexivity.
  - cbn [getNumberOfConstraints c_body]. lia.
  - intros k a Hk. cbn [vget]. rewrite (proj1 (H k a Hk)). reflexivity.
  - intros k a Hk. cbn [vget]. rewrite (proj2 (H k a Hk)). reflexivity.
  - intros k a Hk. unfold x, point. rewrite row_A by lia. apply (value_sp k a Hk).
Qed.
Lemma body_position_bounds jk : exists c, form_bodyPositionBounds jk st l M = Ok c /\ task_object ALU N c /\
  (satisfies c x <-> kept_within l body_bounds (base_from_body N model p l)).
Proof.
  pose proof sizes as SZ. unfold form_bodyPositionBounds. replace (mrows (pmApd M)) with (N * 2)%nat by lia. rewrite Nat.div_mul by lia. rewrite nvars.
  destruct (fill_bounds_ok jk (N * 2) N (getBodyBounds l) (fun k => snd (snd (data_at l k))) (le_n _)) as (lb & ub & -> & L1 & L2 & H).
  { intros i Hi. unfold getBodyBounds. rewrite (interval_data_ok N l i horizon Hi). cbn [bind]. destruct (data_at l i) as (((?, ?), ?), (((?, ?), ?), ?)). reflexivity. }
  cbn [bind]. rewrite bounds_minus_ok by lia. cbn [bind]. eexists. split; [reflexivity|]. split.
  { split; [reflexivity|]. split; [|cbn [getNumberOfConstraints c_body]; lia]. split; [reflexivity|]. split; [|exact I]. unfold checkConsistency. cbn [getNumberOfConstraints c_body c_bounds c_nvars bounds_size_ok vlen].
    destruct HS as (HN & _). lia. }
  erewrite (satisfies_pairs (4 * N) (BodyA (pmApd M)) _ _ x N _ (pmspd M)).
  - apply kept_iff; [exact horizon_length_N|]. intros k v E. unfold body_bounds. rewrite (data_at_set N l k v horizon E). reflexivity.
  - cbn [getNumberOfConstraints c_body]. lia.
  - intros k a Hk. cbn [vget]. rewrite (proj1 (H k a Hk)). reflexivity.
  - intros k a Hk. cbn [vget]. rewrite (proj2 (H k a Hk)). reflexivity.
  - intros k a Hk. unfold x, point. rewrite row_A by lia. apply (value_tasks k a Hk).
Qed.
Lemma velocity_command k a : (k < N)%nat -> vy (base_at model p (k + 1) a) = x (2 * k + axis_index a)%nat.
Proof. intros Hk. destruct (at_k k Hk) as (v & E & _). exact (proj1 (proj2 (profile_motion junk N l model sol M p k v a HS E))). Qed.
Lemma base_velocity_bounds jk old : exists c, form_baseVelocityBounds jk old st l = Ok c /\ task_object ILU N c /\
  (satisfies c x <-> kept_within l velocity_bounds (fun k a => vy (base_at model p (k + 1) a))).
Proof.
  unfold form_baseVelocityBounds. destruct (loc_pepper N) as (L & _). fold st in L. rewrite L. cbn [offset len]. rewrite Nat.div_mul by lia. rewrite fill_indices_ok, nvars. cbn [bind].
  destruct (fill_bounds_ok jk (N * 2) N (getNominalBaseVelocityBounds l) (fun k => snd (fst (fst (snd (data_at l k))))) (le_n _)) as (lb & ub & -> & L1 & L2 & H).
  { intros i Hi. unfold getNominalBaseVelocityBounds. rewrite (interval_data_ok N l i horizon Hi). cbn [bind]. destruct (data_at l i) as (((?, ?), ?), (((?, ?), ?), ?)). reflexivity. }
  cbn [bind fst snd]. eexists. split; [reflexivity|].
  set (ix := map (fun i => (0 + i)%nat) (seq 0 (N * 2))). assert (LI : length ix = (2 * N)%nat) by (unfold ix; rewrite map_length, seq_length; lia).
  assert (FI : Forall (fun j => (j < 4 * N)%nat) ix).
  { apply Forall_forall. intros j Hj. apply in_map_iff in Hj. destruct Hj as (i & <- & Hi). apply in_seq in Hi. lia. }
  split.
  { split; [reflexivity|]. split; [|exact LI]. split; [reflexivity|]. split; [|exact FI]. unfold checkConsistency. cbn [getNumberOfConstraints c_body c_bounds c_nvars bounds_size_ok vlen].
    rewrite LI. lia. }
  erewrite (satisfies_pairs (4 * N) (BodyI ix) _ _ x N _ (mzero 0 0)).
  - apply kept_iff; [exact horizon_length_N|]. intros k v E. unfold velocity_bounds. rewrite (data_at_set N l k v horizon E). reflexivity.
  - exact LI.
  - intros k a Hk. cbn [mzero mget]. rewrite (proj1 (H k a Hk)), Rminus_0_r. reflexivity.
  - intros k a Hk. cbn [mzero mget]. rewrite (proj2 (H k a Hk)), Rminus_0_r. reflexivity.
  - intros k a Hk. cbn [mzero mget]. rewrite Rplus_0_r, velocity_command by exact Hk. unfold row_value, coef. cbn [c_nvars c_body].
    assert (K : (2 * k + axis_index a < N * 2)%nat) by (destruct a; cbn [axis_index]; lia).
    unfold ix. rewrite nth_indices by exact K. rewrite Rsum_pick by lia. cbn [Nat.add]. ring.
Qed.

(** ** objectives *)
Lemma residual_A g A s k a q t : mcols A = (4 * N)%nat -> vget (mulv A (vec_of_list (sol_x sol))) (2 * k + axis_index a) + mget s (2 * k + axis_index a) 0 = q -> t = g * q ->
  residual (mkConstr (4 * N) (BodyA (mscale g A)) (BoundsB (vec_of (mscale (- g) s)))) (2 * k + axis_index a) x t.
Proof.
  intros HC <- ->. unfold residual, lower, upper. cbn [c_bounds]. eexists. split; [reflexivity|]. split; [reflexivity|]. unfold x, point. rewrite row_A by exact HC. rewrite mulv_scale.
  cbn [vec_of mscale vget mget]. ring.
Qed.
Lemma cop_centering g : task_object AB N (form_copCentering g st M) /\ minimizes N (form_copCentering g st M) x g (fun k a => vget (pp_cop p) (2 * k + axis_index a)).
Proof.
  pose proof sizes as SZ. unfold form_copCentering. rewrite nvars. split.
  - split; [reflexivity|]. split; [|cbn [getNumberOfConstraints c_body mscale mrows]; lia]. split; [reflexivity|]. split; [|exact I]. unfold checkConsistency.
    cbn [getNumberOfConstraints c_body c_bounds c_nvars bounds_size_ok vlen vec_of mscale mrows mcols]. destruct HS as (HN & _). lia.
  - intros k a Hk. eapply residual_A; [lia|apply (value_sp k a Hk)|reflexivity].
Qed.
Lemma base_jerk_minimization g : task_object ASB N (form_baseJerkMinimization g st M) /\ minimizes N (form_baseJerkMinimization g st M) x g (fun k a => vget (pp_jerk p) (2 * k + axis_index a)).
Proof.
  pose proof sizes as SZ. unfold form_baseJerkMinimization. rewrite nvars. split.
  - split; [reflexivity|]. split; [|cbn [getNumberOfConstraints c_body mscale mrows]; lia]. split; [reflexivity|]. split; [|exact I]. unfold checkConsistency.
    cbn [getNumberOfConstraints c_body c_bounds c_nvars bounds_size_ok vlen vec_of mscale mrows mcols]. destruct HS as (HN & _). lia.
  - intros k a Hk. unfold residual, lower, upper. cbn [c_bounds]. eexists. split; [reflexivity|]. split; [reflexivity|]. unfold x, point. rewrite row_AS by (cbn [mscale mcols]; lia). rewrite mulv_scale.
    cbn [vec_of mscale vget mget mcols]. replace (mcols (pmAjs M)) with (2 * N)%nat by lia. rewrite <- (value_jerk k a Hk). unfold first_half. cbn [mulv vget]. ring.
Qed.
Lemma base_position_reference jk g : exists c, form_basePositionReference jk g st l M = Ok c /\ task_object ASB N c /\
  forall k v r a, nth_error l k = Some v -> position_reference v = Some r -> residual c (2 * k + axis_index a) x (g * (vx (base_at model p (k + 1) a) - component r a)).
Proof.
  pose proof sizes as SZ. unfold form_basePositionReference. rewrite nvars. cbn [mscale mrows]. replace (mrows (pmAps M)) with (N * 2)%nat by lia. rewrite Nat.div_mul by lia.
  destruct (fill_pairs_ok N (getBaseReferencePosition l) (fun k => snd (fst (data_at l k))) (mkVec (N * 2) (jk 0%nat)) (le_n _)) as (b & -> & L & H).
  { intros i Hi. unfold getBaseReferencePosition. rewrite (interval_data_ok N l i horizon Hi). cbn [bind]. destruct (data_at l i) as (((?, ?), ?), (((?, ?), ?), ?)). reflexivity. }
  cbn [bind vlen] in L |- *. unfold vminus_o. rewrite assert_true by lia. cbn [bind]. eexists. split; [reflexivity|]. split.
  - split; [reflexivity|]. split; [|cbn [getNumberOfConstraints c_body mscale mrows]; lia]. split; [reflexivity|]. split; [|exact I]. unfold checkConsistency.
    cbn [getNumberOfConstraints c_body c_bounds c_nvars bounds_size_ok vlen vec_of mscale mrows mcols]. destruct HS as (HN & _). lia.
  - intros k v r a E HR. assert (Hk : (k < N)%nat) by (rewrite <- horizon_length_N; apply nth_error_Some; rewrite E; discriminate).
    unfold position_reference in HR. rewrite (data_at_set N l k v horizon E) in HR. injection HR as HR.
    unfold residual, lower, upper. cbn [c_bounds]. eexists. split; [reflexivity|]. split; [reflexivity|]. unfold x, point. change (mkMat _ _ _) with (mscale g (pmAps M)). rewrite row_AS by (cbn [mscale mcols]; lia). rewrite mulv_scale.
    cbn [vget mscale mcols]. replace (mcols (pmAps M)) with (2 * N)%nat by lia. fold (first_half N sol). rewrite (H k a Hk), HR. rewrite <- (proj1 (proj2 (value_tasks k a Hk))). ring.
Qed.
Lemma base_velocity_reference jk old g : exists c, form_baseVelocityReference jk old g st l = Ok c /\ task_object GIB N c /\
  forall k v r a, nth_error l k = Some v -> velocity_reference v = Some r -> residual c (2 * k + axis_index a) x (g * (vy (base_at model p (k + 1) a) - component r a)).
Proof.
  unfold form_baseVelocityReference. destruct (loc_pepper N) as (L0 & _). fold st in L0. rewrite L0. cbn [offset len]. rewrite Nat.div_mul by lia. rewrite fill_indices_ok, nvars. cbn [bind].
  destruct (fill_pairs_ok N (fun i => bind (getBaseReferenceVelocity l i) (fun v => Ok (v2scale g v))) (fun k => v2scale g (snd (fst (fst (data_at l k))))) (mkVec (N * 2) (jk 0%nat)) (le_n _)) as (b & -> & L & H).
  { intros i Hi. unfold getBaseReferenceVelocity. rewrite (interval_data_ok N l i horizon Hi). cbn [bind]. destruct (data_at l i) as (((?, ?), ?), (((?, ?), ?), ?)). reflexivity. }
  cbn [bind vlen] in L |- *. eexists. split; [reflexivity|].
  set (ix := map (fun i => (0 + i)%nat) (seq 0 (N * 2))). assert (LI : length ix = (2 * N)%nat) by (unfold ix; rewrite map_length, seq_length; lia).
  assert (FI : Forall (fun j => (j < 4 * N)%nat) ix).
  { apply Forall_forall. intros j Hj. apply in_map_iff in Hj. destruct Hj as (i & <- & Hi). apply in_seq in Hi. lia. }
  split.
  - split; [reflexivity|]. split; [|exact LI]. split; [reflexivity|]. split; [|exact FI]. unfold checkConsistency. cbn [getNumberOfConstraints c_body c_bounds c_nvars bounds_size_ok vlen vconst].
    rewrite LI. lia.
  - intros k v r a E HR. assert (Hk : (k < N)%nat) by (rewrite <- horizon_length_N; apply nth_error_Some; rewrite E; discriminate).
    unfold velocity_reference in HR. rewrite (data_at_set N l k v horizon E) in HR. injection HR as HR.
    unfold residual, lower, upper. cbn [c_bounds]. eexists. split; [reflexivity|]. split; [reflexivity|]. rewrite velocity_command by exact Hk. unfold row_value, coef. cbn [c_nvars c_body].
    assert (K : (2 * k + axis_index a < N * 2)%nat) by (destruct a; cbn [axis_index]; lia).
    unfold ix. rewrite nth_indices by exact K. rewrite Rsum_pick by lia. cbn [Nat.add]. rewrite (H k a Hk), HR. cbn [vconst vget]. destruct a; cbn [v2scale component ux uy]; ring.
Qed.
Lemma body_jerk_minimization g : let c := zt_constr (zero_form st (new_bodyJerkMinimization g)) in
  task_object GIB0 N c /\ minimizes N c x g (fun k a => body_command N sol k a).
Proof.
  cbv zeta. destruct HS as (HN & _). unfold zero_form, new_bodyJerkMinimization, zero_new. cbn [zt_location zt_gain zt_id zt_constr].
  assert (E : zero_location st (mkZT g true (mkLoc 0 0) BODY_JERK (mkConstr 0 (BodyGI [] (vconst 0 0)) BoundsB0)) = mkLoc (N * 2) (N * 2)).
  { unfold zero_location. cbn [zt_id]. replace (String.eqb BODY_JERK "") with false by reflexivity. apply (loc_pepper N). }
  rewrite E. unfold loc_eqb. cbn [offset len]. replace (((N * 2 =? 0) && (N * 2 =? 0))%nat) with false by lia. cbn [zt_constr]. rewrite nvars.
  set (ix := map (fun i => (N * 2 + i)%nat) (seq 0 (N * 2))). assert (LI : length ix = (2 * N)%nat) by (unfold ix; rewrite map_length, seq_length; lia).
  assert (FI : Forall (fun j => (j < 4 * N)%nat) ix).
  { apply Forall_forall. intros j Hj. apply in_map_iff in Hj. destruct Hj as (i & <- & Hi). apply in_seq in Hi. lia. }
  split.
  - split; [reflexivity|]. split; [|exact LI]. split; [reflexivity|]. split; [|exact FI]. unfold checkConsistency. cbn [getNumberOfConstraints c_body c_bounds c_nvars bounds_size_ok vlen vconst].
    rewrite LI. lia.
  - intros k a Hk. exists 0. split; [reflexivity|]. split; [reflexivity|]. unfold row_value, coef. cbn [c_nvars c_body].
    assert (K : (2 * k + axis_index a < N * 2)%nat) by (destruct a; cbn [axis_index]; lia).
    unfold ix. rewrite nth_indices by exact K. rewrite Rsum_pick by lia. cbn [vconst vget]. unfold x, point, body_command. replace (N * 2 + (2 * k + axis_index a))%nat with (2 * N + 2 * k + axis_index a)%nat by lia. ring.
Qed.

(** the reference of the body position has a wrong sign *)
Lemma body_position_reference g : task_object AB N (form_bodyPositionReference g st M) /\
  forall k a, (k < N)%nat -> residual (form_bodyPositionReference g st M) (2 * k + axis_index a) x (g * (base_from_body N model p l k a - 2 * mget (pmspd M) (2 * k + axis_index a) 0)).
Proof.
  pose proof sizes as SZ. unfold form_bodyPositionReference. rewrite nvars. split.
  - split; [reflexivity|]. split; [|cbn [getNumberOfConstraints c_body mscale mrows]; lia]. split; [reflexivity|]. split; [|exact I]. unfold checkConsistency.
    cbn [getNumberOfConstraints c_body c_bounds c_nvars bounds_size_ok vlen vec_of mscale mrows mcols]. destruct HS as (HN & _). lia.
  - intros k a Hk. unfold residual, lower, upper. cbn [c_bounds]. eexists. split; [reflexivity|]. split; [reflexivity|]. unfold x, point. rewrite row_A by (cbn [mscale mcols]; lia). rewrite mulv_scale.
    cbn [vec_of mscale vget mget]. rewrite <- (proj2 (proj2 (value_tasks k a Hk))). ring.
Qed.
End Tasks.
