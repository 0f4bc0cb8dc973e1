From Coq Require Import String List Reals Arith Lra Lia Bool ZArith.
From Verif Require Import Base BaseFacts RSum Matrix Mat2 Mat3 SmallMatrix BlockMatrix BlockMatrixFacts BlockMatrixSpec GridFill BlockProductFacts Kronecker
  KroneckerFacts KroneckerFacts2 Condense CondenseSpec CondenseFacts CondenseLoops CondenseLoops2 CondenseOutputFacts CondenseResults TripleIntegrator TripleIntegratorSpec
  PointMass6z PointMass6zSpec Solution PepperPreview MpcGuess MpcGuessFacts PepperModel PepperMpc PepperMpcSpec KronAxisFacts PepperMpcFacts.
Import ListNotations.
Local Open Scope R_scope.

Lemma axis1 t n v i : vget (axis_of 2 1 t n v) i = vget v (2 * i + t).
Proof. cbn [axis_of vget]. rewrite Nat.div_1_r, Nat.mod_1_r. f_equal. lia. Qed.
Lemma mulv_ext M x y i : (forall k, (k < mcols M)%nat -> vget x k = vget y k) -> vget (mulv M x) i = vget (mulv M y) i.
Proof. intros H. cbn [mulv vget]. apply Rsum_ext. intros k Hk. rewrite H by exact Hk. reflexivity. Qed.

Lemma simulate_ext A B u u' x0 k : sized B 3 1 -> length B = length A -> (k <= length A)%nat -> (forall j, (j < k)%nat -> vget u j = vget u' j) ->
  forall p, vget (simulate A B 1 u x0 k) p = vget (simulate A B 1 u' x0 k) p.
Proof.
  intros SB LB. induction k as [|k IH]; intros Hk H p; [reflexivity|]. cbn [simulate vadd vget]. f_equal.
  - apply mulv_ext. intros q Hq. apply IH; [lia|]. intros j Hj. apply H. lia.
  - apply mulv_ext. intros q Hq. cbn [part vget]. assert (BS : (k < length B)%nat) by lia.
    destruct (mat_at_size B 3 1 k SB BS) as [_ BC]. rewrite BC in Hq. replace (k * 1 + q)%nat with k by lia. apply H. lia.
Qed.

Definition v3_of (x : vec) : v3 := V3 (vget x 0) (vget x 1) (vget x 2).

(** one step of a mass with a commanded velocity, and with a jerk *)
Lemma vel_step A B D E u x0 k T w : T <> 0 -> mat_at A k = mat33 (AVel3 T) -> mat_at B k = col3 (BVel3 T) ->
  mat_at D k = row3 (D3 Vel T) -> mat_at E k = mkMat 1 1 (fun _ _ => TripleIntegrator.E3 Vel T) -> vget u k = w ->
  moved3 (v3_of (simulate A B 1 u x0 k)) (v3_of (simulate A B 1 u x0 (k + 1))) (vget (output D E 1 u (simulate A B 1 u x0) k) 0) T /\
  vget (simulate A B 1 u x0 (k + 1)) 1 = w.
Proof.
  intros HT EA EB ED EE <-. rewrite Nat.add_1_r. unfold output. cbn [simulate]. rewrite EA, EB, ED, EE.
  set (x := simulate A B 1 u x0 k). unfold moved3, v3_of, motion_position, motion_velocity, motion_acceleration.
  cbn [vx vy vz vadd mulv vget mat33 col3 row3 mcols mget Rsum part AVel3 BVel3 D3 TripleIntegrator.E3].
  replace (k * 1 + 0)%nat with k by lia. cbn. repeat split; field; exact HT.
Qed.
Lemma jerk_step A B u x0 k T w : mat_at A k = mat33 (AJerk3 T) -> mat_at B k = col3 (BJerk3 T) -> vget u k = w ->
  moved3 (v3_of (simulate A B 1 u x0 k)) (v3_of (simulate A B 1 u x0 (k + 1))) w T.
Proof.
  intros EA EB <-. rewrite Nat.add_1_r. cbn [simulate]. rewrite EA, EB.
  set (x := simulate A B 1 u x0 k). unfold moved3, v3_of, motion_position, motion_velocity, motion_acceleration.
  cbn [vx vy vz vadd mulv vget mat33 col3 mcols mget Rsum part AJerk3 BJerk3].
  replace (k * 1 + 0)%nat with k by lia. cbn. repeat split; field.
Qed.

Lemma start_axis s a : v3_of (state_axis s (axis_index a)) = along_axis s a.
Proof. destruct a; reflexivity. Qed.
Lemma axis_lt a : (axis_index a < 2)%nat.
Proof. destruct a; cbn; lia. Qed.


Lemma solution_parts N sol : sol_structure sol = structure_pepper N -> length (sol_x sol) = (4 * N)%nat ->
  getSolutionPart sol BASE_VEL = Ok (firstn (N * 2) (sol_x sol)) /\ getSolutionPart sol BODY_JERK = Ok (skipn (N * 2) (sol_x sol)).
Proof.
  intros E L. unfold getSolutionPart, getData. rewrite E. destruct (loc_pepper N) as (L1 & L2 & _). rewrite L1, L2. cbn [offset len].
  rewrite !assert_true by (apply checkLength_iff; cbn [offset len]; lia).
  unfold segment. split; [reflexivity|]. f_equal. apply firstn_all2. rewrite skipn_length. lia.
Qed.
Lemma nth_skipn_0 {A} (l : list A) n i d : nth i (skipn n l) d = nth (n + i) l d.
Proof. revert l. induction n as [|n IH]; intros l; [reflexivity|]. destruct l; [destruct i; reflexivity|]. cbn [skipn Nat.add nth]. apply IH. Qed.
Lemma nth_firstn_0 {A} (l : list A) n i d : (i < n)%nat -> nth i (firstn n l) d = nth i l d.
Proof. revert l i. induction n as [|n IH]; intros l i H; [lia|]. destruct l; [destruct i; reflexivity|]. destruct i; [reflexivity|]. cbn [firstn nth]. apply IH. lia. Qed.

Section Profiles.
Variables (junk : nat -> nat -> nat -> R) (N : nat) (l : list interval) (model : pepper_state) (sol : solution).
Hypotheses (HN : (0 < N)%nat) (HL : formed_horizon N l) (HS : sol_structure sol = structure_pepper N) (HX : length (sol_x sol) = (4 * N)%nat).

Lemma profiles_ok : exists M p, updateMatrices junk N l model = Ok M /\ parseSolution N M sol = Ok p /\
  (vlen (pp_cstate p) = 12 * N /\ vlen (pp_cop p) = 2 * N /\ vlen (pp_jerk p) = 2 * N /\ vlen (pp_base_controls p) = 2 * N /\ vlen (pp_body_controls p) = 2 * N)%nat /\
  (mcols (pmAas M) = 2 * N /\ mrows (pmAas M) = 2 * N /\ mcols (pmAps M) = 2 * N /\ mrows (pmAps M) = 2 * N /\ mcols (pmApd M) = 4 * N /\ mrows (pmApd M) = 2 * N)%nat /\
  forall k v a, nth_error l k = Some v ->
    let i := (2 * k + axis_index a)%nat in
    moved3 (base_at model p k a) (base_at model p (k + 1) a) (vget (pp_jerk p) i) (in_T v) /\
    vy (base_at model p (k + 1) a) = base_command sol k a /\
    moved3 (body_at N model p k a) (body_at N model p (k + 1) a) (body_command N sol k a) (in_T v) /\
    (in_base_mass v + in_body_mass v <> 0 ->
     relative_cop (in_base_mass v) (in_body_mass v) (in_base_height v) (in_body_height v) (base_at model p (k + 1) a) (body_at N model p (k + 1) a) (vget (pp_cop p) i)) /\
    vget (pp_base_controls p) i = base_command sol k a /\ vget (pp_body_controls p) i = body_command N sol k a /\
    affine_value (pmAas M) (pmsas M) (first_half N sol) i = vz (base_at model p (k + 1) a) /\
    affine_value (pmAps M) (pmsps M) (first_half N sol) i = vx (base_at model p (k + 1) a) /\
    (forall r, in_rotation v = Ok r ->
      affine_value (pmApd M) (pmspd M) (sol_x sol) i =
      match a with
      | AxisX => a00 r * (vx (base_at model p (k + 1) AxisX) - vx (body_at N model p (k + 1) AxisX)) + a10 r * (vx (base_at model p (k + 1) AxisY) - vx (body_at N model p (k + 1) AxisY))
      | AxisY => a01 r * (vx (base_at model p (k + 1) AxisX) - vx (body_at N model p (k + 1) AxisX)) + a11 r * (vx (base_at model p (k + 1) AxisY) - vx (body_at N model p (k + 1) AxisY))
      end).
Proof.
  destruct (update_rows junk N l model HN HL) as (M & EM & R1 & R2 & R3 & R4 & R5 & R6 & R7 & R8 & R9 & R10 & R11 & R12 & R13 & R14 & R15 & R16 & R17 & R18 & ROW).
  cbv zeta in ROW. set (x := vec_of_list (sol_x sol)) in *.
  assert (XL : vlen x = (4 * N)%nat) by (unfold x; cbn [vec_of_list vlen]; exact HX).
  destruct (solution_parts N sol HS HX) as (P1 & P2).
  set (xb := mkVec (2 * N) (fun i => vget x (0 + i))).
  set (p := mkPP (vadd (mulv (pmS M) x) (vec_of (pms M))) (vadd (mulv (pmAp M) x) (vec_of (pmsp M))) (vadd (mulv (pmAjs M) xb) (vec_of (pmsjs M)))
                 (vec_of_list (firstn (N * 2) (sol_x sol))) (vec_of_list (skipn (N * 2) (sol_x sol)))).
  exists M, p. split; [exact EM|]. split.
  { unfold parseSolution. fold x. unfold affine, vsegment. rewrite assert_true by (apply andb_true_intro; split; apply Nat.eqb_eq; lia). cbn [bind].
    rewrite assert_true by (apply andb_true_intro; split; apply Nat.eqb_eq; lia). cbn [bind].
    assert (NV : (getNumberOfVariables (structure_pepper N) / 2 = 2 * N)%nat).
    { destruct (loc_pepper N) as (_ & _ & Q & _). rewrite Q. replace (N * 2 + N * 2)%nat with ((2 * N) * 2)%nat by lia. apply Nat.div_mul. lia. }
    rewrite NV. rewrite assert_true by (apply Nat.leb_le; lia). cbn [bind]. fold xb.
    rewrite assert_true by (apply andb_true_intro; split; apply Nat.eqb_eq; cbn [xb vlen]; lia). cbn [bind]. rewrite P1, P2. reflexivity. }
  split. { unfold p. cbn [pp_cstate pp_cop pp_jerk pp_base_controls pp_body_controls vadd mulv vec_of vlen vec_of_list]. rewrite firstn_length, skipn_length. lia. }
  split; [lia|].
  destruct HL as [LL LV].
  set (As := map (fun v => mat33 (AVel3 (in_T v))) l) in *. set (Bs := map (fun v => col3 (BVel3 (in_T v))) l) in *.
  set (Ad := map (fun v => mat33 (AJerk3 (in_T v))) l) in *. set (Bd := map (fun v => col3 (BJerk3 (in_T v))) l) in *.
  set (Djs := map (fun v => row3 (D3 Vel (in_T v))) l) in *. set (Ejs := map (fun v => mkMat 1 1 (fun _ _ => TripleIntegrator.E3 Vel (in_T v))) l) in *.
  set (Ps := map (fun v => row3 (Dps3 (in_base_height v) (in_base_mass v) (in_body_mass v))) l) in *.
  set (Pd := map (fun v => row3 (Dpd3 (in_body_height v) (in_base_mass v) (in_body_mass v))) l) in *.
  assert (SBs : sized Bs 3 1) by (apply sized_map; intros; split; reflexivity).
  assert (LAs : length As = N) by (unfold As; rewrite map_length; exact LL).
  assert (LBs : length Bs = N) by (unfold Bs; rewrite map_length; exact LL).
  assert (BASE : forall k a, (k <= N)%nat -> base_at model p k a = v3_of (simulate As Bs 1 (control_axis N x (axis_index a)) (state_axis (ps_base model) (axis_index a)) k)).
  { intros [|k] a Hk; [symmetry; apply start_axis|]. cbn [base_at]. unfold profile_entry, v3_of, p. cbn [pp_cstate vadd vec_of vget].
    destruct (ROW x k (axis_index a) ltac:(lia) (axis_lt a)) as (Q & _). rewrite Nat.add_1_r in Q.
    f_equal; [rewrite <- (proj1 (Q 0%nat ltac:(lia)))|rewrite <- (proj1 (Q 1%nat ltac:(lia)))|rewrite <- (proj1 (Q 2%nat ltac:(lia)))]; f_equal; f_equal; lia. }
  assert (BODY : forall k a, (k <= N)%nat -> body_at N model p k a = v3_of (simulate Ad Bd 1 (control_axis N (second_half N x) (axis_index a)) (state_axis (ps_body model) (axis_index a)) k)).
  { intros [|k] a Hk; [symmetry; apply start_axis|]. cbn [body_at]. unfold profile_entry, v3_of, p. cbn [pp_cstate vadd vec_of vget].
    destruct (ROW x k (axis_index a) ltac:(lia) (axis_lt a)) as (Q & _). rewrite Nat.add_1_r in Q.
    f_equal; [rewrite <- (proj2 (Q 0%nat ltac:(lia)))|rewrite <- (proj2 (Q 1%nat ltac:(lia)))|rewrite <- (proj2 (Q 2%nat ltac:(lia)))]; f_equal; f_equal; lia. }
  intros k v a Hv. cbv zeta. assert (Hk : (k < N)%nat) by (rewrite <- LL; apply nth_error_Some; rewrite Hv; discriminate).
  assert (HT : in_T v <> 0) by (apply LV; apply (nth_error_In _ _ Hv)).
  assert (AI : mat_at As k = mat33 (AVel3 (in_T v))) by exact (mat_at_map (fun v => mat33 (AVel3 (in_T v))) l k v Hv).
  assert (BI : mat_at Bs k = col3 (BVel3 (in_T v))) by exact (mat_at_map (fun v => col3 (BVel3 (in_T v))) l k v Hv).
  assert (AJ : mat_at Ad k = mat33 (AJerk3 (in_T v))) by exact (mat_at_map (fun v => mat33 (AJerk3 (in_T v))) l k v Hv).
  assert (BJ : mat_at Bd k = col3 (BJerk3 (in_T v))) by exact (mat_at_map (fun v => col3 (BJerk3 (in_T v))) l k v Hv).
  assert (DI : mat_at Djs k = row3 (D3 Vel (in_T v))) by exact (mat_at_map (fun v => row3 (D3 Vel (in_T v))) l k v Hv).
  assert (EI : mat_at Ejs k = mkMat 1 1 (fun _ _ => TripleIntegrator.E3 Vel (in_T v))) by exact (mat_at_map (fun v => mkMat 1 1 (fun _ _ => TripleIntegrator.E3 Vel (in_T v))) l k v Hv).
  assert (PI : mat_at Ps k = row3 (Dps3 (in_base_height v) (in_base_mass v) (in_body_mass v))) by exact (mat_at_map (fun v => row3 (Dps3 (in_base_height v) (in_base_mass v) (in_body_mass v))) l k v Hv).
  assert (PJ : mat_at Pd k = row3 (Dpd3 (in_body_height v) (in_base_mass v) (in_body_mass v))) by exact (mat_at_map (fun v => row3 (Dpd3 (in_body_height v) (in_base_mass v) (in_body_mass v))) l k v Hv).
  set (t := axis_index a) in *. assert (Ht : (t < 2)%nat) by apply axis_lt.
  replace (2 * k + t)%nat with (k * 2 + t)%nat by lia.
  assert (CB : vget (control_axis N x t) k = base_command sol k a) by (unfold control_axis; rewrite axis1; reflexivity).
  assert (CD : vget (control_axis N (second_half N x) t) k = body_command N sol k a).
  { unfold control_axis. rewrite axis1. unfold second_half, x, body_command. cbn [vget vec_of_list]. f_equal. unfold t. lia. }
  pose proof (vel_step As Bs Djs Ejs (control_axis N x t) (state_axis (ps_base model) t) k (in_T v) _ HT AI BI DI EI CB) as (V1 & V2).
  rewrite !BASE, !BODY by lia. fold t.
  (* the same for vectors that agree in the first half *)
  assert (EXT : forall y t' k' q, (forall i, (i < 2 * N)%nat -> vget y i = vget x i) -> (t' < 2)%nat -> (k' <= N)%nat ->
    vget (simulate As Bs 1 (control_axis N y t') (state_axis (ps_base model) t') k') q = vget (simulate As Bs 1 (control_axis N x t') (state_axis (ps_base model) t') k') q).
  { intros y t' k' q Hy Ht' Hk'. apply simulate_ext; try assumption; try lia. intros j Hj. unfold control_axis. rewrite !axis1. apply Hy. lia. }
  assert (XB : forall i, (i < 2 * N)%nat -> vget xb i = vget x i) by reflexivity.
  assert (XH : forall i, (i < 2 * N)%nat -> vget (vec_of_list (first_half N sol)) i = vget x i).
  { intros i Hi. unfold first_half, x. cbn [vec_of_list vget]. apply nth_firstn_0. exact Hi. }
  split; [|split; [exact V2|split; [|split; [|split; [|split; [|split; [|split]]]]]]].
  - replace (vget (pp_jerk p) (k * 2 + t)) with (vget (output Djs Ejs 1 (control_axis N x t) (simulate As Bs 1 (control_axis N x t) (state_axis (ps_base model) t)) k) 0); [exact V1|].
    unfold p. cbn [pp_jerk vadd vget vec_of]. destruct (ROW xb k t Hk Ht) as (_ & _ & _ & _ & Q & _). rewrite Q.
    unfold output. cbn [vadd vget]. rewrite DI, EI. f_equal.
  - exact (jerk_step Ad Bd _ _ k (in_T v) _ AJ BJ CD).
  - intros HM. unfold p. cbn [pp_cop vadd vget vec_of]. destruct (ROW x k t Hk Ht) as (_ & Q & _). rewrite Q, PI, PJ.
    unfold relative_cop, v3_of. cbn [Rsum mget row3 v3get Dps3 Dpd3 v3scale vx vy vz]. unfold gravity. field. exact HM.
  - unfold p. cbn [pp_base_controls vec_of_list vget]. rewrite nth_firstn_0 by lia. unfold base_command, t. f_equal. lia.
  - unfold p. cbn [pp_body_controls vec_of_list vget]. rewrite nth_skipn_0. unfold body_command, t. f_equal. lia.
  - unfold affine_value. destruct (ROW (vec_of_list (first_half N sol)) k t Hk Ht) as (_ & _ & Q & _). rewrite Q. cbn [v3_of vz]. apply EXT; try assumption. lia.
  - unfold affine_value. destruct (ROW (vec_of_list (first_half N sol)) k t Hk Ht) as (_ & _ & _ & Q & _). rewrite Q. cbn [v3_of vx]. apply EXT; try assumption. lia.
  - intros r Hr. unfold affine_value. fold x. destruct (ROW x k t Hk Ht) as (_ & _ & _ & _ & _ & Q). rewrite (Q v r Hv Hr).
    cbn [v3_of vx Rsum]. destruct a; cbn [t axis_index mat22 mget m2trans a00 a01 a10 a11]; unfold t; cbn [axis_index]; ring.
Qed.
End Profiles.

(** ** one evaluation of the two masses *)
Lemma diag_mulv_entry b blocks r c x : (0 < r)%nat -> (0 < c)%nat -> bm_diag r c blocks = Ok b -> sized blocks r c ->
  mrows (raw b) = (length blocks * r)%nat /\ mcols (raw b) = (length blocks * c)%nat /\
  forall i p, (i < length blocks)%nat -> (p < r)%nat -> vget (mulv (raw b) x) (i * r + p) = Rsum c (fun q => mget (mat_at blocks i) p q * vget x (i * c + q)).
Proof.
  intros Hr Hc E SZ. destruct (bm_diag_ok r c blocks Hr Hc SZ) as (b' & E' & HB & BR & BC & EN). rewrite E in E'. injection E' as <-.
  destruct HB as (_ & _ & R & C). rewrite BR in R. rewrite BC in C. split; [exact R|]. split; [exact C|].
  intros i p Hi Hp. cbn [mulv vget]. rewrite C, Rsum_blocks. rewrite (Rsum_single _ i); [|exact Hi|].
  - apply Rsum_ext. intros q Hq. rewrite EN, Nat.eqb_refl by assumption. reflexivity.
  - intros j Hj Nj. apply Rsum_zero. intros q Hq. rewrite EN by assumption. destruct (Nat.eqb_spec i j); [lia|]. ring.
Qed.

Definition vec_entry (x : vec) (first : nat) (a : axis) : v3 := V3 (vget x (first + 3 * axis_index a)) (vget x (first + 3 * axis_index a + 1)) (vget x (first + 3 * axis_index a + 2)).

Lemma evaluate_moves T Ts x u w : T <> 0 -> vlen x = 12%nat -> vlen u = 2%nat -> vlen w = 2%nat ->
  exists y, pepper_evaluate T Ts x u w = Ok y /\ vlen y = 12%nat /\ forall a,
    moved3 (vec_entry x 0 a) (vec_entry y 0 a) (vel_jerk (vec_entry x 0 a) (vget u (axis_index a)) T) Ts /\
    moved3 (vec_entry x 6 a) (vec_entry y 6 a) (vget w (axis_index a)) Ts.
Proof.
  intros HT HX HU HW. unfold pepper_evaluate, getA12, getB12.
  set (a := mat33 (if Req_EM_T Ts T then AVel3 T else AsVel3 T Ts)). set (d := mat33 (AJerk3 Ts)).
  set (b := col3 (if Req_EM_T Ts T then BVel3 T else BsVel3 T Ts)). set (e := col3 (BJerk3 Ts)).
  assert (SA : sized [a; a; d; d] 3 3) by (repeat constructor). assert (SB : sized [b; b; e; e] 3 1) by (repeat constructor).
  destruct (bm_diag_ok 3 3 [a; a; d; d] ltac:(lia) ltac:(lia) SA) as (A & EA & _). destruct (bm_diag_ok 3 1 [b; b; e; e] ltac:(lia) ltac:(lia) SB) as (B & EB & _).
  rewrite EA, EB. cbn [bind].
  destruct (diag_mulv_entry A _ 3 3 x ltac:(lia) ltac:(lia) EA SA) as (AR & AC & AV). destruct (diag_mulv_entry B _ 3 1 (vcat u w) ltac:(lia) ltac:(lia) EB SB) as (BR & BC & BV).
  cbn [length Nat.mul Nat.add] in AR, AC, BR, BC. rewrite AC, BC, HX, HU, HW. rewrite assert_true by reflexivity.
  eexists. split; [reflexivity|]. split; [cbn [vadd mulv vlen]; exact AR|].
  assert (MV : forall t p, (t < 4)%nat -> (p < 3)%nat -> vget (vadd (mulv (raw A) x) (mulv (raw B) (vcat u w))) (t * 3 + p) =
    Rsum 3 (fun q => mget (mat_at [a; a; d; d] t) p q * vget x (t * 3 + q)) + Rsum 1 (fun q => mget (mat_at [b; b; e; e] t) p q * vget (vcat u w) (t * 1 + q))).
  { intros t p Ht Hp. cbn [vadd vget]. rewrite AV, BV by assumption. reflexivity. }
  set (y := vadd _ _) in *. clearbody y. clear AV BV.
  intros ax. unfold moved3, vec_entry, vel_jerk, motion_position, motion_velocity, motion_acceleration. cbn [vx vy vz].
  pose proof (MV 0%nat 0%nat ltac:(lia) ltac:(lia)) as M00. pose proof (MV 0%nat 1%nat ltac:(lia) ltac:(lia)) as M01. pose proof (MV 0%nat 2%nat ltac:(lia) ltac:(lia)) as M02.
  pose proof (MV 1%nat 0%nat ltac:(lia) ltac:(lia)) as M10. pose proof (MV 1%nat 1%nat ltac:(lia) ltac:(lia)) as M11. pose proof (MV 1%nat 2%nat ltac:(lia) ltac:(lia)) as M12.
  pose proof (MV 2%nat 0%nat ltac:(lia) ltac:(lia)) as M20. pose proof (MV 2%nat 1%nat ltac:(lia) ltac:(lia)) as M21. pose proof (MV 2%nat 2%nat ltac:(lia) ltac:(lia)) as M22.
  pose proof (MV 3%nat 0%nat ltac:(lia) ltac:(lia)) as M30. pose proof (MV 3%nat 1%nat ltac:(lia) ltac:(lia)) as M31. pose proof (MV 3%nat 2%nat ltac:(lia) ltac:(lia)) as M32.
  clear MV. unfold mat_at, vcat in *. rewrite HU in *. cbn [nth Nat.mul Nat.add vget Rsum a d b e mat33 col3 mget v3get vx vy vz Nat.ltb Nat.leb Nat.sub] in *.
  destruct ax; cbn [axis_index Nat.mul Nat.add]; rewrite ?M00, ?M01, ?M02, ?M10, ?M11, ?M12, ?M20, ?M21, ?M22, ?M30, ?M31, ?M32; clear M00 M01 M02 M10 M11 M12 M20 M21 M22 M30 M31 M32;
    destruct (Req_EM_T Ts T) as [->|]; cbn; repeat split; field; exact HT.
Qed.

(** ** predicted states *)
Lemma jerk_unique x y j u T : T <> 0 -> moved3 x y j T -> vy y = u -> j = vel_jerk x u T.
Proof.
  intros HT (_ & V & _) <-. unfold vel_jerk. rewrite V. unfold motion_velocity. field. exact HT.
Qed.

Lemma entry_app a b ax : vlen a = 6%nat -> vec_entry (vcat a b) 0 ax = vec_entry a 0 ax /\ vec_entry (vcat a b) 6 ax = vec_entry b 0 ax.
Proof. intros H. unfold vec_entry, vcat. cbn [vget]. rewrite H. destruct ax; split; reflexivity. Qed.
Lemma mpc6_entry s a : vec_entry (mpc_state6 s) 0 a = along_axis s a.
Proof. destruct a; reflexivity. Qed.
Lemma rb_axis y first h a : along_axis (rb_state y first h) a = vec_entry y first a.
Proof. unfold rb_state, along_axis, vec_entry. destruct a; cbn; f_equal; f_equal; lia. Qed.
Lemma segment_entry v first k n a : vec_entry (mkVec n (fun i => vget v (first + 6 * k + i))) 0 a = profile_entry v first k a.
Proof. unfold vec_entry, profile_entry. cbn [vget]. f_equal; f_equal; lia. Qed.


Section Predicted.
Variables (junk : nat -> nat -> nat -> R) (N : nat) (l : list interval) (model : pepper_state) (sol : solution) (M : pepper_matrices) (p : pepper_profiles).
Hypothesis (HS : solved junk N l model sol M p).

Lemma solved_sizes : (vlen (pp_cstate p) = 12 * N /\ vlen (pp_cop p) = 2 * N /\ vlen (pp_jerk p) = 2 * N /\ vlen (pp_base_controls p) = 2 * N /\ vlen (pp_body_controls p) = 2 * N)%nat.
Proof.
  destruct HS as (HN & HL & H1 & H2 & H3 & H4). destruct (profiles_ok junk N l model sol HN HL H1 H2) as (M' & p' & E1 & E2 & Z & _).
  rewrite E1 in H3. injection H3 as ->. rewrite E2 in H4. injection H4 as ->. exact Z.
Qed.
Lemma solved_steps k v a : nth_error l k = Some v -> let i := (2 * k + axis_index a)%nat in
    moved3 (base_at model p k a) (base_at model p (k + 1) a) (vget (pp_jerk p) i) (in_T v) /\
    vy (base_at model p (k + 1) a) = base_command sol k a /\
    moved3 (body_at N model p k a) (body_at N model p (k + 1) a) (body_command N sol k a) (in_T v) /\
    (in_base_mass v + in_body_mass v <> 0 ->
     relative_cop (in_base_mass v) (in_body_mass v) (in_base_height v) (in_body_height v) (base_at model p (k + 1) a) (body_at N model p (k + 1) a) (vget (pp_cop p) i)) /\
    vget (pp_base_controls p) i = base_command sol k a /\ vget (pp_body_controls p) i = body_command N sol k a.
Proof.
  intros Hv. destruct HS as (HN & HL & H1 & H2 & H3 & H4). destruct (profiles_ok junk N l model sol HN HL H1 H2) as (M' & p' & E1 & E2 & _ & _ & Z).
  rewrite E1 in H3. injection H3 as ->. rewrite E2 in H4. injection H4 as ->. destruct (Z k v a Hv) as (Z1 & Z2 & Z3 & Z4 & Z5 & Z6 & _). cbv zeta. auto 10.
Qed.

Lemma jerk_value k v a : nth_error l k = Some v -> vget (pp_jerk p) (2 * k + axis_index a) = vel_jerk (base_at model p k a) (base_command sol k a) (in_T v).
Proof.
  intros Hv. destruct (solved_steps k v a Hv) as (A & B & _). destruct HS as (_ & (_ & LV) & _).
  apply (jerk_unique _ (base_at model p (k + 1) a)); [apply LV; apply (nth_error_In _ _ Hv)|exact A|exact B].
Qed.

Lemma segment_ok v first n : (first + n <= vlen v)%nat -> vsegment v first n = Ok (mkVec n (fun i => vget v (first + i))).
Proof. intros H. unfold vsegment. apply assert_true. apply Nat.leb_le. exact H. Qed.

Theorem model_state k v offset : nth_error l k = Some v ->
  exists s, getModelState N l p model k offset = Ok s /\
    (forall a, moved3 (base_at model p k a) (along_axis (ps_base s) a) (vel_jerk (base_at model p k a) (base_command sol 0 a) (in_T v)) offset /\
               moved3 (body_at N model p k a) (along_axis (ps_body s) a) (body_command N sol 0 a) offset) /\
    vz (pm_position (ps_base s)) = in_base_height v /\ vz (pm_position (ps_body s)) = in_body_height v /\
    vz (ps_rpy s) = heading_before l model k + (in_theta v - heading_before l model k) * offset / in_T v /\
    ps_base_mass s = default_base_mass /\ ps_body_mass s = default_body_mass.
Proof.
  intros Hv. pose proof HS as (HN & (LL & LV) & _). assert (Hk : (k < N)%nat) by (rewrite <- LL; apply nth_error_Some; rewrite Hv; discriminate).
  assert (HT : in_T v <> 0) by (apply LV; apply (nth_error_In _ _ Hv)).
  destruct solved_sizes as (Z1 & Z2 & Z3 & Z4 & Z5).
  assert (H0 : exists v0, nth_error l 0 = Some v0). { destruct l as [|v0 ?]; [cbn in LL; lia|exists v0; reflexivity]. } destruct H0 as (v0 & H0).
  unfold getModelState, interval_at, vec_at. rewrite Hv. cbn [bind].
  match goal with |- context [bind (if (k =? 0)%nat then Ok (vz (ps_rpy model)) else ?e) ?f] =>
    replace (if (k =? 0)%nat then Ok (vz (ps_rpy model)) else e) with (Ok (heading_before l model k) : outcome R) end.
  2:{ destruct k as [|j]; [reflexivity|]. cbn [Nat.eqb Nat.sub heading_before]. rewrite Nat.sub_0_r.
      destruct (nth_error l j) as [w|] eqn:W; [|apply nth_error_None in W; lia]. cbn [bind]. rewrite (nth_error_nth _ _ _ W). reflexivity. }
  cbn [bind].
  assert (PR : exists x, (if (k =? 0)%nat then Ok (mpc_state12 model)
        else bind (vsegment (pp_cstate p) ((k - 1) * 12 / 2) (12 / 2)) (fun a =>
             bind (vsegment (pp_cstate p) (N * 12 / 2 + (k - 1) * 12 / 2) (12 / 2)) (fun b => Ok (vcat a b)))) = Ok x /\ vlen x = 12%nat /\
        forall a, vec_entry x 0 a = base_at model p k a /\ vec_entry x 6 a = body_at N model p k a).
  { destruct k as [|j].
    - exists (mpc_state12 model). split; [reflexivity|]. split; [reflexivity|]. intros a. unfold mpc_state12.
      destruct (entry_app (mpc_state6 (ps_base model)) (mpc_state6 (ps_body model)) a eq_refl) as [-> ->]. rewrite !mpc6_entry. split; reflexivity.
    - cbn [Nat.eqb Nat.sub]. rewrite Nat.sub_0_r. change (12 / 2)%nat with 6%nat.
      assert (D1 : (j * 12 / 2 = 0 + 6 * j)%nat) by (replace (j * 12)%nat with ((6 * j) * 2)%nat by lia; rewrite Nat.div_mul; lia).
      assert (D2 : (N * 12 / 2 = 6 * N)%nat) by (replace (N * 12)%nat with ((6 * N) * 2)%nat by lia; rewrite Nat.div_mul; lia).
      rewrite D1, D2. rewrite segment_ok by lia. cbn [bind]. rewrite segment_ok by lia. cbn [bind].
      eexists. split; [reflexivity|]. split; [reflexivity|]. intros a.
      match goal with |- vec_entry (vcat ?s1 ?s2) 0 a = _ /\ _ => destruct (entry_app s1 s2 a eq_refl) as [Q1 Q2] end. rewrite Q1, Q2. cbn [base_at body_at].
      split.
      + exact (segment_entry (pp_cstate p) 0 j 6 a).
      + replace (0 + 6 * j)%nat with (6 * j)%nat by lia. exact (segment_entry (pp_cstate p) (6 * N) j 6 a). }
  destruct PR as (x & EX & LX & X). rewrite EX. cbn [bind].
  rewrite segment_ok by lia. cbn [bind]. rewrite segment_ok by lia. cbn [bind]. rewrite segment_ok by lia. cbn [bind]. rewrite segment_ok by lia. cbn [bind].
  set (u := mkVec 2 (fun i => vget (pp_base_controls p) (0 + i))). set (w := mkVec 2 (fun i => vget (pp_body_controls p) (0 + i))).
  destruct (evaluate_moves (in_T v) offset x u w HT LX eq_refl eq_refl) as (y & EY & _ & Y).
  unfold getNextState. rewrite EY. cbn [bind]. eexists. split; [reflexivity|]. cbn [ps_base ps_body ps_rpy ps_base_mass ps_body_mass].
  split; [|repeat split; reflexivity].
  intros a. rewrite !rb_axis. destruct (Y a) as (Y1 & Y2). destruct (X a) as (X1 & X2). rewrite X1 in Y1. rewrite X2 in Y2.
  destruct (solved_steps 0 v0 a H0) as (_ & _ & _ & _ & C1 & C2). cbn [Nat.mul Nat.add] in C1, C2.
  change (vget u (axis_index a)) with (vget (pp_base_controls p) (axis_index a)) in Y1. change (vget w (axis_index a)) with (vget (pp_body_controls p) (axis_index a)) in Y2.
  rewrite C1 in Y1. rewrite C2 in Y2. split; assumption.
Qed.

(** C60 *)
Theorem first_interval : predicts_state N l model sol p 0.
Proof.
  intros v offset s a Hv E. destruct (model_state 0 v offset Hv) as (s' & E' & K & _). rewrite E in E'. injection E' as <-.
  destruct (K a) as (K1 & K2). rewrite (jerk_value 0 v a Hv). split; assumption.
Qed.
Lemma moved3_fun x y z j t : moved3 x y j t -> moved3 x z j t -> y = z.
Proof. intros (A & B & C) (A' & B' & C'). destruct y, z. cbn in *. congruence. Qed.
Theorem later_interval_wrong k v a : nth_error l k = Some v -> base_command sol 0 a <> base_command sol k a ->
  exists s, getModelState N l p model k (in_T v) = Ok s /\ vy (along_axis (ps_base s) a) = base_command sol 0 a /\ vy (base_at model p (k + 1) a) = base_command sol k a.
Proof.
  intros Hv NE. destruct (model_state k v (in_T v) Hv) as (s & E & K & _). exists s. split; [exact E|].
  destruct HS as (_ & (_ & LV) & _). assert (HT : in_T v <> 0) by (apply LV; apply (nth_error_In _ _ Hv)).
  destruct (K a) as ((_ & K1 & _) & _). split.
  - rewrite K1. unfold motion_velocity, vel_jerk. field. exact HT.
  - apply (solved_steps k v a Hv).
Qed.
Theorem later_interval_not_predicted k v a : nth_error l k = Some v -> base_command sol 0 a <> base_command sol k a -> ~ predicts_state N l model sol p k.
Proof.
  intros Hv NE P. destruct (later_interval_wrong k v a Hv NE) as (s & E & A & B). destruct (P v (in_T v) s a Hv E) as (Q & _).
  destruct (solved_steps k v a Hv) as (Q' & _). rewrite (moved3_fun _ _ _ _ _ Q Q') in A. congruence.
Qed.
Theorem predicted_with_equal_commands k : (forall a, base_command sol k a = base_command sol 0 a /\ body_command N sol k a = body_command N sol 0 a) -> predicts_state N l model sol p k.
Proof.
  intros EQ v offset s a Hv E. destruct (model_state k v offset Hv) as (s' & E' & K & _). rewrite E in E'. injection E' as <-.
  destruct (K a) as (K1 & K2). destruct (EQ a) as (Q1 & Q2). rewrite (jerk_value k v a Hv), Q1, Q2. split; assumption.
Qed.

(** C71 *)
Theorem next_state v : nth_error l 0 = Some v ->
  exists s, initializeNextModelState l p model = Ok s /\
    (forall a, along_axis (ps_base s) a = base_at model p 1 a /\ along_axis (ps_body s) a = body_at N model p 1 a) /\
    vz (pm_position (ps_base s)) = in_base_height v /\ vz (pm_position (ps_body s)) = in_body_height v /\ vz (ps_rpy s) = in_theta v /\
    ps_base_mass s = default_base_mass /\ ps_body_mass s = default_body_mass.
Proof.
  intros Hv. destruct (model_state 0 v (in_T v) Hv) as (s & E & K & A & B & C & D). pose proof HS as (HN & (_ & LV) & _).
  assert (HT : in_T v <> 0) by (apply LV; apply (nth_error_In _ _ Hv)). destruct solved_sizes as (Z1 & Z2 & Z3 & Z4 & Z5).
  unfold getModelState, interval_at, vec_at in E. rewrite Hv in E. cbn [bind Nat.eqb] in E. cbn [Nat.mul] in E.
  do 2 (rewrite segment_ok in E by lia; cbn [bind] in E).
  unfold initializeNextModelState, interval_at, vec_at. rewrite Hv. cbn [bind]. do 2 (rewrite segment_ok by lia; cbn [bind]).
  unfold getNextState in *. destruct (pepper_evaluate _ _ _ _ _) as [y| |]; try discriminate. cbn [bind] in *. injection E as <-.
  cbn [ps_base ps_body ps_rpy ps_base_mass ps_body_mass] in *. eexists. split; [reflexivity|]. cbn [ps_base ps_body ps_rpy ps_base_mass ps_body_mass].
  split; [|repeat split; reflexivity].
  intros a. destruct (K a) as (K1 & K2). destruct (solved_steps 0 v a Hv) as (S1 & _ & S2 & _). rewrite (jerk_value 0 v a Hv) in S1.
  split; [exact (moved3_fun _ _ _ _ _ K1 S1)|exact (moved3_fun _ _ _ _ _ K2 S2)].
Qed.
End Predicted.

(** ** C72: the centre of pressure of a state *)
Theorem state_cop junk s : exists c, getCoP junk s = Ok c /\ vlen c = 2%nat /\ forall a, ps_base_mass s + ps_body_mass s <> 0 ->
  relative_cop (ps_base_mass s) (ps_body_mass s) (vz (pm_position (ps_base s))) (vz (pm_position (ps_body s))) (along_axis (ps_base s) a) (along_axis (ps_body s) a) (vget c (axis_index a)).
Proof.
  unfold getCoP.
  set (X := Dps3 _ _ _). set (Y := Dpd3 _ _ _).
  assert (KV : forall j j' r v, vlen v = 6%nat -> exists out, bind (kron_make (row3 r) 2 1 3) (fun k => kron_multiplyRight_vector j j' k (column_of v)) = Ok out /\
     mrows out = 2%nat /\ mcols out = 1%nat /\ forall t, (t < 2)%nat -> mget out t 0 = vget (mulv (row3 r) (axis_of 2 3 t 3 v)) 0).
  { intros j j' r v Hv. destruct (kron2_vector_axis j j' (mkBm (row3 r) 1 3) v 1 1) as (out & E & A & B & C).
    - unfold has_blocks. cbn. repeat split; lia.
    - exact Hv.
    - exists out. split; [exact E|]. split; [exact A|]. split; [exact B|]. intros t Ht. pose proof (C 0%nat t 0%nat ltac:(lia) Ht ltac:(cbn; lia)) as Q.
      cbn [block_rows block_cols raw] in Q. replace ((0 * 2 + t) * 1 + 0)%nat with t in Q by lia. exact Q. }
  destruct (KV (junk 0%nat) (junk 1%nat) X (mpc_state6 (ps_base s)) eq_refl) as (o1 & E1 & R1 & C1 & V1).
  destruct (KV (junk 2%nat) (junk 3%nat) Y (mpc_state6 (ps_body s)) eq_refl) as (o2 & E2 & R2 & C2 & V2).
  destruct (kron_make (row3 X) 2 1 3) as [k1| |]; cbn [bind] in E1 |- *; try discriminate.
  destruct (kron_make (row3 Y) 2 1 3) as [k2| |]; cbn [bind] in E2 |- *; try discriminate.
  rewrite E1, E2. cbn [bind]. unfold madd_o. rewrite assert_true by (apply andb_true_intro; split; apply Nat.eqb_eq; lia). cbn [bind].
  eexists. split; [reflexivity|]. split; [cbn [vec_of vlen madd mrows]; exact R1|]. intros a HM.
  cbn [vec_of vget madd mget]. rewrite (V1 _ (axis_lt a)), (V2 _ (axis_lt a)). unfold relative_cop, X, Y.
  destruct a; cbn -[Rmult Rplus Rdiv Rinv gravity]; unfold gravity; field; exact HM.
Qed.

(** ** C69 in terms of [solved] *)
Theorem solved_exists junk N l model sol : (0 < N)%nat -> formed_horizon N l -> sol_structure sol = structure_pepper N -> length (sol_x sol) = (4 * N)%nat ->
  exists M p, solved junk N l model sol M p /\ (vlen (pp_cstate p) = 12 * N /\ vlen (pp_cop p) = 2 * N /\ vlen (pp_jerk p) = 2 * N)%nat.
Proof.
  intros HN HL H1 H2. destruct (profiles_ok junk N l model sol HN HL H1 H2) as (M & p & E1 & E2 & Z & _).
  exists M, p. split; [repeat split; try assumption; try apply HL; assumption|]. destruct Z as (Z1 & Z2 & Z3 & _). auto.
Qed.
Theorem profile_motion junk N l model sol M p k v a : solved junk N l model sol M p -> nth_error l k = Some v ->
  moved3 (base_at model p k a) (base_at model p (k + 1) a) (vget (pp_jerk p) (2 * k + axis_index a)) (in_T v) /\
  vy (base_at model p (k + 1) a) = base_command sol k a /\
  moved3 (body_at N model p k a) (body_at N model p (k + 1) a) (body_command N sol k a) (in_T v).
Proof. intros HS Hv. destruct (solved_steps junk N l model sol M p HS k v a Hv) as (A & B & C & _). auto. Qed.
Theorem profile_cop junk N l model sol M p k v a : solved junk N l model sol M p -> nth_error l k = Some v -> in_base_mass v + in_body_mass v <> 0 ->
  relative_cop (in_base_mass v) (in_body_mass v) (in_base_height v) (in_body_height v) (base_at model p (k + 1) a) (body_at N model p (k + 1) a) (vget (pp_cop p) (2 * k + axis_index a)).
Proof. intros HS Hv. apply (solved_steps junk N l model sol M p HS k v a Hv). Qed.
Theorem profile_tasks junk N l model sol M p k v a r : solved junk N l model sol M p -> nth_error l k = Some v -> in_rotation v = Ok r ->
  affine_value (pmAas M) (pmsas M) (first_half N sol) (2 * k + axis_index a) = vz (base_at model p (k + 1) a) /\
  affine_value (pmAps M) (pmsps M) (first_half N sol) (2 * k + axis_index a) = vx (base_at model p (k + 1) a) /\
  affine_value (pmApd M) (pmspd M) (sol_x sol) (2 * k + axis_index a) =
  in_frame r (vx (base_at model p (k + 1) AxisX) - vx (body_at N model p (k + 1) AxisX)) (vx (base_at model p (k + 1) AxisY) - vx (body_at N model p (k + 1) AxisY)) a.
Proof.
  intros (HN & HL & H1 & H2 & H3 & H4) Hv Hr. destruct (profiles_ok junk N l model sol HN HL H1 H2) as (M' & p' & E1 & E2 & _ & _ & Z).
  rewrite E1 in H3. injection H3 as ->. rewrite E2 in H4. injection H4 as ->. destruct (Z k v a Hv) as (_ & _ & _ & _ & _ & _ & A & B & C).
  split; [exact A|]. split; [exact B|]. rewrite (C r Hr). destruct a; reflexivity.
Qed.
(** values of the solution outside of the problem sizes are refused *)
Theorem wrong_size_rejected junk N l model sol M : (0 < N)%nat -> formed_horizon N l -> updateMatrices junk N l model = Ok M -> length (sol_x sol) <> (4 * N)%nat ->
  parseSolution N M sol = Throw.
Proof.
  intros HN HL EM HX. destruct (update_rows junk N l model HN HL) as (M' & EM' & R1 & R2 & _). rewrite EM in EM'. injection EM' as <-.
  unfold parseSolution, affine. assert (Q : (mcols (pmS M) =? vlen (vec_of_list (sol_x sol)))%nat = false) by (apply Nat.eqb_neq; cbn [vec_of_list vlen]; lia). rewrite Q. reflexivity.
Qed.

(** ** C70 *)
Theorem heights_swapped h b x : vz (pm_position (ps_base (ps_of_heights h b x))) = b /\ vz (pm_position (ps_body (ps_of_heights h b x))) = h.
Proof. split; reflexivity. Qed.
Theorem heights_wrong h b x : h <> b -> vz (pm_position (ps_base (ps_of_heights h b x))) <> h /\ vz (pm_position (ps_body (ps_of_heights h b x))) <> b.
Proof. intros H. destruct (heights_swapped h b x) as [A B]. rewrite A, B. auto. Qed.
Theorem parameters_kept hb hd x mb md : vz (pm_position (ps_base (ps_setParameters hb hd x mb md))) = hb /\ vz (pm_position (ps_body (ps_setParameters hb hd x mb md))) = hd /\
  vx (pm_position (ps_body (ps_setParameters hb hd x mb md))) = x /\ ps_base_mass (ps_setParameters hb hd x mb md) = mb /\ ps_body_mass (ps_setParameters hb hd x mb md) = md.
Proof. repeat split. Qed.
Theorem positions_kept mb md pb pd : pm_position (ps_base (ps_of_positions mb md pb pd)) = pb /\ pm_position (ps_body (ps_of_positions mb md pb pd)) = pd /\
  ps_base_mass (ps_of_positions mb md pb pd) = mb /\ ps_body_mass (ps_of_positions mb md pb pd) = md /\
  pm_velocity (ps_base (ps_of_positions mb md pb pd)) = V3 0 0 0 /\ pm_velocity (ps_body (ps_of_positions mb md pb pd)) = V3 0 0 0.
Proof. repeat split. Qed.

(** ** C71: masses *)
Theorem next_state_masses junk N l model sol M p s : solved junk N l model sol M p -> initializeNextModelState l p model = Ok s ->
  ps_base_mass s = default_base_mass /\ ps_body_mass s = default_body_mass.
Proof.
  intros HS E. pose proof HS as (HN & (LL & _) & _). destruct l as [|v l']; [cbn in LL; lia|].
  destruct (next_state junk N (v :: l') model sol M p HS v eq_refl) as (s' & E' & _ & _ & _ & _ & M1 & M2). rewrite E in E'. injection E' as <-. auto.
Qed.

(** the CoP of the next state is the first one of the profile, when the interval has the default masses *)
Theorem next_state_cop junk junk' N l model sol M p s v c a : solved junk N l model sol M p -> nth_error l 0 = Some v -> initializeNextModelState l p model = Ok s -> getCoP junk' s = Ok c ->
  in_base_mass v = default_base_mass -> in_body_mass v = default_body_mass -> vget c (axis_index a) = vget (pp_cop p) (axis_index a).
Proof.
  intros HS Hv E EC Q1 Q2. destruct (next_state junk N l model sol M p HS v Hv) as (s' & E' & K & A & B & _ & M1 & M2). rewrite E in E'. injection E' as <-.
  destruct (state_cop junk' s) as (c' & EC' & _ & C). rewrite EC in EC'. injection EC' as <-.
  assert (HM : default_base_mass + default_body_mass <> 0) by (unfold default_base_mass, default_body_mass; lra).
  specialize (C a). rewrite M1, M2 in C. specialize (C HM). rewrite A, B in C. destruct (K a) as (K1 & K2). rewrite K1, K2 in C.
  pose proof (profile_cop junk N l model sol M p 0 v a HS Hv) as D. rewrite Q1, Q2 in D. specialize (D HM). cbn [Nat.mul Nat.add] in D.
  unfold relative_cop in C, D. rewrite <- D in C. apply Rmult_eq_reg_l in C; [lra|exact HM].
Qed.

(** ** an example: two intervals of 100 ms, the base is commanded to 1 and then 2 along x *)
Definition ex_rotation : m2 := M2 1 0 0 1.
Definition ex_interval : interval :=
  mkInterval 100 (1 / 10) 0 (1 / 10) (7 / 10) 15 12 (Some (ex_rotation, V2 0 0, V2 0 0, (ex_rotation, ex_rotation, ex_rotation, ex_rotation))).
Definition ex_horizon : list interval := [ex_interval; ex_interval].
Definition ex_solution : solution := mkSolution (structure_pepper 2) [1; 0; 2; 0; 0; 0; 0; 0].
Definition ex_model : pepper_state := mkPS (mkPM (V3 0 0 (1 / 10)) (V3 0 0 0) (V3 0 0 0)) (V3 0 0 0) (mkPM (V3 0 0 (7 / 10)) (V3 0 0 0) (V3 0 0 0)) 15 12.
Definition ex_junk : nat -> nat -> nat -> R := fun _ _ _ => 0.
Lemma ex_formed : formed_horizon 2 ex_horizon.
Proof. split; [reflexivity|]. intros v [<-|[<-|[]]]; cbn; split; [lra|discriminate|lra|discriminate]. Qed.
Lemma ex_solved : exists M p, solved ex_junk 2 ex_horizon ex_model ex_solution M p.
Proof. destruct (solved_exists ex_junk 2 ex_horizon ex_model ex_solution ltac:(lia) ex_formed eq_refl eq_refl) as (M & p & S & _). eauto. Qed.

Theorem model_state_refuted : exists junk N l model sol M p k, solved junk N l model sol M p /\ (k < N)%nat /\ ~ predicts_state N l model sol p k.
Proof.
  destruct ex_solved as (M & p & S). exists ex_junk, 2%nat, ex_horizon, ex_model, ex_solution, M, p, 1%nat. split; [exact S|]. split; [lia|].
  apply (later_interval_not_predicted _ _ _ _ _ _ _ S 1 ex_interval AxisX eq_refl). unfold base_command. cbn. lra.
Qed.
Theorem masses_refuted : exists junk N l model sol M p s, solved junk N l model sol M p /\ initializeNextModelState l p model = Ok s /\
  (ps_base_mass s <> ps_base_mass model /\ ps_body_mass s <> ps_body_mass model).
Proof.
  destruct ex_solved as (M & p & S). destruct (next_state _ _ _ _ _ _ _ S ex_interval eq_refl) as (s & E & _ & _ & _ & _ & M1 & M2).
  exists ex_junk, 2%nat, ex_horizon, ex_model, ex_solution, M, p, s. split; [exact S|]. split; [exact E|]. rewrite M1, M2. unfold default_base_mass, default_body_mass. cbn. lra.
Qed.

(** ** the results of the section with their hypothesis *)
Theorem solved_model_state junk N l model sol M p k v offset : solved junk N l model sol M p -> nth_error l k = Some v ->
  exists s, getModelState N l p model k offset = Ok s /\
    (forall a, moved3 (base_at model p k a) (along_axis (ps_base s) a) (vel_jerk (base_at model p k a) (base_command sol 0 a) (in_T v)) offset /\
               moved3 (body_at N model p k a) (along_axis (ps_body s) a) (body_command N sol 0 a) offset) /\
    vz (pm_position (ps_base s)) = in_base_height v /\ vz (pm_position (ps_body s)) = in_body_height v /\
    vz (ps_rpy s) = heading_before l model k + (in_theta v - heading_before l model k) * offset / in_T v /\
    ps_base_mass s = default_base_mass /\ ps_body_mass s = default_body_mass.
Proof. intros HS. exact (model_state junk N l model sol M p HS k v offset). Qed.
Theorem solved_first_interval junk N l model sol M p : solved junk N l model sol M p -> predicts_state N l model sol p 0.
Proof. exact (first_interval junk N l model sol M p). Qed.
Theorem solved_equal_commands junk N l model sol M p k : solved junk N l model sol M p ->
  (forall a, base_command sol k a = base_command sol 0 a /\ body_command N sol k a = body_command N sol 0 a) -> predicts_state N l model sol p k.
Proof. intros HS. exact (predicted_with_equal_commands junk N l model sol M p HS k). Qed.
Theorem solved_later_interval junk N l model sol M p k v a : solved junk N l model sol M p -> nth_error l k = Some v ->
  base_command sol 0 a <> base_command sol k a -> ~ predicts_state N l model sol p k.
Proof. intros HS. exact (later_interval_not_predicted junk N l model sol M p HS k v a). Qed.
Theorem solved_next_state junk N l model sol M p v : solved junk N l model sol M p -> nth_error l 0 = Some v ->
  exists s, initializeNextModelState l p model = Ok s /\
    (forall a, along_axis (ps_base s) a = base_at model p 1 a /\ along_axis (ps_body s) a = body_at N model p 1 a) /\
    vz (pm_position (ps_base s)) = in_base_height v /\ vz (pm_position (ps_body s)) = in_body_height v /\ vz (ps_rpy s) = in_theta v /\
    ps_base_mass s = default_base_mass /\ ps_body_mass s = default_body_mass.
Proof. intros HS. exact (next_state junk N l model sol M p HS v). Qed.

(** update of a state: the positions, the yaw and the masses are replaced, everything else is kept *)
Theorem updated_state (s : pepper_state) (mb md : R) (pb pd : v3) (yaw : R) : let u := ps_update s mb md pb pd yaw in
  pm_position (ps_base u) = pb /\ pm_position (ps_body u) = pd /\ vz (ps_rpy u) = yaw /\ ps_base_mass u = mb /\ ps_body_mass u = md /\
  pm_velocity (ps_base u) = pm_velocity (ps_base s) /\ pm_acceleration (ps_base u) = pm_acceleration (ps_base s) /\
  pm_velocity (ps_body u) = pm_velocity (ps_body s) /\ pm_acceleration (ps_body u) = pm_acceleration (ps_body s) /\
  vx (ps_rpy u) = vx (ps_rpy s) /\ vy (ps_rpy u) = vy (ps_rpy s).
Proof. cbv zeta. repeat split. Qed.
