From Coq Require Import String List Reals Arith Lra Lia Bool ZArith.
From Verif Require Import Base BaseFacts RSum Matrix Mat2 Mat3 SmallMatrix BlockMatrix BlockMatrixFacts BlockMatrixSpec GridFill BlockProductFacts Kronecker
  KroneckerFacts KroneckerFacts2 Condense CondenseSpec CondenseFacts CondenseLoops CondenseLoops2 CondenseOutputFacts CondenseResults TripleIntegrator TripleIntegratorSpec
  PointMass6z PointMass6zSpec Solution PepperPreview MpcGuess PepperModel PepperMpc PepperMpcSpec KronAxisFacts.
Import ListNotations.
Local Open Scope R_scope.

Lemma shaped_has_blocks b r c nv nh : (0 < r)%nat -> (0 < c)%nat -> shaped b r c nv nh -> has_blocks b nv nh.
Proof. intros Hr Hc (A & B & C & D). unfold has_blocks. rewrite A, B. auto. Qed.

(** ** rows of the matrices which are derived from a condensed one *)
Lemma select_blocks b nv nh row : has_blocks b nv nh -> has_blocks (selectRowInBlocks b row) nv nh.
Proof. intros HB. destruct (has_blocks_num _ _ _ HB) as [NV NH]. destruct HB as (Hr & Hc & R & C). unfold has_blocks, selectRowInBlocks. cbn [block_rows block_cols raw mrows mcols]. rewrite NV. repeat split; lia. Qed.
Lemma select_lower b n row : has_blocks b n n -> (row < block_rows b)%nat -> block_lower (raw b) (block_rows b) (block_cols b) n ->
  block_lower (raw (selectRowInBlocks b row)) 1 (block_cols b) n.
Proof.
  intros HB Hr L i j p q Hi Hj Hp Hq Lt. cbn [selectRowInBlocks raw mget]. replace (i * 1 + p)%nat with i by lia. apply L; assumption.
Qed.
Lemma select_row b row v i : vget (mulv (raw (selectRowInBlocks b row)) v) i = vget (mulv (raw b) v) (i * block_rows b + row).
Proof. reflexivity. Qed.

Lemma diag_product_row junk d blocks b nv nh : sized blocks 1 3 -> bm_diag 1 3 blocks = Ok d -> has_blocks b nv nh -> block_rows b = 3%nat -> length blocks = nv ->
  exists m, bm_mul_diag_by junk d b = Ok m /\ has_blocks (mkBm m 1 (block_cols b)) nv nh /\
    (block_lower (raw b) 3 (block_cols b) nv -> nv = nh -> block_lower m 1 (block_cols b) nv) /\
    forall v i, (i < nv)%nat -> vget (mulv m v) i = Rsum 3 (fun q => mget (mat_at blocks i) 0 q * vget (mulv (raw b) v) (i * 3 + q)).
Proof.
  intros SZ ED HB BR LN. pose proof HB as (Hr & Hc & R & C). unfold bm_mul_diag_by. rewrite BR in R.
  destruct (diag_mul_entry junk d blocks 1 3 (raw b) ltac:(lia) ltac:(lia) ED SZ ltac:(lia)) as (m & E & MR & MC & EN).
  rewrite LN in *. assert (EN' : forall i j, (i < nv)%nat -> (j < mcols (raw b))%nat -> mget m i j = Rsum 3 (fun q => mget (mat_at blocks i) 0 q * mget (raw b) (i * 3 + q) j)).
  { intros i j Hi Hj. pose proof (EN i 0%nat j Hi ltac:(lia) Hj) as H. replace (i * 1 + 0)%nat with i in H by lia. exact H. }
  exists m. split; [exact E|]. split; [|split].
  - unfold has_blocks. cbn [raw block_rows block_cols]. repeat split; lia.
  - intros L <- i j p q Hi Hj Hp Hq Lt. replace (i * 1 + p)%nat with i by lia. rewrite EN' by nia. apply Rsum_zero. intros k Hk.
    rewrite L by assumption. ring.
  - intros v i Hi. cbn [mulv vget]. rewrite MC.
    transitivity (Rsum (mcols (raw b)) (fun k => Rsum 3 (fun q => mget (mat_at blocks i) 0 q * mget (raw b) (i * 3 + q) k * vget v k))).
    + apply Rsum_ext. intros k Hk. rewrite EN' by assumption. rewrite <- Rsum_scal_r. reflexivity.
    + rewrite Rsum_swap. apply Rsum_ext. intros q Hq. rewrite <- Rsum_scal. apply Rsum_ext. intros k Hk. ring.
Qed.

Lemma diag_kron2_row d blocks b n : sized blocks 2 2 -> bm_diag 2 2 blocks = Ok d -> length blocks = n -> has_blocks b n n -> block_rows b = 1%nat -> block_cols b = 1%nat ->
  block_lower (raw b) 1 1 n ->
  exists m, diag_kron2 d b = Ok m /\ mrows m = (2 * n)%nat /\ mcols m = (2 * n)%nat /\
    forall v i t, (i < n)%nat -> (t < 2)%nat ->
      vget (mulv m v) (i * 2 + t) = Rsum 2 (fun t' => mget (mat_at blocks i) t t' * vget (mulv (raw b) (axis_of 2 1 t' (n * 1) v)) i).
Proof.
  intros SZ ED LN HB BR BC L. destruct (bm_diag_ok 2 2 blocks ltac:(lia) ltac:(lia) SZ) as (d' & E' & HD & DR & DC & EN). rewrite ED in E'. injection E' as <-.
  rewrite LN in *. unfold diag_kron2.
  assert (HB' : has_blocks (mkBm (raw b) 1 1) n n). { destruct HB as (H1 & H2 & H3 & H4). rewrite BR in *. rewrite BC in *. unfold has_blocks. cbn [raw block_rows block_cols]. auto. }
  rewrite (proj2 (kron_make_iff (raw b) 2 1 1 (mkKron (mkBm (raw b) 1 1) 2))). 2:{ split; [reflexivity|]. split; [lia|]. exists n, n. exact HB'. }
  cbn [bind].
  destruct (kron1_left_dense (mkKron (mkBm (raw b) 1 1) 2) d n (mzero 0 0)) as (m & E & (MR & MC & ME)); cbn [kbm ksize block_rows block_cols raw]; try assumption; try reflexivity; try lia.
  { exists 0%nat, 0%nat. unfold has_blocks. cbn. repeat split; lia. }
  exists m. split; [exact E|]. cbn [kbm ksize] in *. pose proof HD as (_ & _ & R & C). rewrite DR in R. rewrite DC in C.
  destruct (dense_of_sizes true (mkBm (raw b) 1 1)) as [SR SC]. cbn [raw] in SR, SC. pose proof HB' as (_ & _ & RB & CB). cbn [raw block_rows block_cols] in RB, CB.
  cbn [mmul mrows mcols block_diagonal_of kron_of] in MR, MC. rewrite SC in MC.
  split; [lia|]. split; [lia|]. intros v i t Hi Ht.
  assert (D : dense_of true (mkBm (raw b) 1 1) ==m raw b) by (apply (dense_lower (mkBm (raw b) 1 1) n); assumption).
  set (K := kron_of (dense_of true (mkBm (raw b) 1 1)) 1 1 2) in *.
  transitivity (vget (mulv (block_diagonal_of d) (mulv K v)) (i * 2 + t)).
  - assert (V : veq (mulv m v) (mulv (mmul (block_diagonal_of d) K) v)).
    { split; [cbn [mulv vlen]; rewrite MR; reflexivity|]. intros k Hk. cbn [mulv vget vlen] in *.
      replace (mcols (mmul (block_diagonal_of d) K)) with (mcols m) by (cbn [mmul mcols]; unfold K; cbn [kron_of mcols]; rewrite SC; lia).
      apply Rsum_ext. intros j Hj. rewrite ME by assumption. reflexivity. }
    rewrite (proj2 V) by (cbn [mulv vlen]; lia).
    apply (proj2 (mulv_mul (block_diagonal_of d) K v ltac:(unfold K; cbn [block_diagonal_of kron_of mcols mrows]; rewrite SR; lia))).
    cbn [mulv vlen mmul mrows block_diagonal_of]. lia.
  - cbn [mulv vget]. replace (mcols (block_diagonal_of d)) with (n * 2)%nat by (cbn [block_diagonal_of mcols]; lia). rewrite Rsum_blocks.
    rewrite (Rsum_single n i); [|exact Hi|].
    + apply Rsum_ext. intros t' Ht'. cbn [block_diagonal_of mget]. rewrite DR, DC, !grid_div, Nat.eqb_refl by assumption.
      rewrite EN, Nat.eqb_refl by assumption. f_equal.
      replace (mcols K) with (2 * (n * 1))%nat by (unfold K; cbn [kron_of mcols]; rewrite SC; lia).
      pose proof (kron_row (dense_of true (mkBm (raw b) 1 1)) 1 1 2 n i t' 0 v Ht' ltac:(lia) ltac:(lia) ltac:(lia)) as KR.
      replace ((i * 2 + t') * 1 + 0)%nat with (i * 2 + t')%nat in KR by lia. replace (i * 1 + 0)%nat with i in KR by lia.
      unfold K. rewrite KR. cbn [mulv vget]. rewrite SC. apply Rsum_ext. intros k Hk. rewrite (proj2 (proj2 D)) by lia. reflexivity.
    + intros j Hj Nj. apply Rsum_zero. intros q Hq. cbn [block_diagonal_of mget]. rewrite DR, DC, !grid_div by assumption.
      destruct (Nat.eqb_spec i j); [lia|]. ring.
Qed.

(** ** the condensed matrices of one mass *)
Section Condensed.
Variables (A B : list mat) (N : nat).
Hypotheses (HA : sized A 3 3) (HB : sized B 3 1) (LA : length A = N) (LB : length B = N) (HN : (0 < N)%nat).

Lemma condensed_one junk : exists S U, condense junk 3 1 A B = Ok (S, U) /\ shaped S 3 3 N 1 /\ shaped U 3 1 N N /\
  condensed A B 3 1 (raw S) (raw U) /\ block_lower (raw U) 3 1 N /\
  forall x0 u, vlen x0 = 3%nat -> vlen u = N -> forall i p, (i < N)%nat -> (p < 3)%nat ->
    vget (mulv (raw S) x0) (i * 3 + p) + vget (mulv (raw U) u) (i * 3 + p) = vget (simulate A B 1 u x0 (i + 1)) p.
Proof.
  assert (LAB : length A = length B) by lia.
  destruct (condense_blocks A B 3 1 HA HB LAB ltac:(lia) junk ltac:(lia) ltac:(lia)) as (S & U & E & SS & SU & C).
  exists S, U. split; [exact E|]. rewrite LA in *. split; [exact SS|]. split; [exact SU|]. split; [exact C|]. split.
  - pose proof (condensed_lower _ _ _ _ _ _ C) as L. rewrite LA in L. exact L.
  - intros x0 u X0 Ul i p Hi Hp.
    destruct (condensed_simulates A B 3 1 (raw S) (raw U) HA HB ltac:(lia) C x0 u X0 ltac:(lia) i ltac:(lia)) as [_ V].
    rewrite Nat.add_1_r. rewrite <- V by exact Hp. reflexivity.
Qed.
End Condensed.

Lemma sized_map {X} (f : X -> mat) r c (l : list X) : (forall x, mrows (f x) = r /\ mcols (f x) = c) -> sized (map f l) r c.
Proof. intros H. apply Forall_forall. intros m I. apply in_map_iff in I. destruct I as (x & <- & _). apply H. Qed.
Lemma mat_at_map {X} (f : X -> mat) l k x : nth_error l k = Some x -> mat_at (map f l) k = f x.
Proof. intros H. unfold mat_at. apply nth_error_nth. rewrite nth_error_map, H. reflexivity. Qed.

Lemma formRotation_ok l : (forall v, In v l -> in_set v <> None) ->
  exists rs, sequence (map in_rotation l) = Ok rs /\ length rs = length l /\ (forall k v, nth_error l k = Some v -> exists r, nth_error rs k = Some r /\ in_rotation v = Ok r).
Proof.
  induction l as [|v l IH]; intros H.
  - exists []. split; [reflexivity|]. split; [reflexivity|]. intros [|k] v E; discriminate.
  - destruct IH as (rs & E & L & K). { intros w I. apply H. right. exact I. }
    assert (R : exists r, in_rotation v = Ok r). { unfold in_rotation. destruct (in_set v) as [[[[r ?] ?] ?]|] eqn:Q; [eauto|]. destruct (H v (or_introl eq_refl) Q). }
    destruct R as (r & R). exists (r :: rs). cbn [map sequence]. rewrite R. cbn [bind]. rewrite E. cbn [bind]. split; [reflexivity|].
    split; [cbn; lia|]. intros [|k] w E'; cbn [nth_error] in *; [injection E' as <-; eauto|apply K; exact E'].
Qed.

Section Update.
Variables (junk : nat -> nat -> nat -> R) (N : nat) (l : list interval) (model : pepper_state).
Hypotheses (HN : (0 < N)%nat) (HL : formed_horizon N l).

Let As := map (fun v => mat33 (AVel3 (in_T v))) l.
Let Bs := map (fun v => col3 (BVel3 (in_T v))) l.
Let Ad := map (fun v => mat33 (AJerk3 (in_T v))) l.
Let Bd := map (fun v => col3 (BJerk3 (in_T v))) l.
Let Djs := map (fun v => row3 (D3 Vel (in_T v))) l.
Let Ejs := map (fun v => mkMat 1 1 (fun _ _ => E3 Vel (in_T v))) l.
Let Ps := map (fun v => row3 (Dps3 (in_base_height v) (in_base_mass v) (in_body_mass v))) l.
Let Pd := map (fun v => row3 (Dpd3 (in_body_height v) (in_base_mass v) (in_body_mass v))) l.

(** the initial states and the controls of one axis *)
Definition state_axis (s : point_mass_state) (t : nat) : vec := axis_of 2 3 t (1 * 3) (mpc_state6 s).
Definition control_axis (n : nat) (v : vec) (t : nat) : vec := axis_of 2 1 t (n * 1) v.
Definition second_half (n : nat) (v : vec) : vec := mkVec (2 * n) (fun i => vget v (2 * n + i)).
Let simS (v : vec) (t k : nat) : vec := simulate As Bs 1 (control_axis N v t) (state_axis (ps_base model) t) k.
Let simD (v : vec) (t k : nat) : vec := simulate Ad Bd 1 (control_axis N (second_half N v) t) (state_axis (ps_body model) t) k.

Lemma update_rows : exists M, updateMatrices junk N l model = Ok M /\
  mrows (pmS M) = (12 * N)%nat /\ mcols (pmS M) = (4 * N)%nat /\ mrows (pms M) = (12 * N)%nat /\
  mrows (pmAp M) = (2 * N)%nat /\ mcols (pmAp M) = (4 * N)%nat /\ mrows (pmsp M) = (2 * N)%nat /\
  mrows (pmAjs M) = (2 * N)%nat /\ mcols (pmAjs M) = (2 * N)%nat /\ mrows (pmsjs M) = (2 * N)%nat /\
  mrows (pmAas M) = (2 * N)%nat /\ mcols (pmAas M) = (2 * N)%nat /\ mrows (pmsas M) = (2 * N)%nat /\
  mrows (pmAps M) = (2 * N)%nat /\ mcols (pmAps M) = (2 * N)%nat /\ mrows (pmsps M) = (2 * N)%nat /\
  mrows (pmApd M) = (2 * N)%nat /\ mcols (pmApd M) = (4 * N)%nat /\ mrows (pmspd M) = (2 * N)%nat /\
  forall v i t, (i < N)%nat -> (t < 2)%nat ->
   (forall p, (p < 3)%nat ->
     vget (mulv (pmS M) v) ((i * 2 + t) * 3 + p) + mget (pms M) ((i * 2 + t) * 3 + p) 0 = vget (simS v t (i + 1)) p /\
     vget (mulv (pmS M) v) (6 * N + ((i * 2 + t) * 3 + p)) + mget (pms M) (6 * N + ((i * 2 + t) * 3 + p)) 0 = vget (simD v t (i + 1)) p) /\
   vget (mulv (pmAp M) v) (i * 2 + t) + mget (pmsp M) (i * 2 + t) 0 =
     Rsum 3 (fun q => mget (mat_at Ps i) 0 q * vget (simS v t (i + 1)) q) + Rsum 3 (fun q => mget (mat_at Pd i) 0 q * vget (simD v t (i + 1)) q) /\
   vget (mulv (pmAas M) v) (i * 2 + t) + mget (pmsas M) (i * 2 + t) 0 = vget (simS v t (i + 1)) 2 /\
   vget (mulv (pmAps M) v) (i * 2 + t) + mget (pmsps M) (i * 2 + t) 0 = vget (simS v t (i + 1)) 0 /\
   vget (mulv (pmAjs M) v) (i * 2 + t) + mget (pmsjs M) (i * 2 + t) 0 = vget (output Djs Ejs 1 (control_axis N v t) (simS v t) i) 0 /\
   (forall w r, nth_error l i = Some w -> in_rotation w = Ok r ->
     vget (mulv (pmApd M) v) (i * 2 + t) + mget (pmspd M) (i * 2 + t) 0 =
     Rsum 2 (fun t' => mget (mat22 (m2trans r)) t t' * (vget (simS v t' (i + 1)) 0 - vget (simD v t' (i + 1)) 0))).
Proof.
  destruct HL as [LL LV].
  assert (SAs : sized As 3 3) by (apply sized_map; intros; split; reflexivity).
  assert (SBs : sized Bs 3 1) by (apply sized_map; intros; split; reflexivity).
  assert (SAd : sized Ad 3 3) by (apply sized_map; intros; split; reflexivity).
  assert (SBd : sized Bd 3 1) by (apply sized_map; intros; split; reflexivity).
  assert (SDj : sized Djs 1 3) by (apply sized_map; intros; split; reflexivity).
  assert (SEj : sized Ejs 1 1) by (apply sized_map; intros; split; reflexivity).
  assert (SPs : sized Ps 1 3) by (apply sized_map; intros; split; reflexivity).
  assert (SPd : sized Pd 1 3) by (apply sized_map; intros; split; reflexivity).
  assert (LAs : length As = N) by (unfold As; rewrite map_length; exact LL).
  assert (LBs : length Bs = N) by (unfold Bs; rewrite map_length; exact LL).
  assert (LAd : length Ad = N) by (unfold Ad; rewrite map_length; exact LL).
  assert (LBd : length Bd = N) by (unfold Bd; rewrite map_length; exact LL).
  assert (LDj : length Djs = N) by (unfold Djs; rewrite map_length; exact LL).
  assert (LEj : length Ejs = N) by (unfold Ejs; rewrite map_length; exact LL).
  assert (LPs : length Ps = N) by (unfold Ps; rewrite map_length; exact LL).
  assert (LPd : length Pd = N) by (unfold Pd; rewrite map_length; exact LL).
  unfold updateMatrices. cbv zeta.
  assert (NV : getNumberOfVariables (structure_pepper N) = (4 * N)%nat) by (cbn; lia). rewrite NV.
  assert (HC : (4 * N / 2 = 2 * N)%nat) by (replace (4 * N)%nat with ((2 * N) * 2)%nat by lia; apply Nat.div_mul; lia). rewrite HC.
  assert (HR : (12 * N / 2 = 6 * N)%nat) by (replace (12 * N)%nat with ((6 * N) * 2)%nat by lia; apply Nat.div_mul; lia). rewrite HR.
  destruct (formRotation_ok l) as (rs & ER & LR & KR). { intros v I. apply LV. exact I. }
  unfold formRotationMatrices. rewrite ER. cbn [bind].
  assert (SR : sized (map (fun r => mat22 (m2trans r)) rs) 2 2) by (apply sized_map; intros; split; reflexivity).
  destruct (bm_diag_ok 2 2 (map (fun r => mat22 (m2trans r)) rs) ltac:(lia) ltac:(lia) SR) as (Rm & ERm & HRm & RmR & RmC & _).
  rewrite ERm. cbn [bind]. rewrite LL, Nat.ltb_irrefl. replace (firstn N l) with l by (rewrite <- LL; symmetry; apply firstn_all).
  fold As Bs Ad Bd Djs Ejs Ps Pd.
  destruct (bm_diag_ok 1 3 Ps ltac:(lia) ltac:(lia) SPs) as (Dps & EDps & _). rewrite EDps. cbn [bind].
  destruct (bm_diag_ok 1 3 Pd ltac:(lia) ltac:(lia) SPd) as (Dpd & EDpd & _). rewrite EDpd. cbn [bind].
  destruct (condensed_one As Bs N SAs SBs LAs LBs HN (junk 0%nat)) as (Uxs & Uus & EUs & ShXs & ShUs & Cs & Ls & Ss). rewrite EUs. cbn [bind fst snd].
  destruct (condensed_one Ad Bd N SAd SBd LAd LBd HN (junk 1%nat)) as (Uxd & Uud & EUd & ShXd & ShUd & Cd & Ld & Sd). rewrite EUd. cbn [bind fst snd].
  destruct (condenseOutput_ok Djs Ejs 1 3 1 N SDj SEj LDj LEj HN ltac:(lia) ltac:(lia) ltac:(lia) (junk 2%nat) Uxs Uus ShXs ShUs) as (Ojx & Oju & EO & ShOx & ShOu & OO).
  rewrite EO. cbn [bind fst snd].
  pose proof (shaped_has_blocks _ 3 3 N 1 ltac:(lia) ltac:(lia) ShXs) as BXs. pose proof (shaped_has_blocks _ 3 1 N N ltac:(lia) ltac:(lia) ShUs) as BUs.
  pose proof (shaped_has_blocks _ 3 3 N 1 ltac:(lia) ltac:(lia) ShXd) as BXd. pose proof (shaped_has_blocks _ 3 1 N N ltac:(lia) ltac:(lia) ShUd) as BUd.
  pose proof (shaped_has_blocks _ 1 3 N 1 ltac:(lia) ltac:(lia) ShOx) as BOx. pose proof (shaped_has_blocks _ 1 1 N N ltac:(lia) ltac:(lia) ShOu) as BOu.
  destruct ShXs as (XsR & XsC & _). destruct ShUs as (UsR & UsC & _). destruct ShXd as (XdR & XdC & _). destruct ShUd as (UdR & UdC & _).
  destruct ShOx as (OxR & OxC & _). destruct ShOu as (OuR & OuC & _).
  rewrite bm_resize_ok by lia. cbn [bind raw].
  (* S_ *)
  destruct (kron2_block_axis Uus N (mkMat (2 * (6 * N)) (2 * (2 * N)) (junk 3%nat)) 0 0 (6 * N) (2 * N)) as (S1 & ES1 & S1R & S1C & _ & S1V); try (rewrite ?UsR, ?UsC; assumption); try (cbn [mrows mcols]; lia).
  rewrite ES1. cbn [bind]. cbn [mrows mcols] in S1R, S1C. rewrite UsR, UsC in S1V.
  rewrite putb_ok by (first [reflexivity|lia]). cbn [bind]. rewrite putb_ok by (first [reflexivity|cbn [mset_block mrows mcols]; lia]). cbn [bind].
  match goal with |- context [kron2_evaluate_block Uud ?m _ _ _ _] => set (S3 := m) end.
  assert (S3R : mrows S3 = (2 * (6 * N))%nat) by exact S1R. assert (S3C : mcols S3 = (2 * (2 * N))%nat) by exact S1C.
  destruct (kron2_block_axis Uud N S3 (6 * N) (2 * N) (6 * N) (2 * N)) as (Sm & ES & SmR & SmC & SmO & SmV); try (rewrite ?UdR, ?UdC; assumption); try lia.
  rewrite ES. cbn [bind]. rewrite UdR, UdC in SmV.
  (* s_ *)
  destruct (kron2_vector_axis (junk 4%nat) (junk 5%nat) Uxs (mpc_state6 (ps_base model)) N 1 BXs) as (s0 & Es0 & s0R & s0C & s0V); [rewrite XsC; reflexivity|].
  rewrite Es0. cbn [bind]. rewrite XsR, XsC in *.
  destruct (kron2_vector_axis (junk 6%nat) (junk 7%nat) Uxd (mpc_state6 (ps_body model)) N 1 BXd) as (s1 & Es1 & s1R & s1C & s1V); [rewrite XdC; reflexivity|].
  rewrite Es1. cbn [bind]. rewrite XdR, XdC in *.
  rewrite assert_true by (apply Nat.eqb_eq; lia).
  (* sp_, Ap_ *)
  destruct (diag_product_row (junk 8%nat) Dps Ps Uxs N 1 SPs EDps BXs XsR LPs) as (DUxs & E1 & BDxs & _ & DxsV). rewrite E1. cbn [bind]. rewrite XsC in BDxs.
  destruct (diag_product_row (junk 9%nat) Dpd Pd Uxd N 1 SPd EDpd BXd XdR LPd) as (DUxd & E2 & BDxd & _ & DxdV). rewrite E2. cbn [bind]. rewrite XdC in BDxd.
  destruct (kron2_vector_axis (junk 10%nat) (junk 11%nat) (mkBm DUxs 1 3) (mpc_state6 (ps_base model)) N 1 BDxs) as (sp0 & E3 & sp0R & sp0C & sp0V); [reflexivity|].
  rewrite E3. cbn [bind]. cbn [block_rows block_cols raw] in sp0R, sp0V.
  destruct (kron2_vector_axis (junk 12%nat) (junk 13%nat) (mkBm DUxd 1 3) (mpc_state6 (ps_body model)) N 1 BDxd) as (sp1 & E4 & sp1R & sp1C & sp1V); [reflexivity|].
  rewrite E4. cbn [bind]. cbn [block_rows block_cols raw] in sp1R, sp1V.
  unfold madd_o. rewrite assert_true by (apply andb_true_intro; split; apply Nat.eqb_eq; lia). cbn [bind].
  destruct (diag_product_row (junk 14%nat) Dps Ps Uus N N SPs EDps BUs UsR LPs) as (DUus & E5 & BDus & DusL & DusV). rewrite E5. cbn [bind]. rewrite UsC in BDus, DusL.
  destruct (diag_product_row (junk 15%nat) Dpd Pd Uud N N SPd EDpd BUd UdR LPd) as (DUud & E6 & BDud & DudL & DudV). rewrite E6. cbn [bind]. rewrite UdC in BDud, DudL.
  specialize (DusL Ls eq_refl). specialize (DudL Ld eq_refl).
  destruct (kron2_block_axis (mkBm DUus 1 1) N (mkMat (2 * N) (4 * N) (junk 16%nat)) 0 0 (2 * N) (2 * N)) as (Ap0 & E7 & Ap0R & Ap0C & _ & Ap0V);
    try (cbn [raw block_rows block_cols]; assumption); try (cbn [mrows mcols block_rows block_cols]; lia).
  rewrite E7. cbn [bind]. cbn [mrows mcols block_rows block_cols raw] in Ap0R, Ap0C, Ap0V.
  replace (4 * N - 2 * N)%nat with (2 * N)%nat by lia.
  destruct (kron2_block_axis (mkBm DUud 1 1) N Ap0 0 (2 * N) (2 * N) (2 * N)) as (Ap & E8 & ApR & ApC & ApO & ApV);
    try (cbn [raw block_rows block_cols]; assumption); try (cbn [mrows mcols block_rows block_cols]; lia).
  rewrite E8. cbn [bind]. cbn [block_rows block_cols raw] in ApV.
  (* selections *)
  pose proof (select_blocks Uxs N 1 2 BXs) as BXs2. pose proof (select_blocks Uxs N 1 0 BXs) as BXs0. pose proof (select_blocks Uxd N 1 0 BXd) as BXd0.
  pose proof (select_blocks Uus N N 2 BUs) as BUs2. pose proof (select_blocks Uus N N 0 BUs) as BUs0. pose proof (select_blocks Uud N N 0 BUd) as BUd0.
  assert (LUs2 : block_lower (raw (selectRowInBlocks Uus 2)) 1 1 N) by (pose proof (select_lower Uus N 2 BUs) as Q; rewrite UsR, UsC in Q; apply Q; [lia|exact Ls]).
  assert (LUs0 : block_lower (raw (selectRowInBlocks Uus 0)) 1 1 N) by (pose proof (select_lower Uus N 0 BUs) as Q; rewrite UsR, UsC in Q; apply Q; [lia|exact Ls]).
  assert (LUd0 : block_lower (raw (selectRowInBlocks Uud 0)) 1 1 N) by (pose proof (select_lower Uud N 0 BUd) as Q; rewrite UdR, UdC in Q; apply Q; [lia|exact Ld]).
  destruct (kron2_vector_axis (junk 17%nat) (junk 18%nat) (selectRowInBlocks Uxs 2) (mpc_state6 (ps_base model)) N 1 BXs2) as (sas & E9 & sasR & sasC & sasV); [cbn [selectRowInBlocks block_cols]; rewrite XsC; reflexivity|].
  rewrite E9. cbn [bind]. change (block_rows (selectRowInBlocks Uxs 2)) with 1%nat in *. change (block_cols (selectRowInBlocks Uxs 2)) with (block_cols Uxs) in *. rewrite XsC in *.
  assert (CUs2 : block_cols (selectRowInBlocks Uus 2) = 1%nat) by exact UsC. assert (CUs0 : block_cols (selectRowInBlocks Uus 0) = 1%nat) by exact UsC.
  assert (CUd0 : block_cols (selectRowInBlocks Uud 0) = 1%nat) by exact UdC.
  destruct (kron2_evaluate_axis (selectRowInBlocks Uus 2) N BUs2) as (Aas & E10 & AasR & AasC & AasV); [rewrite CUs2; exact LUs2|].
  rewrite E10. cbn [bind]. rewrite CUs2 in *. change (block_rows (selectRowInBlocks Uus 2)) with 1%nat in *.
  destruct (kron2_vector_axis (junk 19%nat) (junk 20%nat) (selectRowInBlocks Uxs 0) (mpc_state6 (ps_base model)) N 1 BXs0) as (sps & E11 & spsR & spsC & spsV); [cbn [selectRowInBlocks block_cols]; rewrite XsC; reflexivity|].
  rewrite E11. cbn [bind]. change (block_rows (selectRowInBlocks Uxs 0)) with 1%nat in *. change (block_cols (selectRowInBlocks Uxs 0)) with (block_cols Uxs) in *. rewrite XsC in *.
  destruct (kron2_evaluate_axis (selectRowInBlocks Uus 0) N BUs0) as (Aps & E12 & ApsR & ApsC & ApsV); [rewrite CUs0; exact LUs0|].
  rewrite E12. cbn [bind]. rewrite CUs0 in ApsC, ApsV. change (block_rows (selectRowInBlocks Uus 0)) with 1%nat in *.
  destruct (kron2_vector_axis (junk 21%nat) (junk 22%nat) (selectRowInBlocks Uxd 0) (mpc_state6 (ps_body model)) N 1 BXd0) as (spb & E13 & spbR & spbC & spbV); [cbn [selectRowInBlocks block_cols]; rewrite XdC; reflexivity|].
  rewrite E13. cbn [bind]. change (block_rows (selectRowInBlocks Uxd 0)) with 1%nat in *. change (block_cols (selectRowInBlocks Uxd 0)) with (block_cols Uxd) in *. rewrite XdC in *.
  unfold msub_o. rewrite assert_true by (apply andb_true_intro; split; apply Nat.eqb_eq; lia). cbn [bind].
  destruct (diag_mul_entry (junk 23%nat) Rm (map (fun r => mat22 (m2trans r)) rs) 2 2 (msub sps spb) ltac:(lia) ltac:(lia) ERm SR) as (spd & E14 & spdR & spdC & spdV); [rewrite map_length; cbn [msub mrows]; lia|].
  rewrite E14. cbn [bind]. rewrite map_length in spdR, spdV.
  destruct (diag_kron2_row Rm _ (selectRowInBlocks Uus 0) N SR ERm ltac:(rewrite map_length; lia) BUs0 eq_refl CUs0 LUs0) as (Apd0 & E15 & A0R & A0C & A0V). rewrite E15. cbn [bind].
  destruct (diag_kron2_row Rm _ (selectRowInBlocks Uud 0) N SR ERm ltac:(rewrite map_length; lia) BUd0 eq_refl CUd0 LUd0) as (Apd1 & E16 & A1R & A1C & A1V). rewrite E16. cbn [bind].
  rewrite assert_true by (rewrite !andb_true_iff, !Nat.eqb_eq; lia).
  destruct (kron2_vector_axis (junk 24%nat) (junk 25%nat) Ojx (mpc_state6 (ps_base model)) N 1 BOx) as (sjs & E17 & sjsR & sjsC & sjsV); [rewrite OxC; reflexivity|].
  rewrite E17. cbn [bind]. rewrite OxR, OxC in *.
  assert (LO : block_lower (raw Oju) 1 1 N).
  { destruct OO as (_ & _ & _ & _ & _ & OU). intros i j p q Hi Hj Hp Hq Lt. rewrite OU by assumption. destruct (Nat.eqb_spec j i); [lia|]. destruct (Nat.ltb_spec j i); [lia|]. reflexivity. }
  destruct (kron2_evaluate_axis Oju N BOu) as (Ajs & E18 & AjsR & AjsC & AjsV); [rewrite OuR, OuC; exact LO|].
  rewrite E18. cbn [bind]. rewrite OuR, OuC in *.
  eexists. split; [reflexivity|]. cbn [pmS pms pmAp pmsp pmAas pmsas pmAps pmsps pmApd pmspd pmAjs pmsjs].
  cbn [mvcat mhcat mopp madd mrows mcols].
  do 18 (split; [lia|]).
  intros v i t Hi Ht.
  assert (VSx : forall b, vlen (state_axis b t) = 3%nat) by reflexivity.
  assert (VC : forall w t', vlen (control_axis N w t') = N) by (intros; cbn; lia).
  split; [|split; [|split; [|split; [|split]]]].
  - (* S *)
    intros p Hp. split.
    + unfold simS. rewrite <- (Ss _ _ (VSx _) (VC _ _) i p Hi Hp). rewrite Rplus_comm. f_equal.
      * cbn [mvcat mget]. replace (((i * 2 + t) * 3 + p <? mrows s0)%nat) with true by (symmetry; apply Nat.ltb_lt; nia). apply s0V; assumption.
      * pose proof (S1V v i t p Hi Ht Hp) as Q. unfold control_axis. rewrite <- Q. clear Q.
        cbn [mulv vget]. rewrite SmC, S3C. replace (2 * (2 * N))%nat with (2 * N + 2 * N)%nat by lia. rewrite Rsum_split.
        match goal with |- _ + ?z = _ => assert (Z : z = 0) end.
        { apply Rsum_zero. intros k Hk. rewrite SmO; try (first [nia|unfold in_block; replace ((6 * N <=? (i * 2 + t) * 3 + p)%nat) with false by (symmetry; apply Nat.leb_gt; nia); reflexivity]).
          unfold S3. cbn [mset_block mget mrows mcols mzero]. unfold in_block.
          replace ((6 * N <=? (i * 2 + t) * 3 + p)%nat) with false by (symmetry; apply Nat.leb_gt; nia). cbn [andb].
          replace ((0 <=? (i * 2 + t) * 3 + p)%nat) with true by reflexivity.
          replace (((i * 2 + t) * 3 + p <? 0 + 6 * N)%nat) with true by (symmetry; apply Nat.ltb_lt; nia).
          replace ((2 * N <=? 2 * N + k)%nat) with true by (symmetry; apply Nat.leb_le; lia).
          replace ((2 * N + k <? 2 * N + 2 * N)%nat) with true by (symmetry; apply Nat.ltb_lt; lia). cbn [andb]. ring. }
        rewrite Z, Rplus_0_r. apply Rsum_ext. intros k Hk. cbn [Nat.add]. f_equal.
        rewrite SmO; try (first [nia|unfold in_block; replace ((6 * N <=? (i * 2 + t) * 3 + p)%nat) with false by (symmetry; apply Nat.leb_gt; nia); reflexivity]).
        unfold S3. cbn [mset_block mget mrows mcols mzero]. unfold in_block.
        replace ((6 * N <=? (i * 2 + t) * 3 + p)%nat) with false by (symmetry; apply Nat.leb_gt; nia).
        replace ((2 * N <=? k)%nat) with false by (symmetry; apply Nat.leb_gt; nia). cbn [andb]. rewrite Bool.andb_false_r. reflexivity.
    + unfold simD. rewrite <- (Sd _ _ (VSx _) (VC _ _) i p Hi Hp). rewrite Rplus_comm. f_equal.
      * cbn [mvcat mget]. replace ((6 * N + ((i * 2 + t) * 3 + p) <? mrows s0)%nat) with false by (symmetry; apply Nat.ltb_ge; nia).
        replace (6 * N + ((i * 2 + t) * 3 + p) - mrows s0)%nat with ((i * 2 + t) * 3 + p)%nat by lia. apply s1V; assumption.
      * pose proof (SmV (second_half N v) i t p Hi Ht Hp) as Q. unfold control_axis. rewrite <- Q. clear Q.
        cbn [mulv vget]. rewrite SmC, S3C. replace (2 * (2 * N))%nat with (2 * N + 2 * N)%nat by lia. rewrite Rsum_split.
        match goal with |- ?z + _ = _ => assert (Z : z = 0) end.
        { apply Rsum_zero. intros k Hk. rewrite SmO; try (first [nia|unfold in_block; replace ((2 * N <=? k)%nat) with false by (symmetry; apply Nat.leb_gt; nia); rewrite Bool.andb_false_r; reflexivity]).
          unfold S3. cbn [mset_block mget mrows mcols mzero]. unfold in_block.
          replace ((6 * N <=? 6 * N + ((i * 2 + t) * 3 + p))%nat) with true by (symmetry; apply Nat.leb_le; nia).
          replace ((6 * N + ((i * 2 + t) * 3 + p) <? 6 * N + 6 * N)%nat) with true by (symmetry; apply Nat.ltb_lt; nia).
          replace ((0 <=? k)%nat) with true by reflexivity.
          replace ((k <? 0 + 2 * N)%nat) with true by (symmetry; apply Nat.ltb_lt; lia). cbn [andb]. ring. }
        rewrite Z, Rplus_0_l. apply Rsum_ext. intros k Hk. reflexivity.
  - (* Ap *)
    pose proof (sp0V i t 0%nat Hi Ht ltac:(lia)) as Q0. pose proof (sp1V i t 0%nat Hi Ht ltac:(lia)) as Q1.
    replace ((i * 2 + t) * 1 + 0)%nat with (i * 2 + t)%nat in Q0, Q1 by lia. replace (i * 1 + 0)%nat with i in Q0, Q1 by lia.
    rewrite DxsV in Q0 by exact Hi. rewrite DxdV in Q1 by exact Hi.
    pose proof (Ap0V v i t 0%nat Hi Ht ltac:(lia)) as P0. pose proof (ApV (second_half N v) i t 0%nat Hi Ht ltac:(lia)) as P1.
    cbn [Nat.add] in P0, P1. replace ((i * 2 + t) * 1 + 0)%nat with (i * 2 + t)%nat in P0, P1 by lia. replace (i * 1 + 0)%nat with i in P0, P1 by lia.
    rewrite DusV in P0 by exact Hi. rewrite DudV in P1 by exact Hi.
    cbn [madd mget]. rewrite Q0, Q1. clear Q0 Q1.
    assert (SUM : vget (mulv Ap v) (i * 2 + t) = Rsum (2 * N) (fun k => mget Ap0 (i * 2 + t) k * vget v k) + Rsum (2 * N) (fun k => mget Ap (i * 2 + t) (2 * N + k) * vget (second_half N v) k)).
    { cbn [mulv vget]. rewrite ApC, Ap0C. replace (4 * N)%nat with (2 * N + 2 * N)%nat by lia. rewrite Rsum_split. f_equal.
      apply Rsum_ext. intros k Hk. f_equal. apply ApO; try nia. unfold in_block. replace ((2 * N <=? k)%nat) with false by (symmetry; apply Nat.leb_gt; nia). cbn [andb]. apply Bool.andb_false_r. }
    rewrite SUM, P0, P1. clear SUM P0 P1.
    assert (G : forall a b c d : R, a + b + (c + d) = (c + a) + (d + b)) by (intros; ring). rewrite G. clear G.
    rewrite <- !Rsum_plus. apply Rsum_ext; intros q Hq; f_equal; rewrite <- Rmult_plus_distr_l; f_equal.
    + exact (Ss _ _ (VSx _) (VC _ _) i q Hi Hq).
    + exact (Sd _ _ (VSx _) (VC _ _) i q Hi Hq).
  - pose proof (sasV i t 0%nat Hi Ht ltac:(lia)) as Q. pose proof (AasV v i t 0%nat Hi Ht ltac:(lia)) as P.
    replace ((i * 2 + t) * 1 + 0)%nat with (i * 2 + t)%nat in Q, P by lia. replace (i * 1 + 0)%nat with i in Q, P by lia.
    rewrite select_row, XsR in Q. rewrite select_row, UsR in P. rewrite P, Q, Rplus_comm. exact (Ss _ _ (VSx _) (VC _ _) i 2%nat Hi ltac:(lia)).
  - pose proof (spsV i t 0%nat Hi Ht ltac:(lia)) as Q. pose proof (ApsV v i t 0%nat Hi Ht ltac:(lia)) as P.
    replace ((i * 2 + t) * 1 + 0)%nat with (i * 2 + t)%nat in Q, P by lia. replace (i * 1 + 0)%nat with i in Q, P by lia.
    rewrite select_row, XsR in Q. rewrite select_row, UsR in P. rewrite P, Q, Rplus_comm. exact (Ss _ _ (VSx _) (VC _ _) i 0%nat Hi ltac:(lia)).
  - pose proof (sjsV i t 0%nat Hi Ht ltac:(lia)) as Q. pose proof (AjsV v i t 0%nat Hi Ht ltac:(lia)) as P.
    replace ((i * 2 + t) * 1 + 0)%nat with (i * 2 + t)%nat in Q, P by lia. replace (i * 1 + 0)%nat with i in Q, P by lia.
    rewrite P, Q, Rplus_comm. clear P Q.
    assert (LAB : length As = length Bs) by lia. rewrite <- LAs in OO.
    pose proof (sim_stack As Bs 3 1 _ _ SAs SBs LAB Cs Djs Ejs 1 _ _ SDj SEj ltac:(lia) ltac:(lia) OO (state_axis (ps_base model) t) (control_axis N v t) eq_refl ltac:(rewrite VC; lia) i ltac:(lia)) as [_ V].
    unfold simS. rewrite <- V by (cbn [part vlen]; lia). cbn [part vget vadd]. replace (i * 1 + 0)%nat with i by lia. reflexivity.
  - intros w r Hw Hr. destruct (KR i w Hw) as (r' & Hr' & Hr''). rewrite Hr in Hr''. injection Hr'' as <-.
    assert (MR : mat_at (map (fun r => mat22 (m2trans r)) rs) i = mat22 (m2trans r)) by exact (mat_at_map (fun r => mat22 (m2trans r)) rs i r Hr').
    pose proof (spdV i t 0%nat ltac:(lia) Ht ltac:(cbn [msub mcols]; lia)) as Q. rewrite MR in Q. rewrite Q. clear Q.
    pose proof (A0V v i t Hi Ht) as P0. pose proof (A1V (second_half N v) i t Hi Ht) as P1. rewrite MR in P0, P1.
    assert (SUM : vget (mulv (mhcat Apd0 (mopp Apd1)) v) (i * 2 + t) = vget (mulv Apd0 v) (i * 2 + t) - vget (mulv Apd1 (second_half N v)) (i * 2 + t)).
    { cbn [mulv vget mhcat mcols mopp]. rewrite A0C, A1C, Rsum_split. unfold Rminus. f_equal.
      - apply Rsum_ext. intros k Hk. cbn [mhcat mget]. rewrite A0C. replace ((k <? 2 * N)%nat) with true by (symmetry; apply Nat.ltb_lt; lia). reflexivity.
      - rewrite <- Rsum_opp. apply Rsum_ext. intros k Hk. cbn [mhcat mopp mget second_half vget]. rewrite A0C.
        replace ((2 * N + k <? 2 * N)%nat) with false by (symmetry; apply Nat.ltb_ge; lia). replace (2 * N + k - 2 * N)%nat with k by lia. ring. }
    rewrite SUM, P0, P1. clear SUM P0 P1. rewrite <- Rsum_minus, <- Rsum_plus. apply Rsum_ext. intros t' Ht'.
    cbn [msub mget]. pose proof (spsV i t' 0%nat Hi Ht' ltac:(lia)) as Q0. pose proof (spbV i t' 0%nat Hi Ht' ltac:(lia)) as Q1.
    replace ((i * 2 + t') * 1 + 0)%nat with (i * 2 + t')%nat in Q0, Q1 by lia. replace (i * 1 + 0)%nat with i in Q0, Q1 by lia.
    rewrite select_row, XsR in Q0. rewrite select_row, XdR in Q1. rewrite Q0, Q1, !select_row, UsR, UdR. clear Q0 Q1.
    unfold simS, simD. rewrite <- (Ss _ _ (eq_refl : vlen (state_axis (ps_base model) t') = 3%nat) (VC v t') i 0%nat Hi ltac:(lia)).
    rewrite <- (Sd _ _ (eq_refl : vlen (state_axis (ps_body model) t') = 3%nat) (VC (second_half N v) t') i 0%nat Hi ltac:(lia)).
    unfold state_axis, control_axis. ring.
Qed.
End Update.
