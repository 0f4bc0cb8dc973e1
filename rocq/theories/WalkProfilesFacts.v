(** * Proofs about the matrices of the walking MPC problem (C73): rows of the matrices *)
From Coq Require Import String List Reals Arith Lra Lia Bool Sorting.Sorted.
From Verif Require Import Base BaseFacts RSum Matrix Mat2 Mat3 SmallMatrix BlockMatrix BlockMatrixFacts BlockMatrixSpec GridFill BlockProductFacts Kronecker
  KroneckerFacts KroneckerFacts2 Condense CondenseSpec CondenseFacts CondenseLoops CondenseLoops2 CondenseOutputFacts CondenseResults
  PointMass6z PointMass6zSpec Solution MpcGuess MpcGuessFacts PepperPreview PepperModel PepperMpc KronAxisFacts PepperMpcFacts PepperMpcFacts2 WalkProfiles WalkProfilesSpec.
Import ListNotations.
Local Open Scope R_scope.

(** ** products *)
Lemma mulv_meq a b v i : a ==m b -> (i < mrows a)%nat -> vget (mulv a v) i = vget (mulv b v) i.
Proof. intros (R & C & E) Hi. cbn [mulv vget]. rewrite <- C. apply Rsum_ext. intros k Hk. rewrite E by assumption. reflexivity. Qed.
Lemma mulv_hcat a b x y i : mcols a = vlen x -> vget (mulv (mhcat a b) (vcat x y)) i = vget (mulv a x) i + vget (mulv b y) i.
Proof.
  intros H. cbn [mulv vget mhcat mcols]. rewrite Rsum_split. f_equal; apply Rsum_ext; intros k Hk; cbn [mget vcat vget mhcat]; rewrite <- H.
  - replace (k <? mcols a)%nat with true by (symmetry; apply Nat.ltb_lt; exact Hk). reflexivity.
  - replace (mcols a + k <? mcols a)%nat with false by (symmetry; apply Nat.ltb_ge; lia). replace (mcols a + k - mcols a)%nat with k by lia. reflexivity.
Qed.
Lemma mulv_plus M x y i : vget (mulv M (vadd x y)) i = vget (mulv M x) i + vget (mulv M y) i.
Proof. cbn [mulv vget vadd]. rewrite <- Rsum_plus. apply Rsum_ext. intros k Hk. ring. Qed.
Lemma rowwise_mulv M x i : vget (mulv (rowwise_sum M) x) i = vget (mulv M (vconst (mcols M) (vget x 0))) i.
Proof. change (0 + Rsum (mcols M) (fun j => mget M i j) * vget x 0 = Rsum (mcols M) (fun k => mget M i k * vget x 0)). rewrite Rsum_scal_r. apply Rplus_0_l. Qed.

(** the k-th pair of [v], multiplied by the k-th block *)
Definition turned (blocks : list mat) (v : vec) (t k : nat) : R := Rsum 2 (fun q => mget (mat_at blocks k) t q * vget v (k * 2 + q)).

Lemma kron_diag_row out X r nv d blocks : out ==m mmul (kron_of X r 1 2) (block_diagonal_of d) -> mrows X = (nv * r)%nat -> mcols X = length blocks ->
  bm_diag 2 2 blocks = Ok d -> sized blocks 2 2 -> (0 < r)%nat ->
  mrows out = (2 * (nv * r))%nat /\ mcols out = (2 * length blocks)%nat /\
  forall v i t p, (i < nv)%nat -> (t < 2)%nat -> (p < r)%nat ->
    vget (mulv out v) ((i * 2 + t) * r + p) = vget (mulv X (mkVec (length blocks) (turned blocks v t))) (i * r + p).
Proof.
  intros E XR XC ED SZ Hr. destruct (bm_diag_ok 2 2 blocks ltac:(lia) ltac:(lia) SZ) as (d' & E' & HD & DR & DC & EN). rewrite ED in E'. injection E' as <-.
  pose proof HD as (_ & _ & R & C). rewrite DR in R. rewrite DC in C.
  assert (OR : mrows out = (2 * (nv * r))%nat) by (rewrite (proj1 E); cbn [mmul mrows kron_of]; lia).
  assert (OC : mcols out = (2 * length blocks)%nat) by (rewrite (proj1 (proj2 E)); cbn [mmul mcols block_diagonal_of]; lia).
  split; [exact OR|]. split; [exact OC|]. intros v i t p Hi Ht Hp.
  assert (RI : ((i * 2 + t) * r + p < 2 * (nv * r))%nat) by nia.
  rewrite (mulv_meq _ _ _ _ E) by lia.
  rewrite (proj2 (mulv_mul (kron_of X r 1 2) (block_diagonal_of d) v ltac:(cbn [kron_of block_diagonal_of mcols mrows]; lia))) by (cbn [mulv vlen mmul mrows kron_of]; lia).
  pose proof (kron_row X r 1 2 (length blocks) i t p (mulv (block_diagonal_of d) v) Ht Hp ltac:(lia) ltac:(lia)) as K.
  transitivity (vget (mulv X (axis_of 2 1 t (length blocks * 1) (mulv (block_diagonal_of d) v))) (i * r + p)).
  { rewrite <- K. cbn [mulv vget kron_of mcols]. rewrite XC, Nat.mul_1_r. reflexivity. }
  apply mulv_ext. intros k Hk. rewrite XC in Hk. rewrite axis1. cbn [vget mulv block_diagonal_of mcols]. rewrite C, Rsum_blocks. rewrite (Rsum_single _ k); [|exact Hk|].
  - unfold turned. apply Rsum_ext. intros q Hq. cbn [block_diagonal_of mget]. rewrite DR, DC. replace (2 * k + t)%nat with (k * 2 + t)%nat by lia.
    rewrite !grid_div, Nat.eqb_refl by assumption. rewrite EN, Nat.eqb_refl by assumption. reflexivity.
  - intros j Hj Nj. apply Rsum_zero. intros q Hq. cbn [block_diagonal_of mget]. rewrite DR, DC. replace (2 * k + t)%nat with (k * 2 + t)%nat by lia.
    rewrite !grid_div by assumption. destruct (Nat.eqb_spec k j); [lia|]. ring.
Qed.

(** ** Ir_ *)
Lemma form_Ir_ok N steps : (forall s, In s steps -> (s <= N)%nat) ->
  exists Ir, form_Ir N steps = Ok Ir /\ mrows Ir = N /\ mcols Ir = length steps /\
    forall i j, (i < N)%nat -> (j < length steps)%nat -> mget Ir i j = if (nth j steps 0 <=? i)%nat then 1 else 0.
Proof.
  intros H. unfold form_Ir. set (n := length steps).
  destruct (for_up_inv (fun k m => mrows m = N /\ mcols m = n /\ forall i j, (i < N)%nat -> (j < n)%nat -> mget m i j = if (j <? k)%nat then if (nth j steps 0 <=? i)%nat then 1 else 0 else 0)
    (fun i m => bind (vec_at steps i) (fun s => assert_then (s <=? N)%nat (putb m s i (N - s) 1 (mkMat (N - s) 1 (fun _ _ => 1))))) n 0 (mzero N n)) as (m & E & MR & MC & EN).
  - split; [reflexivity|]. split; [reflexivity|]. intros; reflexivity.
  - intros k m Hk (MR & MC & EN). assert (Hk' : (k < length steps)%nat) by (fold n; lia).
    destruct (nth_error steps k) as [s|] eqn:Es. 2:{ apply nth_error_None in Es. lia. }
    assert (Ns : nth k steps 0%nat = s) by (apply nth_error_nth; exact Es).
    assert (Hs : (s <= N)%nat) by (apply H; apply (nth_error_In _ _ Es)).
    unfold vec_at. rewrite Es. cbn [bind]. rewrite assert_true by (apply Nat.leb_le; exact Hs).
    rewrite putb_ok by (first [reflexivity|cbn [mrows mcols]; lia]). eexists. split; [reflexivity|]. cbn [mset_block mrows mcols]. split; [exact MR|]. split; [exact MC|].
    intros i j Hi Hj. cbn [mset_block mrows mcols mget]. rewrite EN by assumption. unfold in_block.
    destruct (Nat.ltb_spec j k), (Nat.ltb_spec j (S k)), (Nat.leb_spec k j), (Nat.ltb_spec j (k + 1)), (Nat.leb_spec s i), (Nat.ltb_spec i (s + (N - s))); try lia; cbn [andb]; try reflexivity;
      replace j with k by lia; rewrite Ns; [replace (s <=? i)%nat with true by (symmetry; apply Nat.leb_le; assumption)|replace (s <=? i)%nat with false by (symmetry; apply Nat.leb_gt; assumption)]; reflexivity.
  - exists m. split; [exact E|]. split; [exact MR|]. split; [exact MC|]. intros i j Hi Hj. rewrite EN by assumption. cbn [Nat.add]. replace (j <? n)%nat with true by (symmetry; apply Nat.ltb_lt; exact Hj). reflexivity.
Qed.

Lemma finalize_ok m r c nv nh : (0 < r)%nat -> (0 < c)%nat -> mrows m = (nv * r)%nat -> mcols m = (nh * c)%nat -> bm_finalize m r c = Ok (mkBm m r c).
Proof. intros. apply (bm_finalize_ok r c m nv nh); assumption. Qed.
Lemma kron_make_ok m r c nv nh : (0 < r)%nat -> (0 < c)%nat -> mrows m = (nv * r)%nat -> mcols m = (nh * c)%nat -> kron_make m 2 r c = Ok (mkKron (mkBm m r c) 2).
Proof. intros Hr Hc R C. unfold kron_make. rewrite (finalize_ok m r c nv nh) by assumption. reflexivity. Qed.

Lemma lower_identities_row n blocks d f j t : sized blocks 2 2 -> bm_diag 2 2 blocks = Ok d -> length blocks = n -> (j < n)%nat -> (t < 2)%nat ->
  vget (mulv (mmul (lower_identities n) (raw d)) f) (j * 2 + t) = Rsum (S j) (turned blocks f t).
Proof.
  intros SZ ED LN Hj Ht. destruct (diag_mulv_entry d blocks 2 2 f ltac:(lia) ltac:(lia) ED SZ) as (R & C & DV). rewrite LN in *.
  rewrite (proj2 (mulv_mul (lower_identities n) (raw d) f ltac:(cbn [lower_identities lower_part mcols]; lia))) by (cbn [mulv vlen mmul mrows lower_identities lower_part]; lia).
  assert (E : vget (mulv (lower_identities n) (mulv (raw d) f)) (j * 2 + t) = Rsum n (fun m => if (m <=? j)%nat then turned blocks f t m else 0)).
  { change (Rsum (n * 2) (fun k => mget (lower_identities n) (j * 2 + t) k * vget (mulv (raw d) f) k) = Rsum n (fun m => if (m <=? j)%nat then turned blocks f t m else 0)).
    rewrite Rsum_blocks. apply Rsum_ext. intros m Hm. rewrite (Rsum_single 2 t); [|exact Ht|].
    - rewrite DV by assumption. fold (turned blocks f t m). cbn [lower_identities lower_part mget]. rewrite !grid_mod by assumption. rewrite Nat.eqb_refl.
      destruct (Nat.leb_spec (m * 2 + t) (j * 2 + t)), (Nat.leb_spec m j); try lia; ring.
    - intros q Hq Nq. cbn [lower_identities lower_part mget]. rewrite !grid_mod by assumption. destruct (Nat.eqb_spec t q); [lia|]. destruct (_ <=? _)%nat; ring. }
  rewrite E. replace n with (S j + (n - S j))%nat by lia. rewrite Rsum_split. rewrite (Rsum_zero (n - S j)).
  - rewrite Rplus_0_r. apply Rsum_ext. intros m Hm. replace (m <=? j)%nat with true by (symmetry; apply Nat.leb_le; lia). reflexivity.
  - intros m Hm. replace (S j + m <=? j)%nat with false by (symmetry; apply Nat.leb_gt; lia). reflexivity.
Qed.

Section Rows.
Variables (junk : nat -> nat -> nat -> R) (N : nat) (iv : list walk_interval) (Rhs : list m2) (steps : list nat) (Rs : list m2) (support cstate : vec).
Hypothesis (HF : formed_walk N iv Rhs steps Rs support cstate).
Let A := map (fun v => mat33 (getA3 (wi_T v) (wi_omega v) (wi_T v))) iv.
Let B := map (fun v => col3 (getB3 (wi_T v) (wi_omega v) (wi_T v))) iv.
Let D := map (fun v => row3 (getD3 (wi_T v) (wi_omega v))) iv.
Let E := map (fun v => mkMat 1 1 (fun _ _ => 1 / wi_T v)) iv.
Definition moved_by (c f : vec) (t i : nat) : R :=
  turned (map mat22 Rhs) c t i + Rsum (length steps) (fun j => (if (nth j steps 0 <=? i)%nat then 1 else 0) * turned (map mat22 Rs) f t j) + vget support t.
Let u (c f : vec) (t : nat) : vec := mkVec N (moved_by c f t).
Let x0 (t : nat) : vec := axis_of 2 3 t (1 * 3) cstate.

Lemma walk_rows : exists M, walk_update junk N iv Rhs steps Rs support cstate = Ok M /\
  bm_diag 2 2 (map mat22 Rhs) = Ok (wmRh M) /\ wmV0 M = replicate2 support N /\ wmvfp M = replicate2 support (length steps) /\
  mrows (wmV M) = (2 * N)%nat /\ mcols (wmV M) = (2 * length steps)%nat /\ mrows (wmVfp M) = (length steps * 2)%nat /\ mcols (wmVfp M) = (2 * length steps)%nat /\
  mrows (wmS M) = (6 * N)%nat /\ mcols (wmS M) = (2 * N + 2 * length steps)%nat /\ (mrows (wms M) = (6 * N)%nat /\ mcols (wms M) = 1%nat) /\
  mrows (wmSdz M) = (2 * N)%nat /\ mcols (wmSdz M) = (2 * N + 2 * length steps)%nat /\ mrows (wmsdz M) = (2 * N)%nat /\
  (forall f i t, (i < N)%nat -> (t < 2)%nat ->
    vget (mulv (wmV M) f) (i * 2 + t) = Rsum (length steps) (fun j => (if (nth j steps 0 <=? i)%nat then 1 else 0) * turned (map mat22 Rs) f t j)) /\
  (forall f j t, (j < length steps)%nat -> (t < 2)%nat -> vget (mulv (wmVfp M) f) (j * 2 + t) = Rsum (S j) (turned (map mat22 Rs) f t)) /\
  (forall c f i t p, vlen c = (2 * N)%nat -> (i < N)%nat -> (t < 2)%nat -> (p < 3)%nat ->
    vget (mulv (wmS M) (vcat c f)) ((i * 2 + t) * 3 + p) + mget (wms M) ((i * 2 + t) * 3 + p) 0 = vget (simulate A B 1 (u c f t) (x0 t) (i + 1)) p) /\
  (forall c f i t, vlen c = (2 * N)%nat -> (i < N)%nat -> (t < 2)%nat ->
    vget (mulv (wmSdz M) (vcat c f)) (i * 2 + t) + mget (wmsdz M) (i * 2 + t) 0 = vget (output D E 1 (u c f t) (simulate A B 1 (u c f t) (x0 t)) i) 0).
Proof.
  destruct HF as (HN & LI & LRh & LR & LS & LC & HV & HS & _).
  assert (SA : sized A 3 3) by (apply sized_map; intros; split; reflexivity).
  assert (SB : sized B 3 1) by (apply sized_map; intros; split; reflexivity).
  assert (SD : sized D 1 3) by (apply sized_map; intros; split; reflexivity).
  assert (SE : sized E 1 1) by (apply sized_map; intros; split; reflexivity).
  assert (LA : length A = N) by (unfold A; rewrite map_length; exact LI).
  assert (LB : length B = N) by (unfold B; rewrite map_length; exact LI).
  assert (LD : length D = N) by (unfold D; rewrite map_length; exact LI).
  assert (LE : length E = N) by (unfold E; rewrite map_length; exact LI).
  set (bR := map mat22 Rs) in *. set (bH := map mat22 Rhs) in *.
  assert (SbR : sized bR 2 2) by (apply sized_map; intros; split; reflexivity).
  assert (SbH : sized bH 2 2) by (apply sized_map; intros; split; reflexivity).
  assert (LbR : length bR = length steps) by (unfold bR; rewrite map_length; exact LR).
  assert (LbH : length bH = N) by (unfold bH; rewrite map_length; exact LRh).
  destruct (bm_diag_ok 2 2 bR ltac:(lia) ltac:(lia) SbR) as (Rm & ER & HR & RR & RC & _).
  destruct (bm_diag_ok 2 2 bH ltac:(lia) ltac:(lia) SbH) as (Rh & EH & HH & RhR & RhC & _).
  rewrite LbR in HR. rewrite LbH in HH.
  set (ns := length steps) in *.
  destruct (form_Ir_ok N steps HS) as (Ir & EI & IR & IC & IE). fold ns in IC, IE.
  assert (GR : mrows (raw Rm) = (ns * 2)%nat) by (destruct HR as (_ & _ & H & _); rewrite H, RR; reflexivity).
  unfold walk_update. cbv zeta. fold bR bH ns. rewrite ER, EH. cbn [bind]. rewrite EI. cbn [bind].
  rewrite (kron_make_ok Ir 1 1 N ns) by lia. cbn [bind].
  destruct (kron1_right_dense (junk 0%nat) false (mkKron (mkBm Ir 1 1) 2) Rm N ns (mzero 0 0)) as (V & EV & VD).
  { repeat split; cbn [kbm raw block_rows block_cols]; lia. } { reflexivity. } { reflexivity. } { cbn; lia. } { exact HR. } { exact RR. }
  { exists 0%nat, 0%nat. rewrite RR, RC. repeat split; cbn; lia. }
  rewrite EV. cbn [bind]. cbn [kbm ksize dense_of raw] in VD.
  destruct (kron_diag_row V Ir 1 N Rm bR VD ltac:(lia) ltac:(lia) ER SbR ltac:(lia)) as (VR & VC & VV). rewrite LbR in VC, VV.
  rewrite mmul_o_ok by (cbn [lower_identities lower_part mcols]; lia). cbn [bind].
  rewrite LI, Nat.ltb_irrefl. replace (firstn N iv) with iv by (rewrite <- LI; symmetry; apply firstn_all). fold A B D E.
  destruct (condensed_one A B N SA SB LA LB HN (junk 1%nat)) as (Ux & Uu & EU & ShX & ShU & CU & LU & SU). rewrite EU. cbn [bind fst snd].
  destruct (condenseOutput_ok D E 1 3 1 N SD SE LD LE HN ltac:(lia) ltac:(lia) ltac:(lia) (junk 2%nat) Ux Uu ShX ShU) as (Ox & Ou & EO & ShOx & ShOu & OO).
  rewrite EO. cbn [bind fst snd].
  pose proof (shaped_has_blocks _ 3 3 N 1 ltac:(lia) ltac:(lia) ShX) as BX. pose proof (shaped_has_blocks _ 3 1 N N ltac:(lia) ltac:(lia) ShU) as BU.
  pose proof (shaped_has_blocks _ 1 3 N 1 ltac:(lia) ltac:(lia) ShOx) as BOx. pose proof (shaped_has_blocks _ 1 1 N N ltac:(lia) ltac:(lia) ShOu) as BOu.
  destruct ShX as (XR & XC & Xr & Xc). destruct ShU as (UR & UC & Ur & Uc). destruct ShOx as (OxR & OxC & Oxr & Oxc). destruct ShOu as (OuR & OuC & Our & Ouc).
  rewrite generic_dense by lia. cbn [bind]. rewrite (finalize_ok _ 3 1 N ns) by (cbn [mmul mrows mcols]; lia). cbn [bind].
  destruct (lower1_dense Ou N N Ir BOu OuR OuC ltac:(lia)) as (OI & EOI & DOI). rewrite EOI. cbn [bind].
  assert (LOu : block_lower (raw Ou) 1 1 N).
  { destruct OO as (_ & _ & _ & _ & _ & OU). intros i j p q Hi Hj Hp Hq Lt. rewrite OU by assumption. destruct (Nat.eqb_spec j i); [lia|]. destruct (Nat.ltb_spec j i); [lia|]. reflexivity. }
  assert (DOu : dense_of true Ou ==m raw Ou) by (apply (dense_lower Ou N BOu); rewrite OuR, OuC; exact LOu).
  assert (DUu : dense_of true Uu ==m raw Uu) by (apply (dense_lower Uu N BU); rewrite UR, UC; exact LU).
  assert (OIr : mrows OI = N) by (rewrite (proj1 DOI); cbn [mmul mrows block_lower_of]; lia).
  assert (OIc : mcols OI = ns) by (rewrite (proj1 (proj2 DOI)); cbn [mmul mcols]; lia).
  rewrite (finalize_ok _ 1 1 N ns) by lia. cbn [bind].
  rewrite (finalize_ok (rowwise_sum (raw Uu)) 3 1 N 1) by (cbn [rowwise_sum mrows mcols]; lia). cbn [bind].
  rewrite (finalize_ok (rowwise_sum (raw Ou)) 1 1 N 1) by (cbn [rowwise_sum mrows mcols]; lia). cbn [bind].
  (* S_ *)
  rewrite (kron_make_ok (raw Uu) 3 1 N N) by lia. cbn [bind].
  destruct (kron_right_dense (junk 3%nat) true (mkKron (mkBm (raw Uu) 3 1) 2) Rh N N) as (S0 & ES0 & DS0).
  { repeat split; cbn [kbm raw block_rows block_cols]; lia. } { cbn; lia. } { exact HH. } { cbn [kbm block_cols ksize]. lia. } { lia. }
  rewrite ES0. cbn [bind]. cbn [kbm ksize block_rows block_cols] in DS0.
  replace (mkBm (raw Uu) 3 1) with Uu in DS0 by (destruct Uu; cbn in *; subst; reflexivity).
  destruct (kron_diag_row S0 (dense_of true Uu) 3 N Rh bH DS0 ltac:(rewrite (proj1 DUu); lia) ltac:(rewrite (proj1 (proj2 DUu)); lia) EH SbH ltac:(lia)) as (S0R & S0C & S0V). rewrite LbH in S0C, S0V.
  cbn [raw]. rewrite (kron_make_ok (mmul (raw Uu) Ir) 3 1 N ns) by (cbn [mmul mrows mcols]; lia). cbn [bind].
  destruct (kron_right_dense (junk 4%nat) false (mkKron (mkBm (mmul (raw Uu) Ir) 3 1) 2) Rm N ns) as (S1 & ES1 & DS1).
  { repeat split; cbn [kbm raw block_rows block_cols mmul mrows mcols]; lia. } { cbn; lia. } { exact HR. } { cbn [kbm block_cols ksize]. lia. } { discriminate. }
  rewrite ES1. cbn [bind]. cbn [kbm ksize block_rows block_cols dense_of raw] in DS1.
  destruct (kron_diag_row S1 (mmul (raw Uu) Ir) 3 N Rm bR DS1 ltac:(cbn [mmul mrows]; lia) ltac:(cbn [mmul mcols]; lia) ER SbR ltac:(lia)) as (S1R & S1C & S1V). rewrite LbR in S1C, S1V.
  assert (NV : getNumberOfVariables (structure_wpg N ns) = (2 * N + 2 * ns)%nat) by (destruct (loc_wpg N ns) as (_ & _ & Q & _); rewrite Q; lia).
  rewrite NV. unfold comma2. rewrite assert_true by (rewrite !andb_true_iff, !Nat.eqb_eq; lia). cbn [bind].
  destruct (kron2_vector_axis (junk 5%nat) (junk 6%nat) (mkBm (rowwise_sum (raw Uu)) 3 1) support N 1) as (s0 & Es0 & s0R & s0C & s0V).
  { repeat split; cbn [raw block_rows block_cols rowwise_sum mrows mcols]; lia. } { cbn [block_cols]. lia. }
  rewrite Es0. cbn [bind]. cbn [raw block_rows block_cols] in s0R, s0V.
  destruct (kron2_vector_axis (junk 7%nat) (junk 8%nat) Ux cstate N 1 BX) as (s1 & Es1 & s1R & s1C & s1V). { rewrite XC. lia. }
  rewrite Es1. cbn [bind]. rewrite XR, XC in s1V. rewrite XR in s1R.
  unfold madd_o. rewrite assert_true by (rewrite andb_true_iff, !Nat.eqb_eq; lia). cbn [bind].
  (* Sdz_ *)
  rewrite (kron_make_ok (raw Ou) 1 1 N N) by lia. cbn [bind].
  destruct (kron1_right_dense (junk 9%nat) true (mkKron (mkBm (raw Ou) 1 1) 2) Rh N N (mzero 0 0)) as (Z0 & EZ0 & DZ0).
  { repeat split; cbn [kbm raw block_rows block_cols]; lia. } { reflexivity. } { reflexivity. } { cbn; lia. } { exact HH. } { exact RhR. }
  { exists 0%nat, 0%nat. rewrite RhR, RhC. repeat split; cbn; lia. }
  rewrite EZ0. cbn [bind]. cbn [kbm ksize] in DZ0.
  replace (mkBm (raw Ou) 1 1) with Ou in DZ0 by (destruct Ou; cbn in *; subst; reflexivity).
  destruct (kron_diag_row Z0 (dense_of true Ou) 1 N Rh bH DZ0 ltac:(rewrite (proj1 DOu); lia) ltac:(rewrite (proj1 (proj2 DOu)); lia) EH SbH ltac:(lia)) as (Z0R & Z0C & Z0V). rewrite LbH in Z0C, Z0V.
  rewrite (kron_make_ok OI 1 1 N ns) by lia. cbn [bind].
  destruct (kron1_right_dense (junk 10%nat) false (mkKron (mkBm OI 1 1) 2) Rm N ns (mzero 0 0)) as (Z1 & EZ1 & DZ1).
  { repeat split; cbn [kbm raw block_rows block_cols]; lia. } { reflexivity. } { reflexivity. } { cbn; lia. } { exact HR. } { exact RR. }
  { exists 0%nat, 0%nat. rewrite RR, RC. repeat split; cbn; lia. }
  rewrite EZ1. cbn [bind]. cbn [kbm ksize dense_of raw] in DZ1.
  destruct (kron_diag_row Z1 OI 1 N Rm bR DZ1 ltac:(lia) ltac:(lia) ER SbR ltac:(lia)) as (Z1R & Z1C & Z1V). rewrite LbR in Z1C, Z1V.
  rewrite assert_true by (rewrite !andb_true_iff, !Nat.eqb_eq; lia). cbn [bind].
  rewrite (kron_make_ok (rowwise_sum (raw Ou)) 1 1 N 1) by (cbn [rowwise_sum mrows mcols]; lia). cbn [bind].
  destruct (kron1_vector_dense (mkKron (mkBm (rowwise_sum (raw Ou)) 1 1) 2) (column_of support) N 1) as (z0 & Ez0 & Dz0).
  { repeat split; cbn [kbm raw block_rows block_cols rowwise_sum mrows mcols]; lia. } { reflexivity. } { reflexivity. } { cbn; lia. }
  { cbn [column_of mrows ksize kbm raw rowwise_sum mcols]. lia. } { reflexivity. }
  rewrite Ez0. cbn [bind]. cbn [kbm ksize raw] in Dz0.
  assert (z0R : mrows z0 = (2 * N)%nat) by (rewrite (proj1 Dz0); cbn [mmul kron_of mrows rowwise_sum]; lia).
  assert (z0C : mcols z0 = 1%nat) by (rewrite (proj1 (proj2 Dz0)); reflexivity).
  destruct (kron2_vector_axis (junk 11%nat) (junk 12%nat) Ox cstate N 1 BOx) as (z1 & Ez1 & z1R & z1C & z1V). { rewrite OxC. lia. }
  rewrite Ez1. cbn [bind]. rewrite OxR, OxC in z1V. rewrite OxR in z1R.
  rewrite assert_true by (rewrite andb_true_iff, !Nat.eqb_eq; lia). cbn [bind].
  eexists. split; [reflexivity|]. cbn [wmRh wmV wmV0 wmVfp wmvfp wmS wms wmSdz wmsdz].
  split; [reflexivity|]. split; [reflexivity|]. split; [reflexivity|]. split; [lia|]. split; [lia|]. split; [reflexivity|].
  split. { cbn [mmul mcols]. destruct HR as (_ & _ & _ & H). rewrite H, RC. lia. }
  split; [cbn [mhcat mrows]; lia|]. split; [cbn [mhcat mcols]; lia|]. split; [split; [cbn [madd mrows]; lia|cbn [madd mcols]; lia]|].
  split; [cbn [mhcat mrows]; lia|]. split; [cbn [mhcat mcols]; lia|]. split; [cbn [madd mrows]; lia|].
  assert (IRV : forall f i t, (i < N)%nat -> (t < 2)%nat -> vget (mulv Ir (mkVec ns (turned bR f t))) i = Rsum ns (fun j => (if (nth j steps 0 <=? i)%nat then 1 else 0) * turned bR f t j)).
  { intros f i t Hi Ht. cbn [mulv vget]. rewrite IC. apply Rsum_ext. intros j Hj. rewrite IE by assumption. reflexivity. }
  split; [|split; [|split]].
  - intros f i t Hi Ht. pose proof (VV f i t 0%nat Hi Ht ltac:(lia)) as Q. replace ((i * 2 + t) * 1 + 0)%nat with (i * 2 + t)%nat in Q by lia. replace (i * 1 + 0)%nat with i in Q by lia.
    rewrite Q. apply IRV; assumption.
  - intros f j t Hj Ht. apply lower_identities_row; assumption.
  - intros c f i t p Lc Hi Ht Hp. rewrite mulv_hcat by lia. rewrite S0V, S1V by assumption. cbn [madd mget]. rewrite s0V, s1V by assumption.
    rewrite (mulv_meq _ _ _ _ DUu) by (rewrite (proj1 DUu); nia).
    rewrite (proj2 (mulv_mul (raw Uu) Ir _ ltac:(lia))) by (cbn [mulv vlen mmul mrows]; nia).
    rewrite rowwise_mulv, axis1. cbn [Nat.mul Nat.add].
    rewrite <- (SU (x0 t) (u c f t) eq_refl eq_refl i p Hi Hp). unfold x0. rewrite Rplus_comm.
    assert (G : forall a b c d e : R, b + c + d = e -> (a + (b + c + d) = a + e)) by (intros; subst; reflexivity).
    match goal with |- ?a + ?b + (?c + ?d) = _ => replace (a + b + (c + d)) with (b + (c + d + a)) by ring end.
    f_equal. rewrite <- !mulv_plus. apply mulv_ext. intros k Hk. rewrite Uc, Nat.mul_1_r in Hk. cbn [vadd vget vconst u]. rewrite IRV by assumption. unfold moved_by. fold bH bR ns. ring.
  - intros c f i t Lc Hi Ht. rewrite mulv_hcat by lia.
    pose proof (Z0V c i t 0%nat Hi Ht ltac:(lia)) as Q0. pose proof (Z1V f i t 0%nat Hi Ht ltac:(lia)) as Q1. pose proof (z1V i t 0%nat Hi Ht ltac:(lia)) as Q2.
    replace ((i * 2 + t) * 1 + 0)%nat with (i * 2 + t)%nat in Q0, Q1, Q2 by lia. replace (i * 1 + 0)%nat with i in Q0, Q1, Q2 by lia.
    rewrite Q0, Q1. cbn [madd mget]. rewrite Q2.
    rewrite (proj2 (proj2 Dz0)) by lia.
    assert (Q3 : mget (mmul (kron_of (rowwise_sum (raw Ou)) 1 1 2) (column_of support)) (i * 2 + t) 0 = vget (mulv (raw Ou) (vconst (mcols (raw Ou)) (vget support t))) i).
    { pose proof (kron_row (rowwise_sum (raw Ou)) 1 1 2 1 i t 0 support Ht ltac:(lia) ltac:(lia) eq_refl) as K.
      replace ((i * 2 + t) * 1 + 0)%nat with (i * 2 + t)%nat in K by lia. replace (i * 1 + 0)%nat with i in K by lia.
      rewrite rowwise_mulv, axis1 in K. exact K. }
    rewrite Q3. rewrite (mulv_meq _ _ _ _ DOu) by (rewrite (proj1 DOu); lia).
    rewrite (mulv_meq _ _ _ _ DOI) by lia.
    rewrite (proj2 (mulv_mul (block_lower_of Ou) Ir _ ltac:(cbn [block_lower_of mcols]; lia))) by (cbn [mulv vlen mmul mrows block_lower_of]; lia).
    change (block_lower_of Ou) with (dense_of true Ou). rewrite (mulv_meq _ _ _ _ DOu) by (rewrite (proj1 DOu); lia).
    assert (LAB : length A = length B) by lia. rewrite <- LA in OO.
    pose proof (sim_stack A B 3 1 _ _ SA SB LAB CU D E 1 _ _ SD SE ltac:(lia) ltac:(lia) OO (x0 t) (u c f t) eq_refl ltac:(cbn [u vlen]; lia) i ltac:(lia)) as [_ W].
    rewrite <- W by (cbn [part vlen]; lia). cbn [part vget vadd]. replace (i * 1 + 0)%nat with i by lia. unfold x0.
    match goal with |- ?a + ?b + (?c + ?d) = _ => replace (a + b + (c + d)) with (d + (a + b + c)) by ring end.
    apply (f_equal2 Rplus); [reflexivity|]. rewrite <- !mulv_plus. apply mulv_ext. intros k Hk. rewrite Ouc, Nat.mul_1_r in Hk. cbn [vadd vget vconst u]. rewrite IRV by assumption. unfold moved_by. fold bH bR ns. ring.
Qed.
End Rows.
