From Coq Require Import ZArith Reals Lra Lia Bool.
From Flocq Require Import Core.
From Flocq Require Import BinarySingleNaN Relative.
From Verif Require Import Base BaseFacts RSum Matrix BlockMatrix Time TimeFacts Eigentools.
Open Scope R_scope.
Local Instance prec53_inst : Prec_gt_0 53 := prec53.

(** the smallest integer which is not less than a / b *)
Definition ceiling (a b : Z) : Z := ((a + b - 1) / b)%Z.
Lemma ceiling_bounds a b : (0 <= a)%Z -> (1 <= b)%Z -> ((ceiling a b - 1) * b < a <= ceiling a b * b)%Z.
Proof. intros A B. unfold ceiling. pose proof (Z.div_mod (a + b - 1) b ltac:(lia)). pose proof (Z.mod_pos_bound (a + b - 1) b ltac:(lia)). nia. Qed.

(** the quotient of two integers which are exact in binary64, rounded up: exact *)
Lemma ceil_div_exact a b : (0 <= a < 2 ^ 53)%Z -> (1 <= b < 2 ^ 53)%Z ->
  to_index (dceil (ddiv (double_of_Z a) (double_of_Z b))) = Ok (ceiling a b).
Proof.
  intros HA HB. destruct (double_of_Z_exact a ltac:(lia)) as [A1 A2]. destruct (double_of_Z_exact b ltac:(lia)) as [B1 B2].
  pose proof (Bdiv_correct 53 1024 prec53 prec_emax mode_NE (double_of_Z a) (double_of_Z b)) as D. rewrite A1, B1 in D.
  assert (IB : 1 <= IZR b) by (apply IZR_le; lia). assert (IA : 0 <= IZR a < IZR (2 ^ 53)) by (split; [apply IZR_le|apply IZR_lt]; lia).
  specialize (D ltac:(lra)). set (x := IZR a / IZR b) in *. assert (XB : x * IZR b = IZR a) by (unfold x; field; lra).
  assert (X0 : 0 <= x <= IZR a) by (split; [apply Rmult_le_pos; [lra|left; apply Rinv_0_lt_compat; lra]|nra]).
  rewrite Rlt_bool_true in D.
  2:{ apply bpow_emax_big. rewrite Rabs_right by lra. apply Rle_trans with (IZR (2 ^ 53)); [lra|apply IZR_le; lia]. }
  destruct D as (D1 & D2 & _). rewrite A2 in D2. fold (ddiv (double_of_Z a) (double_of_Z b)) in D1, D2. change (round_mode mode_NE) with ZnearestE in D1.
  set (q := ddiv (double_of_Z a) (double_of_Z b)) in *. destruct (ceiling_bounds a b ltac:(lia) ltac:(lia)) as [CL CU]. set (n := ceiling a b) in *.
  assert (N0 : (0 <= n)%Z) by nia. assert (NA : (n <= a)%Z) by nia.
  assert (Q : Zceil (B2R q) = n).
  { apply Zceil_imp. rewrite D1. split.
    - destruct (Z.eq_dec a 0) as [Z|Z].
      + assert (n = 0%Z) by nia. replace x with 0 by (unfold x; rewrite Z; unfold Rdiv; ring). rewrite round_0 by apply valid_rnd_N. apply IZR_lt. lia.
      + destruct (Rlt_le_dec (IZR (n - 1)) (round radix2 fexp64 ZnearestE x)) as [l|g]; [exact l|exfalso].
        assert (IA1 : 1 <= IZR a) by (apply IZR_le; lia).
        assert (IBU : IZR b < IZR (2 ^ 53)) by (apply IZR_lt; lia).
        destruct (round_rel x) as (e & E1 & E2).
        { apply Rle_trans with (/ IZR b); [apply Rinv_le; [lra|apply IZR_le; lia]|]. apply Rmult_le_reg_r with (IZR b); [lra|]. rewrite Rinv_l by lra. lra. }
        rewrite E2 in g. assert (G1 : (1 <= a - (n - 1) * b)%Z) by lia. apply IZR_le in G1. rewrite minus_IZR, mult_IZR in G1.
        assert (EB : - e <= / IZR (2 ^ 53)) by (pose proof (Rle_abs (- e)) as R; rewrite Rabs_Ropp in R; lra).
        assert (P : IZR a * / IZR (2 ^ 53) < 1).
        { apply Rmult_lt_reg_r with (IZR (2 ^ 53)); [lra|]. rewrite Rmult_assoc, Rinv_l by lra. lra. }
        assert (S : IZR (n - 1) * IZR b <= IZR a - 1) by lra.
        assert (T : x * (1 + e) * IZR b = IZR a + IZR a * e) by (rewrite <- XB; ring).
        assert (U : x * (1 + e) * IZR b <= IZR (n - 1) * IZR b) by (apply Rmult_le_compat_r; lra).
        assert (V : IZR a * (- e) <= IZR a * / IZR (2 ^ 53)) by (apply Rmult_le_compat_l; lra). lra.
    - destruct (double_of_Z_exact n ltac:(lia)) as [N1 N2]. rewrite <- N1.
      apply (@round_le_generic radix2 fexp64 valid64 ZnearestE (valid_rnd_N _)); [apply generic_format_B2R|]. rewrite N1.
      apply Rmult_le_reg_r with (IZR b); [lra|]. rewrite XB, <- mult_IZR. apply IZR_le. lia. }
  destruct (nearbyint_Z mode_UP q ltac:(exact D2)) as [T F]. unfold to_index, dceil. rewrite T, F. change (round_mode mode_UP) with Zceil. rewrite Q.
  rewrite (proj2 (Z.leb_le _ _)), (proj2 (Z.ltb_lt _ _)) by lia. reflexivity.
Qed.

Definition small (m : mat) := (Z.of_nat (mrows m) < 2 ^ 53)%Z.
Theorem selectRows_ok m step first : small m -> (1 <= step < 2 ^ 53)%Z -> (0 <= first <= Z.of_nat (mrows m))%Z ->
  exists v, selectRows m step first = Ok v /\ map_cols v = Z.of_nat (mcols m) /\
    (** the selected rows are exactly first, first + step, ... as far as the matrix goes *)
    (forall i, (0 <= i)%Z -> (i < map_rows v <-> first + i * step < Z.of_nat (mrows m))%Z) /\
    (forall i j, (0 <= i < map_rows v)%Z -> (0 <= j < map_cols v)%Z -> map_get m v i j = Ok (mget m (Z.to_nat (first + i * step)) (Z.to_nat j))).
Proof.
  unfold small. intros S ST F. unfold selectRows. cbv zeta. rewrite Z.mod_small by lia. rewrite ceil_div_exact by lia. cbn [bind].
  eexists. split; [reflexivity|]. cbn [map_cols map_rows]. split; [reflexivity|].
  assert (I : forall i, (0 <= i)%Z -> (i < ceiling (Z.of_nat (mrows m) - first) step <-> first + i * step < Z.of_nat (mrows m))%Z).
  { intros i Hi. destruct (ceiling_bounds (Z.of_nat (mrows m) - first) step ltac:(lia) ltac:(lia)) as [CL CU]. set (n := ceiling _ _) in *. nia. }
  split; [exact I|]. intros i j Hi Hj. unfold map_get, data. cbn [map_base map_inner map_outer].
  pose proof (proj1 (I i ltac:(lia)) ltac:(lia)) as L. set (r := (first + i * step)%Z) in *. assert (R0 : (0 <= r)%Z) by nia.
  replace (first + i * step)%Z with r by reflexivity.
  assert (K : Z.to_nat (r + j * Z.of_nat (mrows m)) = (Z.to_nat r + Z.to_nat j * mrows m)%nat) by nia.
  assert (U : (r + j * Z.of_nat (mrows m) < Z.of_nat (mrows m * mcols m))%Z) by nia.
  rewrite (proj2 (Z.leb_le _ _)), (proj2 (Z.ltb_lt _ _)) by nia. cbn [andb]. rewrite K.
  rewrite Nat.mod_add, Nat.div_add, Nat.mod_small, Nat.div_small by lia. reflexivity.
Qed.
(** a first row behind the end: the unsigned difference wraps *)
Theorem selectRows_behind_refuted :
  (exists m first, (Z.of_nat (mrows m) < first)%Z /\ selectRows m 1 first = UB) /\
  (exists m first v, (Z.of_nat (mrows m) < first)%Z /\ selectRows m 4 first = Ok v /\ (Z.of_nat (mrows m) < map_rows v)%Z).
Proof.
  split.
  - exists (mid 2), 3%Z. split; [cbn; lia|]. vm_compute. reflexivity.
  - exists (mid 2), 3%Z. eexists. split; [cbn; lia|]. split; [vm_compute; reflexivity|]. vm_compute. reflexivity.
Qed.
Theorem selectRows_zero_step_refuted : exists m, selectRows m 0 0 = UB.
Proof. exists (mid 2). vm_compute. reflexivity. Qed.
Theorem selection_matrix m step first : selection_mul (mkSel step first) m = selectRows m step first.
Proof. reflexivity. Qed.
