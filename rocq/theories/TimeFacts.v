From Coq Require Import ZArith Reals Lra Lia Bool.
From Flocq Require Import Core.
From Flocq Require Import BinarySingleNaN Relative.
From Verif Require Import Base Time.
Open Scope R_scope.

Notation fexp64 := (SpecFloat.fexp 53 1024).
Local Instance prec53_inst : Prec_gt_0 53 := prec53.
Local Instance valid64 : Valid_exp fexp64 := fexp_correct 53 1024 prec53.
Lemma fexp_FLT : forall e, fexp64 e = FLT_exp (-1074) 53 e.
Proof. reflexivity. Qed.

Lemma bp n : (0 <= n)%Z -> bpow radix2 n = IZR (2 ^ n).
Proof. intros H. symmetry. apply (IZR_Zpower radix2). exact H. Qed.
Lemma bpneg n : (0 <= n)%Z -> bpow radix2 (- n) = / IZR (2 ^ n).
Proof. intros H. rewrite bpow_opp, bp by exact H. reflexivity. Qed.

Lemma bpow_emax_big (x : R) : Rabs x <= IZR (2 ^ 64) -> Rabs (round radix2 fexp64 ZnearestE x) < bpow radix2 1024.
Proof.
  intros H. apply Rle_lt_trans with (bpow radix2 64).
  - apply (@abs_round_le_generic radix2 fexp64 valid64 ZnearestE (valid_rnd_N _)).
    + apply generic_format_bpow. vm_compute. discriminate.
    + rewrite bp by lia. exact H.
  - apply bpow_lt. lia.
Qed.

Lemma double_of_Z_exact n : (0 <= n < 2 ^ 53)%Z -> B2R (double_of_Z n) = IZR n /\ is_finite (double_of_Z n) = true.
Proof.
  intros H. unfold double_of_Z.
  pose proof (binary_normalize_correct 53 1024 prec53 prec_emax mode_NE n 0 false) as C. cbv zeta in C.
  assert (F : @F2R radix2 {| Fnum := n; Fexp := 0 |} = IZR n) by (unfold F2R; simpl; lra).
  assert (R : round radix2 fexp64 (round_mode mode_NE) (@F2R radix2 {| Fnum := n; Fexp := 0 |}) = IZR n).
  { rewrite F. apply round_generic; [apply valid_rnd_N|]. rewrite <- F. apply generic_format_F2R. intros N.
    unfold cexp. rewrite fexp_FLT. unfold FLT_exp. assert (M : (mag radix2 (@F2R radix2 {| Fnum := n; Fexp := 0 |}) <= 53)%Z).
    { rewrite F. apply mag_le_bpow; [simpl in N; apply IZR_neq; exact N|].
      rewrite <- abs_IZR, Z.abs_eq by lia.
      rewrite bp by lia. apply IZR_lt. lia. }
    simpl Fexp. lia. }
  rewrite Rlt_bool_true in C.
  - destruct C as (C1 & C2 & _). rewrite C1, R. auto.
  - rewrite R. rewrite <- abs_IZR, Z.abs_eq by lia. apply Rlt_trans with (bpow radix2 53); [|apply bpow_lt; lia].
    rewrite bp by lia. apply IZR_lt. lia.
Qed.

(** relative error of one rounding *)
Lemma round_rel x : / IZR (2 ^ 64) <= x -> exists e, Rabs e <= / IZR (2 ^ 53) /\ round radix2 fexp64 ZnearestE x = x * (1 + e).
Proof.
  intros H. destruct (relative_error_N_FLT_ex radix2 (-1074) 53 ltac:(lia) (fun x => negb (Z.even x)) x) as (e & E1 & E2).
  - apply Rle_trans with x; [|apply Rle_abs]. apply Rle_trans with (bpow radix2 (-64)).
    + apply bpow_le. lia.
    + change (-64)%Z with (- (64))%Z. rewrite bpneg by lia. exact H.
  - exists e. split; [|exact E2]. apply Rle_trans with (1 := E1).
    assert (B : bpow radix2 (- (53) + 1) = 2 * / IZR (2 ^ 53)).
    { change (- (53) + 1)%Z with (1 + - (53))%Z. rewrite bpow_plus, bpneg by lia. reflexivity. }
    rewrite B. generalize (/ IZR (2 ^ 53)); intros u; lra.
Qed.

Definition b50 : Z := (2 ^ 50)%Z.

(** the product which is rounded to milliseconds *)
Lemma product_close t : (0 <= t < b50)%Z ->
  let p := dmul (convertMillisecondToSecond t) (double_of_Z 1000) in
  is_finite p = true /\ Rabs (B2R p - IZR t) < / 2.
Proof.
  intros H p. unfold b50 in H.
  destruct (double_of_Z_exact t ltac:(lia)) as [T1 T2]. destruct (double_of_Z_exact 1000 ltac:(lia)) as [K1 K2].
  pose proof (Bdiv_correct 53 1024 prec53 prec_emax mode_NE (double_of_Z t) (double_of_Z 1000)) as D.
  rewrite K1, T1 in D. specialize (D ltac:(lra)).
  assert (IT : 0 <= IZR t < 1125899906842624) by (split; [apply IZR_le|apply IZR_lt]; lia).
  assert (B1 : Rabs (IZR t / 1000) <= IZR (2 ^ 64)).
  { rewrite Rabs_right by lra. change (2 ^ 64)%Z with 18446744073709551616%Z. lra. }
  rewrite (Rlt_bool_true) in D by (apply bpow_emax_big, B1).
  destruct D as (D1 & D2 & _). rewrite T2 in D2. fold (ddiv (double_of_Z t) (double_of_Z 1000)) in D1, D2.
  change (round_mode mode_NE) with ZnearestE in D1.
  pose proof (Bmult_correct 53 1024 prec53 prec_emax mode_NE (convertMillisecondToSecond t) (double_of_Z 1000)) as M.
  rewrite K1, K2 in M. unfold convertMillisecondToSecond in M. rewrite D1, D2 in M.
  fold (convertMillisecondToSecond t) in M. change (round_mode mode_NE) with ZnearestE in M.
  fold (dmul (convertMillisecondToSecond t) (double_of_Z 1000)) in M. fold p in M.
  destruct (Z.eq_dec t 0) as [Z|Z].
  - subst t. replace (IZR 0 / 1000) with 0 in M by field. rewrite round_0, Rmult_0_l, round_0, Rabs_R0 in M by apply valid_rnd_N.
    rewrite Rlt_bool_true in M by apply bpow_gt_0. destruct M as (M1 & M2 & _). split; [exact M2|]. rewrite M1.
    rewrite Rminus_0_r, Rabs_R0. lra.
  - assert (ONE : 1 <= IZR t) by (apply IZR_le; lia).
    destruct (round_rel (IZR t / 1000)) as (e1 & E1 & R1).
    { apply Rle_trans with (/ 1000); [|lra]. apply Rinv_le; [lra|]. change (2 ^ 64)%Z with 18446744073709551616%Z. lra. }
    rewrite R1 in M.
    assert (EB : / IZR (2 ^ 53) <= / 9007199254740992) by (change (2 ^ 53)%Z with 9007199254740992%Z; lra).
    assert (E1' : - / 9007199254740992 <= e1 <= / 9007199254740992).
    { pose proof (Rle_abs e1). pose proof (Rle_abs (- e1)). rewrite Rabs_Ropp in H1. lra. }
    set (q := IZR t / 1000 * (1 + e1) * 1000) in *.
    assert (Q : q = IZR t * (1 + e1)) by (unfold q; field).
    assert (QB : / 2 <= q <= 2 * 1125899906842624) by (rewrite Q; nra).
    rewrite Rlt_bool_true in M.
    2:{ apply bpow_emax_big. rewrite Rabs_right by lra. change (2 ^ 64)%Z with 18446744073709551616%Z. lra. }
    destruct M as (M1 & M2 & _). split; [exact M2|]. rewrite M1.
    destruct (round_rel q) as (e2 & E2 & R2).
    { apply Rle_trans with (/ 2); [|lra]. apply Rinv_le; [lra|]. change (2 ^ 64)%Z with 18446744073709551616%Z. lra. }
    rewrite R2, Q.
    assert (E2' : - / 9007199254740992 <= e2 <= / 9007199254740992).
    { pose proof (Rle_abs e2). pose proof (Rle_abs (- e2)). rewrite Rabs_Ropp in H1. lra. }
    replace (IZR t * (1 + e1) * (1 + e2) - IZR t) with (IZR t * (e1 + e2 + e1 * e2)) by ring.
    apply Rabs_def1; nra.
Qed.

Lemma nearbyint_Z m x : is_finite x = true ->
  Btrunc (Bnearbyint (prec_lt_emax_ := prec_emax) m x) = round_mode m (B2R x) /\
  is_finite (Bnearbyint (prec_lt_emax_ := prec_emax) m x) = true.
Proof.
  intros F. destruct (Bnearbyint_correct 53 1024 prec_emax m x) as (A & B & _).
  split; [|congruence]. apply eq_IZR. rewrite (Btrunc_correct 53 1024 prec_emax). rewrite A.
  rewrite !round_FIX_IZR, Ztrunc_IZR. reflexivity.
Qed.

Lemma to_size_t_nearby m x k : is_finite x = true -> round_mode m (B2R x) = k -> (0 <= k < 2 ^ 64)%Z ->
  to_size_t (Bnearbyint (prec_lt_emax_ := prec_emax) m x) = Ok k.
Proof.
  intros F E B. destruct (nearbyint_Z m x F) as [A G]. unfold to_size_t. rewrite A, G, E. simpl.
  replace (0 <=? k)%Z with true by (symmetry; apply Z.leb_le; lia). replace (k <? _)%Z with true by (symmetry; apply Z.ltb_lt; lia). reflexivity.
Qed.

Theorem round_trip t : (0 <= t < 2 ^ 50)%Z -> convertSecondToMillisecond (convertMillisecondToSecond t) = Ok t.
Proof.
  intros H. destruct (product_close t H) as [F C]. apply to_size_t_nearby; [exact F| |lia].
  simpl. apply Znearest_imp. exact C.
Qed.

Theorem truncation_trip t : (0 < t < 2 ^ 50)%Z ->
  truncateSecondToMillisecond (convertMillisecondToSecond t) = Ok t \/
  truncateSecondToMillisecond (convertMillisecondToSecond t) = Ok (t - 1)%Z.
Proof.
  intros H. destruct (product_close t ltac:(unfold b50; lia)) as [F C].
  set (p := dmul _ _) in *.
  assert (X : Zfloor (B2R p) = t \/ Zfloor (B2R p) = (t - 1)%Z).
  { apply Rabs_def2 in C. destruct (Rle_or_lt (IZR t) (B2R p)) as [L|L].
    - left. apply Zfloor_imp. rewrite plus_IZR. lra.
    - right. apply Zfloor_imp. rewrite plus_IZR, minus_IZR. lra. }
  destruct X as [X|X]; [left|right]; (apply to_size_t_nearby; [exact F|exact X|lia]).
Qed.

(** binary64 values: seconds are converted to the nearest number of milliseconds up to the rounding of the product *)
Theorem nearest_millisecond s : is_finite s = true -> 0 <= B2R s <= IZR (2 ^ 40) ->
  exists k, convertSecondToMillisecond s = Ok k /\ Rabs (IZR k - 1000 * B2R s) <= / 2 + / IZR (2 ^ 53) * (1000 * B2R s) + / IZR (2 ^ 64).
Proof.
  intros F B. change (2 ^ 40)%Z with 1099511627776%Z in B. destruct (double_of_Z_exact 1000 ltac:(lia)) as [K1 K2].
  pose proof (Bmult_correct 53 1024 prec53 prec_emax mode_NE s (double_of_Z 1000)) as M.
  rewrite K1, K2, F in M. change (round_mode mode_NE) with ZnearestE in M. fold (dmul s (double_of_Z 1000)) in M.
  rewrite Rlt_bool_true in M.
  2:{ apply bpow_emax_big. rewrite Rabs_right by lra. change (2 ^ 64)%Z with 18446744073709551616%Z. lra. }
  destruct M as (M1 & M2 & _). simpl in M2. set (p := dmul s (double_of_Z 1000)) in *.
  assert (C : 0 <= B2R p /\ Rabs (B2R p - 1000 * B2R s) <= / IZR (2 ^ 53) * (1000 * B2R s) + / IZR (2 ^ 64)).
  { rewrite M1. split.
    - apply (@round_ge_generic radix2 fexp64 valid64 ZnearestE (valid_rnd_N _)); [apply generic_format_0|lra].
    - destruct (Rle_or_lt (/ IZR (2 ^ 64)) (B2R s * 1000)) as [L|L].
      + destruct (round_rel (B2R s * 1000) L) as (e & E & R). rewrite R.
        replace (B2R s * 1000 * (1 + e) - 1000 * B2R s) with (e * (1000 * B2R s)) by ring. rewrite Rabs_mult.
        rewrite (Rabs_right (1000 * B2R s)) by lra.
        assert (0 <= / IZR (2 ^ 64)) by (change (2 ^ 64)%Z with 18446744073709551616%Z; lra).
        assert (Rabs e * (1000 * B2R s) <= / IZR (2 ^ 53) * (1000 * B2R s)) by (apply Rmult_le_compat_r; lra). lra.
      + assert (U : round radix2 fexp64 ZnearestE (B2R s * 1000) <= / IZR (2 ^ 64)).
        { rewrite <- bpneg by lia.
          apply (@round_le_generic radix2 fexp64 valid64 ZnearestE (valid_rnd_N _)).
          - apply generic_format_bpow. vm_compute. discriminate.
          - rewrite bpneg by lia. lra. }
        assert (D : 0 <= round radix2 fexp64 ZnearestE (B2R s * 1000)).
        { apply (@round_ge_generic radix2 fexp64 valid64 ZnearestE (valid_rnd_N _)); [apply generic_format_0|lra]. }
        assert (0 <= / IZR (2 ^ 53) * (1000 * B2R s)) by (apply Rmult_le_pos; [change (2 ^ 53)%Z with 9007199254740992%Z|]; lra).
        apply Rabs_le. lra. }
  destruct C as [C0 C].
  set (k := ZnearestA (B2R p)).
  pose proof (Znearest_half (Zle_bool 0) (B2R p)) as N. fold k in N.
  assert (KB : (0 <= k < 2 ^ 64)%Z).
  { change (/ IZR (2 ^ 53)) with (/ 9007199254740992) in C. change (/ IZR (2 ^ 64)) with (/ 18446744073709551616) in C.
    pose proof (Rle_abs (B2R p - 1000 * B2R s)). pose proof (Rle_abs (B2R p - IZR k)). pose proof (Rle_abs (- (B2R p - IZR k))). rewrite Rabs_Ropp in H1.
    split.
    - apply Z.lt_pred_le. apply lt_IZR. unfold Z.pred. rewrite plus_IZR. lra.
    - apply lt_IZR. change (2 ^ 64)%Z with 18446744073709551616%Z. lra. }
  exists k. split.
  - apply to_size_t_nearby; [exact M2|reflexivity|exact KB].
  - replace (IZR k - 1000 * B2R s) with (- (B2R p - IZR k) + (B2R p - 1000 * B2R s)) by ring.
    eapply Rle_trans; [apply Rabs_triang|]. rewrite Rabs_Ropp. lra.
Qed.
