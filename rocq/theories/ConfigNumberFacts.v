(** * Proofs about numbers in YAML files *)
From Coq Require Import String List ZArith Reals Lia Lra Psatz.
From Flocq Require Import Core Relative.
From Verif Require Import Base Config ConfigNumber.
Open Scope R_scope.

Lemma valid10 : Valid_exp (FLX_exp 15). Proof. apply FLX_exp_valid. reflexivity. Qed.
Lemma valid2 : Valid_exp (FLT_exp (-1074) 53). Proof. apply FLT_exp_valid. reflexivity. Qed.
Lemma bpow10_pos e : 0 < bpow radix10 e. Proof. apply bpow_gt_0. Qed.
Lemma bpow10_15 e : bpow radix10 (e + 15) = 1000000000000000 * bpow radix10 e.
Proof. rewrite bpow_plus, Rmult_comm. reflexivity. Qed.
(** numbers with 15 digits: mantissa and exponent *)
Lemma digits15 x : generic_format radix10 (FLX_exp 15) x -> x <> 0 ->
  exists m e : Z, x = IZR m * bpow radix10 e /\ (100000000000000 <= Z.abs m < 1000000000000000)%Z.
Proof.
  intros G N. pose proof G as G'. unfold generic_format in G'. set (e := cexp radix10 (FLX_exp 15) x) in *.
  set (m := Ztrunc (scaled_mantissa radix10 (FLX_exp 15) x)) in *.
  unfold F2R in G'. cbn in G'. exists m, e. split; [exact G'|].
  assert (He : e = (mag radix10 x - 15)%Z) by reflexivity.
  destruct (mag radix10 x) as [ex Hx0]. cbn in He. pose proof (Hx0 N) as Hx. clear Hx0.
  rewrite G' in Hx. rewrite Rabs_mult, (Rabs_pos_eq (bpow radix10 e)) in Hx by (left; apply bpow10_pos).
  rewrite <- abs_IZR in Hx.
  replace (ex - 1)%Z with (e + 14)%Z in Hx by lia. replace ex with (e + 15)%Z in Hx by lia. rewrite bpow10_15 in Hx.
  rewrite (bpow_plus radix10 e 14) in Hx. change (bpow radix10 14) with 100000000000000 in Hx.
  pose proof (bpow10_pos e) as P. destruct Hx as [H1 H2]. split.
  - apply le_IZR. nra.
  - apply lt_IZR. nra.
Qed.
Lemma separation f d : generic_format radix10 (FLX_exp 15) f -> generic_format radix10 (FLX_exp 15) d -> f <> d -> d <> 0 ->
  Rabs d <= 1000000000000000 * Rabs (f - d).
Proof.
  intros Gf Gd N Nd. destruct (Req_dec f 0) as [->|Nf].
  { rewrite Rminus_0_l, Rabs_Ropp. pose proof (Rabs_pos d). lra. }
  destruct (digits15 f Gf Nf) as [mf [ef [Ef Bf]]]. destruct (digits15 d Gd Nd) as [md [ed [Ed Bd]]].
  destruct (Z.le_gt_cases ed ef) as [L|L].
  - (* both are multiples of 10^ed *)
    assert (F : f = IZR (mf * 10 ^ (ef - ed)) * bpow radix10 ed).
    { rewrite Ef. replace ef with ((ef - ed) + ed)%Z at 1 by lia. rewrite bpow_plus, mult_IZR.
      rewrite <- IZR_Zpower by lia. cbn [radix10 radix_val]. ring. }
    set (k := (mf * 10 ^ (ef - ed) - md)%Z).
    assert (D : f - d = IZR k * bpow radix10 ed) by (unfold k; rewrite minus_IZR, F, Ed; ring).
    assert (K : (1 <= Z.abs k)%Z).
    { assert (k <> 0)%Z; [|lia]. intros K. apply N. rewrite K in D. lra. }
    rewrite D, Ed, !Rabs_mult, (Rabs_pos_eq (bpow radix10 ed)) by (left; apply bpow10_pos). rewrite <- !abs_IZR.
    apply IZR_le in K. assert (B : IZR (Z.abs md) <= 1000000000000000) by (apply IZR_le; lia). pose proof (bpow10_pos ed). nra.
  - (* f has a smaller exponent *)
    apply Rnot_lt_le. intros H.
    assert (B1 : Rabs f <= 999999999999999 * bpow radix10 ef).
    { rewrite Ef, Rabs_mult, (Rabs_pos_eq (bpow radix10 ef)) by (left; apply bpow10_pos). rewrite <- abs_IZR.
      apply Rmult_le_compat_r; [left; apply bpow10_pos|]. apply IZR_le. lia. }
    assert (B2 : 1000000000000000 * bpow radix10 ef <= Rabs d).
    { rewrite Ed, Rabs_mult, (Rabs_pos_eq (bpow radix10 ed)) by (left; apply bpow10_pos). rewrite <- abs_IZR.
      replace (1000000000000000 * bpow radix10 ef) with (100000000000000 * (10 * bpow radix10 ef)) by ring.
      apply Rmult_le_compat; [lra|pose proof (bpow10_pos ef); lra|apply IZR_le; lia|].
      replace (10 * bpow radix10 ef) with (bpow radix10 (ef + 1)) by (rewrite bpow_plus; cbn; ring). apply bpow_le. lia. }
    assert (T : Rabs d <= Rabs f + Rabs (f - d)).
    { replace d with (f - (f - d)) at 1 by ring. unfold Rminus at 1. eapply Rle_trans; [apply Rabs_triang|]. rewrite Rabs_Ropp. lra. }
    lra.
Qed.
Lemma near_unique d x : generic_format radix10 (FLX_exp 15) d -> d <> 0 -> Rabs (x - d) * 2000000000000000 < Rabs d -> print15 x = d.
Proof.
  intros Gd Nd H. unfold print15. set (f := round radix10 (FLX_exp 15) ZnearestE x).
  destruct (Req_dec f d) as [E|N]; [exact E|exfalso].
  assert (Gf : generic_format radix10 (FLX_exp 15) f) by (apply generic_format_round; [exact valid10|apply valid_rnd_N]).
  pose proof (separation f d Gf Gd N Nd) as S.
  pose proof (proj2 (@round_N_pt radix10 (FLX_exp 15) valid10 (fun z => negb (Z.even z)) x) d Gd) as P. fold f in P.
  rewrite (Rabs_minus_sym d x) in P.
  assert (T : Rabs (f - d) <= Rabs (f - x) + Rabs (x - d)).
  { replace (f - d) with ((f - x) + (x - d)) by ring. apply Rabs_triang. }
  lra.
Qed.
Definition decimal15 (d : R) : Prop := generic_format radix10 (FLX_exp 15) d.
Lemma print_decimal x : decimal15 (print15 x).
Proof. apply generic_format_round; [exact valid10|apply valid_rnd_N]. Qed.
Lemma parse_error d : bpow radix2 (-1022) <= Rabs d -> Rabs (parse64 d - d) <= / 9007199254740992 * Rabs d.
Proof.
  intros H. pose proof (relative_error_N_FLT radix2 (-1074) 53 eq_refl (fun z => negb (Z.even z)) d H) as E.
  unfold parse64. change (Rabs (round radix2 (FLT_exp (-1074) 53) ZnearestE d - d) <= / 2 * bpow radix2 (-53 + 1) * Rabs d) in E.
  replace (/ 2 * bpow radix2 (-53 + 1)) with (/ 9007199254740992) in E; [exact E|]. cbn. lra.
Qed.
Lemma decimal_survives d : decimal15 d -> d = 0 \/ bpow radix2 (-1022) <= Rabs d -> yaml_number (parse64 d) = parse64 d.
Proof.
  intros G [->|H]; unfold yaml_number; [unfold parse64, print15; rewrite !round_0; [reflexivity|..]; apply valid_rnd_N|].
  assert (N : d <> 0). { intros ->. rewrite Rabs_R0 in H. pose proof (bpow_gt_0 radix2 (-1022)). lra. }
  f_equal. apply near_unique; [exact G|exact N|].
  pose proof (parse_error d H). pose proof (Rabs_pos_lt d N). lra.
Qed.
Lemma yaml_error x : bpow radix2 (-1021) <= Rabs x -> Rabs (yaml_number x - x) <= 6 / 1000000000000000 * Rabs x.
Proof.
  intros H. pose proof (relative_error_N_FLX radix10 15 eq_refl (fun z => negb (Z.even z)) x) as E.
  change (Rabs (print15 x - x) <= / 2 * bpow radix10 (-15 + 1) * Rabs x) in E.
  replace (/ 2 * bpow radix10 (-15 + 1)) with (5 / 1000000000000000) in E by (cbn; lra).
  assert (A : Rabs (print15 x) <= Rabs (print15 x - x) + Rabs x).
  { replace (print15 x) with ((print15 x - x) + x) at 1 by ring. apply Rabs_triang. }
  assert (B : Rabs x <= Rabs (print15 x - x) + Rabs (print15 x)).
  { replace x with (print15 x - (print15 x - x)) at 1 by ring. unfold Rminus at 1. eapply Rle_trans; [apply Rabs_triang|]. rewrite Rabs_Ropp. lra. }
  assert (C : bpow radix2 (-1022) <= Rabs (print15 x)).
  { replace (-1021)%Z with (-1022 + 1)%Z in H by reflexivity. rewrite bpow_plus in H. change (bpow radix2 1) with 2 in H.
    pose proof (bpow_gt_0 radix2 (-1022)). lra. }
  pose proof (parse_error _ C) as P. fold (yaml_number x) in P.
  assert (T : Rabs (yaml_number x - x) <= Rabs (yaml_number x - print15 x) + Rabs (print15 x - x)).
  { replace (yaml_number x - x) with ((yaml_number x - print15 x) + (print15 x - x)) by ring. apply Rabs_triang. }
  pose proof (Rabs_pos x). lra.
Qed.
Lemma yaml_stable x : print15 x = 0 \/ bpow radix2 (-1022) <= Rabs (print15 x) -> yaml_number (yaml_number x) = yaml_number x.
Proof. intros H. apply decimal_survives; [apply print_decimal|exact H]. Qed.

(** 2^53 - 1 needs 16 digits *)
Lemma print_2p53 : print15 9007199254740991 = 9007199254740990.
Proof.
  unfold print15, round, scaled_mantissa, cexp, FLX_exp.
  assert (M : mag radix10 9007199254740991 = 16%Z :> Z).
  { apply mag_unique. rewrite Rabs_pos_eq by lra. cbn. lra. }
  rewrite M. change (- (16 - 15))%Z with (-1)%Z. change (bpow radix10 (-1)) with (/ 10).
  rewrite (Znearest_imp _ _ 900719925474099); [unfold F2R; cbn; lra|].
  replace (9007199254740991 * / 10 - 900719925474099) with (/ 10) by lra. rewrite Rabs_pos_eq by lra. lra.
Qed.
Lemma int_is_double z : (Z.abs z <= 9007199254740992)%Z -> parse64 (IZR z) = IZR z.
Proof.
  intros H. apply round_generic; [apply valid_rnd_N|].
  destruct (Z.eq_dec (Z.abs z) 9007199254740992) as [E|N].
  - assert (B : generic_format radix2 (FLT_exp (-1074) 53) (bpow radix2 53)).
    { apply generic_format_bpow. unfold FLT_exp. lia. }
    change (bpow radix2 53) with 9007199254740992 in B.
    destruct (Z.abs_eq_or_opp z) as [A|A].
    + replace z with 9007199254740992%Z by lia. exact B.
    + replace z with (- (9007199254740992))%Z by lia. rewrite opp_IZR. apply generic_format_opp. exact B.
  - apply generic_format_FLT. exists (Float radix2 z 0); cbn; [unfold F2R; cbn; lra|lia|lia].
Qed.
Lemma yaml_2p53 : parse64 9007199254740991 = 9007199254740991 /\ yaml_number 9007199254740991 = 9007199254740990.
Proof.
  split; [apply (int_is_double 9007199254740991); lia|]. unfold yaml_number. rewrite print_2p53. apply (int_is_double 9007199254740990). lia.
Qed.

(** ** files *)
From Verif Require Import RSum Matrix ConfigSpec ConfigFacts.
Import ListNotations.
Open Scope list_scope.
Lemma yaml_file_decimals objs name c vs old crash :
  NoDup (map section_name objs) -> In (name, c, vs) objs -> wf_class c -> readable yaml_number c vs -> have_types (c_entries c) old ->
  (forall v, In v vs -> matrix_free v) ->
  (forall x, In x (flat_map numbers vs) -> exists d, decimal15 d /\ (d = 0 \/ bpow radix2 (-1022) <= Rabs d)%R /\ x = parse64 d) ->
  readConfig c name crash old (yaml_file yaml_number objs) = (yaml_file yaml_number objs, Done vs).
Proof.
  intros ND I W Rd T M H. apply yaml_round_trip_exact; try assumption.
  intros x J. destruct (H x J) as [d [G [B ->]]]. apply decimal_survives; assumption.
Qed.
Definition one_number : cls := mkCls [EScalar "value" KReal] (fun _ => true) (fun _ => [VScalar (SReal 0)]).
Lemma yaml_file_lossy : exists x : R, parse64 x = x /\
  readConfig one_number "S" true [VScalar (SReal 0)] (yaml_file yaml_number [("S"%string, one_number, [VScalar (SReal x)])]) =
    (yaml_file yaml_number [("S"%string, one_number, [VScalar (SReal x)])], Done [VScalar (SReal (x - 1))]).
Proof.
  exists 9007199254740991%R. split; [apply yaml_2p53|].
  rewrite (yaml_round_trip yaml_number _ "S" one_number [VScalar (SReal 9007199254740991)]).
  - cbn. rewrite (proj2 yaml_2p53). do 5 f_equal. lra.
  - repeat constructor. intros [].
  - left. reflexivity.
  - repeat split; try (repeat constructor; intros []; fail).
  - repeat split.
  - cbn. tauto.
Qed.
(** a class with a parent, whose finalize() checks an own entry, cannot be read although the file is right *)
Definition checked : cls :=
  mkCls [EParent [EScalar "base" KInt]; EScalar "rate" KInt]
    (fun l => match l with [_; VScalar (SInt r)] => (0 <? r)%Z | _ => false end)
    (fun _ => [VObject [VScalar (SInt 0)]; VScalar (SInt 0)]).
Lemma parent_finalizes_early : exists vs,
  have_types (c_entries checked) vs /\ c_finalize checked vs = true /\
  exists r', readConfig checked "S" true vs (msgpack_file [("S"%string, checked, vs)]) = (r', Thrown).
Proof. exists [VObject [VScalar (SInt 1)]; VScalar (SInt 5)]. repeat split. eexists. vm_compute. reflexivity. Qed.
(** after a failed read of one section the other section of the file is not found: a relaxed read silently returns defaults *)
Lemma reader_lost : exists (file r1 : reader) (a b : cls) (vs : list value),
  file = mkReader [] [NMap [("A"%string, NMap [("value"%string, NScalar (SStr "x"))]); ("B"%string, NMap (section_of (fun x => x) b vs))]] /\
  readConfig a "A" false (c_defaults a []) file = (r1, Thrown) /\
  readConfig b "B" false (c_defaults b []) file = (file, Done vs) /\
  readConfig b "B" false (c_defaults b []) r1 = (r1, Done (c_defaults b [])) /\ vs <> c_defaults b [].
Proof.
  eexists. eexists. exists one_number, one_number, [VScalar (SReal 1)].
  repeat split; try reflexivity. cbn. intros E. injection E as E. lra.
Qed.
Lemma matrix_refuted : exists m : mat, ~ (rows_from (mrows m) (mcols m) (columns_of m) ==m m).
Proof.
  exists (mkMat 2 2 (fun i j => INR (2 * i + j))). intros [_ [_ H]]. specialize (H 0%nat 1%nat). cbn in H. assert (2 = 1)%R; [|lra].
  rewrite <- H by lia. lra.
Qed.
Definition one_matrix (n : string) : cls := mkCls [EMatrix n] (fun _ => true) (fun l => l).
Lemma matrix_file fmt n m old crash :
  readConfig (one_matrix n) "S" crash [VMatrix old] (yaml_file fmt [("S"%string, one_matrix n, [VMatrix m])]) =
  (yaml_file fmt [("S"%string, one_matrix n, [VMatrix m])], Done [VMatrix (rows_from (mrows m) (mcols m) (map fmt (columns_of m)))]).
Proof.
  rewrite (yaml_round_trip fmt _ "S" (one_matrix n) [VMatrix m]); [reflexivity|..].
  - repeat constructor. intros [].
  - left. reflexivity.
  - repeat split; try (repeat constructor; intros []; fail). intros l. exact (fun H => H).
  - repeat split.
  - cbn. tauto.
Qed.
Lemma matrix_file_msgpack n m old crash :
  readConfig (one_matrix n) "S" crash [VMatrix old] (msgpack_file [("S"%string, one_matrix n, [VMatrix m])]) =
  (msgpack_file [("S"%string, one_matrix n, [VMatrix m])], Done [VMatrix (rows_from (mrows m) (mcols m) (columns_of m))]).
Proof.
  rewrite (msgpack_round_trip_matrices _ "S" (one_matrix n) [VMatrix m]); [cbn; rewrite map_id; reflexivity|..].
  - repeat constructor. intros [].
  - left. reflexivity.
  - repeat split; try (repeat constructor; intros []; fail). intros l. exact (fun H => H).
  - repeat split.
  - cbn. tauto.
Qed.
