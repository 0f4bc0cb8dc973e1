From Coq Require Import List Reals Arith Lra Lia Bool.
From Verif Require Import Base BaseFacts RSum Matrix BlockDiagonalFacts BlockMatrix BlockMatrixFacts BlockMatrixSpec BlockProductFacts GridFill Kronecker.
Open Scope R_scope.

Lemma dense_of_sizes lower b : mrows (dense_of lower b) = mrows (raw b) /\ mcols (dense_of lower b) = mcols (raw b).
Proof. destruct lower; split; reflexivity. Qed.
Lemma dense_of_entry lower b a x p q : (p < block_rows b)%nat -> (q < block_cols b)%nat ->
  mget (dense_of lower b) (a * block_rows b + p) (x * block_cols b + q) = if (first_row lower x <=? a)%nat then mget (raw b) (a * block_rows b + p) (x * block_cols b + q) else 0.
Proof. intros Hp Hq. destruct lower; cbn [dense_of first_row block_lower_of mget]; [rewrite !grid_div by assumption; reflexivity|reflexivity]. Qed.

(** ** evaluation *)
Lemma kron_fill_ok lower k nv nh out0 : has_blocks (kbm k) nv nh -> (0 < ksize k)%nat ->
  mrows out0 = (nv * ksize k * block_rows (kbm k))%nat -> mcols out0 = (nh * ksize k * block_cols (kbm k))%nat ->
  exists out, kron_fill lower k out0 = Ok out /\
    filled out0 (block_rows (kbm k)) (block_cols (kbm k)) (nv * ksize k) (nh * ksize k)
      (fun a b p q => mget (raw (kbm k)) ((a / ksize k) * block_rows (kbm k) + p) ((b / ksize k) * block_cols (kbm k) + q))
      (fun a b => (a mod ksize k = b mod ksize k)%nat /\ (first_row lower (b / ksize k) <= a / ksize k)%nat) out.
Proof.
  intros HB S0 R0 C0. destruct (has_blocks_num _ _ _ HB) as [NV NH]. pose proof HB as (Hr & Hc & R & C).
  unfold kron_fill. cbv zeta. rewrite NV, NH. set (b := kbm k) in *. set (s := ksize k) in *. set (r := block_rows b) in *. set (c := block_cols b) in *.
  match goal with |- context [filled _ _ _ _ _ ?F ?Q] => set (F0 := F); set (Q0 := Q) end.
  match goal with |- context [for_up nh 0 ?bd out0] => set (body := bd) end.
  destruct (for_up_inv (fun j out => filled out0 r c (nv * s) (nh * s) F0 (fun a x => Q0 a x /\ (x / s < j)%nat) out) body nh 0 out0) as (out & E & FL).
  - apply filled_init; [exact R0|exact C0|]. intros; lia.
  - intros j out Hj FL. unfold body. clear body.
    match goal with |- context [for_up _ _ ?bd out] => set (body := bd) end.
    set (lo := first_row lower j) in *.
    destruct (for_up_inv (fun i o => filled out0 r c (nv * s) (nh * s) F0 (fun a x => Q0 a x /\ ((x / s < j)%nat \/ ((x / s = j)%nat /\ (a / s < i)%nat))) o) body (nv - lo) lo out) as (out1 & E1 & FL1).
    + eapply filled_iff; [exact FL|]. intros a x Ha Hx. unfold Q0. split; [tauto|]. intros [[H1 H2] [H3|[H3 H4]]]; [tauto|]. rewrite H3 in H2. fold lo in H2. lia.
    + intros i o Hi FLi. unfold body. clear body.
      match goal with |- context [for_up s 0 ?bd o] => set (body := bd) end.
      destruct (for_up_inv (fun t o => filled out0 r c (nv * s) (nh * s) F0
         (fun a x => Q0 a x /\ ((x / s < j)%nat \/ ((x / s = j)%nat /\ ((a / s < i)%nat \/ ((a / s = i)%nat /\ (a mod s < t)%nat))))) o) body s 0 o) as (out2 & E2 & FL2).
      * eapply filled_iff; [exact FLi|]. intros a x Ha Hx. intuition lia.
      * intros t o' Ht FLt. unfold body. rewrite bget_ok by (rewrite ?R, ?C; fold r c; nia). cbn [bind]. fold r c.
        apply (filled_put1 _ _ _ _ _ _ _ _ o' (i * s + t) (j * s + t) _ FLt).
        -- nia.
        -- nia.
        -- reflexivity.
        -- reflexivity.
        -- intros p q Hp Hq. unfold F0. rewrite !grid_div by lia. reflexivity.
        -- intros a x Ha Hx. rewrite (divmod_iff s a i t), (divmod_iff s x j t) by lia. unfold Q0.
           assert (LO : (x / s)%nat = j -> first_row lower (x / s) = lo) by (intros ->; reflexivity).
           split.
           ++ intros [[H1 H2] [H3|[H3 [H4|[H4 H5]]]]].
              ** left. tauto.
              ** left. tauto.
              ** destruct (Nat.eq_dec (a mod s) t) as [e|ne]; [right; lia|left; split; [tauto|]; right; split; [assumption|]; right; lia].
           ++ intros [[H1 [H3|[H3 [H4|[H4 H5]]]]]|[[H1 H2] [H3 H4]]].
              ** tauto.
              ** tauto.
              ** split; [tauto|]. right. split; [assumption|]. right. lia.
              ** split; [split; [lia|rewrite LO by assumption; lia]|]. right. split; [assumption|]. right. lia.
      * exists out2. split; [exact E2|]. eapply filled_iff; [exact FL2|]. intros a x Ha Hx. pose proof (Nat.mod_upper_bound a s ltac:(lia)). intuition lia.
    + exists out1. split; [exact E1|]. eapply filled_iff; [exact FL1|]. intros a x Ha Hx.
      assert (D : (a / s < nv)%nat) by (apply Nat.div_lt_upper_bound; lia).
      split.
      * intros [H1 [H2|[H2 H3]]]; (split; [assumption|lia]).
      * intros [H1 H2]. split; [assumption|]. destruct (Nat.eq_dec (x / s) j) as [e|ne]; [|left; lia]. right. split; [assumption|]. lia.
  - exists out. split; [exact E|]. eapply filled_iff; [exact FL|]. intros a x Ha Hx. assert (D : (x / s < nh)%nat) by (apply Nat.div_lt_upper_bound; lia).
    split; [tauto|]. intros; split; [assumption|lia].
Qed.

Lemma kron_fill_zero lower k nv nh r0 c0 : has_blocks (kbm k) nv nh -> (0 < ksize k)%nat ->
  r0 = (ksize k * mrows (raw (kbm k)))%nat -> c0 = (ksize k * mcols (raw (kbm k)))%nat ->
  exists out, kron_fill lower k (mzero r0 c0) = Ok out /\
    out ==m kron_of (dense_of lower (kbm k)) (block_rows (kbm k)) (block_cols (kbm k)) (ksize k).
Proof.
  intros HB S0 -> ->. pose proof HB as (Hr & Hc & R & C). destruct (dense_of_sizes lower (kbm k)) as [DR DC].
  destruct (kron_fill_ok lower k nv nh (mzero (ksize k * mrows (raw (kbm k))) (ksize k * mcols (raw (kbm k)))) HB S0) as (out & E & FL).
  { cbn. rewrite R. lia. } { cbn. rewrite C. lia. }
  exists out. split; [exact E|]. pose proof FL as (RR & RC & _).
  apply (meq_grid _ _ (block_rows (kbm k)) (block_cols (kbm k)) (nv * ksize k) (nh * ksize k)); [assumption|assumption|cbn; rewrite DR, R; lia|cbn; rewrite DC, C; lia|].
  intros a x p q Ha Hx Hp Hq. cbn [kron_of mget]. rewrite !grid_div, !grid_mod by assumption.
  destruct (Nat.eqb_spec (a mod ksize k) (x mod ksize k)) as [e|ne].
  - rewrite dense_of_entry by assumption. destruct (Nat.leb_spec (first_row lower (x / ksize k)) (a / ksize k)) as [l|g].
    + rewrite (filled_get _ _ _ _ _ _ _ _ _ _ _ _ FL); [reflexivity|split; assumption|assumption|assumption|assumption|assumption].
    + rewrite (filled_get0 _ _ _ _ _ _ _ _ _ _ _ _ FL); [reflexivity|intros [_ X]; lia|assumption|assumption|assumption|assumption].
  - rewrite (filled_get0 _ _ _ _ _ _ _ _ _ _ _ _ FL); [reflexivity|intros [X _]; lia|assumption|assumption|assumption|assumption].
Qed.
Theorem kron_evaluate_dense lower k nv nh : has_blocks (kbm k) nv nh -> (0 < ksize k)%nat ->
  exists out, kron_evaluate lower k = Ok out /\ out ==m kron_of (dense_of lower (kbm k)) (block_rows (kbm k)) (block_cols (kbm k)) (ksize k).
Proof. intros HB S0. apply (kron_fill_zero lower k nv nh); auto. Qed.
Theorem kron_evaluate_block_dense lower k nv nh m i0 j0 : has_blocks (kbm k) nv nh -> (0 < ksize k)%nat ->
  let r := (ksize k * mrows (raw (kbm k)))%nat in let c := (ksize k * mcols (raw (kbm k)))%nat in
  (i0 + r <= mrows m)%nat -> (j0 + c <= mcols m)%nat ->
  exists out, kron_evaluate_block lower k m i0 j0 r c = Ok out /\
    out ==m mset_block m i0 j0 (kron_of (dense_of lower (kbm k)) (block_rows (kbm k)) (block_cols (kbm k)) (ksize k)).
Proof.
  intros HB S0 r c Hr Hc. unfold kron_evaluate_block. rewrite getb_ok by assumption. cbn [bind].
  destruct (kron_fill_zero lower k nv nh r c HB S0 eq_refl eq_refl) as (x & E & (XR & XC & X)). rewrite E. cbn [bind].
  destruct (dense_of_sizes lower (kbm k)) as [DR DC]. cbn [kron_of mrows mcols] in XR, XC. rewrite DR in XR. rewrite DC in XC. fold r in XR. fold c in XC.
  rewrite putb_ok by assumption. eexists. split; [reflexivity|].
  split; [reflexivity|]. split; [reflexivity|]. intros i j Hi Hj. cbn [mset_block mget mrows mcols kron_of] in *. rewrite DR, DC, XR, XC. fold r c.
  destruct (in_block i0 r i && in_block j0 c j) eqn:B; [|reflexivity]. apply andb_true_iff in B. destruct B as [B1 B2]. unfold in_block in B1, B2.
  apply andb_true_iff in B1, B2. rewrite Nat.leb_le, Nat.ltb_lt in B1, B2. apply X; lia.
Qed.

(** ** sums *)
Lemma kron_diag_entry X (r c s nh : nat) (d : bmat) a p y q : (0 < s)%nat -> (p < r)%nat -> mcols X = (nh * c)%nat -> block_rows d = (c * s)%nat -> mrows (raw d) = (nh * (c * s))%nat ->
  (y < nh)%nat -> (q < block_cols d)%nat -> (0 < c)%nat ->
  mget (mmul (kron_of X r c s) (block_diagonal_of d)) (a * r + p) (y * block_cols d + q) =
  Rsum c (fun l => mget X ((a / s) * r + p) (y * c + l) * mget (raw d) (y * (c * s) + ((a mod s) * c + l)) (y * block_cols d + q)).
Proof.
  intros S0 Hp XC DR RR Hy Hq C0. cbn [mmul mget mcols kron_of]. rewrite XC. replace (s * (nh * c))%nat with ((nh * s) * c)%nat by ring. rewrite Rsum_blocks, Rsum_blocks.
  assert (MB : (a mod s < s)%nat) by (apply Nat.mod_upper_bound; lia).
  rewrite (Rsum_single nh y).
  - rewrite (Rsum_single s (a mod s)).
    + apply Rsum_ext. intros l Hl. rewrite !grid_div, !grid_mod by assumption. rewrite Nat.eqb_refl.
      cbn [block_diagonal_of mget]. rewrite DR. replace ((y * s + a mod s) * c + l)%nat with (y * (c * s) + ((a mod s) * c + l))%nat by ring.
      rewrite !grid_div by (first [assumption|nia]). rewrite Nat.eqb_refl. reflexivity.
    + assumption.
    + intros t Ht Ne. apply Rsum_zero. intros l Hl. rewrite !grid_div, !grid_mod by assumption. rewrite (proj2 (Nat.eqb_neq _ _)) by auto. ring.
  - assumption.
  - intros y' Hy' Ne. apply Rsum_zero. intros t Ht. apply Rsum_zero. intros l Hl. cbn [block_diagonal_of mget]. rewrite DR.
    replace ((y' * s + t) * c + l)%nat with (y' * (c * s) + (t * c + l))%nat by ring. rewrite (grid_div (c * s)) by nia. rewrite (grid_div (block_cols d)) by assumption.
    rewrite (proj2 (Nat.eqb_neq y' y)) by auto. ring.
Qed.

(** ** the permutation *)
Lemma kron_indices_ok b s nv nh : has_blocks b nv nh ->
  exists idx, kron_indices b s = Ok idx /\ forall j i p, (j < nv)%nat -> (i < s)%nat -> (p < block_rows b)%nat ->
    idx ((j * s + i) * block_rows b + p)%nat = ((i * nv + j) * block_rows b + p)%nat.
Proof.
  intros HB. destruct (has_blocks_num _ _ _ HB) as [NV NH]. pose proof HB as (Hr & Hc & R & C). unfold kron_indices. cbv zeta. rewrite NV, R.
  set (r := block_rows b) in *.
  match goal with |- context [for_up s 0 ?bd _] => set (body := bd) end.
  set (done := fun (i0 j0 : nat) (idx : nat -> nat) => forall j i p, (j < nv)%nat -> (i < s)%nat -> (p < r)%nat -> (i < i0 \/ (i = i0 /\ j < j0))%nat ->
     idx ((j * s + i) * r + p)%nat = ((i * nv + j) * r + p)%nat).
  destruct (for_up_inv (fun i idx => done i 0%nat idx) body s 0 (fun _ => 0%nat)) as (idx & E & D).
  - intros j i p Hj Hi Hp; lia.
  - intros i idx Hi D. unfold body. clear body. match goal with |- context [for_up nv 0 ?bd _] => set (body := bd) end.
    destruct (for_up_inv (fun j idx => done i j idx) body nv 0 idx) as (idx' & E' & D').
    + exact D.
    + intros j idx1 Hj D1. unfold body. rewrite assert_true.
      2:{ apply Nat.leb_le. assert (s * (nv * r) = (s * nv) * r)%nat by ring. assert (j * r * s + i * r + r = (j * s + i + 1) * r)%nat by ring. nia. }
      eexists. split; [reflexivity|]. intros j' i' p Hj' Hi' Hp Hd.
      replace (j * r * s + i * r)%nat with ((j * s + i) * r)%nat by ring. rewrite in_block_grid by assumption.
      destruct (Nat.eqb_spec (j' * s + i') (j * s + i)) as [e|ne].
      * apply (proj1 (divmod_iff s _ j i ltac:(lia))) in e. rewrite grid_div, grid_mod in e by lia. destruct e as [-> ->]. rewrite Nat.add_sub_swap, Nat.sub_diag by lia. ring.
      * apply D1; try assumption. destruct (Nat.eq_dec i' i) as [->|]; [|lia]. destruct (Nat.eq_dec j' j) as [->|]; [lia|lia].
    + exists idx'. split; [exact E'|]. intros j i' p Hj' Hi' Hp Hd. apply D'; try assumption. lia.
  - exists idx. split; [exact E|]. intros j i p Hj Hi Hp. apply D; try assumption. lia.
Qed.

(** ** Kronecker product times block diagonal matrix *)
Theorem kron_right_dense junk lower k dbm nv nh : has_blocks (kbm k) nv nh -> (0 < ksize k)%nat -> has_blocks dbm nh nh ->
  block_rows dbm = (block_cols (kbm k) * ksize k)%nat -> (lower = true -> (nh <= nv)%nat) ->
  exists out, kron_multiplyRight junk lower k dbm = Ok out /\
    out ==m mmul (kron_of (dense_of lower (kbm k)) (block_rows (kbm k)) (block_cols (kbm k)) (ksize k)) (block_diagonal_of dbm).
Proof.
  intros HB S0 HD DR LW. destruct (has_blocks_num _ _ _ HB) as [NV NH]. pose proof HB as (Hr & Hc & R & C).
  destruct (has_blocks_num _ _ _ HD) as [DNV DNH]. destruct (rows_of _ _ _ HD) as [GR GC]. pose proof HD as (Hdr & Hdc & RD & CD).
  unfold kron_multiplyRight. cbv zeta. rewrite NV, NH, DNV, GR, GC, DR.
  set (b := kbm k) in *. set (s := ksize k) in *. set (r := block_rows b) in *. set (c := block_cols b) in *. set (cd := block_cols dbm) in *.
  rewrite !Nat.eqb_refl. replace (nh * (c * s))%nat with (nh * c * s)%nat by ring. rewrite Nat.eqb_refl. rewrite !assert_true by reflexivity.
  set (z0 := mkMat (s * mrows (raw b)) (nh * cd) (if lower then fun _ _ => 0 else junk)).
  destruct (dense_of_sizes lower b) as [DSR DSC].
  destruct (Nat.eqb_spec nh 0) as [Z|NZ].
  { exists z0. split; [reflexivity|]. split; [cbn; rewrite DSR; reflexivity|]. split; [cbn; lia|]. cbn [z0 mcols]. rewrite Z. intros; cbn in *; lia. }
  replace (nh * cd / nh)%nat with cd by (rewrite Nat.mul_comm, Nat.div_mul by assumption; reflexivity).
  destruct (kron_indices_ok b s nv nh HB) as (idx & EI & DI). rewrite EI. cbn [bind].
  match goal with |- context [for_up s 0 ?bd z0] => set (body := bd) end.
  set (F := fun a y p q : nat => Rsum c (fun l => mget (raw b) ((a mod nv) * r + p) (y * c + l) * mget (raw dbm) (y * (c * s) + ((a / nv) * c + l)) (y * cd + q))).
  set (Q := fun a y : nat => (first_row lower y <= a mod nv)%nat).
  destruct (for_up_inv (fun i out => filled z0 r cd (s * nv) nh F (fun a y => Q a y /\ (a / nv < i)%nat) out) body s 0 z0) as (res & E & FL).
  - apply filled_init; [cbn; rewrite R; fold r; ring|reflexivity|]. intros; lia.
  - intros i out Hi FL. unfold body. clear body. match goal with |- context [for_up nh 0 ?bd out] => set (body := bd) end.
    destruct (for_up_inv (fun j out => filled z0 r cd (s * nv) nh F (fun a y => Q a y /\ ((a / nv < i)%nat \/ ((a / nv = i)%nat /\ (y < j)%nat))) out) body nh 0 out) as (res & E & FL').
    + eapply filled_iff; [exact FL|]. intros; intuition lia.
    + intros j o Hj FLj. unfold body. set (f := first_row lower j) in *.
      assert (Hf : (f <= nv)%nat) by (unfold f; destruct lower; cbn [first_row]; [specialize (LW eq_refl); lia|lia]).
      rewrite assert_true by (apply Nat.leb_le; exact Hf). unfold bget_column. fold r c. rewrite getb_ok by (rewrite ?R, ?C; fold r c; nia). cbn [bind].
      rewrite bget_ok by (rewrite ?RD, ?CD; fold cd; nia). cbn [bind]. rewrite DR. fold cd.
      rewrite getb_ok by (cbn; nia). cbn [bind]. rewrite mmul_o_ok by reflexivity. cbn [bind].
      destruct (filled_put z0 r cd (s * nv) nh F (fun a y => Q a y /\ ((a / nv < i)%nat \/ ((a / nv = i)%nat /\ (y < j)%nat)))
        (fun a y => Q a y /\ ((a / nv < i)%nat \/ ((a / nv = i)%nat /\ (y < S j)%nat))) o (i * nv + f) j (nv - f) 1
        (mmul (mblock (raw b) (f * r) (j * c) ((nv - f) * r) c) (mblock (mblock (raw dbm) (j * (c * s)) (j * cd) (c * s) cd) (i * c) 0 c cd)) FLj) as (o' & E' & FL').
      * nia.
      * lia.
      * reflexivity.
      * cbn. lia.
      * intros a y p q Ha Hy Hp Hq. replace y with 0%nat by lia. cbn [mmul mblock mget mcols Nat.mul Nat.add]. unfold F.
        replace (i * nv + f + a)%nat with (i * nv + (f + a))%nat by ring. rewrite grid_div, grid_mod by lia. rewrite Nat.add_0_r.
        apply Rsum_ext. intros l Hl. rewrite Nat.mul_add_distr_r, Nat.add_assoc. reflexivity.
      * intros a y Ha Hy. assert (NV0 : (0 < nv)%nat) by nia. pose proof (Nat.div_mod a nv ltac:(lia)) as DM. pose proof (Nat.mod_upper_bound a nv ltac:(lia)) as MB.
        set (ad := (a / nv)%nat) in *. set (am := (a mod nv)%nat) in *. unfold Q. fold am.
        assert (Hrange : (i * nv + f <= a < i * nv + f + (nv - f))%nat <-> ad = i /\ (f <= am)%nat).
        { split; [intros; assert (ad = i) by nia; split; [assumption|subst ad; nia]|]. intros [-> X]. nia. }
        rewrite Hrange. split.
        -- intros [H1 [H2|[H2 H3]]]; [left; tauto|]. destruct (Nat.eq_dec y j) as [->|]; [right; split; [split; [assumption|exact H1]|lia]|left; split; [assumption|right; lia]].
        -- intros [[H1 [H2|[H2 H3]]]|[[H1 H2] H3]]; [tauto|split; [assumption|right; lia]|]. replace y with j by lia. split; [exact H2|right; lia].
      * exists o'. split; [|exact FL']. rewrite <- E'. rewrite Nat.mul_1_l. f_equal; [rewrite R; fold r; ring|ring].
    + exists res. split; [exact E|]. eapply filled_iff; [exact FL'|]. intros; intuition lia.
  - rewrite E. cbn [bind]. eexists. split; [reflexivity|]. pose proof FL as (RR & RC & _).
    apply (meq_grid _ _ r cd (nv * s) nh); [cbn; rewrite RR; ring|assumption|cbn; rewrite DSR, R; fold r; ring|cbn; rewrite CD; reflexivity|].
    intros a y p q Ha Hy Hp Hq. cbn [mget].
    destruct (grid_split s nv a Ha) as (j & i & -> & Hj & Hi). rewrite DI by assumption.
    rewrite (kron_diag_entry (dense_of lower b) r c s nh dbm) by (first [assumption|rewrite DSC; assumption|rewrite RD, DR; reflexivity]).
    rewrite grid_div, grid_mod by assumption. destruct (le_lt_dec (first_row lower y) j) as [l|g].
    + rewrite (filled_get _ _ _ _ _ _ _ _ _ _ _ _ FL); [|unfold Q; rewrite grid_div, grid_mod by assumption; split; lia|nia|assumption|assumption|assumption].
      unfold F. rewrite grid_div, grid_mod by assumption. apply Rsum_ext. intros x Hx. rewrite dense_of_entry by assumption. fold r c.
      rewrite (proj2 (Nat.leb_le _ _) l). reflexivity.
    + rewrite (filled_get0 _ _ _ _ _ _ _ _ _ _ _ _ FL); [|unfold Q; rewrite grid_div, grid_mod by assumption; lia|nia|assumption|assumption|assumption].
      assert (LT : lower = true) by (destruct lower; [reflexivity|cbn in g; lia]). unfold z0. rewrite LT. cbn [mget]. symmetry. apply Rsum_zero. intros x Hx.
      rewrite <- LT. rewrite dense_of_entry by assumption. rewrite (proj2 (Nat.leb_gt _ _) g). ring.
Qed.
