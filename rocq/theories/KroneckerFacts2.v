From Coq Require Import List Reals Arith Lra Lia Bool.
From Verif Require Import Base BaseFacts RSum Matrix BlockDiagonalFacts BlockMatrix BlockMatrixFacts BlockMatrixSpec BlockProductFacts GridFill Kronecker KroneckerFacts.
Open Scope R_scope.

(** ** vectors *)
Lemma kron_vector_entry X (r c s nh : nat) v a p : (0 < s)%nat -> (p < r)%nat -> mcols X = (nh * c)%nat ->
  mget (mmul (kron_of X r c s) v) (a * r + p) 0 =
  Rsum nh (fun y => Rsum c (fun l => mget X ((a / s) * r + p) (y * c + l) * mget v ((y * s + a mod s) * c + l) 0)).
Proof.
  intros S0 Hp XC. cbn [mmul mget mcols kron_of]. rewrite XC. replace (s * (nh * c))%nat with ((nh * s) * c)%nat by ring. rewrite Rsum_blocks, Rsum_blocks.
  assert (MB : (a mod s < s)%nat) by (apply Nat.mod_upper_bound; lia).
  apply Rsum_ext. intros y Hy. rewrite (Rsum_single s (a mod s)).
  - apply Rsum_ext. intros l Hl. rewrite !grid_div, !grid_mod by assumption. rewrite Nat.eqb_refl. reflexivity.
  - assumption.
  - intros t Ht Ne. apply Rsum_zero. intros l Hl. rewrite !grid_div, !grid_mod by assumption. rewrite (proj2 (Nat.eqb_neq _ _)) by auto. ring.
Qed.
Lemma filled_put_vec m0 r n F Q Q' m a0 src : filled m0 r 1 n 1 F Q m -> (a0 < n)%nat -> mrows src = r -> mcols src = 1%nat ->
  (forall p, (p < r)%nat -> mget src p 0 = F a0 0%nat p 0%nat) ->
  (forall a, (a < n)%nat -> (Q' a 0%nat <-> Q a 0%nat \/ a = a0)) ->
  exists m', putb m (a0 * r) 0 r 1 src = Ok m' /\ filled m0 r 1 n 1 F Q' m'.
Proof.
  intros H Ha RS CS ES I. apply (filled_put1 m0 r 1 n 1 F Q Q' m a0 0 src H); try assumption; try lia.
  - intros p q Hp Hq. replace q with 0%nat by lia. auto.
  - intros a b Ha' Hb. replace b with 0%nat by lia. rewrite I by assumption. intuition lia.
Qed.

Theorem kron_vector_dense junk junk' k v nv nh : has_blocks (kbm k) nv nh -> (0 < ksize k)%nat ->
  mrows v = (ksize k * mcols (raw (kbm k)))%nat -> mcols v = 1%nat ->
  exists out, kron_multiplyRight_vector junk junk' k v = Ok out /\
    out ==m mmul (kron_of (raw (kbm k)) (block_rows (kbm k)) (block_cols (kbm k)) (ksize k)) v.
Proof.
  intros HB S0 VR VC. destruct (has_blocks_num _ _ _ HB) as [NV NH]. pose proof HB as (Hr & Hc & R & C).
  unfold kron_multiplyRight_vector. cbv zeta. rewrite NV, NH. rewrite C in VR.
  set (b := kbm k) in *. set (s := ksize k) in *. set (r := block_rows b) in *. set (c := block_cols b) in *.
  set (z0 := mkMat (s * mrows (raw b)) 1 junk).
  match goal with |- context [for_up s 0 ?bd ?z] => set (body := bd); set (z1 := z) end.
  set (F := fun a (_ : nat) p (_ : nat) => Rsum nh (fun y => Rsum c (fun l => mget (raw b) ((a / s) * r + p) (y * c + l) * mget v ((y * s + a mod s) * c + l) 0))).
  destruct (for_up_inv (fun i st => filled z0 r 1 (nv * s) 1 F (fun a _ => (a mod s < i)%nat) (fst st) /\ mrows (snd st) = (nh * c)%nat /\ mcols (snd st) = 1%nat) body s 0 z1) as (st & E & FL & _).
  - split; [|split; [exact C|reflexivity]]. apply filled_init; [cbn; rewrite R; fold r; ring|cbn; lia|]. intros; lia.
  - intros i [out part] Hi (FL & PR & PC). cbn [fst snd] in *. unfold body. clear body. cbn [fst snd].
    match goal with |- context [for_up nh 0 ?bd part] => set (body := bd) end.
    set (G := fun y (_ : nat) l (_ : nat) => mget v ((y * s + i) * c + l) 0).
    destruct (for_up_inv (fun j pt => filled part c 1 nh 1 G (fun a _ => (a < j)%nat) pt) body nh 0 part) as (pt & E & FP).
    { apply filled_init; [exact PR|cbn; lia|]. intros; lia. }
    { intros j pt Hj FP. unfold body. rewrite getb_ok by (rewrite ?VR, ?VC; nia). cbn [bind]. apply (filled_put_vec _ _ _ _ _ _ _ j _ FP); [lia|reflexivity|reflexivity| |intros; lia].
      intros p Hp. cbn [mblock mget]. unfold G. f_equal. ring. }
    rewrite E. cbn [bind]. clear E. pose proof FP as (PR' & PC' & _). rewrite mmul_o_ok by (rewrite C, PR'; reflexivity). cbn [bind].
    match goal with |- context [for_up nv 0 ?bd out] => set (body2 := bd) end.
    destruct (for_up_inv (fun j o => filled z0 r 1 (nv * s) 1 F (fun a _ => (a mod s < i \/ (a mod s = i /\ a / s < j))%nat) o) body2 nv 0 out) as (o & E' & FO).
    { eapply filled_iff; [exact FL|]. intros; cbn beta; lia. }
    { intros j o Hj FO. unfold body2. rewrite getb_ok by (cbn; rewrite ?R, ?PC'; fold r; nia). cbn [bind].
      replace (j * r * s + i * r)%nat with ((j * s + i) * r)%nat by ring.
      apply (filled_put_vec _ _ _ _ _ _ _ (j * s + i) _ FO); [nia|reflexivity|reflexivity| |].
      - intros p Hp. cbn [mblock mget mmul]. change (0 + 0)%nat with 0%nat. unfold F. rewrite grid_div, grid_mod by lia. rewrite C, Rsum_blocks. apply Rsum_ext. intros y Hy. apply Rsum_ext. intros l Hl. f_equal.
        pose proof (filled_get _ _ _ _ _ _ _ _ y 0%nat l 0%nat FP Hy) as X. change (0 * 1 + 0)%nat with 0%nat in X. rewrite X by lia. reflexivity.
      - intros a Ha. rewrite (divmod_iff s a j i) by lia. split; [|lia]. intros [H|[H1 H2]]; [lia|]. destruct (Nat.eq_dec (a / s) j); [lia|lia]. }
    rewrite E'. cbn [bind]. eexists. split; [reflexivity|]. cbn [fst snd]. split; [|split; [exact PR'|lia]].
    eapply filled_iff; [exact FO|]. cbn beta. intros a x Ha Hx. assert (D : (a / s < nv)%nat) by (apply Nat.div_lt_upper_bound; lia). lia.
  - rewrite E. cbn [bind]. eexists. split; [reflexivity|]. pose proof FL as (RR & RC & _).
    apply (meq_grid _ _ r 1 (nv * s) 1); [assumption|assumption|cbn; rewrite R; fold r; ring|cbn; lia|].
    intros a x p q Ha Hx Hp Hq. assert (Z : (x * 1 + q = 0)%nat) by lia. rewrite Z. rewrite (kron_vector_entry (raw b) r c s nh) by assumption.
    pose proof (filled_get _ _ _ _ _ _ _ _ a 0%nat p 0%nat FL) as X. change (0 * 1 + 0)%nat with 0%nat in X. rewrite X; [reflexivity| |assumption|lia|assumption|lia].
    apply Nat.mod_upper_bound. lia.
Qed.

(** ** 1 x 1 blocks *)
Lemma bput_raw b i j src m : putb (raw b) (i * block_rows b) (j * block_cols b) (block_rows b) (block_cols b) src = Ok m ->
  bput b i j src = Ok (mkBm m (block_rows b) (block_cols b)).
Proof. intros E. unfold bput. rewrite E. reflexivity. Qed.

Theorem kron1_right_dense junk lower k dbm nv nh result0 : has_blocks (kbm k) nv nh -> block_rows (kbm k) = 1%nat -> block_cols (kbm k) = 1%nat ->
  (0 < ksize k)%nat -> has_blocks dbm nh nh -> block_rows dbm = ksize k -> (exists a b, has_blocks (mkBm result0 (block_rows dbm) (block_cols dbm)) a b) ->
  exists out, kron1_multiplyRight junk lower k dbm result0 = Ok out /\
    out ==m mmul (kron_of (dense_of lower (kbm k)) 1 1 (ksize k)) (block_diagonal_of dbm).
Proof.
  intros HB B1 C1 S0 HD DR (ra & ca & HR0). destruct (has_blocks_num _ _ _ HB) as [NV NH]. pose proof HB as (_ & _ & R & C). rewrite B1, Nat.mul_1_r in R. rewrite C1, Nat.mul_1_r in C.
  destruct (has_blocks_num _ _ _ HD) as [DNV DNH]. destruct (rows_of _ _ _ HD) as [GR GC]. pose proof HD as (Hdr & Hdc & RD & CD).
  unfold kron1_multiplyRight. cbv zeta. rewrite NV, NH, DNV, DNH, GR, DR, !Nat.eqb_refl, !assert_true by reflexivity.
  destruct HR0 as (_ & _ & R0 & C0). cbn [raw block_rows block_cols] in R0, C0. rewrite DR in R0, RD.
  rewrite (bm_finalize_ok _ _ result0 ra ca) by assumption. cbn [bind].
  set (b := kbm k) in *. set (s := ksize k) in *. set (cd := block_cols dbm) in *. rewrite bm_resize_ok by assumption. cbn [bind].
  set (z0 := mkMat (nv * s) (nh * cd) (if lower then fun _ _ => 0 else junk)).
  set (F := fun i j p q : nat => mget (raw b) i j * mget (raw dbm) (j * s + p) (j * cd + q)).
  set (Q := fun i j : nat => (first_row lower j <= i)%nat).
  match goal with |- context [bind (if _ then _ else ?L) _] => assert (X : exists res, (if (nh =? 0)%nat then Ok (mkBm z0 s cd) else L) = Ok (mkBm res s cd) /\ filled z0 s cd nv nh F Q res) end.
  { destruct (Nat.eqb_spec nh 0) as [Z|NZ].
    { exists z0. split; [reflexivity|]. apply filled_init; [reflexivity|reflexivity|]. intros; lia. }
    match goal with |- context [for_up nh 0 ?bd ?z] => set (body := bd) end.
    destruct (for_up_inv (fun j st => exists res, st = mkBm res s cd /\ filled z0 s cd nv nh F (fun i y => Q i y /\ (y < j)%nat) res) body nh 0 (mkBm z0 s cd)) as (st & E & res & -> & FL).
    - exists z0. split; [reflexivity|]. apply filled_init; [reflexivity|reflexivity|]. intros; lia.
    - intros j st Hj (res & -> & FL). unfold body. clear body. set (f := first_row lower j) in *. match goal with |- context [for_up _ f ?bd ?z] => set (body := bd) end.
      destruct (for_up_inv (fun i st => exists res, st = mkBm res s cd /\ filled z0 s cd nv nh F (fun a y => Q a y /\ ((y < j)%nat \/ ((y = j)%nat /\ (a < i)%nat))) res) body (nv - f) f (mkBm res s cd)) as (st & E & res' & -> & FL').
      + exists res. split; [reflexivity|]. eapply filled_iff; [exact FL|]. intros a y Ha Hy. unfold Q. split; [tauto|]. intros [H1 [H2|[-> H3]]]; [tauto|]. fold f in H1. lia.
      + intros i st Hi (res1 & -> & FL1). unfold body. rewrite bget_ok by (rewrite ?B1, ?C1, ?R, ?C; lia). cbn [bind]. rewrite bget_ok by (rewrite ?DR, ?RD, ?CD; fold cd; nia). cbn [bind].
        rewrite B1, C1, DR. fold cd.
        destruct (filled_put1 _ _ _ _ _ _ _ (fun a y => Q a y /\ ((y < j)%nat \/ ((y = j)%nat /\ (a < S i)%nat))) res1 i j
           (mscale (mget (mblock (raw b) (i * 1) (j * 1) 1 1) 0 0) (mblock (raw dbm) (j * s) (j * cd) s cd)) FL1) as (res2 & E & FL2); [lia|lia|reflexivity|reflexivity| | |].
        * intros p q Hp Hq. cbn [mscale mblock mget]. rewrite !Nat.mul_1_r, !Nat.add_0_r. reflexivity.
        * intros a y Ha Hy. unfold Q. split.
          -- intros [H1 [H2|[H2 H3]]]; [left; tauto|]. destruct (Nat.eq_dec a i); [right; lia|left; split; [assumption|right; lia]].
          -- intros [[H1 H2]|[-> ->]]; [split; [assumption|lia]|]. fold f. lia.
        * rewrite (bput_raw (mkBm res1 s cd) i j _ res2 E). eexists. split; [reflexivity|]. exists res2. split; [reflexivity|exact FL2].
      + rewrite E. eexists. split; [reflexivity|]. exists res'. split; [reflexivity|]. eapply filled_iff; [exact FL'|]. cbn beta. intros a y Ha Hy. split.
        * intros [H1 H2]. split; [assumption|lia].
        * intros [H1 H2]. split; [assumption|]. destruct (Nat.eq_dec y j) as [->|]; [right|left; lia]. unfold Q in H1. fold f in H1. lia.
    - exists res. split; [exact E|]. eapply filled_iff; [exact FL|]. cbn beta. intros a y Ha Hy. split; [tauto|]. intros; split; [assumption|lia]. }
  destruct X as (res & E & FL). rewrite E. cbn [bind raw]. exists res. split; [reflexivity|]. pose proof FL as (RR & RC & _). destruct (dense_of_sizes lower b) as [DSR DSC].
  apply (meq_grid _ _ s cd nv nh); [assumption|assumption|cbn; rewrite DSR, R; ring|cbn; rewrite CD; reflexivity|].
  intros a y p q Ha Hy Hp Hq.
  pose proof (kron_diag_entry (dense_of lower b) 1 1 s nh dbm (a * s + p) 0 y q S0 ltac:(lia) ltac:(rewrite DSC, C; lia) ltac:(rewrite DR; lia) ltac:(rewrite RD; lia) Hy Hq ltac:(lia)) as X.
  rewrite Nat.mul_1_r, Nat.add_0_r, grid_div, grid_mod in X by assumption. fold cd in X. rewrite X. cbn [Rsum]. rewrite Rplus_0_l, !Nat.mul_1_r, !Nat.mul_1_l, !Nat.add_0_r.
  pose proof (dense_of_entry lower b a y 0 0 ltac:(lia) ltac:(lia)) as DE. rewrite B1, C1, !Nat.mul_1_r, !Nat.add_0_r in DE. rewrite DE.
  destruct (Nat.leb_spec (first_row lower y) a) as [l|g].
  - rewrite (filled_get _ _ _ _ _ _ _ _ _ _ _ _ FL) by assumption. reflexivity.
  - rewrite (filled_get0 _ _ _ _ _ _ _ _ _ _ _ _ FL); [|unfold Q; lia|assumption|assumption|assumption|assumption].
    assert (LT : lower = true) by (destruct lower; [reflexivity|cbn in g; lia]). unfold z0. rewrite LT. cbn [mget]. ring.
Qed.

Theorem kron1_vector_dense k v nv nh : has_blocks (kbm k) nv nh -> block_rows (kbm k) = 1%nat -> block_cols (kbm k) = 1%nat -> (0 < ksize k)%nat ->
  mrows v = (ksize k * mcols (raw (kbm k)))%nat -> mcols v = 1%nat ->
  exists out, kron1_multiplyRight_vector k v = Ok out /\ out ==m mmul (kron_of (raw (kbm k)) 1 1 (ksize k)) v.
Proof.
  intros HB B1 C1 S0 VR VC. destruct (has_blocks_num _ _ _ HB) as [NV NH]. pose proof HB as (_ & _ & R & C). rewrite B1, Nat.mul_1_r in R. rewrite C1, Nat.mul_1_r in C.
  unfold kron1_multiplyRight_vector. cbv zeta. rewrite NV, NH. set (b := kbm k) in *. set (s := ksize k) in *. rewrite C in VR.
  match goal with |- context [for_up nh 0 ?bd ?z] => set (body := bd); set (z0 := z) end.
  set (P := fun (j i0 : nat) (o : mat) => mrows o = (nv * s)%nat /\ mcols o = 1%nat /\ forall i t, (i < nv)%nat -> (t < s)%nat ->
     mget o (i * s + t) 0 = Rsum (if (i <? i0)%nat then S j else j) (fun y => mget (raw b) i y * mget v (y * s + t) 0)).
  destruct (for_up_inv (fun j o => P j 0%nat o) body nh 0 z0) as (o & E & PO).
  - split; [cbn; rewrite R; lia|]. split; [reflexivity|]. reflexivity.
  - intros j o Hj PJ. unfold body. clear body. match goal with |- context [for_up nv 0 ?bd o] => set (body := bd) end.
    destruct (for_up_inv (fun i o => P j i o) body nv 0 o) as (o' & E & PO).
    + exact PJ.
    + intros i o1 Hi (RR & RC & G). unfold body. rewrite getb_ok by nia. cbn [bind]. rewrite bget_ok by (rewrite ?B1, ?C1, ?R, ?C; lia). cbn [bind].
      rewrite getb_ok by nia. cbn [bind]. rewrite putb_ok by (first [reflexivity|nia]). eexists. split; [reflexivity|].
      split; [exact RR|]. split; [exact RC|]. intros a t Ha Ht. cbn [mset_block mget madd mscale mblock mrows mcols]. rewrite in_block_grid by assumption.
      change (in_block 0 1 0) with true. rewrite B1, C1, !Nat.mul_1_r, !Nat.add_0_r. destruct (Nat.eqb_spec a i) as [->|ne]; cbn [andb].
      * replace (i * s + (i * s + t - i * s))%nat with (i * s + t)%nat by lia. replace (j * s + (i * s + t - i * s))%nat with (j * s + t)%nat by lia. change (0 - 0)%nat with 0%nat. rewrite ?Nat.add_0_r.
        rewrite G by (first [assumption|lia]). rewrite (proj2 (Nat.ltb_ge i i)), (proj2 (Nat.ltb_lt i (S i))) by lia. cbn [Rsum]. reflexivity.
      * rewrite G by assumption. destruct (Nat.ltb_spec a i), (Nat.ltb_spec a (S i)); try lia; reflexivity.
    + exists o'. split; [exact E|]. destruct PO as (RR & RC & G). split; [exact RR|]. split; [exact RC|]. intros i t Hi Ht. rewrite G by assumption.
      rewrite (proj2 (Nat.ltb_lt i (0 + nv))) by lia. destruct (i <? 0)%nat eqn:X; [apply Nat.ltb_lt in X; lia|reflexivity].
  - exists o. split; [exact E|]. destruct PO as (RR & RC & G).
    apply (meq_grid _ _ s 1 nv 1); [assumption|lia|cbn; rewrite R; ring|cbn; lia|].
    intros a x p q Ha Hx Hp Hq. assert (Z : (x * 1 + q = 0)%nat) by lia. rewrite Z.
    pose proof (kron_vector_entry (raw b) 1 1 s nh v (a * s + p) 0 S0 ltac:(lia) ltac:(rewrite C; lia)) as X.
    rewrite Nat.mul_1_r, Nat.add_0_r, grid_div, grid_mod in X by assumption. rewrite X, G by assumption. cbn [Nat.ltb Nat.leb Nat.add]. apply Rsum_ext. intros y Hy.
    cbn [Rsum]. rewrite Rplus_0_l, !Nat.mul_1_r, !Nat.add_0_r. reflexivity.
Qed.

(** block diagonal times Kronecker product *)
Lemma diag_kron_entry X (s nh : nat) (d : bmat) a p y q : (0 < s)%nat -> (p < s)%nat -> (q < s)%nat -> (a < nh)%nat -> block_rows d = s -> block_cols d = s -> mcols (raw d) = (nh * s)%nat ->
  mget (mmul (block_diagonal_of d) (kron_of X 1 1 s)) (a * s + p) (y * s + q) = mget (raw d) (a * s + p) (a * s + q) * mget X a y.
Proof.
  intros S0 Hp Hq Ha DR DC CC. cbn [mmul mget mcols block_diagonal_of kron_of]. rewrite CC, DR, DC, Rsum_blocks.
  rewrite (Rsum_single nh a).
  - rewrite (Rsum_single s q).
    + rewrite !Nat.div_1_r, !Nat.mod_1_r. rewrite !grid_div, !grid_mod by assumption. rewrite !Nat.eqb_refl, !Nat.mul_1_r, !Nat.add_0_r. reflexivity.
    + assumption.
    + intros t Ht Ne. rewrite !Nat.div_1_r, !Nat.mod_1_r. rewrite !grid_div, !grid_mod by assumption. rewrite (proj2 (Nat.eqb_neq t q)) by assumption. ring.
  - assumption.
  - intros a' Ha' Ne. apply Rsum_zero. intros t Ht. rewrite !grid_div by assumption. rewrite (proj2 (Nat.eqb_neq a a')) by auto. ring.
Qed.
Theorem kron1_left_dense k dbm n result0 : has_blocks (kbm k) n n -> block_rows (kbm k) = 1%nat -> block_cols (kbm k) = 1%nat ->
  (0 < ksize k)%nat -> has_blocks dbm n n -> block_rows dbm = ksize k -> block_cols dbm = ksize k ->
  (exists a b, has_blocks (mkBm result0 (ksize k) (ksize k)) a b) ->
  exists out, kron1_multiplyLeft k dbm result0 = Ok out /\
    out ==m mmul (block_diagonal_of dbm) (kron_of (dense_of true (kbm k)) 1 1 (ksize k)).
Proof.
  intros HB B1 C1 S0 HD DR DC (ra & ca & HR0). destruct (has_blocks_num _ _ _ HB) as [NV NH]. pose proof HB as (_ & _ & R & C). rewrite B1, Nat.mul_1_r in R. rewrite C1, Nat.mul_1_r in C.
  destruct (has_blocks_num _ _ _ HD) as [DNV DNH]. destruct (rows_of _ _ _ HD) as [GR GC]. pose proof HD as (Hdr & Hdc & RD & CD).
  unfold kron1_multiplyLeft. cbv zeta. rewrite NV, NH, DNV, DNH, GR, DR, DC, !Nat.eqb_refl, !assert_true by reflexivity.
  destruct HR0 as (_ & _ & R0 & C0). cbn [raw block_rows block_cols] in R0, C0. rewrite DR in RD. rewrite DC in CD.
  rewrite (bm_finalize_ok _ _ result0 ra ca) by assumption. cbn [bind].
  set (b := kbm k) in *. set (s := ksize k) in *. rewrite bm_setZero_ok by assumption. cbn [bind].
  set (z0 := mzero (n * s) (n * s)).
  set (F := fun i j p q : nat => mget (raw b) i j * mget (raw dbm) (i * s + p) (i * s + q)).
  set (Q := fun i j : nat => (j <= i)%nat).
  match goal with |- context [bind (if _ then _ else ?L) _] => assert (X : exists res, (if (n =? 0)%nat then Ok (mkBm z0 s s) else L) = Ok (mkBm res s s) /\ filled z0 s s n n F Q res) end.
  { destruct (Nat.eqb_spec n 0) as [Z|NZ].
    { exists z0. split; [reflexivity|]. apply filled_init; [reflexivity|reflexivity|]. intros; lia. }
    match goal with |- context [for_up n 0 ?bd ?z] => set (body := bd) end.
    destruct (for_up_inv (fun j st => exists res, st = mkBm res s s /\ filled z0 s s n n F (fun i y => Q i y /\ (y < j)%nat) res) body n 0 (mkBm z0 s s)) as (st & E & res & -> & FL).
    - exists z0. split; [reflexivity|]. apply filled_init; [reflexivity|reflexivity|]. intros; lia.
    - intros j st Hj (res & -> & FL). unfold body. clear body. match goal with |- context [for_up _ j ?bd ?z] => set (body := bd) end.
      destruct (for_up_inv (fun i st => exists res, st = mkBm res s s /\ filled z0 s s n n F (fun a y => Q a y /\ ((y < j)%nat \/ ((y = j)%nat /\ (a < i)%nat))) res) body (n - j) j (mkBm res s s)) as (st & E & res' & -> & FL').
      + exists res. split; [reflexivity|]. eapply filled_iff; [exact FL|]. intros a y Ha Hy. unfold Q. lia.
      + intros i st Hi (res1 & -> & FL1). unfold body. rewrite bget_ok by (rewrite ?DR, ?DC, ?RD, ?CD; nia). cbn [bind]. rewrite bget_ok by (rewrite ?B1, ?C1, ?R, ?C; lia). cbn [bind].
        rewrite B1, C1, DR, DC.
        destruct (filled_put1 _ _ _ _ _ _ _ (fun a y => Q a y /\ ((y < j)%nat \/ ((y = j)%nat /\ (a < S i)%nat))) res1 i j
           (mscale (mget (mblock (raw b) (i * 1) (j * 1) 1 1) 0 0) (mblock (raw dbm) (i * s) (i * s) s s)) FL1) as (res2 & E & FL2); [lia|lia|reflexivity|reflexivity| | |].
        * intros p q Hp Hq. cbn [mscale mblock mget]. rewrite !Nat.mul_1_r, !Nat.add_0_r. reflexivity.
        * intros a y Ha Hy. unfold Q. lia.
        * rewrite (bput_raw (mkBm res1 s s) i j _ res2 E). eexists. split; [reflexivity|]. exists res2. split; [reflexivity|exact FL2].
      + rewrite E. eexists. split; [reflexivity|]. exists res'. split; [reflexivity|]. eapply filled_iff; [exact FL'|]. cbn beta. unfold Q. intros; lia.
    - exists res. split; [exact E|]. eapply filled_iff; [exact FL|]. cbn beta. intros a y Ha Hy. unfold Q. lia. }
  destruct X as (res & E & FL). rewrite E. cbn [bind raw]. exists res. split; [reflexivity|]. pose proof FL as (RR & RC & _).
  apply (meq_grid _ _ s s n n); [assumption|assumption|cbn; rewrite RD; ring|cbn; rewrite C; ring|].
  intros a y p q Ha Hy Hp Hq. rewrite (diag_kron_entry (dense_of true b) s n) by assumption.
  pose proof (dense_of_entry true b a y 0 0 ltac:(lia) ltac:(lia)) as DE. rewrite B1, C1, !Nat.mul_1_r, !Nat.add_0_r in DE. rewrite DE. cbn [first_row].
  destruct (Nat.leb_spec y a) as [l|g].
  - rewrite (filled_get _ _ _ _ _ _ _ _ _ _ _ _ FL) by assumption. unfold F. ring.
  - rewrite (filled_get0 _ _ _ _ _ _ _ _ _ _ _ _ FL); [|unfold Q; lia|assumption|assumption|assumption|assumption]. cbn [z0 mzero mget]. ring.
Qed.
(** a block diagonal matrix whose blocks have as many columns as required, but a different number of rows, is rejected *)
Theorem kron1_left_refuted : exists k dbm, has_blocks (kbm k) 1 1 /\ block_rows (kbm k) = 1%nat /\ block_cols (kbm k) = 1%nat /\ (1 < ksize k)%nat /\
  has_blocks dbm 1 1 /\ mcols (raw dbm) = mrows (kron_of (dense_of true (kbm k)) 1 1 (ksize k)) /\
  forall result0 out, kron1_multiplyLeft k dbm result0 <> Ok out.
Proof.
  exists (mkKron (mkBm (mid 1) 1 1) 2), (mkBm (mzero 1 2) 1 2). repeat split; cbn; try lia. intros; discriminate.
Qed.

(** ** the function *)
Theorem kron_identity_dense input r c s nv nh : (0 < r)%nat -> (0 < c)%nat -> mrows input = (nv * r)%nat -> mcols input = (nh * c)%nat -> 
  exists out, multiplyBlockKroneckerIdentity input r c s = Ok out /\ out ==m kron_of input r c s.
Proof.
  intros Hr Hc R C. unfold multiplyBlockKroneckerIdentity. rewrite (proj2 (Nat.eqb_neq r 0)), (proj2 (Nat.eqb_neq c 0)) by lia. rewrite R, C, !Nat.mod_mul, !Nat.div_mul by lia.
  rewrite Nat.eqb_refl, !assert_true by reflexivity.
  destruct s as [|s'].
  { set (z0 := mzero (0 * (nv * r)) (0 * (nh * c))).
    assert (E0 : forall n f (g : nat -> mat -> outcome mat), (forall i, g i z0 = Ok z0) -> for_up n f g z0 = Ok z0) by (induction n as [|n IH]; intros f g H; cbn [for_up]; [reflexivity|rewrite H; cbn [bind]; apply IH, H]).
    exists z0. split; [apply E0; intros i; apply E0; reflexivity|]. split; [reflexivity|]. split; [reflexivity|]. cbn. intros; lia. }
  set (s := S s') in *. assert (S0 : (0 < s)%nat) by (unfold s; lia). clearbody s. clear s'.
  set (z0 := mzero (s * (nv * r)) (s * (nh * c))).
  set (F := fun a b p q : nat => mget input ((a / s) * r + p) ((b / s) * c + q)).
  set (Q := fun a b : nat => (a mod s = b mod s)%nat).
  match goal with |- context [for_up nv 0 ?bd z0] => set (body := bd) end.
  destruct (for_up_inv (fun i out => filled z0 r c (nv * s) (nh * s) F (fun a x => Q a x /\ (a / s < i)%nat) out) body nv 0 z0) as (out & E & FL).
  - apply filled_init; [cbn; ring|cbn; ring|]. intros; lia.
  - intros i out Hi FL. unfold body. clear body.
    match goal with |- context [for_up nh 0 ?bd out] => set (body := bd) end.
    destruct (for_up_inv (fun j o => filled z0 r c (nv * s) (nh * s) F (fun a x => Q a x /\ ((a / s < i)%nat \/ ((a / s = i)%nat /\ (x / s < j)%nat))) o) body nh 0 out) as (out1 & E1 & FL1).
    + eapply filled_iff; [exact FL|]. intros; intuition lia.
    + intros j o Hj FLj. unfold body. clear body. match goal with |- context [for_up s 0 ?bd o] => set (body := bd) end.
      destruct (for_up_inv (fun t o => filled z0 r c (nv * s) (nh * s) F
         (fun a x => Q a x /\ ((a / s < i)%nat \/ ((a / s = i)%nat /\ ((x / s < j)%nat \/ ((x / s = j)%nat /\ (x mod s < t)%nat))))) o) body s 0 o) as (out2 & E2 & FL2).
      * eapply filled_iff; [exact FLj|]. intros a x Ha Hx. intuition lia.
      * intros t o' Ht FLt. unfold body. rewrite getb_ok by nia. cbn [bind].
        replace (i * (s * r) + t * r)%nat with ((i * s + t) * r)%nat by ring. replace (j * (s * c) + t * c)%nat with ((j * s + t) * c)%nat by ring.
        apply (filled_put1 _ _ _ _ _ _ _ _ o' (i * s + t) (j * s + t) _ FLt); [nia|nia|reflexivity|reflexivity| |].
        -- intros p q Hp Hq. unfold F. rewrite !grid_div by lia. reflexivity.
        -- intros a x Ha Hx. rewrite (divmod_iff s a i t), (divmod_iff s x j t) by lia. unfold Q. 
           assert (T : (x mod s < S t <-> x mod s < t \/ x mod s = t)%nat) by lia. rewrite T. intuition congruence.
      * exists out2. split; [exact E2|]. eapply filled_iff; [exact FL2|]. intros a x Ha Hx. pose proof (Nat.mod_upper_bound x s ltac:(lia)). intuition lia.
    + exists out1. split; [exact E1|]. eapply filled_iff; [exact FL1|]. intros a x Ha Hx. assert (D : (x / s < nh)%nat) by (apply Nat.div_lt_upper_bound; lia). intuition lia.
  - exists out. split; [exact E|]. pose proof FL as (RR & RC & _).
    apply (meq_grid _ _ r c (nv * s) (nh * s)); [assumption|assumption|cbn; rewrite R; ring|cbn; rewrite C; ring|].
    intros a x p q Ha Hx Hp Hq. cbn [kron_of mget]. rewrite !grid_div, !grid_mod by assumption. assert (D : (a / s < nv)%nat) by (apply Nat.div_lt_upper_bound; lia).
    destruct (Nat.eqb_spec (a mod s) (x mod s)) as [e|ne].
    + rewrite (filled_get _ _ _ _ _ _ _ _ _ _ _ _ FL); [reflexivity|split; [assumption|lia]|assumption|assumption|assumption|assumption].
    + rewrite (filled_get0 _ _ _ _ _ _ _ _ _ _ _ _ FL); [reflexivity|intros [X _]; contradiction|assumption|assumption|assumption|assumption].
Qed.
(** when is a Kronecker product accepted *)
Theorem kron_make_iff m s r c k : kron_make m s r c = Ok k <-> k = mkKron (mkBm m r c) s /\ (1 < s)%nat /\ exists nv nh, has_blocks (mkBm m r c) nv nh.
Proof.
  unfold kron_make. split.
  - intros H. apply bind_ok in H. destruct H as (b & E & H). destruct (finalize_has_blocks m r c b E) as [-> HB]. apply assert_ok in H. destruct H as [L H].
    apply Nat.ltb_lt in L. injection H as <-. eauto 6.
  - intros (-> & L & nv & nh & (Hr & Hc & R & C)). cbn [raw block_rows block_cols] in *. rewrite (bm_finalize_ok r c m nv nh) by assumption. cbn [bind]. rewrite assert_true by (apply Nat.ltb_lt; assumption). reflexivity.
Qed.
