From Coq Require Import List Reals Arith Lra Lia Bool.
From Verif Require Import Base BaseFacts RSum Matrix BlockDiagonalFacts BlockMatrix BlockMatrixFacts Condense CondenseSpec CondenseFacts CondenseLoops CondenseLoops2 CondenseOutputFacts.
Import ListNotations.
Open Scope R_scope.

(** one pass over a list, element by element *)
Lemma for_up_list {T} (pre post : nat -> T -> Prop) (body : nat -> list T -> outcome (list T)) L0 :
  (forall g o, nth_error L0 g = Some o -> pre g o) ->
  (forall g L o, (g < length L0)%nat -> length L = length L0 -> nth_error L g = Some o -> pre g o -> exists o', body g L = Ok (update L g o') /\ post g o') ->
  exists L1, for_up (length L0) 0 body L0 = Ok L1 /\ length L1 = length L0 /\ forall g o, nth_error L1 g = Some o -> post g o.
Proof.
  intros HP HB.
  destruct (for_up_inv (fun j L => length L = length L0 /\ forall g o, nth_error L g = Some o -> if (g <? j)%nat then post g o else pre g o) body (length L0) 0 L0) as (L1 & E & LL & P).
  - split; [reflexivity|]. intros g o H. cbn. apply HP, H.
  - intros j L Hj (LL & P). destruct (nth_error L j) as [o|] eqn:EO; [|apply nth_error_None in EO; lia].
    pose proof (P j o EO) as Q. rewrite Nat.ltb_irrefl in Q. destruct (HB j L o ltac:(lia) LL EO Q) as (o' & EB & PB).
    exists (update L j o'). split; [exact EB|]. split; [rewrite update_length; exact LL|]. intros g x H. rewrite nth_error_update in H.
    destruct (Nat.eq_dec g j) as [->|Ne].
    + rewrite Nat.eqb_refl in H. assert (HL : (j <? length L)%nat = true) by (apply Nat.ltb_lt; lia). rewrite HL in H. cbn in H.
      replace (j <? S j)%nat with true by (symmetry; apply Nat.ltb_lt; lia). inversion H; subst. exact PB.
    + destruct (Nat.eqb_spec g j) as [|]; [lia|]. destruct (Nat.eqb_spec j g) as [|]; [lia|]. cbn in H. specialize (P g x H).
      destruct (Nat.ltb_spec g j), (Nat.ltb_spec g (S j)); try lia; assumption.
  - exists L1. split; [exact E|]. split; [exact LL|]. intros g o H. pose proof (P g o H) as Q.
    assert (g < length L1)%nat by (apply nth_error_Some; congruence).
    replace (g <? 0 + length L0)%nat with true in Q by (symmetry; apply Nat.ltb_lt; lia). exact Q.
Qed.

(** the list of matrices with the first one replaced by zero *)
Definition lost_first (l : list mat) : list mat := match l with [] => [] | e :: r => mzero (mrows e) (mcols e) :: r end.

Lemma control_offsets_at Uu : forall first g, (g < length Uu)%nat -> nth_error (control_offsets first Uu) g = Some (first + group_offset Uu g)%nat.
Proof.
  induction Uu as [|u r IH]; intros first g Hg; [cbn in Hg; lia|]. destruct g as [|g]; cbn [control_offsets nth_error].
  - unfold group_offset. cbn. rewrite Nat.add_0_r. reflexivity.
  - rewrite IH by (cbn in Hg; lia). change (group_offset (u :: r) (S g)) with (block_cols u + group_offset r g)%nat. f_equal. lia.
Qed.
Lemma group_offset_le Uu : forall g u, nth_error Uu g = Some u -> (group_offset Uu g + block_cols u <= list_sum (map block_cols Uu))%nat.
Proof.
  induction Uu as [|v r IH]; intros g u H; [destruct g; discriminate|]. change (list_sum (map block_cols (v :: r))) with (block_cols v + list_sum (map block_cols r))%nat. destruct g as [|g].
  - inversion H; subst. unfold group_offset. cbn [firstn map list_sum fold_right]. lia.
  - change (group_offset (v :: r) (S g)) with (block_cols v + group_offset r g)%nat. specialize (IH g u H). lia.
Qed.
Lemma mat_at_map (f : mat -> mat) l k : (k < length l)%nat -> mat_at (map f l) k = f (mat_at l k).
Proof. intros H. unfold mat_at. rewrite (nth_indep (map f l) (mzero 0 0) (f (mzero 0 0))) by (rewrite map_length; exact H). apply map_nth. Qed.
Lemma mat_at_lost l k : (0 < k)%nat -> mat_at (lost_first l) k = mat_at l k.
Proof. destruct l; [reflexivity|]. destruct k; [lia|reflexivity]. Qed.
Lemma mat_at_lost0 l p q : mget (mat_at (lost_first l) 0) p q = 0.
Proof. destruct l; reflexivity. Qed.

Section Groups.
Variables (D E : list mat) (ny n N : nat) (Ux : bmat) (Uu : list bmat).
Hypothesis HD : sized D ny n.
Hypothesis HE : sized E ny (list_sum (map block_cols Uu)).
Hypothesis LD : length D = N.
Hypothesis LE : length E = N.
Hypothesis HN : (0 < N)%nat.
Hypothesis Hny : (0 < ny)%nat.
Hypothesis Hn : (0 < n)%nat.
Hypothesis HX : shaped Ux n n N 1.
Hypothesis HU : forall g u, nth_error Uu g = Some u -> (0 < block_cols u)%nat /\ shaped u n (block_cols u) N N.

Lemma condenseOutput_groups_ok junk :
  exists Ox Ou, condenseOutput_groups junk ny n D E Ux Uu = Ok (Ox, Ou) /\ length Ou = length Uu /\ shaped Ox ny n N 1 /\
    (N * ny = mrows (raw Ox))%nat /\
    (forall a p q, (a < N)%nat -> (p < ny)%nat -> (q < n)%nat -> mget (raw Ox) (a * ny + p) q =
       if (a =? 0)%nat then mget (mat_at D 0) p q else Rsum n (fun l => mget (mat_at D a) p l * mget (raw Ux) ((a - 1) * n + l) q)) /\
    forall g u, nth_error Uu g = Some u -> exists o, nth_error Ou g = Some o /\
      outputs_of D (let e := slices E ny (group_offset Uu g) (block_cols u) in if (N =? 1)%nat then e else lost_first e)
        ny n (block_cols u) N (raw Ux) (raw u) (raw Ox) (raw o).
Proof.
  pose proof HX as (X1 & X2 & X3 & X4). rewrite Nat.mul_1_l in X4.
  assert (V1 : num_blocks_vert Ux = N) by (unfold num_blocks_vert; rewrite X1, X3; apply Nat.div_mul; lia).
  assert (V2 : num_blocks_hor Ux = 1%nat) by (unfold num_blocks_hor; rewrite X2, X4; apply Nat.div_same; lia).
  unfold condenseOutput_groups. rewrite V1, V2, LD, LE. rewrite !Nat.eqb_refl. rewrite !assert_true by reflexivity.
  rewrite bm_resize_ok by assumption. cbn [bind]. rewrite (mat_at_ok D 0) by lia. cbn [bind].
  destruct (mat_at_size D ny n 0 HD ltac:(lia)) as [RD CD].
  rewrite bput_ok by (cbn; nia). cbn [bind raw block_rows block_cols]. set (OX0 := mkBm _ ny n).
  set (total := list_sum (map block_cols Uu)) in *.
  (* zero matrices *)
  match goal with |- context [for_up (length Uu) 0 ?b []] => set (body1 := b) end.
  destruct (for_up_inv (fun j (L : list bmat) => length L = j /\ forall g o u, nth_error L g = Some o -> nth_error Uu g = Some u ->
      o = mkBm (mzero (N * ny) (N * block_cols u)) ny (block_cols u)) body1 (length Uu) 0 []) as (L1 & E1 & LL1 & P1).
  { split; [reflexivity|]. intros g o u H. destruct g; discriminate. }
  { intros j L Hj (LL & P). unfold body1. destruct (nth_error Uu j) as [u|] eqn:EU; [|apply nth_error_None in EU; lia].
    unfold vec_at. rewrite EU. cbn [bind]. destruct (HU j u EU) as [Pu _]. rewrite bm_setZero_ok by assumption. cbn [bind].
    eexists. split; [reflexivity|]. split; [rewrite app_length; cbn; lia|]. intros g o v H1 H2. destruct (Nat.lt_ge_cases g (length L)) as [L2|G2].
    - rewrite nth_error_app1 in H1 by assumption. apply (P g); assumption.
    - rewrite nth_error_app2 in H1 by assumption. destruct (g - length L)%nat as [|d] eqn:ED; [|destruct d; discriminate]. cbn in H1. inversion H1.
      replace g with j in H2 by lia. rewrite EU in H2. inversion H2. reflexivity. }
  rewrite E1. cbn [bind]. cbn [Nat.add] in LL1.
  (* E_0 *)
  assert (SL : forall g u a, nth_error Uu g = Some u -> (a < N)%nat ->
     vec_at (control_offsets 0 Uu) g = Ok (group_offset Uu g) /\
     getb (mat_at E a) 0 (group_offset Uu g) ny (block_cols u) = Ok (mblock (mat_at E a) 0 (group_offset Uu g) ny (block_cols u))).
  { intros g u a Hg Ha. assert (g < length Uu)%nat by (apply nth_error_Some; congruence). split.
    - unfold vec_at. rewrite control_offsets_at by assumption. reflexivity.
    - destruct (mat_at_size E ny total a HE ltac:(lia)) as [RE CE]. pose proof (group_offset_le Uu g u Hg). apply getb_ok; unfold total in *; lia. }
  match goal with |- context [for_up (length Uu) 0 ?b L1] => set (body2 := b) end.
  pose (st1 := fun (g : nat) (o : bmat) => forall u, nth_error Uu g = Some u -> shaped o ny (block_cols u) N N /\
     forall a b p q, (p < ny)%nat -> (q < block_cols u)%nat -> mget (raw o) (a * ny + p) (b * block_cols u + q) =
       if (a =? N - 1)%nat && (b =? N - 1)%nat then mget (mat_at E 0) p (group_offset Uu g + q) else 0).
  destruct (for_up_list (fun g o => forall u, nth_error Uu g = Some u -> o = mkBm (mzero (N * ny) (N * block_cols u)) ny (block_cols u)) st1 body2 L1) as (L2 & E2 & LL2 & P2).
  { intros g o H u H2. exact (P1 g o u H H2). }
  { intros g L o Hg LL HG Hpre. rewrite LL1 in Hg. destruct (nth_error Uu g) as [u|] eqn:EU; [|apply nth_error_None in EU; lia].
    specialize (Hpre u eq_refl). unfold body2. destruct (SL g u 0%nat EU ltac:(lia)) as [S1 S2]. unfold vec_at at 1. rewrite EU. cbn [bind]. rewrite S1. cbn [bind].
    rewrite (mat_at_ok E 0) by lia. cbn [bind]. rewrite S2. cbn [bind]. unfold vec_at. rewrite HG. cbn [bind]. subst o.
    rewrite bput_ok by (cbn; nia). cbn [bind raw block_rows block_cols]. eexists. split; [reflexivity|]. intros v Hv. rewrite EU in Hv. inversion Hv; subst v.
    split; [repeat split; cbn; lia|]. intros a b p q Hp Hq. cbn [raw]. rewrite mset_grid by auto. reflexivity. }
  rewrite LL1 in E2. rewrite E2. cbn [bind]. rewrite LL1 in LL2.
  (* the outputs *)
  match goal with |- context [for_up (N - 1) 1 ?b ?z] => set (body3 := b) end.
  pose (sti := fun (i g : nat) (o : bmat) => forall u, nth_error Uu g = Some u -> shaped o ny (block_cols u) N N /\
     forall a b p q, (a < N)%nat -> (b < N)%nat -> (p < ny)%nat -> (q < block_cols u)%nat -> mget (raw o) (a * ny + p) (b * block_cols u + q) =
       if (0 <? a)%nat && (a <? i)%nat then
         if (b =? a)%nat then mget (mat_at E a) p (group_offset Uu g + q)
         else if (b <? a)%nat then Rsum n (fun l => mget (mat_at D a) p l * mget (raw u) ((a - 1) * n + l) (b * block_cols u + q)) else 0
       else if (a =? N - 1)%nat && (b =? N - 1)%nat then mget (mat_at E 0) p (group_offset Uu g + q) else 0).
  destruct (for_up_inv (fun i (OO : bmat * list bmat) => shaped (fst OO) ny n N 1 /\ length (snd OO) = length Uu /\
    (forall a p q, (a < i)%nat -> (p < ny)%nat -> (q < n)%nat -> mget (raw (fst OO)) (a * ny + p) q =
       if (a =? 0)%nat then mget (mat_at D 0) p q else Rsum n (fun l => mget (mat_at D a) p l * mget (raw Ux) ((a - 1) * n + l) q)) /\
    (forall g o, nth_error (snd OO) g = Some o -> sti i g o)) body3 (N - 1) 1 (OX0, L2)) as ([OX OU] & E3 & SX & LOU & EX & EU).
  - cbn [fst snd]. split; [repeat split; cbn; lia|]. split; [exact LL2|]. split.
    + intros a p q Ha Hp Hq. replace a with 0%nat by lia. unfold OX0. cbn [raw]. rewrite (Nat.mul_0_l n), (mset_grid_col _ ny n) by auto. rewrite !Nat.eqb_refl. reflexivity.
    + intros g o H u Hu. destruct (P2 g o H u Hu) as [SH C]. split; [exact SH|]. intros a b p q Ha Hb Hp Hq. rewrite C by assumption.
      destruct (Nat.ltb_spec 0 a), (Nat.ltb_spec a 1); try lia; reflexivity.
  - intros i [OX OU] Hi (SX & LOU & EX & EU). unfold body3. cbn [fst snd] in *.
    destruct (mat_at_size D ny n i HD ltac:(lia)) as [RDi CDi]. destruct (mat_at_size E ny total i HE ltac:(lia)) as [REi CEi].
    destruct SX as (SX1 & SX2 & SX3 & SX4). rewrite Nat.mul_1_l in SX4.
    rewrite (mat_at_ok D i) by lia. cbn [bind]. rewrite bget_ok by (rewrite ?X1, ?X2, ?X3, ?X4; nia). cbn [bind].
    rewrite mmul_o_ok by (cbn; lia). cbn [bind]. rewrite bput_ok by (cbn [mmul mblock mrows mcols]; rewrite ?SX1, ?SX2, ?SX3, ?SX4; nia). cbn [bind].
    match goal with |- context [for_up _ 0 ?b OU] => set (body4 := b) end.
    destruct (for_up_list (sti i) (sti (Datatypes.S i)) body4 OU EU) as (L4 & E4 & LL4 & P4).
    { intros g L o Hg LL HG Hpre. rewrite LOU in Hg. destruct (nth_error Uu g) as [u|] eqn:EUg; [|apply nth_error_None in EUg; lia].
      destruct (Hpre u EUg) as [(SU1 & SU2 & SU3 & SU4) C]. destruct (HU g u EUg) as [Pu (U1 & U2 & U3 & U4)].
      destruct (SL g u i EUg ltac:(lia)) as [S1 S2]. unfold body4. unfold vec_at at 1. rewrite EUg. cbn [bind]. unfold vec_at at 1. rewrite HG. cbn [bind].
      unfold bget_row. rewrite getb_ok by (rewrite ?U1, ?U2, ?U3, ?U4; nia). cbn [bind]. rewrite mmul_o_ok by (cbn; lia). cbn [bind].
      unfold bput_row. rewrite putb_ok by (cbn [mmul mblock mrows mcols]; rewrite ?SU1, ?SU2, ?SU3, ?SU4; nia). cbn [bind].
      rewrite S1. cbn [bind]. rewrite (mat_at_ok E i) by lia. cbn [bind]. rewrite S2. cbn [bind].
      rewrite bput_ok by (cbn [mblock raw block_rows block_cols mset_block mrows mcols]; rewrite ?SU1, ?SU2, ?SU3, ?SU4; nia). cbn [bind raw block_rows block_cols].
      eexists. split; [reflexivity|]. intros v Hv. rewrite EUg in Hv. inversion Hv; subst v. split; [repeat split; cbn; auto|].
      intros a b p q Ha Hb Hp Hq. cbn [raw]. rewrite SU1, SU2, (Nat.mul_0_l (block_cols u)). rewrite mset_grid by auto.
      rewrite (mset_row _ ny (block_cols u) i i) by (cbn [mmul mblock mrows mcols]; auto). rewrite C by assumption.
      destruct (Nat.eqb_spec a i) as [->|Ne]; cbn [andb].
      - replace (i <? Datatypes.S i)%nat with true by (symmetry; apply Nat.ltb_lt; lia). replace (i <? i)%nat with false by (symmetry; apply Nat.ltb_irrefl).
        replace (0 <? i)%nat with true by (symmetry; apply Nat.ltb_lt; lia). cbn [andb].
        destruct (Nat.eqb_spec b i) as [->|Nb]; [reflexivity|]. destruct (Nat.ltb_spec b i) as [Lb|Lb].
        + cbn [mmul mblock mget]. rewrite CDi. apply Rsum_ext. intros l Hl. rewrite U1. reflexivity.
        + destruct (Nat.eqb_spec i (N - 1)); [|reflexivity]. destruct (Nat.eqb_spec b (N - 1)); [lia|reflexivity].
      - destruct (Nat.ltb_spec a i), (Nat.ltb_spec a (Datatypes.S i)); try lia; reflexivity. }
    rewrite LOU in E4. rewrite E4. cbn [bind]. eexists. split; [reflexivity|]. cbn [fst snd raw]. split; [repeat split; cbn; auto; lia|]. split; [lia|]. split; [|exact P4].
    intros a p q Ha Hp Hq. rewrite SX1, (Nat.mul_0_l (block_cols OX)). rewrite (mset_grid_col _ ny n) by (cbn; auto).
    destruct (Nat.eqb_spec a i) as [->|Ne].
    * replace (i =? 0)%nat with false by (symmetry; apply Nat.eqb_neq; lia). cbn [mmul mblock mget]. rewrite CDi. apply Rsum_ext. intros l Hl. rewrite X1. reflexivity.
    * apply EX; [lia|assumption|assumption].
  - cbn [fst snd] in *. exists OX, OU. split; [exact E3|]. split; [exact LOU|]. split; [exact SX|].
    destruct SX as (SX1 & SX2 & SX3 & SX4). rewrite Nat.mul_1_l in SX4. split; [lia|].
    assert (EX' : forall a p q : nat, (a < N)%nat -> (p < ny)%nat -> (q < n)%nat -> mget (raw OX) (a * ny + p) q =
       (if (a =? 0)%nat then mget (mat_at D 0) p q else Rsum n (fun l => mget (mat_at D a) p l * mget (raw Ux) ((a - 1) * n + l) q))).
    { intros; apply EX; [lia|assumption|assumption]. }
    split; [exact EX'|].
    intros g u Hg. assert (g < length Uu)%nat by (apply nth_error_Some; congruence).
    destruct (nth_error OU g) as [o|] eqn:EO; [|apply nth_error_None in EO; lia]. exists o. split; [reflexivity|].
    destruct (EU g o EO u Hg) as [(SU1 & SU2 & SU3 & SU4) C]. cbv zeta. repeat split; auto.
    intros i j p q Hi Hj Hp Hq. rewrite C by assumption. replace (i <? 1 + (N - 1))%nat with true by (symmetry; apply Nat.ltb_lt; lia). rewrite andb_true_r.
    destruct (Nat.ltb_spec 0 i) as [L0|L0].
    + destruct (Nat.eqb_spec j i); [|reflexivity]. subst j. destruct (Nat.eqb_spec N 1); [lia|]. rewrite mat_at_lost by assumption.
      unfold slices. rewrite mat_at_map by lia. reflexivity.
    + replace i with 0%nat by lia. destruct (Nat.eqb_spec N 1) as [N1|N1].
      * replace j with 0%nat by lia. rewrite N1. cbn [Nat.sub Nat.eqb andb]. unfold slices. rewrite mat_at_map by lia. reflexivity.
      * destruct (Nat.eqb_spec 0 (N - 1)); [lia|]. cbn [andb]. rewrite mat_at_lost0. destruct (j =? 0)%nat; [reflexivity|]. destruct j; reflexivity.
Qed.
End Groups.
