From Coq Require Import List Reals Arith Lra Lia Bool.
From Verif Require Import Base BaseFacts RSum Matrix BlockDiagonalFacts BlockMatrix BlockMatrixFacts Condense CondenseSpec CondenseFacts CondenseLoops CondenseLoops2 CondenseOutputFacts CondenseGroups.
Import ListNotations.
Open Scope R_scope.

Lemma condense_simulates junk n m A B : (0 < n)%nat -> (0 < m)%nat -> sized A n n -> sized B n m -> length A = length B -> (0 < length A)%nat ->
  exists S U, condense junk n m A B = Ok (S, U) /\
    mrows (raw S) = (length A * n)%nat /\ mcols (raw S) = n /\ mrows (raw U) = (length A * n)%nat /\ mcols (raw U) = (length A * m)%nat /\
    forall x0 u, vlen x0 = n -> vlen u = (length A * m)%nat ->
      stacks (length A) n (raw S) (raw U) x0 u (fun k => simulate A B m u x0 (k + 1)).
Proof.
  intros Hn Hm HA HB HL HN. destruct (condense_blocks A B n m HA HB HL HN junk Hn Hm) as (S & U & E & HS & HU & C).
  exists S, U. split; [exact E|]. pose proof C as (C1 & C2 & C3 & C4 & _). repeat (split; [assumption|]).
  intros x0 u Hx Hu k Hk. rewrite Nat.add_1_r. exact (condensed_simulates A B n m _ _ HA HB HL C x0 u Hx Hu k Hk).
Qed.

Lemma condense_dense_simulates junk n m A B : sized A n n -> sized B n m -> length A = length B -> (0 < length A)%nat ->
  exists S U, condense_dense junk A B = Ok (S, U) /\
    mrows S = (length A * n)%nat /\ mcols S = n /\ mrows U = (length A * n)%nat /\ mcols U = (length A * m)%nat /\
    forall x0 u, vlen x0 = n -> vlen u = (length A * m)%nat ->
      stacks (length A) n S U x0 u (fun k => simulate A B m u x0 (k + 1)).
Proof.
  intros HA HB HL HN. destruct (condense_dense_ok A B n m HA HB HL HN junk) as (S & U & E & C).
  exists S, U. split; [exact E|]. pose proof C as (C1 & C2 & C3 & C4 & _). repeat (split; [assumption|]).
  intros x0 u Hx Hu k Hk. rewrite Nat.add_1_r. exact (condensed_simulates A B n m _ _ HA HB HL C x0 u Hx Hu k Hk).
Qed.

Lemma condense_ti_simulates junk N A B : mcols A = mrows A -> mrows B = mrows A -> (0 < N)%nat ->
  exists S U, condenseTimeInvariant junk N A B = Ok (S, U) /\
    mrows S = (N * mrows A)%nat /\ mcols S = mrows A /\ mrows U = (N * mrows A)%nat /\ mcols U = (N * mcols B)%nat /\
    forall x0 u, vlen x0 = mrows A -> vlen u = (N * mcols B)%nat ->
      stacks N (mrows A) S U x0 u (fun k => simulate (repeat A N) (repeat B N) (mcols B) u x0 (k + 1)).
Proof.
  intros HA HB HN. destruct (condense_ti_ok junk N A B HA HB HN) as (S & U & E & C).
  exists S, U. split; [exact E|]. pose proof C as (C1 & C2 & C3 & C4 & _). rewrite repeat_length in *. repeat (split; [assumption|]).
  intros x0 u Hx Hu k Hk. rewrite Nat.add_1_r.
  pose proof (sized_repeat A N) as SA. rewrite HA in SA. pose proof (sized_repeat B N) as SB. rewrite HB in SB.
  pose proof (condensed_simulates (repeat A N) (repeat B N) (mrows A) (mcols B) S U SA SB) as P. rewrite !repeat_length in P.
  exact (P eq_refl C x0 u Hx Hu k Hk).
Qed.

(** inputs of different lengths and empty inputs are rejected *)
Lemma condense_rejects junk n m A B : length A <> length B \/ A = [] -> condense junk n m A B = Throw /\ condense_dense junk A B = Throw.
Proof.
  intros [H|H].
  - unfold condense, condense_dense. apply Nat.eqb_neq in H. rewrite H. split; reflexivity.
  - subst A. unfold condense, condense_dense. destruct B; split; reflexivity.
Qed.

(** ** outputs *)
Lemma sim_stack A B n m S U : sized A n n -> sized B n m -> length A = length B -> condensed A B n m S U ->
  forall D E ny Ox Ou, sized D ny n -> sized E ny m -> length D = length A -> length E = length A ->
  outputs_of D E ny n m (length A) S U Ox Ou ->
  forall x0 u, vlen x0 = n -> vlen u = (length A * m)%nat ->
  stacks (length A) ny Ox Ou x0 u (output D E m u (simulate A B m u x0)).
Proof.
  intros HA HB HL C D E ny Ox Ou HD HE LD LE O x0 u Hx Hu. pose proof C as (C1 & C2 & C3 & C4 & _).
  apply (outputs_stack D E ny n m (length A) S U); auto.
  - apply (condensed_lower A B n m S U C).
  - exact (condensed_simulates A B n m S U HA HB HL C x0 u Hx Hu).
Qed.

Lemma condenseOutput_simulates junk junk' ny n m A B D E : (0 < ny)%nat -> (0 < n)%nat -> (0 < m)%nat ->
  sized A n n -> sized B n m -> sized D ny n -> sized E ny m ->
  (0 < length A)%nat -> length B = length A -> length D = length A -> length E = length A ->
  exists S U Ox Ou, condense junk n m A B = Ok (S, U) /\ condenseOutput junk' ny n m D E S U = Ok (Ox, Ou) /\
    mrows (raw Ox) = (length A * ny)%nat /\ mcols (raw Ox) = n /\ mrows (raw Ou) = (length A * ny)%nat /\ mcols (raw Ou) = (length A * m)%nat /\
    forall x0 u, vlen x0 = n -> vlen u = (length A * m)%nat ->
      stacks (length A) ny (raw Ox) (raw Ou) x0 u (output D E m u (simulate A B m u x0)).
Proof.
  intros Hy Hn Hm HA HB HD HE HN LB LD LE. destruct (condense_blocks A B n m HA HB (eq_sym LB) HN junk Hn Hm) as (S & U & EQ & HS & HU & C).
  destruct (condenseOutput_ok D E ny n m (length A) HD HE LD LE HN Hy Hn Hm junk' S U HS HU) as (Ox & Ou & EQ' & SX & SU & O).
  exists S, U, Ox, Ou. split; [exact EQ|]. split; [exact EQ'|]. pose proof O as (O1 & O2 & O3 & O4 & _). repeat (split; [assumption|]).
  exact (sim_stack A B n m _ _ HA HB (eq_sym LB) C D E ny _ _ HD HE LD LE O).
Qed.

Lemma condenseOutput_dense_simulates junk junk' N A B D E : (0 < N)%nat -> (0 < mrows A)%nat ->
  mcols A = mrows A -> mrows B = mrows A -> mcols D = mrows A -> mrows E = mrows D -> mcols E = mcols B ->
  exists S U Ox Ou, condenseTimeInvariant junk N A B = Ok (S, U) /\ condenseOutput_dense junk' D E S U = Ok (Ox, Ou) /\
    mrows Ox = (N * mrows D)%nat /\ mcols Ox = mrows A /\ mrows Ou = (N * mrows D)%nat /\ mcols Ou = (N * mcols B)%nat /\
    forall x0 u, vlen x0 = mrows A -> vlen u = (N * mcols B)%nat ->
      stacks N (mrows D) Ox Ou x0 u
        (output (repeat D N) (repeat E N) (mcols B) u (simulate (repeat A N) (repeat B N) (mcols B) u x0)).
Proof.
  intros HN Hn HA HB HD HE HE2. destruct (condense_ti_ok junk N A B HA HB HN) as (S & U & EQ & C).
  pose proof C as (C1 & C2 & C3 & C4 & _). rewrite repeat_length in *.
  pose proof (condensed_lower _ _ _ _ _ _ C) as BL. rewrite repeat_length in BL.
  destruct (condenseOutput_dense_ok junk' N D E S U) as (Ox & Ou & EQ' & O); rewrite ?HD, ?HE2; auto.
  exists S, U, Ox, Ou. split; [exact EQ|]. split; [exact EQ'|]. rewrite HD, HE2 in O. pose proof O as (O1 & O2 & O3 & O4 & _). repeat (split; [assumption|]).
  pose proof (sized_repeat A N) as SA. rewrite HA in SA. pose proof (sized_repeat B N) as SB. rewrite HB in SB.
  pose proof (sized_repeat D N) as SD. rewrite HD in SD. pose proof (sized_repeat E N) as SE. rewrite HE, HE2 in SE.
  pose proof (sim_stack (repeat A N) (repeat B N) (mrows A) (mcols B) S U SA SB) as P. rewrite !repeat_length in P. specialize (P eq_refl C (repeat D N) (repeat E N) (mrows D) Ox Ou SD SE).
  rewrite !repeat_length in P. exact (P eq_refl eq_refl O).
Qed.

(** the overload with groups of controls, as it is: y(0) lacks E_0 u(0) unless the horizon has one step; all other outputs are right *)
Lemma sized_slices E ny total off mg : sized E ny total -> sized (slices E ny off mg) ny mg.
Proof. intros _. unfold sized, slices. apply Forall_forall. intros a H. apply in_map_iff in H. destruct H as (e & <- & _). split; reflexivity. Qed.
Lemma sized_lost l r c : sized l r c -> sized (lost_first l) r c.
Proof. intros H. destruct H as [|e l He Hl]; [constructor|]. constructor; [exact He|exact Hl]. Qed.

Lemma groups_outputs junk junk' ny n A Bs Ux Uu D E :
  (0 < ny)%nat -> (0 < n)%nat -> (0 < length A)%nat -> sized A n n ->
  (exists m B U, (0 < m)%nat /\ sized B n m /\ length B = length A /\ condense junk n m A B = Ok (Ux, U)) ->
  length Bs = length Uu ->
  (forall g B u, nth_error Bs g = Some B -> nth_error Uu g = Some u ->
     (0 < block_cols u)%nat /\ sized B n (block_cols u) /\ length B = length A /\ exists S, condense junk n (block_cols u) A B = Ok (S, u)) ->
  sized D ny n -> sized E ny (list_sum (map block_cols Uu)) -> length D = length A -> length E = length A ->
  exists Ox Ou, condenseOutput_groups junk' ny n D E Ux Uu = Ok (Ox, Ou) /\ length Ou = length Uu /\
    forall g B u o, nth_error Bs g = Some B -> nth_error Uu g = Some u -> nth_error Ou g = Some o ->
      let Eg := slices E ny (group_offset Uu g) (block_cols u) in
      forall x0 v, vlen x0 = n -> vlen v = (length A * block_cols u)%nat ->
      stacks (length A) ny (raw Ox) (raw o) x0 v (fun k =>
        if ((k =? 0) && negb (length A =? 1))%nat then mulv (mat_at D 0) x0
        else output D Eg (block_cols u) v (simulate A B (block_cols u) v x0) k).
Proof.
  intros Hy Hn HN HA (m & B0 & U0 & Hm & HB0 & LB0 & EQ0) LL HG HD HE LD LE.
  destruct (condense_blocks A B0 n m HA HB0 (eq_sym LB0) HN junk Hn Hm) as (S & U & EQ & HS & HU & C). rewrite EQ in EQ0. inversion EQ0; subst S U0. clear EQ0.
  assert (GB : forall g u, nth_error Uu g = Some u -> exists B, nth_error Bs g = Some B).
  { intros g u H. destruct (nth_error Bs g) as [B|] eqn:EB; [eauto|]. apply nth_error_None in EB. assert (g < length Uu)%nat by (apply nth_error_Some; congruence). lia. }
  assert (GC : forall g B u, nth_error Bs g = Some B -> nth_error Uu g = Some u -> shaped u n (block_cols u) (length A) (length A) /\ exists Sg, condensed A B n (block_cols u) Sg (raw u)).
  { intros g B u H1 H2. destruct (HG g B u H1 H2) as (P1 & P2 & P3 & Sg & P4).
    destruct (condense_blocks A B n (block_cols u) HA P2 (eq_sym P3) HN junk Hn P1) as (S' & U' & EQ' & HS' & HU' & C'). rewrite EQ' in P4. inversion P4; subst. split; [exact HU'|]. exists (raw Sg). exact C'. }
  destruct (condenseOutput_groups_ok D E ny n (length A) Ux Uu HD HE LD LE HN Hy Hn HS) with (junk := junk') as (Ox & Ou & EO & LO & SO & RO & EX & EG).
  { intros g u H. destruct (GB g u H) as [B HB']. split; [exact (proj1 (HG g B u HB' H))|exact (proj1 (GC g B u HB' H))]. }
  exists Ox, Ou. split; [exact EO|]. split; [exact LO|]. intros g B u o H1 H2 H3. cbv zeta. intros x0 v Hx Hv.
  destruct (EG g u H2) as (o' & H3' & O). rewrite H3 in H3'. inversion H3'; subst o'. clear H3'.
  destruct (HG g B u H1 H2) as (P1 & P2 & P3 & _). destruct (GC g B u H1 H2) as (SHu & Sg & Cg).
  cbv zeta in O. set (Eg := slices E ny (group_offset Uu g) (block_cols u)) in *.
  assert (SE : sized Eg ny (block_cols u)) by (eapply sized_slices; exact HE).
  assert (LEg : length Eg = length A) by (unfold Eg, slices; rewrite map_length; exact LE).
  (* the state matrix is the same for all groups *)
  assert (C' : condensed A B n (block_cols u) (raw Ux) (raw u)).
  { destruct C as (c1 & c2 & _ & _ & c5 & _). destruct Cg as (_ & _ & d3 & d4 & _ & d6). repeat split; assumption. }
  intros k Hk.
  destruct (Nat.eqb_spec (length A) 1) as [N1|N1].
  - rewrite andb_false_r. exact (sim_stack A B n _ _ _ HA P2 (eq_sym P3) C' D Eg ny _ _ HD SE LD LEg O x0 v Hx Hv k Hk).
  - assert (LL' : length (lost_first Eg) = length A) by (destruct Eg; exact LEg).
    pose proof (sim_stack A B n _ _ _ HA P2 (eq_sym P3) C' D (lost_first Eg) ny _ _ HD (sized_lost _ _ _ SE) LD LL' O x0 v Hx Hv k Hk) as ST.
    eapply veq_trans; [exact ST|]. destruct k as [|k]; cbn [Nat.eqb andb negb].
    + unfold output. split; [reflexivity|]. cbn [vadd vget vlen]. intros i Hi. cbn [simulate].
      match goal with |- _ + ?z = _ => replace z with 0 end; [ring|]. symmetry. cbn [mulv vget]. apply Rsum_zero. intros l Hl. rewrite mat_at_lost0. ring.
    + unfold output. rewrite mat_at_lost by lia. apply veq_refl.
Qed.

Definition w_A : list mat := [mid 1; mid 1].
Definition w_D : list mat := [mzero 1 1; mzero 1 1].
Definition w_u : vec := mkVec 2 (fun i => if (i =? 0)%nat then 1 else 0).
Lemma groups_refuted : exists Ux U Ox o,
  condense (fun _ _ => 0) 1 1 w_A w_A = Ok (Ux, U) /\
  condenseOutput_groups (fun _ _ => 0) 1 1 w_D w_A Ux [U] = Ok (Ox, [o]) /\
  exists x0 u, vlen x0 = 1%nat /\ vlen u = 2%nat /\ ~ stacks 2 1 (raw Ox) (raw o) x0 u (output w_D w_A 1 u (simulate w_A w_A 1 u x0)).
Proof.
  assert (SA : sized w_A 1 1) by (repeat constructor). assert (SD : sized w_D 1 1) by (repeat constructor).
  destruct (condense_blocks w_A w_A 1 1 SA SA eq_refl ltac:(cbn; lia) (fun _ _ => 0) ltac:(lia) ltac:(lia)) as (Ux & U & EQ & HS & HU & C).
  pose proof HU as (HU1 & HU2 & _).
  destruct (groups_outputs (fun _ _ => 0) (fun _ _ => 0) 1 1 w_A [w_A] Ux [U] w_D w_A) as (Ox & Ou & EO & LO & G); try assumption; try reflexivity; try (cbn; lia).
  - exists 1%nat, w_A, U. repeat split; auto.
  - intros g B u H1 H2. destruct g as [|g]; [|destruct g; discriminate]. cbn in H1, H2. inversion H1; inversion H2; subst. rewrite HU2. repeat split; auto. exists Ux. exact EQ.
  - cbn [map]. rewrite HU2. cbn. exact SA.
  - destruct Ou as [|o [|? ?]]; try discriminate. exists Ux, U, Ox, o. split; [exact EQ|]. split; [exact EO|].
    exists (mkVec 1 (fun _ => 0)), w_u. split; [reflexivity|]. split; [reflexivity|]. intros ST.
    pose proof (G 0%nat w_A U o eq_refl eq_refl eq_refl (mkVec 1 (fun _ => 0)) w_u eq_refl) as G0. rewrite HU2 in G0. specialize (G0 eq_refl 0%nat ltac:(cbn; lia)).
    specialize (ST 0%nat ltac:(lia)). destruct G0 as [_ G0]. destruct ST as [_ ST]. specialize (G0 0%nat ltac:(cbn; lia)). specialize (ST 0%nat ltac:(cbn; lia)).
    rewrite G0 in ST. cbn in ST. lra.
Qed.
