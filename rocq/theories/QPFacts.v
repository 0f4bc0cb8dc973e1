From Coq Require Import List Arith Reals Lra Lia Bool ZifyBool.
From Verif Require Import Base BaseFacts RSum Matrix ConstraintType HierarchyLevel HierarchySpec HierarchyFacts
  Constraints ConstraintsSpec ConstraintsFacts QP QPSpec.
Import ListNotations.
Open Scope R_scope.

(** ** column loops *)
Lemma gram_loop_gen (plus : bool) A off : forall cnt first H,
  (first + cnt = mcols A)%nat -> (off + mcols A <= mrows H)%nat -> (off + mcols A <= mcols H)%nat ->
  exists H', for_up cnt first (fun i H =>
    mset_block_o H (off + i) (off + i)
      (mkMat (mcols A - i) 1 (fun r _ =>
         (if plus then mget H (off + i + r) (off + i) else 0) + col_product A (i + r) i))) H = Ok H' /\
    mrows H' = mrows H /\ mcols H' = mcols H /\
    (forall i j, (j <= i)%nat -> mget H' i j =
      if in_block off (mcols A) i && in_block (off + first) cnt j
      then (if plus then mget H i j else 0) + col_product A (i - off) (j - off) else mget H i j) /\
    (forall i j, (i < j)%nat -> mget H' i j = mget H i j).
Proof.
  induction cnt as [|cnt IH]; intros first H E R C; cbn [for_up].
  - exists H. repeat split; auto. intros i j L. replace (in_block (off + first) 0 j) with false by (unfold in_block; lia).
    rewrite andb_false_r. reflexivity.
  - rewrite mset_block_o_ok by (simpl; lia). cbn [bind].
    match goal with |- context [for_up cnt (S first) _ ?h] => set (H1 := h) end.
    destruct (IH (S first) H1) as (H' & E' & R' & C' & L' & U'); [lia|simpl; lia|simpl; lia|].
    exists H'. split; [exact E'|]. split; [rewrite R'; reflexivity|]. split; [rewrite C'; reflexivity|]. split.
    + intros i j L. rewrite L' by assumption.
      destruct (in_block off (mcols A) i) eqn:Bi; cbn [andb].
      2:{ unfold H1, mset_block; cbn [mget mrows mcols].
          replace (in_block (off + first) (mcols A - first) i && in_block (off + first) 1 j) with false; [reflexivity|].
          symmetry. unfold in_block in *. lia. }
      destruct (in_block (off + S first) cnt j) eqn:Bj.
      * replace (in_block (off + first) (S cnt) j) with true by (unfold in_block in *; lia).
        unfold H1, mset_block; cbn [mget mrows mcols].
        replace (in_block (off + first) 1 j) with false by (unfold in_block in *; lia). rewrite andb_false_r. reflexivity.
      * unfold H1, mset_block; cbn [mget mrows mcols].
        destruct (in_block (off + first) 1 j) eqn:Bk.
        -- assert (j = off + first)%nat by (unfold in_block in *; lia). subst j.
           replace (in_block (off + first) (S cnt) (off + first)) with true by (unfold in_block in *; lia).
           replace (in_block (off + first) (mcols A - first) i) with true by (unfold in_block in *; lia). cbn [andb].
           replace (off + first + (i - (off + first)))%nat with i by lia.
           replace (first + (i - (off + first)))%nat with (i - off)%nat by lia.
           replace (off + first - off)%nat with first by lia. reflexivity.
        -- replace (in_block (off + first) (S cnt) j) with false by (unfold in_block in *; lia). rewrite andb_false_r. reflexivity.
    + intros i j L. rewrite U' by assumption. unfold H1, mset_block; cbn [mget mrows mcols].
      replace (in_block (off + first) (mcols A - first) i && in_block (off + first) 1 j) with false; [reflexivity|].
      symmetry. unfold in_block. lia.
Qed.

Lemma gram_loop_ok (plus : bool) A off H :
  (off + mcols A <= mrows H)%nat -> (off + mcols A <= mcols H)%nat ->
  exists H', gram_loop plus A off H = Ok H' /\ mrows H' = mrows H /\ mcols H' = mcols H /\
    (forall i j, (j <= i)%nat -> mget H' i j =
      if in_block off (mcols A) i && in_block off (mcols A) j
      then (if plus then mget H i j else 0) + col_product A (i - off) (j - off) else mget H i j) /\
    (forall i j, (i < j)%nat -> mget H' i j = mget H i j).
Proof.
  intros R C. destruct (gram_loop_gen plus A off (mcols A) 0 H) as (H' & E & R' & C' & L & U); try lia.
  exists H'. repeat split; auto. intros i j J. rewrite L by assumption. rewrite Nat.add_0_r. reflexivity.
Qed.

Lemma add_diagonal_gen (ix : list nat) (value : nat -> R) : forall cnt first H,
  (forall k, (first <= k < first + cnt)%nat -> (nth k ix 0 < mrows H)%nat /\ (nth k ix 0 < mcols H)%nat) ->
  exists H', for_up cnt first (fun i H =>
    mset_o H (nth i ix 0%nat) (nth i ix 0%nat) (mget H (nth i ix 0%nat) (nth i ix 0%nat) + value i)) H = Ok H' /\
    mrows H' = mrows H /\ mcols H' = mcols H /\
    forall i j, mget H' i j = mget H i j +
      Rsum cnt (fun k => if (i =? nth (first + k) ix 0)%nat && (j =? nth (first + k) ix 0)%nat then value (first + k)%nat else 0).
Proof.
  induction cnt as [|cnt IH]; intros first H B; cbn [for_up].
  - exists H. repeat split; auto. intros. simpl. lra.
  - destruct (B first) as [B1 B2]; [lia|]. rewrite mset_o_ok by assumption. cbn [bind].
    match goal with |- context [for_up cnt (S first) _ ?h] => set (H1 := h) end.
    destruct (IH (S first) H1) as (H' & E' & R' & C' & L').
    { intros k Hk. apply B. lia. }
    exists H'. split; [exact E'|]. split; [rewrite R'; reflexivity|]. split; [rewrite C'; reflexivity|].
    intros i j. rewrite L', Rsum_first, Nat.add_0_r. unfold H1; cbn [mget].
    rewrite (Rsum_ext cnt _ (fun k => if (i =? nth (first + S k) ix 0)%nat && (j =? nth (first + S k) ix 0)%nat then value (first + S k)%nat else 0)).
    2:{ intros k _. replace (S first + k)%nat with (first + S k)%nat by lia. reflexivity. }
    destruct ((i =? nth first ix 0)%nat && (j =? nth first ix 0)%nat) eqn:D; [|lra].
    apply andb_true_iff in D. destruct D as [D1 D2]. apply Nat.eqb_eq in D1, D2. rewrite D1, D2. lra.
Qed.

Lemma add_diagonal_ok ix value H nv : mrows H = nv -> mcols H = nv -> Forall (fun j => (j < nv)%nat) ix ->
  exists H', add_diagonal ix value H = Ok H' /\ mrows H' = mrows H /\ mcols H' = mcols H /\
    forall i j, mget H' i j = mget H i j +
      Rsum (length ix) (fun k => if (i =? nth k ix 0)%nat && (j =? nth k ix 0)%nat then value k else 0).
Proof.
  intros R C F. destruct (add_diagonal_gen ix value (length ix) 0 H) as (H' & E & R' & C' & L).
  - intros k Hk. rewrite Forall_forall in F. rewrite R, C. split; apply F, nth_In; lia.
  - exists H'. auto.
Qed.

(** coefficient of the Gram matrix of all rows *)
Definition gram (c : constr) (i j : nat) : R := Rsum (getNumberOfConstraints c) (fun r => coef c r i * coef c r j).
Definition atb (c : constr) (i : nat) : R := Rsum (getNumberOfConstraints c) (fun r => coef c r i * rhs c r).

Lemma gram_AS c A off i j : c_body c = BodyAS A off ->
  gram c i j = if in_block off (mcols A) i && in_block off (mcols A) j then col_product A (i - off) (j - off) else 0.
Proof.
  intros E. unfold gram, coef, getNumberOfConstraints, col_product, in_block. rewrite E.
  destruct ((off <=? i)%nat && (i <? off + mcols A)%nat); destruct ((off <=? j)%nat && (j <? off + mcols A)%nat); cbn [andb];
    try reflexivity; apply Rsum_zero; intros; ring.
Qed.

Lemma gram_I c ix (v : nat -> R) i j : getNumberOfConstraints c = length ix ->
  (forall r a, coef c r a = if (a =? nth r ix 0)%nat then v r else 0) ->
  gram c i j = Rsum (length ix) (fun k => if (i =? nth k ix 0)%nat && (j =? nth k ix 0)%nat then v k * v k else 0).
Proof.
  intros N E. unfold gram. rewrite N. apply Rsum_ext. intros k _. rewrite !E.
  destruct (i =? nth k ix 0)%nat, (j =? nth k ix 0)%nat; cbn [andb]; ring.
Qed.

Definition lower_is (nv : nat) (H : mat) (f : nat -> nat -> R) : Prop :=
  mrows H = nv /\ mcols H = nv /\ forall i j, (j <= i)%nat -> (i < nv)%nat -> mget H i j = f i j.
Definition vec_is (nv : nat) (g : vec) (f : nat -> R) : Prop :=
  vlen g = nv /\ forall i, (i < nv)%nat -> vget g i = f i.

Lemma body_get_ok nv c H : usable nv c -> exists H', body_getATA c H = Ok H' /\ lower_is nv H' (gram c).
Proof.
  intros (NV & CC & IX). unfold checkConsistency in CC. apply andb_true_iff in CC. destruct CC as [_ CC].
  unfold body_getATA. destruct (c_body c) as [A|A off|ix|ix G] eqn:B.
  - unfold et_getATA. destruct (gram_loop_ok false A 0 (mresize H (mcols A) (mcols A))) as (H' & E & R & C & L & _); try (simpl; lia).
    exists H'. split; [exact E|]. unfold lower_is. rewrite R, C. simpl. split; [lia|]. split; [lia|].
    intros i j Lij Li. rewrite L by assumption.
    replace (in_block 0 (mcols A) i && in_block 0 (mcols A) j) with true by (unfold in_block; lia).
    unfold gram, coef, getNumberOfConstraints, col_product. rewrite B, !Nat.sub_0_r. ring.
  - unfold et_getATA_off. destruct (gram_loop_ok false A off (zero_lower (mresize H (c_nvars c) (c_nvars c)))) as (H' & E & R & C & L & _); try (simpl; lia).
    exists H'. split; [exact E|]. unfold lower_is. rewrite R, C. simpl. split; [lia|]. split; [lia|].
    intros i j Lij Li. rewrite L by assumption. rewrite (gram_AS c A off) by assumption.
    destruct (in_block off (mcols A) i && in_block off (mcols A) j); [ring|]. simpl.
    replace (j <=? i)%nat with true by lia. reflexivity.
  - destruct (add_diagonal_ok ix (fun _ => 1) (zero_lower (mresize H (c_nvars c) (c_nvars c))) nv) as (H' & E & R & C & L); auto.
    exists H'. split; [exact E|]. unfold lower_is. rewrite R, C. simpl. split; [lia|]. split; [lia|].
    intros i j Lij Li. rewrite L. rewrite (gram_I c ix (fun _ => 1)).
    + simpl. replace (j <=? i)%nat with true by lia. rewrite Rplus_0_l. apply Rsum_ext. intros. rewrite Rmult_1_l. reflexivity.
    + unfold getNumberOfConstraints. rewrite B. reflexivity.
    + intros. unfold coef. rewrite B. reflexivity.
  - destruct (add_diagonal_ok ix (fun i => vget G i * vget G i) (zero_lower (mresize H (c_nvars c) (c_nvars c))) nv) as (H' & E & R & C & L); auto.
    exists H'. split; [exact E|]. unfold lower_is. rewrite R, C. simpl. split; [lia|]. split; [lia|].
    intros i j Lij Li. rewrite L. rewrite (gram_I c ix (vget G)).
    + simpl. replace (j <=? i)%nat with true by lia. rewrite Rplus_0_l. reflexivity.
    + unfold getNumberOfConstraints. rewrite B. reflexivity.
    + intros. unfold coef. rewrite B. reflexivity.
Qed.

Lemma body_add_ok nv c H f : usable nv c -> lower_is nv H f ->
  exists H', body_addATA c H = Ok H' /\ lower_is nv H' (fun i j => f i j + gram c i j).
Proof.
  intros (NV & CC & IX) (HR & HC & HL). unfold checkConsistency in CC. apply andb_true_iff in CC. destruct CC as [_ CC].
  unfold body_addATA. destruct (c_body c) as [A|A off|ix|ix G] eqn:B.
  - unfold et_addATA. destruct (gram_loop_ok true A 0 H) as (H' & E & R & C & L & _); try lia.
    exists H'. split; [exact E|]. unfold lower_is. rewrite R, C. split; [lia|]. split; [lia|].
    intros i j Lij Li. rewrite L by assumption.
    replace (in_block 0 (mcols A) i && in_block 0 (mcols A) j) with true by (unfold in_block; lia).
    unfold gram, coef, getNumberOfConstraints, col_product. rewrite B, !Nat.sub_0_r, HL by assumption. ring.
  - unfold et_addATA_off. destruct (gram_loop_ok true A off H) as (H' & E & R & C & L & _); try lia.
    exists H'. split; [exact E|]. unfold lower_is. rewrite R, C. split; [lia|]. split; [lia|].
    intros i j Lij Li. rewrite L by assumption. rewrite (gram_AS c A off) by assumption. rewrite HL by assumption.
    destruct (in_block off (mcols A) i && in_block off (mcols A) j); ring.
  - destruct (add_diagonal_ok ix (fun _ => 1) H nv) as (H' & E & R & C & L); auto.
    exists H'. split; [exact E|]. unfold lower_is. rewrite R, C. split; [lia|]. split; [lia|].
    intros i j Lij Li. rewrite L. rewrite (gram_I c ix (fun _ => 1)).
    + rewrite HL by assumption. f_equal. apply Rsum_ext. intros. rewrite Rmult_1_l. reflexivity.
    + unfold getNumberOfConstraints. rewrite B. reflexivity.
    + intros. unfold coef. rewrite B. reflexivity.
  - destruct (add_diagonal_ok ix (fun i => vget G i * vget G i) H nv) as (H' & E & R & C & L); auto.
    exists H'. split; [exact E|]. unfold lower_is. rewrite R, C. split; [lia|]. split; [lia|].
    intros i j Lij Li. rewrite L. rewrite (gram_I c ix (vget G)).
    + rewrite HL by assumption. reflexivity.
    + unfold getNumberOfConstraints. rewrite B. reflexivity.
    + intros. unfold coef. rewrite B. reflexivity.
Qed.

(** ** gradients *)
Lemma gib_gen (ix : list nat) (G b : vec) : forall cnt first g,
  (forall k, (first <= k < first + cnt)%nat -> (nth k ix 0 < vlen g)%nat) ->
  exists g', for_up cnt first (fun i g => vset_o g (nth i ix 0%nat) (vget g (nth i ix 0%nat) + vget G i * vget b i)) g = Ok g' /\
    vlen g' = vlen g /\
    forall i, vget g' i = vget g i +
      Rsum cnt (fun k => if (i =? nth (first + k) ix 0)%nat then vget G (first + k)%nat * vget b (first + k)%nat else 0).
Proof.
  induction cnt as [|cnt IH]; intros first g B; cbn [for_up].
  - exists g. repeat split; auto. intros. simpl. lra.
  - assert (B1 : (nth first ix 0 < vlen g)%nat) by (apply B; lia).
    unfold vset_o at 1, assert_then. replace (nth first ix 0 <? vlen g)%nat with true by lia. cbn [bind].
    match goal with |- context [for_up cnt (S first) _ ?h] => set (g1 := h) end.
    destruct (IH (S first) g1) as (g' & E' & R' & L').
    { intros k Hk. apply B. lia. }
    exists g'. split; [exact E'|]. split; [rewrite R'; reflexivity|].
    intros i. rewrite L', Rsum_first, Nat.add_0_r. unfold g1; cbn [vget].
    rewrite (Rsum_ext cnt _ (fun k => if (i =? nth (first + S k) ix 0)%nat then vget G (first + S k)%nat * vget b (first + S k)%nat else 0)).
    2:{ intros k _. replace (S first + k)%nat with (first + S k)%nat by lia. reflexivity. }
    destruct (i =? nth first ix 0)%nat eqn:D; [|lra].
    apply Nat.eqb_eq in D. rewrite D. lra.
Qed.

Lemma gib_ok c ix G b g nv : c_body c = BodyGI ix G -> c_bounds c = BoundsB b -> vlen g = nv -> Forall (fun j => (j < nv)%nat) ix ->
  exists g', gib_addATb ix G b g = Ok g' /\ vlen g' = nv /\ forall i, vget g' i = vget g i + atb c i.
Proof.
  intros B Bb L F. destruct (gib_gen ix G b (length ix) 0 g) as (g' & E & R & V).
  - intros k Hk. rewrite Forall_forall in F. rewrite L. apply F, nth_In. lia.
  - exists g'. split; [exact E|]. split; [lia|]. intros i. rewrite V. f_equal.
    unfold atb, getNumberOfConstraints, coef, rhs, lower. rewrite B, Bb. apply Rsum_ext. intros k _. simpl.
    destruct (i =? nth k ix 0)%nat; ring.
Qed.

Lemma atb_A c A b i : c_body c = BodyA A -> c_bounds c = BoundsB b -> atb c i = Rsum (mrows A) (fun k => mget A k i * vget b k).
Proof. intros B Bb. unfold atb, getNumberOfConstraints, coef, rhs, lower. rewrite B, Bb. reflexivity. Qed.
Lemma atb_AS c A off b i : c_body c = BodyAS A off -> c_bounds c = BoundsB b ->
  atb c i = if in_block off (mcols A) i then Rsum (mrows A) (fun k => mget A k (i - off) * vget b k) else 0.
Proof.
  intros B Bb. unfold atb, getNumberOfConstraints, coef, rhs, lower, in_block. rewrite B, Bb.
  destruct ((off <=? i)%nat && (i <? off + mcols A)%nat); [reflexivity|]. apply Rsum_zero. intros; ring.
Qed.
Lemma atb_0 c i : c_bounds c = BoundsB0 -> atb c i = 0.
Proof. intros Bb. unfold atb, rhs, lower. rewrite Bb. apply Rsum_zero. intros; ring. Qed.

Lemma bounds_get_ok nv c g : usable nv c -> ct_isEquality (getType c) = true -> getType c <> IB ->
  exists g', bounds_getATb c g = Ok g' /\ vec_is nv g' (atb c).
Proof.
  intros (NV & CC & IX) EQ NI. unfold checkConsistency in CC. apply andb_true_iff in CC. destruct CC as [BS CC].
  unfold bounds_getATb. destruct (c_bounds c) as [|b|?|?|? ?] eqn:Bb.
  - exists (vconst (c_nvars c) 0). split; [reflexivity|]. split; [exact NV|]. intros i _. rewrite atb_0 by assumption. reflexivity.
  - destruct (c_body c) as [A|A off|ix|ix G] eqn:B.
    + unfold getNumberOfConstraints in BS. rewrite B in BS. simpl in BS.
      unfold ATb, assert_then. rewrite BS. eexists. split; [reflexivity|]. split; [simpl; lia|]. intros i _.
      simpl. rewrite (atb_A c A b) by assumption. reflexivity.
    + unfold getNumberOfConstraints in BS. rewrite B in BS. simpl in BS.
      unfold ATb, assert_then at 1. rewrite BS. cbn [bind]. unfold assert_then at 1. simpl vlen.
      replace (off + mcols A <=? c_nvars c)%nat with true by lia.
      destruct (vset_segment_ok (vconst (c_nvars c) 0) (mkLoc off (mcols A))
        {| vlen := mcols A; vget := fun j => Rsum (mrows A) (fun k => mget A k j * vget b k) |}) as (g' & E & L & V); try (simpl; lia).
      exists g'. split; [exact E|]. split; [rewrite L; simpl; lia|]. intros i _. rewrite V. simpl.
      rewrite (atb_AS c A off b) by assumption. reflexivity.
    + exfalso. apply NI. unfold getType. rewrite B, Bb. reflexivity.
    + destruct (gib_ok c ix G b (vconst (c_nvars c) 0) nv) as (g' & E & L & V); auto.
      exists g'. split; [exact E|]. split; [exact L|]. intros i _. rewrite V. simpl. ring.
  - exfalso. unfold getType in EQ. rewrite Bb in EQ. destruct (c_body c); discriminate.
  - exfalso. unfold getType in EQ. rewrite Bb in EQ. destruct (c_body c); discriminate.
  - exfalso. unfold getType in EQ. rewrite Bb in EQ. destruct (c_body c); discriminate.
Qed.

Lemma bounds_add_ok nv c g f : usable nv c -> ct_isEquality (getType c) = true -> getType c <> IB -> vec_is nv g f ->
  exists g', bounds_addATb c g = Ok g' /\ vec_is nv g' (fun i => f i + atb c i).
Proof.
  intros (NV & CC & IX) EQ NI (GL & GV). unfold checkConsistency in CC. apply andb_true_iff in CC. destruct CC as [BS CC].
  unfold bounds_addATb. destruct (c_bounds c) as [|b|?|?|? ?] eqn:Bb.
  - exists g. split; [reflexivity|]. split; [exact GL|]. intros i Hi. rewrite atb_0, GV by assumption. ring.
  - destruct (c_body c) as [A|A off|ix|ix G] eqn:B.
    + unfold getNumberOfConstraints in BS. rewrite B in BS. simpl in BS.
      unfold ATb, assert_then at 1. rewrite BS. cbn [bind]. unfold assert_then. simpl vlen.
      replace (vlen g =? mcols A)%nat with true by lia. eexists. split; [reflexivity|]. split; [simpl; lia|]. intros i Hi.
      simpl. rewrite (atb_A c A b), GV by assumption. reflexivity.
    + unfold getNumberOfConstraints in BS. rewrite B in BS. simpl in BS.
      unfold ATb, assert_then at 1. rewrite BS. cbn [bind]. simpl vlen.
      match goal with |- context [vset_segment ?a ?l ?s] => destruct (vset_segment_ok a l s) as (g' & E & L & V); try (simpl; lia) end.
      exists g'. split; [exact E|]. split; [rewrite L; simpl; lia|]. intros i Hi. rewrite V. simpl.
      rewrite (atb_AS c A off b) by assumption. destruct (in_block off (mcols A) i) eqn:I.
      * apply in_block_iff in I. replace (off + (i - off))%nat with i by lia. rewrite GV by assumption. ring.
      * rewrite GV by assumption. ring.
    + exfalso. apply NI. unfold getType. rewrite B, Bb. reflexivity.
    + destruct (gib_ok c ix G b g nv) as (g' & E & L & V); auto.
      exists g'. split; [exact E|]. split; [exact L|]. intros i Hi. rewrite V, GV by assumption. reflexivity.
  - exfalso. unfold getType in EQ. rewrite Bb in EQ. destruct (c_body c); discriminate.
  - exfalso. unfold getType in EQ. rewrite Bb in EQ. destruct (c_body c); discriminate.
  - exfalso. unfold getType in EQ. rewrite Bb in EQ. destruct (c_body c); discriminate.
Qed.

(** ** the objective of a level *)
Definition lgram (cs : nat -> constr) (ts : list tinfo) (i j : nat) : R :=
  sum_list (map (fun t => gram (cs (tk_id (ti_task t))) i j) ts).
Definition latb (cs : nat -> constr) (ts : list tinfo) (i : nat) : R :=
  sum_list (map (fun t => atb (cs (tk_id (ti_task t))) i) ts).

Definition good (nv : nat) (cs : nat -> constr) (t : tinfo) : Prop :=
  usable nv (cs (tk_id (ti_task t))) /\ ct_isEquality (getType (cs (tk_id (ti_task t)))) = true /\
  getType (cs (tk_id (ti_task t))) <> IB.

Lemma objective_loop_ok nv cs ts : forall s f h, Forall (good nv cs) ts -> lower_is nv (fst s) f -> vec_is nv (snd s) h ->
  exists s', objective_loop cs ts s = Ok s' /\ lower_is nv (fst s') (fun i j => f i j + lgram cs ts i j) /\
    vec_is nv (snd s') (fun i => h i + latb cs ts i).
Proof.
  induction ts as [|t ts IH]; intros s f h F L V; cbn [objective_loop].
  - exists s. split; [reflexivity|]. destruct L as (L1 & L2 & L3). destruct V as (V1 & V2). split; repeat split; auto.
    + intros i j A B. rewrite L3 by assumption. unfold lgram. simpl. ring.
    + intros i A. rewrite V2 by assumption. unfold latb. simpl. ring.
  - inversion F as [|? ? [U [EQ NI]] F']; subst. unfold addATAandATb. rewrite EQ.
    destruct (body_add_ok nv _ (fst s) f U L) as (H' & EH & LH). rewrite EH. cbn [bind].
    destruct (bounds_add_ok nv _ (snd s) h U EQ NI V) as (g' & Eg & Lg). rewrite Eg. cbn [bind].
    destruct (IH (H', g') _ _ F' LH Lg) as (s' & Es & (L1 & L2 & L3) & (V1 & V2)).
    exists s'. split; [exact Es|]. split; repeat split; auto.
    + intros i j A B. rewrite L3 by assumption. unfold lgram. simpl. ring.
    + intros i A. rewrite V2 by assumption. unfold latb. simpl. ring.
Qed.

Lemma getObjective_ok nv cs l s : Forall (good nv cs) (lv_tasks l) -> lv_tasks l <> [] ->
  exists s', getObjective cs l s = Ok s' /\ lower_is nv (fst s') (lgram cs (lv_tasks l)) /\ vec_is nv (snd s') (latb cs (lv_tasks l)).
Proof.
  intros F N. unfold getObjective. destruct (lv_tasks l) as [|t ts]; [congruence|].
  inversion F as [|? ? [U [EQ NI]] F']; subst. unfold getATAandATb. rewrite EQ.
  destruct (body_get_ok nv _ (fst s) U) as (H' & EH & LH). rewrite EH. cbn [bind].
  destruct (bounds_get_ok nv _ (snd s) U EQ NI) as (g' & Eg & Lg). rewrite Eg. cbn [bind].
  destruct (objective_loop_ok nv cs ts (H', g') _ _ F' LH Lg) as (s' & Es & L & V).
  exists s'. split; [exact Es|]. split; [|exact V]. exact L.
Qed.

(** ** symmetrisation *)
Lemma symm_gen n : forall cnt first M, mrows M = n -> mcols M = n -> (first + cnt = n - 1)%nat ->
  exists M', for_up cnt first (fun i M =>
    mset_block_o M i (i + 1) (mkMat 1 (mcols M - i - 1) (fun _ c => mget M (i + 1 + c) i))) M = Ok M' /\
    mrows M' = n /\ mcols M' = n /\
    forall i j, (i < n)%nat -> (j < n)%nat ->
      mget M' i j = if (first <=? i)%nat && (i <? j)%nat then mget M j i else mget M i j.
Proof.
  induction cnt as [|cnt IH]; intros first M R C E; cbn [for_up].
  - exists M. repeat split; auto. intros i j Hi Hj. replace ((first <=? i)%nat && (i <? j)%nat) with false by lia. reflexivity.
  - rewrite mset_block_o_ok by (simpl; lia). cbn [bind].
    match goal with |- context [for_up cnt (S first) _ ?h] => set (M1 := h) end.
    destruct (IH (S first) M1) as (M' & E' & R' & C' & L'); [simpl; lia|simpl; lia|lia|].
    exists M'. repeat split; auto. intros i j Hi Hj. rewrite L' by assumption.
    unfold M1, mset_block; cbn [mget mrows mcols]. rewrite C.
    destruct ((S first <=? i)%nat && (i <? j)%nat) eqn:D.
    + replace ((first <=? i)%nat && (i <? j)%nat) with true by lia.
      replace (in_block first 1 j && in_block (first + 1) (n - first - 1) i) with false; [reflexivity|].
      symmetry. unfold in_block. lia.
    + destruct (in_block first 1 i && in_block (first + 1) (n - first - 1) j) eqn:D2.
      * apply andb_true_iff in D2. destruct D2 as [D2 D3]. apply in_block_iff in D2, D3.
        replace ((first <=? i)%nat && (i <? j)%nat) with true by lia. f_equal; lia.
      * replace ((first <=? i)%nat && (i <? j)%nat) with false; [reflexivity|].
        symmetry. unfold in_block in D2. lia.
Qed.

Lemma symm_ok n M : mrows M = n -> mcols M = n ->
  exists M', convertLLTtoSymmetric M = Ok M' /\ mrows M' = n /\ mcols M' = n /\
    forall i j, (i < n)%nat -> (j < n)%nat -> mget M' i j = if (i <? j)%nat then mget M j i else mget M i j.
Proof. intros R C. unfold convertLLTtoSymmetric. rewrite C. apply symm_gen; auto; lia. Qed.

(** ** the value of the quadratic function *)
Lemma gram_quadratic nv c x : c_nvars c = nv ->
  Rsum nv (fun i => Rsum nv (fun j => x i * gram c i j * x j)) =
  Rsum (getNumberOfConstraints c) (fun r => row_value c r x * row_value c r x).
Proof.
  intros NV. unfold gram, row_value. rewrite NV.
  transitivity (Rsum nv (fun i => Rsum (getNumberOfConstraints c) (fun r => Rsum nv (fun j => coef c r i * x i * (coef c r j * x j))))).
  - apply Rsum_ext. intros i _. rewrite Rsum_swap. apply Rsum_ext. intros j _.
    rewrite <- Rsum_scal, <- Rsum_scal_r. apply Rsum_ext. intros; ring.
  - rewrite Rsum_swap. apply Rsum_ext. intros r _. rewrite <- Rsum_scal_r. apply Rsum_ext. intros i _.
    rewrite Rsum_scal. reflexivity.
Qed.

Lemma atb_linear nv c x : c_nvars c = nv ->
  Rsum nv (fun i => atb c i * x i) = Rsum (getNumberOfConstraints c) (fun r => row_value c r x * rhs c r).
Proof.
  intros NV. unfold atb, row_value. rewrite NV.
  transitivity (Rsum nv (fun i => Rsum (getNumberOfConstraints c) (fun r => coef c r i * x i * rhs c r))).
  - apply Rsum_ext. intros i _. rewrite <- Rsum_scal_r. apply Rsum_ext. intros; ring.
  - rewrite Rsum_swap. apply Rsum_ext. intros r _. rewrite <- Rsum_scal_r. reflexivity.
Qed.

Definition rhs_sq (c : constr) : R := Rsum (getNumberOfConstraints c) (fun r => rhs c r * rhs c r).

Lemma cost_split nv c x : c_nvars c = nv ->
  squared_residuals c x = Rsum nv (fun i => Rsum nv (fun j => x i * gram c i j * x j)) - 2 * Rsum nv (fun i => atb c i * x i) + rhs_sq c.
Proof.
  intros NV. rewrite (gram_quadratic nv c x NV), (atb_linear nv c x NV). unfold squared_residuals, residual, rhs_sq.
  rewrite <- Rsum_scal, <- Rsum_minus, <- Rsum_plus. apply Rsum_ext. intros; ring.
Qed.

Lemma lcost_split nv cs ts x : (forall t, In t ts -> c_nvars (cs (tk_id (ti_task t))) = nv) ->
  sum_list (map (fun i => squared_residuals (cs (tk_id (ti_task i))) x) ts) =
  Rsum nv (fun i => Rsum nv (fun j => x i * lgram cs ts i j * x j)) - 2 * Rsum nv (fun i => latb cs ts i * x i)
  + sum_list (map (fun t => rhs_sq (cs (tk_id (ti_task t)))) ts).
Proof.
  induction ts as [|t ts IH]; intros H; unfold lgram, latb; cbn [map sum_list].
  - rewrite (Rsum_zero nv (fun i => Rsum nv _)); [rewrite (Rsum_zero nv (fun i => 0 * x i)); [ring|intros; ring]|].
    intros i _. apply Rsum_zero. intros; ring.
  - rewrite IH by (intros; apply H; simpl; auto). rewrite (cost_split nv) by (apply H; simpl; auto).
    fold (lgram cs ts). fold (latb cs ts).
    rewrite (Rsum_ext nv (fun i => Rsum nv (fun j => x i * (gram (cs (tk_id (ti_task t))) i j + sum_list (map (fun t0 : tinfo => gram (cs (tk_id (ti_task t0))) i j) ts)) * x j))
               (fun i => Rsum nv (fun j => x i * gram (cs (tk_id (ti_task t))) i j * x j) + Rsum nv (fun j => x i * lgram cs ts i j * x j))).
    2:{ intros i _. rewrite <- Rsum_plus. apply Rsum_ext. intros j _. unfold lgram. ring. }
    rewrite Rsum_plus.
    rewrite (Rsum_ext nv (fun i => (atb (cs (tk_id (ti_task t))) i + sum_list (map (fun t0 : tinfo => atb (cs (tk_id (ti_task t0))) i) ts)) * x i)
               (fun i => atb (cs (tk_id (ti_task t))) i * x i + latb cs ts i * x i)).
    2:{ intros i _. unfold latb. ring. }
    rewrite Rsum_plus. ring.
Qed.

Lemma gram_sym c i j : gram c i j = gram c j i.
Proof. unfold gram. apply Rsum_ext. intros; ring. Qed.
Lemma lgram_sym cs ts i j : lgram cs ts i j = lgram cs ts j i.
Proof. unfold lgram. f_equal. apply map_ext. intros. apply gram_sym. Qed.

Lemma gram_simple c i j : ct_isSimple (getType c) = true -> i <> j -> gram c i j = 0.
Proof.
  intros S N. unfold gram. apply Rsum_zero. intros r _. unfold coef. unfold getType in S.
  destruct (c_body c) as [A|A off|ix|ix G]; try (destruct (c_bounds c); discriminate).
  - destruct (i =? nth r ix 0)%nat eqn:A, (j =? nth r ix 0)%nat eqn:B; try ring. lia.
  - destruct (i =? nth r ix 0)%nat eqn:A, (j =? nth r ix 0)%nat eqn:B; try ring. lia.
Qed.
