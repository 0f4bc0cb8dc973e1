(** * Proofs for C10, C11, C12 *)
From Coq Require Import List Arith Reals Bool Lra Lia ZifyBool.
From Verif Require Import Base BaseFacts RSum Matrix ConstraintType HierarchyLevel HierarchySpec HierarchyFacts
  Constraints ConstraintsSpec.
Import ListNotations.
Open Scope R_scope.

Lemma in_block_iff a n i : in_block a n i = true <-> (a <= i < a + n)%nat.
Proof. unfold in_block. lia. Qed.
Lemma in_block_false a n i : in_block a n i = false <-> ~ (a <= i < a + n)%nat.
Proof. rewrite <- in_block_iff. destruct (in_block a n i); split; intros; congruence || tauto. Qed.

Lemma g_infinity_pos : 0 < g_infinity.
Proof. unfold g_infinity. apply pow_lt. lra. Qed.

(** ** rows written by copyBodyTo *)
Lemma mset_o_ok A i j v : (i < mrows A)%nat -> (j < mcols A)%nat ->
  mset_o A i j v = Ok (mkMat (mrows A) (mcols A) (fun a b => if (a =? i)%nat && (b =? j)%nat then v else mget A a b)).
Proof. intros. unfold mset_o, assert_then. replace ((i <? mrows A)%nat && (j <? mcols A)%nat) with true by lia. reflexivity. Qed.

Lemma selection_loop (ix : list nat) (value : nat -> R) off : forall cnt first A,
  (off + first + cnt <= mrows A)%nat -> (forall i, (first <= i < first + cnt)%nat -> (nth i ix 0 < mcols A)%nat) ->
  exists A', for_up cnt first (fun i A => mset_o A (off + i) (nth i ix 0%nat) (value i)) A = Ok A' /\
    mrows A' = mrows A /\ mcols A' = mcols A /\
    forall r j, mget A' r j =
      if in_block (off + first) cnt r && (j =? nth (r - off) ix 0)%nat then value (r - off)%nat else mget A r j.
Proof.
  induction cnt as [|cnt IH]; intros first A H X.
  - exists A. cbn [for_up]. repeat split; auto. intros r j.
    replace (in_block (off + first) 0 r) with false; [reflexivity|]. symmetry; apply in_block_false; lia.
  - cbn [for_up]. rewrite mset_o_ok; [|lia|apply X; lia]. cbn [bind].
    match goal with |- context [for_up cnt (S first) _ ?B] => destruct (IH (S first) B) as (A' & E & R1 & R2 & R3) end;
      cbn [mrows mcols]; [lia|intros; apply X; lia|].
    exists A'. split; [exact E|]. split; [exact R1|]. split; [exact R2|]. intros r j. rewrite R3. cbn [mget].
    destruct (Nat.eq_dec r (off + first)) as [->|N].
    + replace (in_block (off + S first) cnt (off + first)) with false by (symmetry; apply in_block_false; lia).
      replace (in_block (off + first) (S cnt) (off + first)) with true by (symmetry; apply in_block_iff; lia).
      rewrite Nat.eqb_refl. replace (off + first - off)%nat with first by lia. simpl. reflexivity.
    + replace (r =? off + first)%nat with false by lia. cbn [andb].
      replace (in_block (off + S first) cnt r) with (in_block (off + first) (S cnt) r); [reflexivity|].
      unfold in_block. lia.
Qed.

Lemma mset_block_o_ok A i0 j0 src : (i0 + mrows src <= mrows A)%nat -> (j0 + mcols src <= mcols A)%nat ->
  mset_block_o A i0 j0 src = Ok (mset_block A i0 j0 src).
Proof.
  intros. unfold mset_block_o, assert_then.
  replace ((i0 + mrows src <=? mrows A)%nat && (j0 + mcols src <=? mcols A)%nat) with true by lia. reflexivity.
Qed.

(** [A'] is [A] with rows [off, off+n) replaced *)
Definition rows_set (A A' : mat) (off n nv : nat) (f : nat -> nat -> R) : Prop :=
  mrows A' = mrows A /\ mcols A' = mcols A /\
  forall r j, (j < nv)%nat -> mget A' r j = if in_block off n r then f (r - off)%nat j else mget A r j.

Lemma copy_selection_ok nv ix value A l : mcols A = nv -> length ix = len l -> (offset l + len l <= mrows A)%nat ->
  Forall (fun j => (j < nv)%nat) ix ->
  exists A', copy_selection nv ix value A l = Ok A' /\
    rows_set A A' (offset l) (len l) nv (fun i j => if (j =? nth i ix 0)%nat then value i else 0).
Proof.
  intros C N H F. unfold copy_selection, assert_then. rewrite C, Nat.eqb_refl.
  replace (length ix =? len l)%nat with true by lia.
  rewrite mset_block_o_ok by (simpl; lia). cbn [bind].
  destruct (selection_loop ix value (offset l) (len l) 0 (mset_block A (offset l) 0 (mzero (len l) nv))) as (A' & E & R1 & R2 & R3).
  - simpl; lia.
  - intros i Hi. simpl. rewrite C. rewrite Forall_forall in F. apply F. apply nth_In. lia.
  - exists A'. split; [exact E|]. repeat split; [exact R1|exact R2|]. intros r j Hj. rewrite R3. rewrite Nat.add_0_r.
    cbn [mset_block mget mrows mcols mzero].
    replace (in_block 0 nv j) with true by (symmetry; apply in_block_iff; lia). rewrite andb_true_r.
    destruct (in_block (offset l) (len l) r); cbn [andb]; [|reflexivity].
    destruct (j =? nth (r - offset l) ix 0)%nat; reflexivity.
Qed.

Lemma copy_full_ok nv Ac A l : mcols Ac = nv -> mcols A = nv -> mrows Ac = len l -> (offset l + len l <= mrows A)%nat ->
  exists A', copy_full Ac A l = Ok A' /\ rows_set A A' (offset l) (len l) nv (mget Ac).
Proof.
  intros C1 C2 N H. unfold copy_full, assert_then. replace (mcols Ac =? mcols A)%nat with true by lia.
  replace (mrows Ac =? len l)%nat with true by lia. rewrite mset_block_o_ok by lia.
  eexists; split; [reflexivity|]. repeat split. intros r j Hj. cbn [mset_block mget]. rewrite N, C1.
  replace (in_block 0 nv j) with true by (symmetry; apply in_block_iff; lia). rewrite andb_true_r, Nat.sub_0_r. reflexivity.
Qed.

Lemma copy_sub_ok nv Ac off A l : mcols A = nv -> (mcols Ac + off <= nv)%nat -> mrows Ac = len l -> (offset l + len l <= mrows A)%nat ->
  exists A', copy_sub nv Ac off A l = Ok A' /\
    rows_set A A' (offset l) (len l) nv
      (fun i j => if (off <=? j)%nat && (j <? off + mcols Ac)%nat then mget Ac i (j - off) else 0).
Proof.
  intros C1 C2 N H. unfold copy_sub, assert_then.
  replace ((nv =? mcols A) && (off + mcols Ac <=? mcols A))%nat with true by lia.
  replace (mrows Ac =? len l)%nat with true by lia. rewrite mset_block_o_ok by (simpl; lia).
  eexists; split; [reflexivity|]. repeat split. intros r j Hj.
  cbn [mset_block mget mhcat mrows mcols mzero].
  replace (in_block 0 (off + mcols Ac + (nv - off - mcols Ac)) j) with true by (symmetry; apply in_block_iff; lia).
  rewrite andb_true_r, Nat.sub_0_r.
  destruct (in_block (offset l) (len l) r); [|reflexivity].
  destruct (j <? off + mcols Ac)%nat eqn:E1; destruct (off <=? j)%nat eqn:E2; cbn [andb].
  - replace (j <? off)%nat with false by lia. reflexivity.
  - replace (j <? off)%nat with true by lia. reflexivity.
  - reflexivity.
  - reflexivity.
Qed.

Lemma usable_bounds nv c : usable nv c -> bounds_size_ok (getNumberOfConstraints c) (c_bounds c) = true.
Proof. intros (_ & C & _). unfold checkConsistency in C. apply andb_true_iff in C. tauto. Qed.

Lemma copyBodyTo_ok nv c A l : usable nv c -> mcols A = nv -> len l = getNumberOfConstraints c ->
  (offset l + len l <= mrows A)%nat ->
  exists A', copyBodyTo c A l = Ok A' /\ rows_set A A' (offset l) (len l) nv (coef c).
Proof.
  intros (NV & CC & IX) C N H. unfold checkConsistency in CC. apply andb_true_iff in CC. destruct CC as [_ CC].
  unfold copyBodyTo, getNumberOfConstraints, coef in *. destruct (c_body c) as [Ac|Ac off|ix|ix G].
  - apply copy_full_ok; lia.
  - rewrite NV. apply copy_sub_ok; lia.
  - rewrite NV. apply copy_selection_ok; auto.
  - rewrite NV. apply copy_selection_ok; auto.
Qed.

Lemma rows_set_ext A A' off n nv f g : (forall i j, f i j = g i j) -> rows_set A A' off n nv f -> rows_set A A' off n nv g.
Proof. intros E (H1 & H2 & H3). repeat split; auto. intros r j Hj. rewrite H3 by assumption. rewrite E. reflexivity. Qed.

Lemma copyNegativeBodyTo_ok nv c A l : usable nv c -> mcols A = nv -> len l = getNumberOfConstraints c ->
  (offset l + len l <= mrows A)%nat ->
  exists A', copyNegativeBodyTo c A l = Ok A' /\ rows_set A A' (offset l) (len l) nv (fun i j => - coef c i j).
Proof.
  intros (NV & CC & IX) C N H. unfold checkConsistency in CC. apply andb_true_iff in CC. destruct CC as [_ CC].
  unfold copyNegativeBodyTo, getNumberOfConstraints, coef in *. destruct (c_body c) as [Ac|Ac off|ix|ix G].
  - destruct (copy_full_ok nv (mopp Ac) A l) as (A' & E & R); simpl; try lia. exists A'. split; [exact E|].
    revert R. apply rows_set_ext. reflexivity.
  - rewrite NV. destruct (copy_sub_ok nv (mopp Ac) off A l) as (A' & E & R); simpl; try lia. exists A'. split; [exact E|].
    revert R. apply rows_set_ext. intros i j. simpl. destruct ((off <=? j)%nat && (j <? off + mcols Ac)%nat); lra.
  - rewrite NV. destruct (copy_selection_ok nv ix (fun _ => -1) A l) as (A' & E & R); auto. exists A'. split; [exact E|].
    revert R. apply rows_set_ext. intros i j. destruct (j =? nth i ix 0)%nat; lra.
  - rewrite NV. destruct (copy_selection_ok nv ix (fun i => - vget G i) A l) as (A' & E & R); auto. exists A'. split; [exact E|].
    revert R. apply rows_set_ext. intros i j. destruct (j =? nth i ix 0)%nat; lra.
Qed.

Lemma rows_set_in nv A A' off n f r x : rows_set A A' off n nv f -> mcols A = nv -> (off <= r < off + n)%nat ->
  mrow A' r x = Rsum nv (fun j => f (r - off)%nat j * x j).
Proof.
  intros (H1 & H2 & H3) C Hr. unfold mrow. rewrite H2, C. apply Rsum_ext. intros j Hj. rewrite H3 by assumption.
  replace (in_block off n r) with true by (symmetry; apply in_block_iff; lia). reflexivity.
Qed.
Lemma rows_set_out nv A A' off n f r x : rows_set A A' off n nv f -> mcols A = nv -> ~ (off <= r < off + n)%nat ->
  mrow A' r x = mrow A r x.
Proof.
  intros (H1 & H2 & H3) C Hr. unfold mrow. rewrite H2. apply Rsum_ext. intros j Hj. rewrite H3 by lia.
  replace (in_block off n r) with false by (symmetry; apply in_block_false; lia). reflexivity.
Qed.

(** getProduct is the value of the row *)
Lemma getProduct_row nv c i x : usable nv c -> (i < getNumberOfConstraints c)%nat ->
  getProduct c i (mkVec nv x) = row_value c i x.
Proof.
  intros (NV & CC & IX) Hi. unfold checkConsistency in CC. apply andb_true_iff in CC. destruct CC as [_ CC].
  unfold getProduct, row_value, coef, getNumberOfConstraints in *. rewrite NV. destruct (c_body c) as [Ac|Ac off|ix|ix G].
  - replace (mcols Ac) with nv by lia. reflexivity.
  - replace nv with (off + (mcols Ac + (nv - off - mcols Ac)))%nat by lia.
    rewrite Rsum_split, (Rsum_zero off).
    + rewrite Rsum_split, (Rsum_zero (nv - off - mcols Ac)).
      * rewrite Rplus_0_l, Rplus_0_r. apply Rsum_ext. intros k Hk.
        replace ((off <=? off + k)%nat && (off + k <? off + mcols Ac)%nat) with true by lia.
        replace (off + k - off)%nat with k by lia. reflexivity.
      * intros k Hk. replace ((off <=? off + (mcols Ac + k))%nat && (off + (mcols Ac + k) <? off + mcols Ac)%nat) with false by lia. ring.
    + intros k Hk. replace ((off <=? k)%nat && (k <? off + mcols Ac)%nat) with false by lia. ring.
  - rewrite Forall_forall in IX. rewrite (Rsum_single nv (nth i ix 0%nat)).
    + rewrite Nat.eqb_refl. simpl. ring.
    + apply IX, nth_In. assumption.
    + intros k Hk Nk. replace (k =? nth i ix 0)%nat with false by lia. ring.
  - rewrite Forall_forall in IX. rewrite (Rsum_single nv (nth i ix 0%nat)).
    + rewrite Nat.eqb_refl. simpl. ring.
    + apply IX, nth_In. assumption.
    + intros k Hk Nk. replace (k =? nth i ix 0)%nat with false by lia. ring.
Qed.

(** ** segments of bounds *)
Lemma vset_segment_ok v l src : (offset l + len l <= vlen v)%nat -> len l = vlen src ->
  exists v', vset_segment v l src = Ok v' /\ vlen v' = vlen v /\
    forall i, vget v' i = if in_block (offset l) (len l) i then vget src (i - offset l) else vget v i.
Proof.
  intros H E. unfold vset_segment, assert_then.
  replace ((offset l + len l <=? vlen v)%nat && (len l =? vlen src)%nat) with true by lia. eexists; repeat split.
Qed.

Lemma copyBoundsTo_ok nv c lb ub l : usable nv c -> len l = getNumberOfConstraints c ->
  (offset l + len l <= vlen lb)%nat -> (offset l + len l <= vlen ub)%nat ->
  exists lb' ub', copyBoundsTo c lb ub l = Ok (lb', ub') /\ vlen lb' = vlen lb /\ vlen ub' = vlen ub /\
    (forall i, ~ (offset l <= i < offset l + len l)%nat -> vget lb' i = vget lb i /\ vget ub' i = vget ub i) /\
    (forall i, (i < len l)%nat ->
       vget lb' (offset l + i) = match lower c i with Some b => b | None => - g_infinity end /\
       vget ub' (offset l + i) = match upper c i with Some b => b | None => g_infinity end).
Proof.
  intros U N H1 H2. pose proof (usable_bounds _ _ U) as B. unfold copyBoundsTo, lower, upper.
  assert (G : forall s1 s2, vlen s1 = len l -> vlen s2 = len l ->
    exists lb' ub', bind (vset_segment lb l s1) (fun lb' => bind (vset_segment ub l s2) (fun ub' => Ok (lb', ub'))) = Ok (lb', ub')
      /\ vlen lb' = vlen lb /\ vlen ub' = vlen ub /\
      (forall i, ~ (offset l <= i < offset l + len l)%nat -> vget lb' i = vget lb i /\ vget ub' i = vget ub i) /\
      (forall i, (i < len l)%nat -> vget lb' (offset l + i) = vget s1 i /\ vget ub' (offset l + i) = vget s2 i)).
  { intros s1 s2 L1 L2. destruct (vset_segment_ok lb l s1) as (v1 & E1 & A1 & B1); try lia.
    destruct (vset_segment_ok ub l s2) as (v2 & E2 & A2 & B2); try lia. exists v1, v2. rewrite E1. cbn [bind]. rewrite E2.
    repeat split; auto.
    - rewrite B1. replace (in_block (offset l) (len l) i) with false by (symmetry; apply in_block_false; lia). reflexivity.
    - rewrite B2. replace (in_block (offset l) (len l) i) with false by (symmetry; apply in_block_false; lia). reflexivity.
    - rewrite B1. replace (in_block (offset l) (len l) (offset l + i)) with true by (symmetry; apply in_block_iff; lia).
      f_equal. lia.
    - rewrite B2. replace (in_block (offset l) (len l) (offset l + i)) with true by (symmetry; apply in_block_iff; lia).
      f_equal. lia. }
  destruct (c_bounds c); simpl in B; apply G; simpl; lia.
Qed.

(** ** the loop over tasks, for any container *)
Section Loop.
  Context {K : Type} (copy : constr -> K -> nat -> outcome (K * nat)).
  Context (p : ctype -> bool) (cs : nat -> constr).
  Context (wf : nat -> K -> Prop) (rowP : K -> nat -> (nat -> R) -> Prop).
  Context (size : constr -> nat) (Q : constr -> (nat -> R) -> Prop) (good : constr -> Prop) (ok : constr -> (nat -> R) -> Prop).
  Hypothesis step : forall c k off n, good c -> wf n k -> (off + size c <= n)%nat ->
    exists k', copy c k off = Ok (k', (off + size c)%nat) /\ wf n k' /\
      (forall r x, (r < off)%nat -> rowP k' r x <-> rowP k r x) /\
      (forall x, ok c x -> ((forall r, (off <= r < off + size c)%nat -> rowP k' r x) <-> Q c x)).
  Let con (i : tinfo) := cs (tk_id (ti_task i)).
  Let sel (i : tinfo) := p (tk_type (ti_task i)).

  Lemma copy_loop_ok n : forall ts k off,
    (forall i, In i ts -> sel i = true -> good (con i)) -> wf n k ->
    (off + list_sum (map (fun i => size (con i)) (filter sel ts)) <= n)%nat ->
    exists k', copy_loop copy p cs ts (k, off) = Ok (k', off + list_sum (map (fun i => size (con i)) (filter sel ts)))%nat /\
      wf n k' /\ (forall r x, (r < off)%nat -> rowP k' r x <-> rowP k r x) /\
      (forall x, (forall i, In i ts -> sel i = true -> ok (con i) x) ->
        ((forall r, (off <= r < off + list_sum (map (fun i => size (con i)) (filter sel ts)))%nat -> rowP k' r x) <->
         (forall i, In i ts -> sel i = true -> Q (con i) x))).
  Proof.
    induction ts as [|t ts IH]; intros k off G W H; cbn [copy_loop filter map] in *.
    - exists k. simpl. rewrite Nat.add_0_r. repeat split; auto; try tauto. intros r Hr. lia.
    - fold (sel t) in *. destruct (sel t) eqn:S; cbn [map list_sum fold_right filter] in *.
      + change (fold_right Nat.add 0%nat (map (fun i => size (con i)) (filter sel ts)))
          with (list_sum (map (fun i => size (con i)) (filter sel ts))) in *.
        set (m := list_sum (map (fun i => size (con i)) (filter sel ts))) in *.
        cbn [fst snd]. fold (con t). destruct (step (con t) k off n) as (k1 & E1 & W1 & F1 & R1); [apply G; simpl; auto|auto|lia|].
        rewrite E1. cbn [bind]. destruct (IH k1 (off + size (con t))%nat) as (k' & E & W' & F & R).
        * intros i Hi. apply G; simpl; auto.
        * auto.
        * fold m. lia.
        * fold m in E, R. exists k'. rewrite E. split; [f_equal; f_equal; lia|]. split; [auto|]. split.
          -- intros r x Hr. rewrite F by lia. apply F1; assumption.
          -- intros x OK.
             specialize (R x ltac:(intros i Hi; apply OK; simpl; auto)). specialize (R1 x ltac:(apply OK; simpl; auto)).
             split.
             ++ intros A i [<-|Hi] Si.
                ** apply R1. intros r Hr. apply F; [lia|]. apply A. lia.
                ** apply R; auto. intros r Hr. apply A. lia.
             ++ intros A r Hr. destruct (lt_dec r (off + size (con t))) as [L|L].
                ** apply F; [lia|]. apply R1; [|lia]. apply A; simpl; auto.
                ** apply R; [|lia]. intros i Hi. apply A. simpl; auto.
      + destruct (IH k off) as (k' & E & W' & F & R); auto.
        { intros i Hi. apply G; simpl; auto. }
        exists k'. rewrite E. repeat split; auto; try apply F; auto.
        * intros A i [<-|Hi] Si; [congruence|]. revert Si. apply R; auto. intros j Hj. apply H0. simpl; auto.
        * intros A. apply R.
          -- intros j Hj. apply H0. simpl; auto.
          -- intros i Hi. apply A. simpl; auto.
  Qed.
End Loop.

(** ** one task into each container *)
Lemma getCopyLocation_ok N n off : (off + n <= N)%nat -> getCopyLocation N n off = Ok (mkLoc off n).
Proof.
  intros H. unfold getCopyLocation. cbv zeta. replace (checkLength (mkLoc off n) N) with true; [reflexivity|].
  symmetry. apply checkLength_iff. simpl. lia.
Qed.

Definition row_AB (k : contAB) r x := mrow (ab_A k) r x = vget (ab_b k) r.
Definition row_AL (k : contAL) r x := vget (al_lb k) r <= mrow (al_A k) r x.
Definition row_ALU (k : contALU) r x := vget (alu_lb k) r <= mrow (alu_A k) r x <= vget (alu_ub k) r.
Definition row_ILU (k : contILU) r x := vget (ilu_lb k) r <= x (nth r (ilu_I k) 0%nat) <= vget (ilu_ub k) r.

Lemma ALU_step nv c k off n : usable nv c -> shape_ALU k n nv -> (off + getNumberOfConstraints c <= n)%nat ->
  exists k', copyTo_ALU c k off = Ok (k', (off + getNumberOfConstraints c)%nat) /\ shape_ALU k' n nv /\
    (forall r x, (r < off)%nat -> row_ALU k' r x <-> row_ALU k r x) /\
    (forall x, within_infinity c x ->
       ((forall r, (off <= r < off + getNumberOfConstraints c)%nat -> row_ALU k' r x) <-> satisfies c x)).
Proof.
  intros U (S1 & S2 & S3 & S4) H. unfold copyTo_ALU. rewrite getCopyLocation_ok by lia. cbn [bind].
  destruct (copyBoundsTo_ok nv c (alu_lb k) (alu_ub k) (mkLoc off (getNumberOfConstraints c)))
    as (lb' & ub' & E1 & L1 & L2 & O & In); simpl in *; auto; try lia.
  rewrite E1. cbn [bind].
  destruct (copyBodyTo_ok nv c (alu_A k) (mkLoc off (getNumberOfConstraints c))) as (A' & E2 & RS); simpl in *; auto; try lia.
  rewrite E2. cbn [bind]. eexists; split; [reflexivity|]. destruct RS as (RS1 & RS2 & RS3).
  assert (RS : rows_set (alu_A k) A' off (getNumberOfConstraints c) nv (coef c)) by (repeat split; assumption).
  split; [repeat split; simpl; lia|]. split.
  - intros r x Hr. unfold row_ALU; simpl. rewrite (rows_set_out nv _ _ _ _ _ _ x RS) by (auto; lia).
    destruct (O r ltac:(lia)) as [-> ->]. tauto.
  - intros x WI. unfold satisfies. split.
    + intros A i Hi. specialize (A (off + i)%nat ltac:(lia)). unfold row_ALU in A; simpl in A.
      rewrite (rows_set_in nv _ _ _ _ _ _ x RS) in A by (auto; lia). replace (off + i - off)%nat with i in A by lia.
      destruct (In i Hi) as [B1 B2]. rewrite B1, B2 in A. unfold row_value. destruct U as (-> & _).
      destruct (lower c i), (upper c i); simpl; tauto.
    + intros A r Hr. specialize (A (r - off)%nat ltac:(lia)). unfold row_ALU; simpl.
      rewrite (rows_set_in nv _ _ _ _ _ _ x RS) by (auto; lia).
      destruct (In (r - off)%nat ltac:(lia)) as [B1 B2]. replace (off + (r - off))%nat with r in * by lia. rewrite B1, B2.
      specialize (WI (r - off)%nat ltac:(lia)). unfold row_value in *. destruct U as (NV & _). rewrite NV in A, WI.
      destruct (lower c (r - off)), (upper c (r - off)); simpl in *; try tauto;
        (assert (W := WI ltac:(auto)); lra).
Qed.

Lemma AB_step nv c k off n : usable nv c /\ ct_isEquality (getType c) = true -> shape_AB k n nv -> (off + getNumberOfConstraints c <= n)%nat ->
  exists k', copyTo_AB c k off = Ok (k', (off + getNumberOfConstraints c)%nat) /\ shape_AB k' n nv /\
    (forall r x, (r < off)%nat -> row_AB k' r x <-> row_AB k r x) /\
    (forall x, True -> ((forall r, (off <= r < off + getNumberOfConstraints c)%nat -> row_AB k' r x) <-> satisfies c x)).
Proof.
  intros [U EQ] (S1 & S2 & S3) H.
  assert (exists b, copyEqualityBoundsTo c (ab_b k) (mkLoc off (getNumberOfConstraints c)) = Ok b /\ vlen b = vlen (ab_b k) /\
    (forall i, ~ (off <= i < off + getNumberOfConstraints c)%nat -> vget b i = vget (ab_b k) i) /\
    (forall i, (i < getNumberOfConstraints c)%nat -> lower c i = Some (vget b (off + i)) /\ upper c i = Some (vget b (off + i))) /\
    copyTo_AB c k off =  bind (getCopyLocation (mrows (ab_A k)) (getNumberOfConstraints c) off) (fun l =>
      bind (copyEqualityBoundsTo c (ab_b k) l) (fun b =>
      bind (copyBodyTo c (ab_A k) l) (fun A => Ok (mkAB A b, offset l + len l)%nat)))) as (b & E1 & LB & O & In & ->).
  { pose proof (usable_bounds _ _ U) as B. unfold copyTo_AB, copyEqualityBoundsTo, lower, upper, getType in *.
    destruct (c_bounds c) as [|cb|lb|ub|lb ub]; simpl in B; try (destruct (c_body c); discriminate).
    - destruct (vset_segment_ok (ab_b k) (mkLoc off (getNumberOfConstraints c)) (vconst (getNumberOfConstraints c) 0)) as (v & E & L & V);
        simpl in *; auto; try lia. exists v. repeat split; auto.
      + intros i Hi. rewrite V. replace (in_block off (getNumberOfConstraints c) i) with false by (symmetry; apply in_block_false; lia). reflexivity.
      + rewrite V. replace (in_block off (getNumberOfConstraints c) (off + i)) with true by (symmetry; apply in_block_iff; lia). reflexivity.
      + rewrite V. replace (in_block off (getNumberOfConstraints c) (off + i)) with true by (symmetry; apply in_block_iff; lia). reflexivity.
    - destruct (vset_segment_ok (ab_b k) (mkLoc off (getNumberOfConstraints c)) cb) as (v & E & L & V);
        simpl in *; auto; try lia. exists v. repeat split; auto.
      + intros i Hi. rewrite V. replace (in_block off (getNumberOfConstraints c) i) with false by (symmetry; apply in_block_false; lia). reflexivity.
      + rewrite V. replace (in_block off (getNumberOfConstraints c) (off + i)) with true by (symmetry; apply in_block_iff; lia).
        do 2 f_equal. lia.
      + rewrite V. replace (in_block off (getNumberOfConstraints c) (off + i)) with true by (symmetry; apply in_block_iff; lia).
        do 2 f_equal. lia. }
  rewrite getCopyLocation_ok by lia. cbn [bind]. rewrite E1. cbn [bind].
  destruct (copyBodyTo_ok nv c (ab_A k) (mkLoc off (getNumberOfConstraints c))) as (A' & E2 & RS); simpl in *; auto; try lia.
  rewrite E2. cbn [bind]. eexists; split; [reflexivity|]. destruct RS as (RS1 & RS2 & RS3).
  assert (RS : rows_set (ab_A k) A' off (getNumberOfConstraints c) nv (coef c)) by (repeat split; assumption).
  split; [repeat split; simpl; lia|]. split.
  - intros r x Hr. unfold row_AB; simpl. rewrite (rows_set_out nv _ _ _ _ _ _ x RS) by (auto; lia).
    rewrite (O r) by lia. tauto.
  - intros x _. unfold satisfies. split.
    + intros A i Hi. specialize (A (off + i)%nat ltac:(lia)). unfold row_AB in A; simpl in A.
      rewrite (rows_set_in nv _ _ _ _ _ _ x RS) in A by (auto; lia). replace (off + i - off)%nat with i in A by lia.
      destruct (In i Hi) as [-> ->]. unfold row_value. destruct U as (-> & _). simpl. lra.
    + intros A r Hr. specialize (A (r - off)%nat ltac:(lia)). unfold row_AB; simpl.
      rewrite (rows_set_in nv _ _ _ _ _ _ x RS) by (auto; lia).
      destruct (In (r - off)%nat ltac:(lia)) as [B1 B2]. rewrite B1, B2 in A. simpl in A.
      replace (off + (r - off))%nat with r in * by lia. unfold row_value in A. destruct U as (NV & _). rewrite NV in A. lra.
Qed.

(** rows used in the one-sided container *)
Definition size_AL (c : constr) : nat :=
  (getNumberOfConstraints c + if ct_isTwoSided (getType c) then getNumberOfConstraints c else 0)%nat.

Lemma AL_lower nv c lb k off n : usable nv c -> vlen lb = getNumberOfConstraints c ->
  shape_AL k n nv -> (off + getNumberOfConstraints c <= n)%nat ->
  exists k', copyLowerTo_AL c lb k off = Ok (k', (off + getNumberOfConstraints c)%nat) /\ shape_AL k' n nv /\
    (forall r x, ~ (off <= r < off + getNumberOfConstraints c)%nat -> row_AL k' r x <-> row_AL k r x) /\
    (forall x, ((forall r, (off <= r < off + getNumberOfConstraints c)%nat -> row_AL k' r x) <->
                (forall i, (i < getNumberOfConstraints c)%nat -> vget lb i <= row_value c i x))).
Proof.
  intros U LL (S1 & S2 & S3) H. unfold copyLowerTo_AL. rewrite getCopyLocation_ok by lia. cbn [bind].
  destruct (vset_segment_ok (al_lb k) (mkLoc off (getNumberOfConstraints c)) lb) as (v & E1 & L & V); simpl in *; auto; try lia.
  rewrite E1. cbn [bind].
  destruct (copyBodyTo_ok nv c (al_A k) (mkLoc off (getNumberOfConstraints c))) as (A' & E2 & RS); simpl in *; auto; try lia.
  rewrite E2. cbn [bind]. eexists; split; [reflexivity|]. destruct RS as (RS1 & RS2 & RS3).
  assert (RS : rows_set (al_A k) A' off (getNumberOfConstraints c) nv (coef c)) by (repeat split; assumption).
  split; [repeat split; simpl; lia|]. split.
  - intros r x Hr. unfold row_AL; simpl. rewrite (rows_set_out nv _ _ _ _ _ _ x RS) by (auto; lia).
    rewrite V. replace (in_block off (getNumberOfConstraints c) r) with false by (symmetry; apply in_block_false; lia). tauto.
  - intros x. split.
    + intros A i Hi. specialize (A (off + i)%nat ltac:(lia)). unfold row_AL in A; simpl in A.
      rewrite (rows_set_in nv _ _ _ _ _ _ x RS) in A by (auto; lia). rewrite V in A.
      replace (in_block off (getNumberOfConstraints c) (off + i)) with true in A by (symmetry; apply in_block_iff; lia).
      replace (off + i - off)%nat with i in A by lia. unfold row_value. destruct U as (-> & _). exact A.
    + intros A r Hr. specialize (A (r - off)%nat ltac:(lia)). unfold row_AL; simpl.
      rewrite (rows_set_in nv _ _ _ _ _ _ x RS) by (auto; lia). rewrite V.
      replace (in_block off (getNumberOfConstraints c) r) with true by (symmetry; apply in_block_iff; lia).
      unfold row_value in A. destruct U as (NV & _). rewrite NV in A. exact A.
Qed.

Lemma AL_upper nv c ub k off n : usable nv c -> vlen ub = getNumberOfConstraints c ->
  shape_AL k n nv -> (off + getNumberOfConstraints c <= n)%nat ->
  exists k', copyUpperTo_AL c ub k off = Ok (k', (off + getNumberOfConstraints c)%nat) /\ shape_AL k' n nv /\
    (forall r x, ~ (off <= r < off + getNumberOfConstraints c)%nat -> row_AL k' r x <-> row_AL k r x) /\
    (forall x, ((forall r, (off <= r < off + getNumberOfConstraints c)%nat -> row_AL k' r x) <->
                (forall i, (i < getNumberOfConstraints c)%nat -> row_value c i x <= vget ub i))).
Proof.
  intros U LL (S1 & S2 & S3) H. unfold copyUpperTo_AL. rewrite getCopyLocation_ok by lia. cbn [bind].
  destruct (vset_segment_ok (al_lb k) (mkLoc off (getNumberOfConstraints c)) (vopp ub)) as (v & E1 & L & V); simpl in *; auto; try lia.
  rewrite E1. cbn [bind].
  destruct (copyNegativeBodyTo_ok nv c (al_A k) (mkLoc off (getNumberOfConstraints c))) as (A' & E2 & RS); simpl in *; auto; try lia.
  rewrite E2. cbn [bind]. eexists; split; [reflexivity|]. destruct RS as (RS1 & RS2 & RS3).
  assert (RS : rows_set (al_A k) A' off (getNumberOfConstraints c) nv (fun i j => - coef c i j)) by (repeat split; assumption).
  assert (RV : forall i x, Rsum nv (fun j => - coef c i j * x j) = - row_value c i x).
  { intros i x. unfold row_value. destruct U as (-> & _). rewrite <- Rsum_opp. apply Rsum_ext. intros; ring. }
  split; [repeat split; simpl; lia|]. split.
  - intros r x Hr. unfold row_AL; simpl. rewrite (rows_set_out nv _ _ _ _ _ _ x RS) by (auto; lia).
    rewrite V. replace (in_block off (getNumberOfConstraints c) r) with false by (symmetry; apply in_block_false; lia). tauto.
  - intros x. split.
    + intros A i Hi. specialize (A (off + i)%nat ltac:(lia)). unfold row_AL in A; simpl in A.
      rewrite (rows_set_in nv _ _ _ _ _ _ x RS) in A by (auto; lia). rewrite V in A.
      replace (in_block off (getNumberOfConstraints c) (off + i)) with true in A by (symmetry; apply in_block_iff; lia).
      replace (off + i - off)%nat with i in A by lia. rewrite RV in A. simpl in A. lra.
    + intros A r Hr. specialize (A (r - off)%nat ltac:(lia)). unfold row_AL; simpl.
      rewrite (rows_set_in nv _ _ _ _ _ _ x RS) by (auto; lia). rewrite V.
      replace (in_block off (getNumberOfConstraints c) r) with true by (symmetry; apply in_block_iff; lia).
      rewrite RV. simpl. lra.
Qed.

Lemma AL_step nv c k off n : usable nv c /\ ct_isEquality (getType c) = false -> shape_AL k n nv -> (off + size_AL c <= n)%nat ->
  exists k', copyTo_AL c k off = Ok (k', (off + size_AL c)%nat) /\ shape_AL k' n nv /\
    (forall r x, (r < off)%nat -> row_AL k' r x <-> row_AL k r x) /\
    (forall x, True -> ((forall r, (off <= r < off + size_AL c)%nat -> row_AL k' r x) <-> satisfies c x)).
Proof.
  intros [U EQ] S H. pose proof (usable_bounds _ _ U) as B. unfold copyTo_AL, size_AL, satisfies, lower, upper, getType in *.
  destruct (c_bounds c) as [|cb|lb|ub|lb ub] eqn:CB; simpl in B; try (destruct (c_body c); discriminate).
  - assert (T : ct_isTwoSided (match c_body c with BodyA _ => AL | BodyAS _ _ => ASL | BodyI _ => IL | BodyGI _ _ => GIL end) = false)
      by (destruct (c_body c); reflexivity). rewrite T in *. rewrite Nat.add_0_r in *.
    destruct (AL_lower nv c lb k off n) as (k' & E & S' & F & R); auto; try lia.
    exists k'. split; [exact E|]. split; [exact S'|]. split; [intros; apply F; lia|].
    intros x _. rewrite R. split; intros A i Hi; specialize (A i Hi); simpl in *; tauto.
  - assert (T : ct_isTwoSided (match c_body c with BodyA _ => AU | BodyAS _ _ => ASU | BodyI _ => IU | BodyGI _ _ => GIU end) = false)
      by (destruct (c_body c); reflexivity). rewrite T in *. rewrite Nat.add_0_r in *.
    destruct (AL_upper nv c ub k off n) as (k' & E & S' & F & R); auto; try lia.
    exists k'. split; [exact E|]. split; [exact S'|]. split; [intros; apply F; lia|].
    intros x _. rewrite R. split; intros A i Hi; specialize (A i Hi); simpl in *; tauto.
  - assert (T : ct_isTwoSided (match c_body c with BodyA _ => ALU | BodyAS _ _ => ASLU | BodyI _ => ILU | BodyGI _ _ => GILU end) = true)
      by (destruct (c_body c); reflexivity). rewrite T in *.
    destruct (AL_lower nv c lb k off n) as (k1 & E1 & S1 & F1 & R1); auto; try lia. rewrite E1. cbn [bind fst snd].
    destruct (AL_upper nv c ub k1 (off + getNumberOfConstraints c) n) as (k' & E & S' & F & R); auto; try lia.
    exists k'. split; [rewrite E; f_equal; f_equal; lia|]. split; [exact S'|].
    split; [intros r x Hr; rewrite F by lia; apply F1; lia|].
    intros x _. split.
    + intros A i Hi. simpl. split.
      * revert i Hi. apply R1. intros r Hr. apply F; [lia|]. apply A; lia.
      * revert i Hi. apply R. intros r Hr. apply A; lia.
    + intros A r Hr. destruct (lt_dec r (off + getNumberOfConstraints c)) as [L|L].
      * apply F; [lia|]. apply (proj2 (R1 x)); [|lia]. intros i Hi. apply (A i Hi).
      * apply (proj2 (R x)); [|lia]. intros i Hi. apply (A i Hi).
Qed.

Lemma nth_copy_into dst off src r i : copy_into dst off src = Ok r -> (off <= i < off + length src)%nat ->
  nth i r 0%nat = nth (i - off) src 0%nat.
Proof.
  intros E Hi. apply copy_into_ok in E. destruct E as [H E]. rewrite E.
  rewrite app_nth2; rewrite firstn_length_le by lia; [|lia]. rewrite app_nth1 by lia. reflexivity.
Qed.
Lemma nth_copy_into_out dst off src r i : copy_into dst off src = Ok r -> (i < off)%nat ->
  nth i r 0%nat = nth i dst 0%nat.
Proof.
  intros E Hi. apply copy_into_ok in E. destruct E as [H E]. rewrite E.
  rewrite app_nth1 by (rewrite firstn_length_le; lia).
  rewrite <- (firstn_skipn off dst) at 2. rewrite app_nth1 by (rewrite firstn_length_le; lia). reflexivity.
Qed.

Definition plain_indices (c : constr) : Prop := exists ix, c_body c = BodyI ix.

Lemma ILU_step nv c k off n : usable nv c /\ plain_indices c ->
  shape_ILU k n nv -> (off + getNumberOfConstraints c <= n)%nat ->
  exists k', copyTo_ILU c k off = Ok (k', (off + getNumberOfConstraints c)%nat) /\ shape_ILU k' n nv /\
    (forall r x, (r < off)%nat -> row_ILU k' r x <-> row_ILU k r x) /\
    (forall x, within_infinity c x ->
       ((forall r, (off <= r < off + getNumberOfConstraints c)%nat -> row_ILU k' r x) <-> satisfies c x)).
Proof.
  intros [U [ix PI]] (S1 & S2 & S3 & S4) H. unfold copyTo_ILU. rewrite PI. rewrite getCopyLocation_ok by lia. cbn [bind].
  destruct (copyBoundsTo_ok nv c (ilu_lb k) (ilu_ub k) (mkLoc off (getNumberOfConstraints c)))
    as (lb' & ub' & E1 & L1 & L2 & O & In); simpl in *; auto; try lia.
  rewrite E1. cbn [bind].
  assert (NI : getNumberOfConstraints c = length ix) by (unfold getNumberOfConstraints; rewrite PI; reflexivity).
  assert (exists I', iset_segment (ilu_I k) (mkLoc off (getNumberOfConstraints c)) ix = Ok I' /\ length I' = length (ilu_I k) /\
     copy_into (ilu_I k) off ix = Ok I') as (I' & EI & LI & CI).
  { unfold iset_segment, assert_then. simpl.
    replace ((off + getNumberOfConstraints c <=? length (ilu_I k)) && (getNumberOfConstraints c =? length ix))%nat with true by lia.
    unfold copy_into. replace (off + length ix <=? length (ilu_I k))%nat with true by lia. eexists; split; [reflexivity|]. split; [|reflexivity].
    rewrite !app_length, skipn_length, firstn_length_le; lia. }
  rewrite EI. cbn [bind fst snd offset len]. eexists; split; [reflexivity|]. split; [repeat split; simpl; lia|].
  assert (RV : forall i x, (i < getNumberOfConstraints c)%nat -> x (nth i ix 0%nat) = row_value c i x).
  { intros i x Hi. rewrite <- (getProduct_row nv) by auto. unfold getProduct. rewrite PI. reflexivity. }
  split.
  - intros r x Hr. unfold row_ILU; simpl. destruct (O r ltac:(lia)) as [-> ->].
    rewrite (nth_copy_into_out _ _ _ _ _ CI) by lia. tauto.
  - intros x WI. unfold satisfies. split.
    + intros A i Hi. specialize (A (off + i)%nat ltac:(lia)). unfold row_ILU in A; simpl in A.
      rewrite (nth_copy_into _ _ _ _ _ CI) in A by lia. replace (off + i - off)%nat with i in A by lia.
      rewrite (RV i x Hi) in A. destruct (In i Hi) as [B1 B2]. rewrite B1, B2 in A.
      destruct (lower c i), (upper c i); simpl; tauto.
    + intros A r Hr. specialize (A (r - off)%nat ltac:(lia)). unfold row_ILU; simpl.
      rewrite (nth_copy_into _ _ _ _ _ CI) by lia. rewrite RV by lia.
      destruct (In (r - off)%nat ltac:(lia)) as [B1 B2]. replace (off + (r - off))%nat with r in * by lia. rewrite B1, B2.
      specialize (WI (r - off)%nat ltac:(lia)).
      destruct (lower c (r - off)), (upper c (r - off)); simpl in *; try tauto;
        (assert (W := WI ltac:(auto)); lra).
Qed.

(** ** levels *)
Lemma described_formed fo gu l l' cs nv : Forall2 (formed_from fo gu) (lv_tasks l) (lv_tasks l') -> described cs fo nv l ->
  (forall o, In o (lv_tasks l') -> getType (cs (tk_id (ti_task o))) = tk_type (ti_task o) /\
     tk_n (ti_task o) = getNumberOfConstraints (cs (tk_id (ti_task o))) /\ usable nv (cs (tk_id (ti_task o)))) /\
  map (fun i => tk_id (ti_task i)) (lv_tasks l') = map (fun i => tk_id (ti_task i)) (lv_tasks l).
Proof.
  unfold described. generalize (lv_tasks l) (lv_tasks l'). intros a b F. induction F as [|i o a b E F IH]; intros D.
  - split; [intros ? []|reflexivity].
  - destruct (IH ltac:(intros; apply D; simpl; auto)) as [IH1 IH2]. specialize (D i ltac:(simpl; auto)). simpl in D.
    apply form_task_ok in E. destruct E as (E1 & E2 & E3 & _). split.
    + intros o' [<-|Ho']; [|auto]. rewrite E1, E2, E3. destruct D as (D1 & D2 & D3). auto.
    + simpl. rewrite E1, IH2. reflexivity.
Qed.

Lemma satisfies_level_ids cs l l' x :
  map (fun i => tk_id (ti_task i)) (lv_tasks l') = map (fun i => tk_id (ti_task i)) (lv_tasks l) ->
  satisfies_level cs l' x <-> satisfies_level cs l x.
Proof.
  unfold satisfies_level. intros E.
  assert (G : forall a b, map (fun i => tk_id (ti_task i)) a = map (fun i => tk_id (ti_task i)) b ->
     (forall i, In i a -> satisfies (cs (tk_id (ti_task i))) x) -> forall i, In i b -> satisfies (cs (tk_id (ti_task i))) x).
  { intros a b M A i Hi. apply (in_map (fun i => tk_id (ti_task i))) in Hi. rewrite <- M in Hi. apply in_map_iff in Hi.
    destruct Hi as (j & Ej & Hj). rewrite <- Ej. apply A, Hj. }
  split; apply G; congruence.
Qed.

Lemma sum_sizes cs (f : constr -> nat) p ts :
  (forall o, In o ts -> tk_n (ti_task o) = f (cs (tk_id (ti_task o)))) ->
  list_sum (map (fun i => f (cs (tk_id (ti_task i)))) (filter p ts)) = sumn (filter p ts).
Proof.
  intros H. unfold sumn. f_equal. apply map_ext_in. intros i Hi. apply filter_In in Hi. symmetry. apply H. tauto.
Qed.

(** sizes in the one-sided container *)
Lemma sum_size_AL cs ts :
  (forall o, In o ts -> getType (cs (tk_id (ti_task o))) = tk_type (ti_task o) /\ tk_n (ti_task o) = getNumberOfConstraints (cs (tk_id (ti_task o)))) ->
  (list_sum (map (fun i => size_AL (cs (tk_id (ti_task i)))) (filter (fun i => negb (ct_isEquality (tk_type (ti_task i)))) ts))
   = sumn ts - sumn (filter (fun i => ct_isEquality (tk_type (ti_task i))) ts)
     + sumn (filter (fun i => ct_isTwoSided (tk_type (ti_task i))) ts))%nat /\
  (sumn (filter (fun i => ct_isEquality (tk_type (ti_task i))) ts) <= sumn ts)%nat.
Proof.
  induction ts as [|o ts IH]; intros H; [split; reflexivity|].
  destruct (IH ltac:(intros; apply H; simpl; auto)) as [IH1 IH2]. destruct (H o ltac:(simpl; auto)) as [H1 H2].
  assert (TE : ct_isTwoSided (tk_type (ti_task o)) = true -> ct_isEquality (tk_type (ti_task o)) = false)
    by (destruct (tk_type (ti_task o)); simpl; congruence).
  cbn [filter]. rewrite sumn_cons.
  destruct (ct_isEquality (tk_type (ti_task o))) eqn:E; cbn [negb].
  - destruct (ct_isTwoSided (tk_type (ti_task o))) eqn:T; [specialize (TE eq_refl); discriminate|]. rewrite !sumn_cons. lia.
  - cbn [map]. change (list_sum (size_AL (cs (tk_id (ti_task o))) :: ?q)) with (size_AL (cs (tk_id (ti_task o))) + list_sum q)%nat.
    rewrite IH1. unfold size_AL. rewrite H1, <- H2.
    destruct (ct_isTwoSided (tk_type (ti_task o))) eqn:T; rewrite ?sumn_cons; lia.
Qed.

Theorem AB_AL_equiv fo gu l l' cs nv kab kal :
  lreach l -> level_form fo gu l = Ok l' -> described cs fo nv l ->
  exists ab al, getEqualityConstraints cs l' kab nv = Ok ab /\ getInequalityConstraints cs l' kal nv = Ok al /\
    shape_AB ab (n_equality l') nv /\ shape_AL al (level_getNumberOfInequalityConstraintsOneSided l') nv /\
    forall x, (sat_AB ab x /\ sat_AL al x) <-> satisfies_level cs l x.
Proof.
  intros R E D. apply lreach_gf in R. destruct (form_ok _ _ _ _ R E) as (F & _ & N & _ & _ & _ & NE & NT).
  destruct (described_formed _ _ _ _ _ _ F D) as [D' IDS].
  destruct (copy_loop_ok copyTo_AB ct_isEquality cs (fun n k => shape_AB k n nv) row_AB getNumberOfConstraints satisfies
              (fun c => usable nv c /\ ct_isEquality (getType c) = true) (fun _ _ => True)
              ltac:(intros; apply AB_step; assumption) (n_equality l') (lv_tasks l') (reset_AB kab (n_equality l') nv) 0%nat)
    as (ab & E1 & S1 & _ & R1).
  { intros i Hi Si. destruct (D' i Hi) as (T & _ & U). rewrite T. auto. }
  { repeat split. }
  { rewrite (sum_sizes cs getNumberOfConstraints) by (intros; apply D'; assumption). simpl. lia. }
  destruct (copy_loop_ok copyTo_AL (fun t => negb (ct_isEquality t)) cs (fun n k => shape_AL k n nv) row_AL size_AL satisfies
              (fun c => usable nv c /\ ct_isEquality (getType c) = false) (fun _ _ => True)
              ltac:(intros; apply AL_step; assumption) (level_getNumberOfInequalityConstraintsOneSided l') (lv_tasks l')
              (reset_AL kal (level_getNumberOfInequalityConstraintsOneSided l') nv) 0%nat)
    as (al & E2 & S2 & _ & R2).
  { intros i Hi Si. destruct (D' i Hi) as (T & _ & U). rewrite T. apply negb_true_iff in Si. auto. }
  { repeat split. }
  { destruct (sum_size_AL cs (lv_tasks l')) as [Q1 Q2]; [intros o Ho; destruct (D' o Ho) as (T1 & T2 & _); auto|].
    rewrite Q1. unfold level_getNumberOfInequalityConstraintsOneSided, level_getNumberOfInequalityConstraints. lia. }
  exists ab, al. unfold getEqualityConstraints, getInequalityConstraints. rewrite E1, E2. cbn [bind fst].
  split; [reflexivity|]. split; [reflexivity|]. split; [exact S1|]. split; [exact S2|].
  intros x. rewrite <- (satisfies_level_ids _ _ _ _ IDS). specialize (R1 x ltac:(auto)). specialize (R2 x ltac:(auto)).
  rewrite (sum_sizes cs getNumberOfConstraints) in R1 by (intros; apply D'; assumption).
  rewrite <- NE in R1. cbn [Nat.add] in R1, R2.
  destruct (sum_size_AL cs (lv_tasks l')) as [Q1 Q2]; [intros o Ho; destruct (D' o Ho) as (T1 & T2 & _); auto|].
  rewrite Q1 in R2.
  replace (sumn (lv_tasks l') - sumn (filter (fun i => ct_isEquality (tk_type (ti_task i))) (lv_tasks l')) +
     sumn (filter (fun i => ct_isTwoSided (tk_type (ti_task i))) (lv_tasks l')))%nat
    with (level_getNumberOfInequalityConstraintsOneSided l') in R2
    by (unfold level_getNumberOfInequalityConstraintsOneSided, level_getNumberOfInequalityConstraints; lia).
  unfold sat_AB, sat_AL. destruct S1 as (S1 & _), S2 as (S2 & _). rewrite S1, S2.
  unfold satisfies_level. split.
  - intros [A B] i Hi. destruct (ct_isEquality (tk_type (ti_task i))) eqn:Q.
    + apply R1; auto. intros r Hr. apply A. lia.
    + apply R2; auto; [|rewrite Q; reflexivity]. intros r Hr. apply B. lia.
  - intros A. split; intros r Hr.
    + apply R1; [intros; apply A; assumption|lia].
    + apply R2; [intros; apply A; assumption|lia].
Qed.

Theorem ALU_equiv fo gu l l' cs nv k :
  lreach l -> level_form fo gu l = Ok l' -> described cs fo nv l ->
  exists r, getAllConstraints cs l' k nv = Ok r /\ shape_ALU r (level_getNumberOfConstraints l') nv /\
    forall x, (forall i, In i (lv_tasks l) -> within_infinity (cs (tk_id (ti_task i))) x) ->
      (sat_ALU r x <-> satisfies_level cs l x).
Proof.
  intros R E D. apply lreach_gf in R. destruct (form_ok _ _ _ _ R E) as (F & _ & N & Pos & _).
  destruct (described_formed _ _ _ _ _ _ F D) as [D' IDS].
  destruct (copy_loop_ok copyTo_ALU (fun _ => true) cs (fun n k => shape_ALU k n nv) row_ALU getNumberOfConstraints satisfies
              (usable nv) within_infinity
              ltac:(intros; apply ALU_step; assumption) (level_getNumberOfConstraints l') (lv_tasks l')
              (reset_ALU k (level_getNumberOfConstraints l') nv) 0%nat)
    as (r & E1 & S1 & _ & R1).
  { intros i Hi _. apply D'. assumption. }
  { repeat split. }
  { rewrite (sum_sizes cs getNumberOfConstraints) by (intros; apply D'; assumption).
    replace (filter (fun _ => true) (lv_tasks l')) with (lv_tasks l'); [simpl; lia|].
    clear. induction (lv_tasks l') as [|h t IH]; simpl; [reflexivity|]. rewrite <- IH. reflexivity. }
  rewrite (sum_sizes cs getNumberOfConstraints) in R1 by (intros; apply D'; assumption).
  assert (FT : filter (fun _ => true) (lv_tasks l') = lv_tasks l')
    by (clear; induction (lv_tasks l') as [|h t IH]; simpl; [reflexivity|]; rewrite IH; reflexivity).
  rewrite FT in R1. rewrite <- N in R1. cbn [Nat.add] in R1.
  exists r. unfold getAllConstraints. replace (0 <? level_getNumberOfConstraints l')%nat with true by lia.
  rewrite E1. cbn [bind fst]. split; [reflexivity|]. split; [exact S1|]. intros x W.
  rewrite <- (satisfies_level_ids _ _ _ _ IDS).
  assert (W' : forall i, In i (lv_tasks l') -> true = true -> within_infinity (cs (tk_id (ti_task i))) x).
  { intros i Hi _. apply (in_map (fun i => tk_id (ti_task i))) in Hi. rewrite IDS in Hi. apply in_map_iff in Hi.
    destruct Hi as (j & Ej & Hj). rewrite <- Ej. apply W, Hj. }
  specialize (R1 x W'). unfold sat_ALU, satisfies_level. destruct S1 as (S1 & _). rewrite S1. split.
  - intros A i Hi. apply R1; auto. intros q Hq. apply A. lia.
  - intros A q Hq. apply R1; [intros; apply A; assumption|lia].
Qed.

Lemma until_simple_app a b : forallb (fun i => negb (simp i)) a = true -> forallb simp b = true ->
  until_simple (a ++ b) = a.
Proof.
  induction a as [|i a IH]; simpl; intros A B.
  - destruct b as [|i b]; [reflexivity|]. simpl in *. apply andb_true_iff in B. destruct B as [B _].
    unfold simp, simple_task in B. rewrite B. reflexivity.
  - apply andb_true_iff in A. destruct A as [A1 A2]. unfold simp, simple_task in A1. apply negb_true_iff in A1. rewrite A1.
    f_equal. auto.
Qed.

Lemma until_simple_filter l : general_first l -> until_simple (lv_tasks l) = filter (fun i => negb (simp i)) (lv_tasks l).
Proof.
  intros (a & b & -> & A & B). rewrite until_simple_app by assumption. rewrite filter_app.
  assert (FA : filter (fun i => negb (simp i)) a = a).
  { clear -A. induction a as [|i a IH]; simpl in *; [reflexivity|]. apply andb_true_iff in A. destruct A as [-> A].
    f_equal; auto. }
  assert (FB : filter (fun i => negb (simp i)) b = []).
  { clear -B. induction b as [|i b IH]; simpl in *; [reflexivity|]. apply andb_true_iff in B. destruct B as [-> B]. simpl. auto. }
  rewrite FA, FB, app_nil_r. reflexivity.
Qed.

Lemma plain_of_type nv c : usable nv c -> ct_isSimple (getType c) = true -> has_gains (getType c) = false -> plain_indices c.
Proof.
  intros _ S G. unfold plain_indices. unfold getType in *. destruct (c_body c) as [A|A o|ix|ix g]; eauto;
  destruct (c_bounds c); discriminate.
Qed.

Lemma filter_true_id {A} (l : list A) : filter (fun _ => true) l = l.
Proof. induction l as [|h t IH]; simpl; [reflexivity|]. rewrite IH. reflexivity. Qed.

Theorem ILU_ALU_equiv fo gu l l' cs nv kalu kilu :
  lreach l -> level_form fo gu l = Ok l' -> described cs fo nv l ->
  (forall i, In i (lv_tasks l) -> has_gains (tk_type (ti_task i)) = false) ->
  exists alu ilu, getGeneralConstraints cs l' kalu nv = Ok alu /\ getSimpleConstraints cs l' kilu nv = Ok ilu /\
    shape_ALU alu (n_general l') nv /\ shape_ILU ilu (n_simple l') nv /\
    forall x, (forall i, In i (lv_tasks l) -> within_infinity (cs (tk_id (ti_task i))) x) ->
      ((sat_ALU alu x /\ sat_ILU ilu x) <-> satisfies_level cs l x).
Proof.
  intros R E D NG. apply lreach_gf in R. destruct (form_ok _ _ _ _ R E) as (F & _ & N & Pos & NGen & NS & _).
  pose proof (form_general_first _ _ _ _ R E) as GF. pose proof (until_simple_filter _ GF) as US.
  destruct (described_formed _ _ _ _ _ _ F D) as [D' IDS].
  assert (NG' : forall i, In i (lv_tasks l') -> has_gains (tk_type (ti_task i)) = false).
  { destruct (formed_map _ _ _ _ F) as [M _]. intros i Hi.
    apply (in_map (fun i => (tk_id (ti_task i), tk_type (ti_task i)))) in Hi. rewrite M in Hi. apply in_map_iff in Hi.
    destruct Hi as (j & Ej & Hj). injection Ej as _ Ej. rewrite <- Ej. auto. }
  assert (D2 : forall i, In i (until_simple (lv_tasks l')) -> In i (lv_tasks l') /\ simp i = false).
  { rewrite US. intros i Hi. apply filter_In in Hi. destruct Hi as [H1 H2]. apply negb_true_iff in H2. auto. }
  destruct (copy_loop_ok copyTo_ALU (fun _ => true) cs (fun n k => shape_ALU k n nv) row_ALU getNumberOfConstraints satisfies
              (usable nv) within_infinity
              ltac:(intros; apply ALU_step; assumption) (n_general l') (until_simple (lv_tasks l'))
              (reset_ALU kalu (n_general l') nv) 0%nat)
    as (alu & E1 & S1 & _ & R1).
  { intros i Hi _. apply D', D2, Hi. }
  { repeat split. }
  { rewrite (sum_sizes cs getNumberOfConstraints) by (intros; apply D', D2; assumption).
    rewrite filter_true_id, US. simpl. lia. }
  rewrite (sum_sizes cs getNumberOfConstraints) in R1 by (intros; apply D', D2; assumption).
  rewrite filter_true_id in R1.
  assert (NU : sumn (until_simple (lv_tasks l')) = n_general l') by (rewrite US; auto). rewrite NU in R1. cbn [Nat.add] in R1.
  destruct (copy_loop_ok copyTo_ILU ct_isSimple cs (fun n k => shape_ILU k n nv) row_ILU getNumberOfConstraints satisfies
              (fun c => usable nv c /\ plain_indices c) within_infinity
              ltac:(intros; apply ILU_step; assumption) (n_simple l') (lv_tasks l')
              (reset_ILU kilu (n_simple l') nv) 0%nat)
    as (ilu & E2 & S2 & _ & R2).
  { intros i Hi Si. destruct (D' i Hi) as (T & _ & U). split; [exact U|]. eapply plain_of_type; [exact U| |]; rewrite T; auto. }
  { repeat split. unfold reset_ILU, iresize. simpl. rewrite map_length, seq_length. reflexivity. }
  { rewrite (sum_sizes cs getNumberOfConstraints) by (intros; apply D'; assumption). simpl. unfold simp, simple_task in NS. lia. }
  rewrite (sum_sizes cs getNumberOfConstraints) in R2 by (intros; apply D'; assumption).
  unfold simp, simple_task in NS. rewrite <- NS in R2. cbn [Nat.add] in R2.
  (* a level without constraints of one kind: the loop is skipped *)
  exists (if (0 <? n_general l')%nat then alu else reset_ALU kalu (n_general l') nv),
         (if (0 <? n_simple l')%nat then ilu else reset_ILU kilu (n_simple l') nv).
  unfold getGeneralConstraints, getSimpleConstraints. rewrite E1, E2. cbn [bind fst].
  split; [destruct (0 <? n_general l')%nat; reflexivity|]. split; [destruct (0 <? n_simple l')%nat; reflexivity|].
  split; [destruct (0 <? n_general l')%nat; [exact S1|repeat split]|].
  split; [destruct (0 <? n_simple l')%nat; [exact S2|repeat split; unfold reset_ILU, iresize; simpl; rewrite map_length, seq_length; reflexivity]|].
  intros x W. rewrite <- (satisfies_level_ids _ _ _ _ IDS).
  assert (W' : forall i, In i (lv_tasks l') -> within_infinity (cs (tk_id (ti_task i))) x).
  { intros i Hi. apply (in_map (fun i => tk_id (ti_task i))) in Hi. rewrite IDS in Hi. apply in_map_iff in Hi.
    destruct Hi as (j & Ej & Hj). rewrite <- Ej. apply W, Hj. }
  specialize (R1 x ltac:(intros i Hi _; apply W', D2, Hi)). specialize (R2 x ltac:(auto)).
  assert (A1 : sat_ALU (if (0 <? n_general l')%nat then alu else reset_ALU kalu (n_general l') nv) x <->
               (forall i, In i (until_simple (lv_tasks l')) -> true = true -> satisfies (cs (tk_id (ti_task i))) x)).
  { rewrite <- R1. unfold sat_ALU. destruct (0 <? n_general l')%nat eqn:Z.
    - destruct S1 as (S1 & _). rewrite S1. split; intros A r Hr; apply A; lia.
    - simpl. split; intros A r Hr; lia. }
  assert (A2 : sat_ILU (if (0 <? n_simple l')%nat then ilu else reset_ILU kilu (n_simple l') nv) x <->
               (forall i, In i (lv_tasks l') -> ct_isSimple (tk_type (ti_task i)) = true -> satisfies (cs (tk_id (ti_task i))) x)).
  { rewrite <- R2. unfold sat_ILU. destruct (0 <? n_simple l')%nat eqn:Z.
    - destruct S2 as (S2 & _). rewrite S2. split; intros A r Hr; apply A; lia.
    - unfold reset_ILU, iresize; simpl. rewrite map_length, seq_length. split; intros A r Hr; lia. }
  rewrite A1, A2. unfold satisfies_level. split.
  - intros [B1 B2] i Hi. destruct (ct_isSimple (tk_type (ti_task i))) eqn:Q; [auto|].
    apply B1; auto. rewrite US. apply filter_In. split; [exact Hi|]. unfold simp, simple_task. rewrite Q. reflexivity.
  - intros A. split; intros i Hi _; apply A; [apply D2, Hi|exact Hi].
Qed.

(** a simple constraint with gains cannot be copied *)
Lemma ILU_gains_loop nv cs n : forall ts k off,
  (forall i, In i ts -> ct_isSimple (tk_type (ti_task i)) = true -> usable nv (cs (tk_id (ti_task i))) /\
      getType (cs (tk_id (ti_task i))) = tk_type (ti_task i)) ->
  shape_ILU k n nv ->
  (off + list_sum (map (fun i => getNumberOfConstraints (cs (tk_id (ti_task i)))) (filter (fun i => ct_isSimple (tk_type (ti_task i))) ts)) <= n)%nat ->
  (exists i, In i ts /\ has_gains (tk_type (ti_task i)) = true) ->
  copy_loop copyTo_ILU ct_isSimple cs ts (k, off) = Throw.
Proof.
  induction ts as [|t ts IH]; intros k off G S H (i & Hi & Ti); [destruct Hi|]. cbn [copy_loop filter] in *.
  destruct (ct_isSimple (tk_type (ti_task t))) eqn:St.
  - cbn [map] in H. match type of H with context [list_sum (?a :: ?q)] => change (list_sum (a :: q)) with (a + list_sum q)%nat in H end.
    cbn [fst snd]. destruct (G t ltac:(simpl; auto) St) as [U T].
    destruct (has_gains (tk_type (ti_task t))) eqn:Gt.
    + unfold copyTo_ILU. unfold getType in T. rewrite <- T in Gt.
      destruct (c_body (cs (tk_id (ti_task t)))); try reflexivity. destruct (c_bounds (cs (tk_id (ti_task t)))); discriminate.
    + destruct (ILU_step nv (cs (tk_id (ti_task t))) k off n) as (k1 & E1 & S1 & _); [|exact S|lia|].
      { split; [exact U|]. eapply plain_of_type; [exact U| |]; rewrite T; auto. }
      rewrite E1. cbn [bind]. apply IH; [intros; apply G; simpl; auto|exact S1|lia|].
      destruct Hi as [<-|Hi]; [congruence|]. eauto.
  - apply IH; [intros; apply G; simpl; auto|exact S|exact H|]. destruct Hi as [<-|Hi]; [|eauto].
    destruct (tk_type (ti_task t)); discriminate.
Qed.

Theorem ILU_gains_throw fo gu l l' cs nv k :
  lreach l -> level_form fo gu l = Ok l' -> described cs fo nv l -> (0 < n_simple l')%nat ->
  (exists i, In i (lv_tasks l) /\ has_gains (tk_type (ti_task i)) = true) ->
  getSimpleConstraints cs l' k nv = Throw.
Proof.
  intros R E D P (i & Hi & Ti). apply lreach_gf in R. destruct (form_ok _ _ _ _ R E) as (F & _ & N & Pos & NGen & NS & _).
  destruct (described_formed _ _ _ _ _ _ F D) as [D' IDS].
  unfold getSimpleConstraints. replace (0 <? n_simple l')%nat with true by lia.
  rewrite (ILU_gains_loop nv cs (n_simple l')); [reflexivity| | | |].
  - intros j Hj _. destruct (D' j Hj) as (T & _ & U). auto.
  - repeat split. unfold reset_ILU, iresize. simpl. rewrite map_length, seq_length. reflexivity.
  - rewrite (sum_sizes cs getNumberOfConstraints) by (intros; apply D'; assumption). unfold simp, simple_task in NS. lia.
  - destruct (formed_map _ _ _ _ F) as [M _].
    apply (in_map (fun i => (tk_id (ti_task i), tk_type (ti_task i)))) in Hi. rewrite <- M in Hi. apply in_map_iff in Hi.
    destruct Hi as (j & Ej & Hj). injection Ej as _ Ej. exists j. rewrite Ej. auto.
Qed.

(** ** C12 *)
Definition lo_upto (k : contILU) (m v : nat) (b : R) : Prop :=
  b = - g_infinity \/ exists r, (r < m)%nat /\ nth r (ilu_I k) 0%nat = v /\ b = vget (ilu_lb k) r.
Definition hi_upto (k : contILU) (m v : nat) (b : R) : Prop :=
  b = g_infinity \/ exists r, (r < m)%nat /\ nth r (ilu_I k) 0%nat = v /\ b = vget (ilu_ub k) r.
Definition binv (k : contILU) (m : nat) (s : vec * vec) : Prop :=
  vlen (fst s) = ilu_nvars k /\ vlen (snd s) = ilu_nvars k /\
  forall v, (v < ilu_nvars k)%nat ->
    is_max (lo_upto k m v) (vget (fst s) v) /\ is_min (hi_upto k m v) (vget (snd s) v) /\ vget (fst s) v <= vget (snd s) v.

Lemma vset_o_ok v i x : (i < vlen v)%nat -> vset_o v i x = Ok (mkVec (vlen v) (fun k => if (k =? i)%nat then x else vget v k)).
Proof. intros H. unfold vset_o, assert_then. replace (i <? vlen v)%nat with true by lia. reflexivity. Qed.

Lemma tighten_step k m s : (m < length (ilu_I k))%nat -> indices_in_range k -> binv k m s ->
  (exists s', tighten k m s = Ok s' /\ binv k (S m) s') \/
  (tighten k m s = Throw /\ exists v a b, (v < ilu_nvars k)%nat /\ lo_upto k (S m) v a /\ hi_upto k (S m) v b /\ b < a).
Proof.
  intros Hm IR (L1 & L2 & Inv). destruct s as [lb ub]; simpl in *. unfold tighten.
  set (v := nth m (ilu_I k) 0%nat). assert (Hv : (v < ilu_nvars k)%nat).
  { unfold indices_in_range in IR. rewrite Forall_forall in IR. apply IR, nth_In, Hm. }
  unfold assert_then. replace ((v <? vlen lb) && (v <? vlen ub))%nat with true by lia.
  assert (exists lb', (if Rlt_dec (vget lb v) (vget (ilu_lb k) m) then vset_o lb v (vget (ilu_lb k) m) else Ok lb) = Ok lb' /\
    vlen lb' = vlen lb /\ (forall w, (w < ilu_nvars k)%nat -> is_max (lo_upto k (S m) w) (vget lb' w)) /\
    (forall w, w <> v -> vget lb' w = vget lb w)) as (lb' & -> & LL & MX & FR1).
  { destruct (Rlt_dec (vget lb v) (vget (ilu_lb k) m)) as [Lt|Ge].
    - rewrite vset_o_ok by lia. eexists; split; [reflexivity|]. split; [reflexivity|]. split.
      + intros w Hw. destruct (Inv w Hw) as ((P & Q) & _). simpl. destruct (w =? v)%nat eqn:Ew.
        * assert (w = v) by lia. subst w. split.
          -- right. exists m. repeat split; auto; lia.
          -- intros b [->|(r & Hr & Er & ->)].
             ++ specialize (Q (- g_infinity) ltac:(left; reflexivity)). lra.
             ++ destruct (Nat.eq_dec r m) as [->|Nr]; [lra|].
                specialize (Q (vget (ilu_lb k) r) ltac:(right; exists r; repeat split; auto; lia)). lra.
        * split.
          -- destruct P as [P|(r & Hr & P)]; [left; exact P|right; exists r; split; [lia|exact P]].
          -- intros b [->|(r & Hr & Er & ->)]; apply Q; [left; reflexivity|]. right. exists r. repeat split; auto.
             destruct (Nat.eq_dec r m) as [->|Nr]; [|lia]. fold v in Er. lia.
      + intros w Nw. simpl. replace (w =? v)%nat with false by lia. reflexivity.
    - exists lb. split; [reflexivity|]. split; [reflexivity|]. split; [|reflexivity].
      intros w Hw. destruct (Inv w Hw) as ((P & Q) & _). split.
      + destruct P as [P|(r & Hr & P)]; [left; exact P|right; exists r; split; [lia|exact P]].
      + intros b [->|(r & Hr & Er & ->)]; [apply Q; left; reflexivity|].
        destruct (Nat.eq_dec r m) as [->|Nr].
        * fold v in Er. subst w. lra.
        * apply Q. right. exists r. repeat split; auto; lia. }
  assert (exists ub', (if Rlt_dec (vget (ilu_ub k) m) (vget ub v) then vset_o ub v (vget (ilu_ub k) m) else Ok ub) = Ok ub' /\
    vlen ub' = vlen ub /\ (forall w, (w < ilu_nvars k)%nat -> is_min (hi_upto k (S m) w) (vget ub' w)) /\
    (forall w, w <> v -> vget ub' w = vget ub w)) as (ub' & EU & LU & MN & FR2).
  { destruct (Rlt_dec (vget (ilu_ub k) m) (vget ub v)) as [Lt|Ge].
    - rewrite vset_o_ok by lia. eexists; split; [reflexivity|]. split; [reflexivity|]. split.
      + intros w Hw. destruct (Inv w Hw) as (_ & (P & Q) & _). simpl. destruct (w =? v)%nat eqn:Ew.
        * assert (w = v) by lia. subst w. split.
          -- right. exists m. repeat split; auto; lia.
          -- intros b [->|(r & Hr & Er & ->)].
             ++ specialize (Q g_infinity ltac:(left; reflexivity)). lra.
             ++ destruct (Nat.eq_dec r m) as [->|Nr]; [lra|].
                specialize (Q (vget (ilu_ub k) r) ltac:(right; exists r; repeat split; auto; lia)). lra.
        * split.
          -- destruct P as [P|(r & Hr & P)]; [left; exact P|right; exists r; split; [lia|exact P]].
          -- intros b [->|(r & Hr & Er & ->)]; apply Q; [left; reflexivity|]. right. exists r. repeat split; auto.
             destruct (Nat.eq_dec r m) as [->|Nr]; [|lia]. fold v in Er. lia.
      + intros w Nw. simpl. replace (w =? v)%nat with false by lia. reflexivity.
    - exists ub. split; [reflexivity|]. split; [reflexivity|]. split; [|reflexivity].
      intros w Hw. destruct (Inv w Hw) as (_ & (P & Q) & _). split.
      + destruct P as [P|(r & Hr & P)]; [left; exact P|right; exists r; split; [lia|exact P]].
      + intros b [->|(r & Hr & Er & ->)]; [apply Q; left; reflexivity|].
        destruct (Nat.eq_dec r m) as [->|Nr].
        * fold v in Er. subst w. lra.
        * apply Q. right. exists r. repeat split; auto; lia. }
  cbn [bind]. rewrite EU. cbn [bind].
  destruct (Rlt_dec (vget ub' v) (vget lb' v)) as [Lt|Ge].
  - right. split; [reflexivity|]. exists v, (vget lb' v), (vget ub' v).
    split; [exact Hv|]. split; [apply MX, Hv|]. split; [apply MN, Hv|exact Lt].
  - left. eexists; split; [reflexivity|]. split; [simpl; lia|]. split; [simpl; lia|]. intros w Hw. simpl.
    split; [apply MX, Hw|]. split; [apply MN, Hw|].
    destruct (Nat.eq_dec w v) as [->|Nw]; [lra|]. rewrite FR1, FR2 by assumption. apply Inv, Hw.
Qed.

Lemma tighten_loop k : indices_in_range k -> forall cnt first s, (first + cnt <= length (ilu_I k))%nat -> binv k first s ->
  (exists s', for_up cnt first (tighten k) s = Ok s' /\ binv k (first + cnt) s') \/
  (for_up cnt first (tighten k) s = Throw /\
   exists v a b, (v < ilu_nvars k)%nat /\ lo_upto k (first + cnt) v a /\ hi_upto k (first + cnt) v b /\ b < a).
Proof.
  intros IR. induction cnt as [|cnt IH]; intros first s H B; cbn [for_up].
  - left. exists s. rewrite Nat.add_0_r. auto.
  - destruct (tighten_step k first s ltac:(lia) IR B) as [(s1 & E & B1)|(E & v & a & b & Hv & A1 & A2 & Lt)]; rewrite E; cbn [bind].
    + destruct (IH (S first) s1 ltac:(lia) B1) as [X|X]; replace (S first + cnt)%nat with (first + S cnt)%nat in X by lia; auto.
    + right. split; [reflexivity|]. exists v, a, b. repeat split; auto.
      * destruct A1 as [A1|(r & Hr & A1)]; [left; exact A1|right; exists r; split; [lia|exact A1]].
      * destruct A2 as [A2|(r & Hr & A2)]; [left; exact A2|right; exists r; split; [lia|exact A2]].
Qed.

Lemma binv_start k : binv k 0 (vconst (ilu_nvars k) (- g_infinity), vconst (ilu_nvars k) g_infinity).
Proof.
  split; [reflexivity|]. split; [reflexivity|]. intros v Hv. simpl. pose proof g_infinity_pos. repeat split; try lra.
  - left; reflexivity.
  - intros b [->|(r & Hr & _)]; [lra|lia].
  - left; reflexivity.
  - intros b [->|(r & Hr & _)]; [lra|lia].
Qed.

Theorem solution_bounds k : indices_in_range k -> (0 < length (ilu_I k))%nat ->
  ((exists v, (v < ilu_nvars k)%nat /\ empty_interval k v) <-> initializeSolutionBounds k = Throw) /\
  ((forall v, (v < ilu_nvars k)%nat -> ~ empty_interval k v) ->
   exists lb ub, initializeSolutionBounds k = Ok (lb, ub) /\ vlen lb = ilu_nvars k /\ vlen ub = ilu_nvars k /\
     forall v, (v < ilu_nvars k)%nat -> is_max (lower_of k v) (vget lb v) /\ is_min (upper_of k v) (vget ub v)).
Proof.
  intros IR P. unfold initializeSolutionBounds. replace (length (ilu_I k) =? 0)%nat with false by lia.
  destruct (tighten_loop k IR (length (ilu_I k)) 0 _ ltac:(lia) (binv_start k)) as [(s & E & B)|(E & v & a & b & Hv & A1 & A2 & Lt)];
    rewrite E; cbn [Nat.add] in *.
  - destruct B as (L1 & L2 & B).
    assert (NE : forall v, (v < ilu_nvars k)%nat -> ~ empty_interval k v).
    { intros v Hv EM. destruct (B v Hv) as ((M1 & M2) & (N1 & N2) & LE).
      apply (EM (vget (fst s) v)). split; [intros b Hb; apply M2, Hb|intros b Hb]. specialize (N2 b Hb). lra. }
    split.
    + split; [intros (v & Hv & EM); destruct (NE v Hv EM)|discriminate].
    + intros _. destruct s as [lb ub]. exists lb, ub. repeat split; auto; try apply B; auto.
  - assert (EM : empty_interval k v). { intros y [Y1 Y2]. specialize (Y1 a A1). specialize (Y2 b A2). lra. }
    split.
    + split; [reflexivity|]. intros _. exists v. auto.
    + intros NE. destruct (NE v Hv EM).
Qed.

Theorem solution_bounds_points k b x : indices_in_range k -> initializeSolutionBounds k = Ok b ->
  (forall v, (v < ilu_nvars k)%nat -> - g_infinity <= x v <= g_infinity) ->
  (sat_bounds b x <-> sat_ILU k x).
Proof.
  intros IR E W. unfold initializeSolutionBounds in E. destruct (length (ilu_I k) =? 0)%nat eqn:Z.
  - inversion E. unfold sat_bounds, sat_ILU. simpl. split; intros A r Hr; lia.
  - destruct (tighten_loop k IR (length (ilu_I k)) 0 _ ltac:(lia) (binv_start k)) as [(s & E' & B)|(E' & _)]; rewrite E' in E; [|discriminate].
    inversion E; subst s. destruct B as (L1 & L2 & B). cbn [Nat.add] in B. unfold sat_bounds, sat_ILU. rewrite L1. split.
    + intros A r Hr. assert (Hv : (nth r (ilu_I k) 0 < ilu_nvars k)%nat).
      { unfold indices_in_range in IR. rewrite Forall_forall in IR. apply IR, nth_In, Hr. }
      destruct (B _ Hv) as ((_ & M) & (_ & N) & _). specialize (A _ Hv).
      assert (vget (ilu_lb k) r <= vget (fst b) (nth r (ilu_I k) 0%nat)) by (apply M; right; exists r; auto).
      assert (vget (snd b) (nth r (ilu_I k) 0%nat) <= vget (ilu_ub k) r) by (apply N; right; exists r; auto).
      lra.
    + intros A v Hv. destruct (B v Hv) as ((M & _) & (N & _) & _). specialize (W v Hv). split.
      * destruct M as [->|(r & Hr & <- & ->)]; [lra|]. apply A, Hr.
      * destruct N as [->|(r & Hr & <- & ->)]; [lra|]. apply A, Hr.
Qed.
