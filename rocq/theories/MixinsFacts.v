(** Proofs about Mixins.v *)
From Coq Require Import List Arith ZArith Lia Bool ZifyBool Reals Lra.
From Verif Require Import Base BaseFacts ActiveSet ActiveSetFacts Mixins.
Import ListNotations.
Open Scope R_scope.

Lemma classifyLU_spec lb ub p :
  (classifyLU lb ub p = UNDEFINED <-> lb > ub) /\
  (classifyLU lb ub p = EQUALITY <-> lb = ub) /\
  (classifyLU lb ub p = LOWER_BOUND <-> lb < ub /\ p <= lb) /\
  (classifyLU lb ub p = UPPER_BOUND <-> lb < ub /\ p >= ub) /\
  (classifyLU lb ub p = INACTIVE <-> lb < p < ub).
Proof.
  unfold classifyLU.
  destruct (Rgt_dec lb ub); [|destruct (Req_EM_T lb ub); [|destruct (Rle_dec p lb); [|destruct (Rge_dec p ub)]]];
    repeat split; intros; try discriminate; try reflexivity; try lra.
Qed.

Lemma classifyL_spec lb p :
  (classifyL lb p = LOWER_BOUND <-> p <= lb) /\ (classifyL lb p = INACTIVE <-> lb < p) /\
  classifyL lb p <> UNDEFINED /\ classifyL lb p <> EQUALITY /\ classifyL lb p <> UPPER_BOUND.
Proof.
  unfold classifyL. destruct (Rle_dec p lb); repeat split; intros; try discriminate; try reflexivity; try lra.
Qed.

Lemma classifyU_spec ub p :
  (classifyU ub p = UPPER_BOUND <-> p >= ub) /\ (classifyU ub p = INACTIVE <-> p < ub) /\
  classifyU ub p <> UNDEFINED /\ classifyU ub p <> EQUALITY /\ classifyU ub p <> LOWER_BOUND.
Proof.
  unfold classifyU. destruct (Rge_dec p ub); repeat split; intros; try discriminate; try reflexivity; try lra.
Qed.

Lemma determine_loop_ok n c s l :
  n = len l -> (offset l + len l <= length s)%nat ->
  exists r, determine_loop n c s l = Ok r /\ length r = length s /\
    (forall i, (i < len l)%nat -> nth_error r (offset l + i) = Some (c i)) /\
    (forall j, (j < offset l \/ offset l + len l <= j)%nat -> nth_error r j = nth_error s j).
Proof.
  intros Hn Hf. unfold determine_loop, assert_then, as_put.
  rewrite (proj2 (Nat.eqb_eq n (len l)) Hn).
  destruct (for_up_write c (offset l) (len l) 0 s) as (r & E & L & N); [lia|].
  exists r. split; [exact E|]. split; [exact L|]. split.
  - intros i Hi. rewrite N.
    replace ((offset l + 0 <=? offset l + i) && (offset l + i <? offset l + 0 + len l))%nat with true by lia.
    f_equal. f_equal. lia.
  - intros j Hj. rewrite N.
    replace ((offset l + 0 <=? j) && (j <? offset l + 0 + len l))%nat with false by lia. reflexivity.
Qed.

Lemma determine_loop_mismatch n c s l : n <> len l -> determine_loop n c s l = Throw.
Proof.
  intros H. unfold determine_loop, assert_then.
  destruct (Nat.eqb_spec n (len l)); [contradiction|reflexivity].
Qed.

Lemma for_up_put_overrun (c : nat -> act) off n : forall first s,
  (off + first + n > length s)%nat -> (n > 0)%nat ->
  for_up n first (fun i s => as_put s (off + i) (c i)) s = Throw.
Proof.
  induction n as [|n IH]; intros first s H1 H2; [lia|]. simpl.
  unfold as_put at 1, write_at, assert_then.
  destruct (Nat.ltb_spec (off + first) (length s)); [|reflexivity]. simpl.
  apply IH; [rewrite update_length; lia|]. lia.
Qed.

Lemma determine_loop_overrun n c s l :
  (offset l + len l > length s)%nat -> (len l > 0)%nat -> determine_loop n c s l = Throw.
Proof.
  intros H1 H2. unfold determine_loop, assert_then. destruct (n =? len l)%nat; [|reflexivity].
  apply for_up_put_overrun; lia.
Qed.

(** Violations *)
Definition viol_wf (v : viol) : Prop :=
  length (v_lower v) = length (v_data v) /\ length (v_upper v) = length (v_data v).

Lemma violation_value_spec lo up :
  (violation_value lo up = 0 <-> lo >= 0 /\ up <= 0) /\
  (violation_value lo up < 0 <-> lo < 0) /\ (lo < 0 -> violation_value lo up = lo) /\
  (violation_value lo up > 0 <-> lo >= 0 /\ up > 0) /\ (violation_value lo up > 0 -> violation_value lo up = up).
Proof.
  unfold violation_value. destruct (Rge_dec lo 0), (Rle_dec up 0); repeat split; intros; lra.
Qed.

Lemma for_up_viol (lo up : nat -> R) off n : forall first v,
  viol_wf v -> (off + first + n <= viol_size v)%nat ->
  exists r, for_up n first (fun i v => viol_set v (off + i) (lo i) (up i)) v = Ok r /\
    viol_wf r /\ viol_size r = viol_size v /\
    forall j,
      nth_error (v_data r) j = (if (off + first <=? j) && (j <? off + first + n)
                               then Some (violation_value (lo (j - off)) (up (j - off))) else nth_error (v_data v) j)%nat /\
      nth_error (v_lower r) j = (if (off + first <=? j) && (j <? off + first + n)
                               then Some (lo (j - off)) else nth_error (v_lower v) j)%nat /\
      nth_error (v_upper r) j = (if (off + first <=? j) && (j <? off + first + n)
                               then Some (up (j - off)) else nth_error (v_upper v) j)%nat.
Proof.
  induction n as [|n IH]; intros first v W H; simpl.
  - exists v. split; [reflexivity|]. split; [assumption|]. split; [reflexivity|]. intros j.
    replace ((off + first <=? j) && (j <? off + first + 0))%nat with false by lia. auto.
  - destruct W as [W1 W2]. unfold viol_size in *.
    unfold viol_set at 1, assert_then.
    replace (off + first <? length (v_data v))%nat with true by lia.
    replace ((off + first <? length (v_lower v)) && (off + first <? length (v_upper v)))%nat with true by lia. simpl.
    destruct (IH (S first) (mkViol (update (v_data v) (off + first) (violation_value (lo first) (up first)))
                 (update (v_lower v) (off + first) (lo first)) (update (v_upper v) (off + first) (up first))))
      as (r & E & Wr & Sr & Nr).
    { split; simpl; rewrite !update_length; assumption. }
    { simpl. rewrite update_length. lia. }
    exists r. split; [exact E|]. split; [assumption|]. simpl in Sr. rewrite update_length in Sr. split; [assumption|].
    intros j. destruct (Nr j) as (N1 & N2 & N3). simpl in *. rewrite N1, N2, N3, !nth_error_update.
    destruct (Nat.eqb_spec (off + first) j) as [<-|NE].
    + replace (off + first <? length (v_data v))%nat with true by lia.
      replace (off + first <? length (v_lower v))%nat with true by lia.
      replace (off + first <? length (v_upper v))%nat with true by lia.
      replace (off + S first <=? off + first)%nat with false by lia.
      replace ((off + first <=? off + first) && (off + first <? off + first + S n))%nat with true by lia.
      replace (off + first - off)%nat with first by lia. simpl. auto.
    + simpl.
      destruct ((off + S first <=? j) && (j <? off + S first + n))%nat eqn:B1,
        ((off + first <=? j) && (j <? off + first + S n))%nat eqn:B2; try lia; auto.
Qed.

Lemma violations_loop_ok n lo up v l :
  n = len l -> viol_wf v -> (offset l + len l <= viol_size v)%nat ->
  exists r, violations_loop n lo up v l = Ok r /\ viol_wf r /\ viol_size r = viol_size v /\
    (forall i, (i < len l)%nat ->
        viol_get r (offset l + i) = Ok (violation_value (lo i) (up i)) /\
        viol_getLower r (offset l + i) = Ok (lo i) /\ viol_getUpper r (offset l + i) = Ok (up i)) /\
    (forall j, (j < offset l \/ offset l + len l <= j)%nat ->
        viol_get r j = viol_get v j /\ viol_getLower r j = viol_getLower v j /\ viol_getUpper r j = viol_getUpper v j).
Proof.
  intros Hn W H. unfold violations_loop, assert_then.
  rewrite (proj2 (Nat.eqb_eq n (len l)) Hn).
  destruct (for_up_viol lo up (offset l) (len l) 0 v W) as (r & E & Wr & Sr & Nr); [lia|].
  exists r. split; [exact E|]. split; [assumption|]. split; [assumption|]. split.
  - intros i Hi. destruct (Nr (offset l + i)%nat) as (N1 & N2 & N3).
    unfold viol_get, viol_getLower, viol_getUpper, read_at. rewrite N1, N2, N3.
    replace ((offset l + 0 <=? offset l + i) && (offset l + i <? offset l + 0 + len l))%nat with true by lia.
    replace (offset l + i - offset l)%nat with i by lia. auto.
  - intros j Hj. destruct (Nr j) as (N1 & N2 & N3).
    unfold viol_get, viol_getLower, viol_getUpper, read_at. rewrite N1, N2, N3.
    replace ((offset l + 0 <=? j) && (j <? offset l + 0 + len l))%nat with false by lia. auto.
Qed.

From Verif Require Import MixinsSpec.

Lemma determine_gen n c s l (P : nat -> act -> Prop) :
  (forall i, P i (c i)) ->
  n = len l -> (offset l + len l <= length s)%nat ->
  exists r, determine_loop n c s l = Ok r /\ only_segment s r l P.
Proof.
  intros HP Hn Hf. destruct (determine_loop_ok n c s l Hn Hf) as (r & E & L & A & B).
  exists r. split; [exact E|]. split; [exact L|]. split; [|exact B].
  intros i Hi. exists (c i). split; [apply A; assumption|apply HP].
Qed.

Lemma determineLU n lb ub p s l : n = len l -> (offset l + len l <= length s)%nat ->
  exists r, determineActiveSetLU n lb ub p s l = Ok r /\
            only_segment s r l (fun i => meaningLU (lb i) (ub i) (p i)).
Proof.
  apply determine_gen. intros i. unfold meaningLU.
  destruct (classifyLU_spec (lb i) (ub i) (p i)) as (A & B & C & D & E).
  destruct (classifyLU (lb i) (ub i) (p i)); intuition lra.
Qed.

Lemma determineL n lb p s l : n = len l -> (offset l + len l <= length s)%nat ->
  exists r, determineActiveSetL n lb p s l = Ok r /\
            only_segment s r l (fun i => meaningL (lb i) (p i)).
Proof.
  apply determine_gen. intros i. unfold meaningL.
  destruct (classifyL_spec (lb i) (p i)) as (A & B & C & D & E).
  destruct (classifyL (lb i) (p i)); intuition congruence.
Qed.

Lemma determineU n ub p s l : n = len l -> (offset l + len l <= length s)%nat ->
  exists r, determineActiveSetU n ub p s l = Ok r /\
            only_segment s r l (fun i => meaningU (ub i) (p i)).
Proof.
  apply determine_gen. intros i. unfold meaningU.
  destruct (classifyU_spec (ub i) (p i)) as (A & B & C & D & E).
  destruct (classifyU (ub i) (p i)); intuition (try congruence; try lra).
Qed.

Lemma determineB s l : (offset l + len l <= length s)%nat ->
  exists r, determineActiveSetB s l = Ok r /\ only_segment s r l (fun _ a => a = EQUALITY).
Proof.
  intros H. destruct (proj2 (set_location_spec s l EQUALITY) H) as (r & E & L & N).
  exists r. split; [exact E|]. split; [exact L|]. split.
  - intros i Hi. exists EQUALITY. split; [|reflexivity]. rewrite N.
    replace ((offset l <=? offset l + i) && (offset l + i <? offset l + len l))%nat with true by lia. reflexivity.
  - intros j Hj. rewrite N. replace ((offset l <=? j) && (j <? offset l + len l))%nat with false by lia. reflexivity.
Qed.

Lemma determine_rejects n lb ub b p s l :
  n <> len l \/ (len l > 0 /\ offset l + len l > length s)%nat ->
  determineActiveSetLU n lb ub p s l = Throw /\
  determineActiveSetL n lb p s l = Throw /\ determineActiveSetU n b p s l = Throw.
Proof.
  intros [H|[H1 H2]]; repeat split;
    first [apply determine_loop_mismatch; assumption | apply determine_loop_overrun; assumption].
Qed.

Lemma violations_gen n lo up v l (P : nat -> R -> Prop) :
  (forall i, P i (violation_value (lo i) (up i))) ->
  n = len l -> consistent v -> (offset l + len l <= viol_size v)%nat ->
  exists r, violations_loop n lo up v l = Ok r /\ only_violations v r l P.
Proof.
  intros HP Hn W Hf. destruct (violations_loop_ok n lo up v l Hn W Hf) as (r & E & Wr & L & A & B).
  exists r. split; [exact E|]. split; [exact Wr|]. split; [exact L|]. split; [|exact B].
  intros i Hi. eexists. split; [apply A; assumption|apply HP].
Qed.

Lemma violation_signed lb ub p : signed_violation lb ub p (violation_value (p - lb) (p - ub)).
Proof.
  destruct (violation_value_spec (p - lb) (p - ub)) as (A & B & C & D & E).
  unfold signed_violation. repeat split; intros.
  - apply A in H; lra.
  - apply A in H; lra.
  - apply A; lra.
  - apply B in H; lra.
  - apply B; lra.
  - rewrite Rabs_left by assumption. apply B in H. rewrite C by assumption. lra.
  - apply D in H; lra.
  - apply D in H; lra.
  - apply D; lra.
  - rewrite Rabs_pos_eq by lra. rewrite E by assumption. lra.
Qed.

Definition lower_only (lb p v : R) : Prop :=
  (v = 0 <-> lb <= p) /\ v <= 0 /\ (v < 0 -> Rabs v = lb - p).
Definition upper_only (ub p v : R) : Prop :=
  (v = 0 <-> p <= ub) /\ 0 <= v /\ (v > 0 -> Rabs v = p - ub).

Lemma violation_lower lb p : lower_only lb p (violation_value (p - lb) 0).
Proof.
  unfold lower_only, violation_value. destruct (Rge_dec (p - lb) 0), (Rle_dec 0 0); repeat split; intros; try lra.
  rewrite Rabs_left; lra.
Qed.

Lemma violation_upper ub p : upper_only ub p (violation_value 0 (p - ub)).
Proof.
  unfold upper_only, violation_value. destruct (Rge_dec 0 0), (Rle_dec (p - ub) 0); repeat split; intros; try lra.
  rewrite Rabs_pos_eq; lra.
Qed.

Lemma violationsLU n lb ub p v l : n = len l -> consistent v -> (offset l + len l <= viol_size v)%nat ->
  exists r, computeViolationsLU n lb ub p v l = Ok r /\
            only_violations v r l (fun i => signed_violation (lb i) (ub i) (p i)).
Proof. apply violations_gen. intros i; apply violation_signed. Qed.

Lemma violationsB n b p v l : n = len l -> consistent v -> (offset l + len l <= viol_size v)%nat ->
  exists r, computeViolationsB n b p v l = Ok r /\
            only_violations v r l (fun i => signed_violation (b i) (b i) (p i)).
Proof. apply violations_gen. intros i; apply violation_signed. Qed.

Lemma violationsB0 n p v l : n = len l -> consistent v -> (offset l + len l <= viol_size v)%nat ->
  exists r, computeViolationsB0 n p v l = Ok r /\
            only_violations v r l (fun i => signed_violation 0 0 (p i)).
Proof.
  apply violations_gen. intros i. pose proof (violation_signed 0 0 (p i)) as H.
  rewrite Rminus_0_r in H. exact H.
Qed.

Lemma violationsL n lb p v l : n = len l -> consistent v -> (offset l + len l <= viol_size v)%nat ->
  exists r, computeViolationsL n lb p v l = Ok r /\
            only_violations v r l (fun i x => (x = 0 <-> lb i <= p i) /\ x <= 0 /\ (x < 0 -> Rabs x = lb i - p i)).
Proof. apply violations_gen. intros i; apply violation_lower. Qed.

Lemma violationsU n ub p v l : n = len l -> consistent v -> (offset l + len l <= viol_size v)%nat ->
  exists r, computeViolationsU n ub p v l = Ok r /\
            only_violations v r l (fun i x => (x = 0 <-> p i <= ub i) /\ 0 <= x /\ (x > 0 -> Rabs x = p i - ub i)).
Proof. apply violations_gen. intros i; apply violation_upper. Qed.

Lemma violations_raw n lb ub p v l : n = len l -> consistent v -> (offset l + len l <= viol_size v)%nat ->
  exists r, computeViolationsLU n lb ub p v l = Ok r /\
    forall i, (i < len l)%nat -> viol_getLower r (offset l + i) = Ok (p i - lb i) /\
                          viol_getUpper r (offset l + i) = Ok (p i - ub i).
Proof.
  intros Hn W Hf. destruct (violations_loop_ok n (fun i => p i - lb i) (fun i => p i - ub i) v l Hn W Hf)
    as (r & E & _ & _ & A & _).
  exists r. split; [exact E|]. intros i Hi. destruct (A i Hi) as (_ & B & C). auto.
Qed.
