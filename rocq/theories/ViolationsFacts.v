(** Copying and resetting violations, active sets of a hierarchy *)
From Coq Require Import List Arith Reals Bool Lia.
From Verif Require Import Base BaseFacts ActiveSet Mixins MixinsSpec.
Import ListNotations.
Open Scope R_scope.

Lemma read_some {A} (l : list A) i : read_at l i = match nth_error l i with Some x => Ok x | None => Throw end.
Proof. unfold read_at. destruct (nth_error l i); reflexivity. Qed.
Lemma entry_eq v w i j : nth_error (v_data v) i = nth_error (v_data w) j -> nth_error (v_lower v) i = nth_error (v_lower w) j ->
  nth_error (v_upper v) i = nth_error (v_upper w) j -> entry v i = entry w j.
Proof. intros A B C. unfold entry, viol_get, viol_getLower, viol_getUpper. rewrite !read_some, A, B, C. reflexivity. Qed.

Lemma seg_assign (dst : list R) l src : (offset l + len l <= length dst)%nat -> len l = length src ->
  exists r, segment_assign dst l src = Ok r /\ length r = length dst /\
    forall i, nth_error r i = if ((offset l <=? i) && (i <? offset l + len l))%nat then nth_error src (i - offset l) else nth_error dst i.
Proof.
  intros H L. unfold segment_assign. rewrite assert_true by (apply andb_true_intro; split; [apply Nat.leb_le; lia|apply Nat.eqb_eq; exact L]).
  destruct (copy_into dst (offset l) src) as [r| |] eqn:E.
  - exists r. split; [reflexivity|]. split; [exact (copy_into_length _ _ _ _ E)|]. intros i. rewrite (nth_error_copy_into _ _ _ _ i E), L. reflexivity.
  - exfalso. unfold copy_into in E. destruct (offset l + length src <=? length dst)%nat eqn:Q; [discriminate|]. apply Nat.leb_gt in Q. lia.
  - exfalso. unfold copy_into in E. destruct (offset l + length src <=? length dst)%nat eqn:Q; [discriminate|]. apply Nat.leb_gt in Q. lia.
Qed.

Theorem viol_copyTo_spec v l o : consistent v -> consistent o ->
  (~ ((offset l + len l <= viol_size v)%nat /\ len l = viol_size o) -> viol_copyTo v l o = Throw) /\
  ((offset l + len l <= viol_size v)%nat -> len l = viol_size o ->
    exists r, viol_copyTo v l o = Ok r /\ consistent r /\ viol_size r = viol_size v /\
      (forall i, (i < len l)%nat -> entry r (offset l + i) = entry o i) /\
      (forall j, (j < offset l \/ offset l + len l <= j)%nat -> entry r j = entry v j)).
Proof.
  intros [V1 V2] [O1 O2]. unfold viol_size in *. split.
  - intros H. unfold viol_copyTo. destruct (checkLength l (viol_size v)) eqn:C; [|reflexivity]. cbn [assert_then].
    apply checkLength_iff in C. unfold viol_size in C. unfold segment_assign at 1.
    destruct ((offset l + len l <=? length (v_data v)) && (len l =? length (v_data o)))%nat eqn:Q; [|reflexivity].
    exfalso. apply H. apply andb_true_iff in Q. destruct Q as [_ Q]. apply Nat.eqb_eq in Q. auto.
  - intros B L. unfold viol_copyTo. rewrite assert_true by (apply checkLength_iff; exact B).
    destruct (seg_assign (v_data v) l (v_data o)) as (d & Ed & Ld & Nd); [exact B|exact L|].
    destruct (seg_assign (v_lower v) l (v_lower o)) as (lo & El & Ll & Nl); [lia|lia|].
    destruct (seg_assign (v_upper v) l (v_upper o)) as (up & Eu & Lu & Nu); [lia|lia|].
    rewrite Ed, El, Eu. cbn [bind]. eexists; split; [reflexivity|]. split; [split; cbn [v_data v_lower v_upper]; lia|]. cbn [v_data].
    split; [exact Ld|]. split.
    + intros i Hi. apply entry_eq; cbn [v_data v_lower v_upper]; [rewrite Nd|rewrite Nl|rewrite Nu];
        replace (offset l <=? offset l + i)%nat with true by (symmetry; apply Nat.leb_le; lia);
        replace (offset l + i <? offset l + len l)%nat with true by (symmetry; apply Nat.ltb_lt; lia); cbn [andb]; f_equal; lia.
    + intros j Hj. assert (F : ((offset l <=? j) && (j <? offset l + len l))%nat = false).
      { destruct Hj; [replace (offset l <=? j)%nat with false by (symmetry; apply Nat.leb_gt; lia); reflexivity|].
        replace (j <? offset l + len l)%nat with false by (symmetry; apply Nat.ltb_ge; lia). apply andb_false_r. }
      apply entry_eq; cbn [v_data v_lower v_upper]; [rewrite Nd|rewrite Nl|rewrite Nu]; rewrite F; reflexivity.
Qed.

Theorem viol_copyFrom_spec v l o : consistent v -> consistent o ->
  (~ ((offset l + len l <= viol_size o)%nat /\ len l = viol_size v) -> viol_copyFrom v o l = Throw) /\
  ((offset l + len l <= viol_size o)%nat -> len l = viol_size v ->
    exists r, viol_copyFrom v o l = Ok r /\ consistent r /\ viol_size r = len l /\
      (forall i, (i < len l)%nat -> entry r i = entry o (offset l + i))).
Proof.
  intros [V1 V2] [O1 O2]. unfold viol_copyFrom. split.
  - intros H. destruct (checkLength l (viol_size o)) eqn:C; [|reflexivity]. cbn [assert_then]. apply checkLength_iff in C.
    destruct (len l =? viol_size v)%nat eqn:Q; [|reflexivity]. apply Nat.eqb_eq in Q. exfalso. auto.
  - intros B L. rewrite assert_true by (apply checkLength_iff; exact B). rewrite assert_true by (apply Nat.eqb_eq; exact L).
    unfold viol_size in B. rewrite assert_true by (apply andb_true_intro; split; apply Nat.leb_le; lia).
    eexists; split; [reflexivity|]. unfold consistent, viol_size. cbn [v_data v_lower v_upper]. rewrite !segment_length by lia.
    split; [lia|]. split; [lia|]. intros i Hi.
    apply entry_eq; cbn [v_data v_lower v_upper]; rewrite nth_error_segment;
      replace (i <? len l)%nat with true by (symmetry; apply Nat.ltb_lt; lia); reflexivity.
Qed.

Theorem viol_round_trip v l o r t : consistent v -> consistent o -> consistent t -> viol_size t = viol_size o ->
  viol_copyTo v l o = Ok r -> viol_copyFrom t r l = Ok o.
Proof.
  intros V O T S E.
  assert (G : (offset l + len l <= viol_size v)%nat /\ len l = viol_size o).
  { destruct (le_dec (offset l + len l) (viol_size v)), (Nat.eq_dec (len l) (viol_size o)); auto;
      rewrite (proj1 (viol_copyTo_spec v l o V O)) in E by tauto; discriminate. }
  destruct G as [G1 G2]. revert E. unfold viol_copyTo. rewrite assert_true by (apply checkLength_iff; exact G1).
  destruct V as [V1 V2], O as [O1 O2]. unfold viol_size in *.
  destruct (seg_assign (v_data v) l (v_data o)) as (d & Ed & Ld & Nd); [exact G1|exact G2|].
  destruct (seg_assign (v_lower v) l (v_lower o)) as (lo & El & Ll & Nl); [lia|lia|].
  destruct (seg_assign (v_upper v) l (v_upper o)) as (up & Eu & Lu & Nu); [lia|lia|].
  rewrite Ed, El, Eu. cbn [bind]. intros E. inversion E; subst r; clear E.
  unfold viol_copyFrom, viol_size. cbn [v_data v_lower v_upper].
  rewrite assert_true by (apply checkLength_iff; lia). rewrite assert_true by (apply Nat.eqb_eq; lia).
  rewrite assert_true by (apply andb_true_intro; split; apply Nat.leb_le; lia).
  destruct o as [od ol ou]. cbn [v_data v_lower v_upper] in *. f_equal.
  assert (X : forall (dst src x : list R), length src = len l -> (forall i, nth_error x i =
     (if ((offset l <=? i) && (i <? offset l + len l))%nat then nth_error src (i - offset l) else nth_error dst i)) -> segment x (offset l) (len l) = src).
  { intros dst src x Ls Nx. apply nth_error_ext. intros i. rewrite nth_error_segment. destruct (Nat.ltb_spec i (len l)).
    - rewrite Nx. replace (offset l <=? offset l + i)%nat with true by (symmetry; apply Nat.leb_le; lia).
      replace (offset l + i <? offset l + len l)%nat with true by (symmetry; apply Nat.ltb_lt; lia). cbn [andb]. f_equal; lia.
    - symmetry. apply nth_error_None. lia. }
  rewrite (X _ _ _ (eq_sym G2) Nd), (X (v_lower v) ol lo), (X (v_upper v) ou up); [reflexivity|lia|exact Nu|lia|exact Nl].
Qed.

Theorem viol_setZero_spec v : consistent v ->
  consistent (viol_setZero v) /\ viol_size (viol_setZero v) = viol_size v /\
  forall i, (i < viol_size v)%nat -> entry (viol_setZero v) i = Ok (0, 0, 0).
Proof.
  intros [A B]. unfold viol_size in *. unfold viol_setZero, consistent, viol_size. cbn [v_data v_lower v_upper]. rewrite !repeat_length.
  split; [lia|]. split; [reflexivity|]. intros i Hi. unfold entry, viol_get, viol_getLower, viol_getUpper. cbn [v_data v_lower v_upper].
  rewrite !read_some, !nth_error_repeat. rewrite A, B. replace (i <? length (v_data v))%nat with true by (symmetry; apply Nat.ltb_lt; lia). reflexivity.
Qed.

Theorem viol_setZero_location_spec v l : consistent v ->
  ((viol_size v < offset l + len l)%nat -> viol_setZero_location v l = Throw) /\
  ((offset l + len l <= viol_size v)%nat ->
    exists r, viol_setZero_location v l = Ok r /\ consistent r /\ viol_size r = viol_size v /\
      (forall i, (i < len l)%nat -> entry r (offset l + i) = Ok (0, 0, 0)) /\
      (forall j, (j < offset l \/ offset l + len l <= j)%nat -> entry r j = entry v j)).
Proof.
  intros [V1 V2]. unfold viol_setZero_location. split.
  - intros H. destruct (checkLength l (viol_size v)) eqn:C; [|reflexivity]. apply checkLength_iff in C. lia.
  - intros B. rewrite assert_true by (apply checkLength_iff; exact B). unfold viol_size in *.
    rewrite assert_true by (apply andb_true_intro; split; apply Nat.leb_le; lia).
    set (z := repeat 0 (len l)). assert (Lz : len l = length z) by (unfold z; rewrite repeat_length; reflexivity).
    assert (K : forall dst : list R, (offset l + len l <= length dst)%nat -> copy_into dst (offset l) z = segment_assign dst l z).
    { intros dst Hd. unfold segment_assign. rewrite assert_true by (apply andb_true_intro; split; [apply Nat.leb_le; lia|apply Nat.eqb_eq; exact Lz]). reflexivity. }
    rewrite !K by lia.
    destruct (seg_assign (v_data v) l z) as (d & Ed & Ld & Nd); [exact B|exact Lz|].
    destruct (seg_assign (v_lower v) l z) as (lo & El & Ll & Nl); [lia|lia|].
    destruct (seg_assign (v_upper v) l z) as (up & Eu & Lu & Nu); [lia|lia|].
    rewrite Ed, El, Eu. cbn [bind]. eexists; split; [reflexivity|]. unfold consistent. cbn [v_data v_lower v_upper].
    split; [lia|]. split; [exact Ld|]. split.
    + intros i Hi. unfold entry, viol_get, viol_getLower, viol_getUpper. cbn [v_data v_lower v_upper]. rewrite !read_some, Nd, Nl, Nu.
      replace (offset l <=? offset l + i)%nat with true by (symmetry; apply Nat.leb_le; lia).
      replace (offset l + i <? offset l + len l)%nat with true by (symmetry; apply Nat.ltb_lt; lia). cbn [andb].
      unfold z. rewrite nth_error_repeat. replace (offset l + i - offset l <? len l)%nat with true by (symmetry; apply Nat.ltb_lt; lia). reflexivity.
    + intros j Hj. assert (F : ((offset l <=? j) && (j <? offset l + len l))%nat = false).
      { destruct Hj; [replace (offset l <=? j)%nat with false by (symmetry; apply Nat.leb_gt; lia); reflexivity|].
        replace (j <? offset l + len l)%nat with false by (symmetry; apply Nat.ltb_ge; lia). apply andb_false_r. }
      apply entry_eq; cbn [v_data v_lower v_upper]; [rewrite Nd|rewrite Nl|rewrite Nu]; rewrite F; reflexivity.
Qed.

Lemma resized_length junk n l : length (resized junk n l) = n.
Proof. unfold resized. destruct (Nat.eqb_spec (length l) n); [assumption|]. rewrite map_length, seq_length. reflexivity. Qed.

(** whatever the object contained before, and whatever the memory contains *)
Theorem viol_initialize_from_spec junk v l o : consistent v -> consistent o ->
  ((viol_size o < offset l + len l)%nat -> viol_initialize_from junk v o l = Throw) /\
  ((offset l + len l <= viol_size o)%nat ->
    exists r, viol_initialize_from junk v o l = Ok r /\ consistent r /\ viol_size r = len l /\
      (forall i, (i < len l)%nat -> entry r i = entry o (offset l + i))).
Proof.
  intros V O. unfold viol_initialize_from. split.
  - intros H. destruct (checkLength l (viol_size o)) eqn:C; [|reflexivity]. apply checkLength_iff in C. lia.
  - intros B. rewrite assert_true by (apply checkLength_iff; exact B).
    assert (G : consistent (if (viol_size v =? len l)%nat then v else viol_initialize junk v (len l)) /\
                len l = viol_size (if (viol_size v =? len l)%nat then v else viol_initialize junk v (len l))).
    { destruct (Nat.eqb_spec (viol_size v) (len l)); [auto|]. unfold consistent, viol_size, viol_initialize. cbn [v_data v_lower v_upper]. rewrite !resized_length. auto. }
    exact (proj2 (viol_copyFrom_spec _ l o (proj1 G) O) B (proj2 G)).
Qed.
Theorem viol_initialize_spec junk v n : consistent (viol_initialize junk v n) /\ viol_size (viol_initialize junk v n) = n.
Proof. unfold consistent, viol_size, viol_initialize. cbn [v_data v_lower v_upper]. rewrite !resized_length. auto. Qed.

(** ** active sets of the levels *)
Theorem levels_initialised n (nctr : list nat) : (n <= length nctr)%nat ->
  exists s, ass_initialize n nctr = Ok s /\ length s = n /\
    forall i, (i < n)%nat -> exists k a, nth_error nctr i = Some k /\ nth_error s i = Some a /\ length a = k /\ forall t, In t a -> t = UNDEFINED.
Proof.
  intros H. unfold ass_initialize.
  destruct (for_up_inv (fun m (s : asets) => length s = n /\ forall i, (i < m)%nat -> exists k a, nth_error nctr i = Some k /\ nth_error s i = Some a /\ length a = k /\ forall t, In t a -> t = UNDEFINED)
     (fun i s => match nth_error nctr i with Some n0 => write_at s i (as_initialize n0) | None => UB end) n 0 (repeat [] n)) as (s & E & L & P).
  - split; [apply repeat_length|lia].
  - intros i s Hi [L P]. destruct (nth_error nctr i) as [k|] eqn:Ek; [|apply nth_error_None in Ek; lia].
    unfold write_at. rewrite assert_true by (apply Nat.ltb_lt; lia). eexists; split; [reflexivity|]. split; [rewrite update_length; exact L|].
    intros j Hj. destruct (Nat.eq_dec j i) as [->|N].
    + exists k, (as_initialize k). split; [exact Ek|]. rewrite nth_error_update. rewrite Nat.eqb_refl.
      replace (i <? length s)%nat with true by (symmetry; apply Nat.ltb_lt; lia). split; [reflexivity|]. unfold as_initialize. rewrite repeat_length.
      split; [reflexivity|]. intros t Ht. exact (repeat_spec _ _ _ Ht).
    + destruct (P j) as (k' & a & A & B & C); [lia|]. exists k', a. split; [exact A|]. split; [|exact C]. rewrite nth_error_update.
      replace (i =? j)%nat with false by (symmetry; apply Nat.eqb_neq; lia). exact B.
  - exists s. auto.
Qed.
Theorem levels_overrun n (nctr : list nat) : (length nctr < n)%nat -> ass_initialize n nctr = UB.
Proof.
  intros H. unfold ass_initialize. 
  assert (G : forall c f (s : asets), (f <= length nctr)%nat -> (length nctr < f + c)%nat -> length s = n -> (f + c = n)%nat ->
    for_up c f (fun i s => match nth_error nctr i with Some n0 => write_at s i (as_initialize n0) | None => UB end) s = UB).
  { induction c as [|c IH]; intros f s A B L N; [lia|]. cbn [for_up]. destruct (nth_error nctr f) eqn:E; [|reflexivity].
    assert (f < length nctr)%nat by (apply nth_error_Some; congruence). unfold write_at at 1. rewrite assert_true by (apply Nat.ltb_lt; lia). cbn [bind].
    apply IH; [lia|lia|rewrite update_length; exact L|lia]. }
  apply G; [lia|lia|apply repeat_length|lia].
Qed.
Theorem level_set (s : asets) lvl t : (lvl < length s)%nat -> exists r, ass_set s lvl t = Ok r /\ length r = length s /\
  (forall j, j <> lvl -> nth_error r j = nth_error s j) /\
  (exists a b, nth_error s lvl = Some a /\ nth_error r lvl = Some b /\ length b = length a /\ forall x, In x b -> x = t).
Proof.
  intros H. unfold ass_set. destruct (nth_error s lvl) as [a|] eqn:E; [|apply nth_error_None in E; lia].
  unfold as_set_all, as_set_location. rewrite assert_true by (apply checkLength_iff; cbn [offset len]; lia). unfold loc_end. cbn [offset len].
  unfold copy_into. rewrite repeat_length. replace (0 + length a - 0)%nat with (length a) by lia. rewrite Nat.leb_refl. cbn [bind].
  unfold write_at. rewrite assert_true by (apply Nat.ltb_lt; lia). eexists; split; [reflexivity|]. split; [apply update_length|]. split.
  - intros j N. rewrite nth_error_update. replace (lvl =? j)%nat with false by (symmetry; apply Nat.eqb_neq; lia). reflexivity.
  - exists a. eexists. split; [reflexivity|]. rewrite nth_error_update, Nat.eqb_refl. replace (lvl <? length s)%nat with true by (symmetry; apply Nat.ltb_lt; lia).
    split; [reflexivity|]. rewrite firstn_O, app_nil_l, skipn_all2, app_nil_r by (rewrite ?repeat_length; lia).
    split; [apply repeat_length|]. intros x Hx. exact (repeat_spec _ _ _ Hx).
Qed.
Theorem level_set_rejected (s : asets) lvl t : (length s <= lvl)%nat -> ass_set s lvl t = Throw.
Proof. intros H. unfold ass_set. apply nth_error_None in H. rewrite H. reflexivity. Qed.
