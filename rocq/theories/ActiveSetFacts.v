(** Proofs about ActiveSet.v *)
From Coq Require Import List Arith ZArith Lia Bool ZifyBool.
From Verif Require Import Base BaseFacts ActiveSet.
Import ListNotations.

(** ** Location, machine version *)

Lemma w_checkLength_exact o n m :
  is_size_t o -> is_size_t n -> is_size_t m ->
  w_checkLength (mkWLoc o n) m = true <-> (o + n <= m)%Z.
Proof.
  unfold is_size_t, w_checkLength, w_end, szadd, size_t_max_plus_1; simpl; intros Ho Hn Hm.
  rewrite andb_true_iff, !Z.leb_le.
  destruct (Z_lt_le_dec (o + n) 18446744073709551616) as [L|L].
  - rewrite Z.mod_small by lia. lia.
  - replace ((o + n) mod 18446744073709551616)%Z with (o + n - 18446744073709551616)%Z.
    + lia.
    + apply Z.mod_unique with (q := 1%Z); lia.
Qed.

Lemma Location_check_machine l m :
  is_size_t (Z.of_nat (offset l)) -> is_size_t (Z.of_nat (len l)) -> is_size_t (Z.of_nat m) ->
  w_checkLength (mkWLoc (Z.of_nat (offset l)) (Z.of_nat (len l))) (Z.of_nat m) = checkLength l m.
Proof.
  intros Ho Hl Hm.
  apply eq_true_iff_eq. rewrite w_checkLength_exact, checkLength_iff by assumption. lia.
Qed.

(** ** copyTo *)

Lemma copyTo_cases s l other :
  (offset l + len l > length s -> as_copyTo s l other = Throw) /\
  (offset l + len l <= length s -> offset l + length other > length s -> as_copyTo s l other = UB) /\
  (offset l + len l <= length s -> offset l + length other <= length s ->
   exists r, as_copyTo s l other = Ok r).
Proof.
  unfold as_copyTo, assert_then, copy_into.
  pose proof (checkLength_iff l (length s)) as C.
  destruct (checkLength l (length s)).
  - assert (offset l + len l <= length s) by (apply C; reflexivity).
    repeat split; intros; try lia.
    + destruct (Nat.leb_spec (offset l + length other) (length s)); [lia|reflexivity].
    + destruct (Nat.leb_spec (offset l + length other) (length s)); [|lia].
      eexists; reflexivity.
  - assert (~ offset l + len l <= length s) by (intro H; apply C in H; discriminate).
    repeat split; intros; try lia; reflexivity.
Qed.

Lemma copyTo_nth s l other r :
  as_copyTo s l other = Ok r ->
  length r = length s /\
  forall i, nth_error r i =
    if (offset l <=? i) && (i <? offset l + length other) then nth_error other (i - offset l)
    else nth_error s i.
Proof.
  intros H; apply assert_ok in H; destruct H as [_ H].
  split; [eapply copy_into_length; eauto | intros i; eapply nth_error_copy_into; eauto].
Qed.

Lemma copyFrom_spec s other l :
  offset l + len l <= length other -> len l = length s ->
  as_copyFrom s other l = Ok (segment other (offset l) (len l)).
Proof.
  intros H1 H2. unfold as_copyFrom, assert_then.
  rewrite (proj2 (checkLength_iff l (length other)) H1).
  destruct (Nat.eqb_spec (len l) (length s)); [|lia].
  unfold loc_end. replace (offset l + len l - offset l) with (len l) by lia.
  unfold copy_into. rewrite segment_length by lia. simpl.
  destruct (Nat.leb_spec (len l) (length s)); [|lia].
  rewrite skipn_all2 by lia. rewrite app_nil_r. reflexivity.
Qed.

Lemma copyFrom_cases s other l :
  as_copyFrom s other l =
  if (offset l + len l <=? length other) && (len l =? length s)
  then Ok (segment other (offset l) (len l)) else Throw.
Proof.
  destruct ((offset l + len l <=? length other) && (len l =? length s)) eqn:E.
  - apply copyFrom_spec; lia.
  - unfold as_copyFrom, assert_then.
    destruct (checkLength l (length other)) eqn:C; [|reflexivity].
    apply checkLength_iff in C.
    destruct (Nat.eqb_spec (len l) (length s)); [|reflexivity]. lia.
Qed.

Lemma initialize_from_spec s other l :
  as_initialize_from s other l =
  if offset l + len l <=? length other then Ok (segment other (offset l) (len l)) else Throw.
Proof.
  unfold as_initialize_from, assert_then.
  destruct (checkLength l (length other)) eqn:C.
  - apply checkLength_iff in C.
    replace (offset l + len l <=? length other) with true by lia.
    apply copyFrom_spec; [assumption|].
    destruct (Nat.eqb_spec (length s) (len l)); [lia|rewrite repeat_length; reflexivity].
  - assert (~ offset l + len l <= length other) by (intro X; apply checkLength_iff in X; congruence).
    replace (offset l + len l <=? length other) with false by lia. reflexivity.
Qed.

Lemma copy_roundtrip s l other r t :
  length other = len l -> length t = len l ->
  as_copyTo s l other = Ok r ->
  as_copyFrom t r l = Ok other.
Proof.
  intros Ho Ht H. pose proof H as H0. apply assert_ok in H0; destruct H0 as [C _].
  apply checkLength_iff in C. apply copyTo_nth in H; destruct H as [Hl Hn].
  rewrite copyFrom_spec by lia. f_equal. apply nth_error_ext. intros i.
  rewrite nth_error_segment. destruct (Nat.ltb_spec i (len l)) as [L|L].
  - rewrite Hn. replace ((offset l <=? offset l + i) && (offset l + i <? offset l + length other)) with true by lia.
    f_equal; lia.
  - symmetry; apply nth_error_None; lia.
Qed.

(** ** set *)
Lemma set_location_spec s l t :
  (offset l + len l > length s -> as_set_location s l t = Throw) /\
  (offset l + len l <= length s ->
   exists r, as_set_location s l t = Ok r /\ length r = length s /\
   forall i, nth_error r i =
     if (offset l <=? i) && (i <? offset l + len l) then Some t else nth_error s i).
Proof.
  unfold as_set_location, assert_then. split; intros H.
  - destruct (checkLength l (length s)) eqn:C; [apply checkLength_iff in C; lia|reflexivity].
  - rewrite (proj2 (checkLength_iff _ _) H).
    unfold loc_end; replace (offset l + len l - offset l) with (len l) by lia.
    destruct (copy_into s (offset l) (repeat t (len l))) as [r| |] eqn:E.
    + exists r; split; [reflexivity|]. split; [eapply copy_into_length; eauto|].
      intros i. rewrite (nth_error_copy_into _ _ _ _ i E), repeat_length, nth_error_repeat.
      destruct ((offset l <=? i) && (i <? offset l + len l)) eqn:B; [|reflexivity].
      replace (i - offset l <? len l) with true by lia. reflexivity.
    + unfold copy_into in E. destruct (_ <=? _); discriminate.
    + unfold copy_into in E. rewrite repeat_length in E.
      destruct (Nat.leb_spec (offset l + len l) (length s)); [discriminate|lia].
Qed.

(** ** shift *)
Lemma shift_throw s k t : length s <= k <-> as_shift s k t = Throw.
Proof.
  unfold as_shift, assert_then. destruct (Nat.ltb_spec k (length s)) as [L|L]; split; intros H; try lia; auto.
  unfold copy_into in H. destruct (_ <=? _); discriminate.
Qed.

Lemma shift_spec s k t :
  k < length s ->
  exists r, as_shift s k t = Ok r /\ length r = length s /\
  forall i, nth_error r i =
    if i + k <? length s then nth_error s (i + k)
    else if i <? length s then Some t else None.
Proof.
  intros H. unfold as_shift, assert_then.
  destruct (Nat.ltb_spec k (length s)); [|lia].
  set (rot := skipn k s ++ firstn k s).
  assert (Lr : length rot = length s)
    by (unfold rot; rewrite app_length, skipn_length, firstn_length; lia).
  cbv zeta. rewrite Lr.
  destruct (copy_into rot (length s - k) (repeat t k)) as [r| |] eqn:E.
  - exists r; split; [reflexivity|]. split; [rewrite <- Lr; eapply copy_into_length; eauto|].
    intros i. rewrite (nth_error_copy_into _ _ _ _ i E), repeat_length, nth_error_repeat.
    destruct (Nat.ltb_spec (i + k) (length s)).
    + replace ((length s - k <=? i) && (i <? length s - k + k)) with false by lia.
      unfold rot. rewrite nth_error_app, skipn_length.
      destruct (Nat.ltb_spec i (length s - k)); [|lia].
      rewrite nth_error_skipn. f_equal; lia.
    + destruct (Nat.ltb_spec i (length s)).
      * replace ((length s - k <=? i) && (i <? length s - k + k)) with true by lia.
        replace (i - (length s - k) <? k) with true by lia. reflexivity.
      * replace ((length s - k <=? i) && (i <? length s - k + k)) with false by lia.
        apply nth_error_None. lia.
  - unfold copy_into in E. destruct (_ <=? _); discriminate.
  - unfold copy_into in E. rewrite repeat_length, Lr in E.
    destruct (Nat.leb_spec (length s - k + k) (length s)); [discriminate|lia].
Qed.

Lemma shift_compose s a b t :
  a + b < length s ->
  bind (as_shift s a t) (fun s' => as_shift s' b t) = as_shift s (a + b) t.
Proof.
  intros H.
  destruct (shift_spec s a t) as (r1 & E1 & L1 & N1); [lia|].
  destruct (shift_spec r1 b t) as (r2 & E2 & L2 & N2); [lia|].
  destruct (shift_spec s (a + b) t) as (r3 & E3 & L3 & N3); [lia|].
  rewrite E1; simpl. rewrite E2, E3. f_equal. apply nth_error_ext; intros i.
  rewrite N2, N3, L1, N1.
  destruct (Nat.ltb_spec (i + b) (length s)), (Nat.ltb_spec (i + b + a) (length s)),
   (Nat.ltb_spec (i + (a + b)) (length s)), (Nat.ltb_spec i (length s)); try lia; auto.
  f_equal; lia.
Qed.

(** ** count *)
Lemma count_acc s n :
  fold_left (fun n a => match a with LOWER_BOUND | UPPER_BOUND => S n | _ => n end) s n =
  n + as_count s.
Proof.
  unfold as_count. revert n.
  induction s as [|a s IH]; intros n; simpl; [lia|].
  rewrite IH, (IH (match a with LOWER_BOUND | UPPER_BOUND => 1 | _ => 0 end)).
  destruct a; lia.
Qed.

Definition act_eqb (a b : act) : bool :=
  match a, b with
  | UNDEFINED, UNDEFINED | INACTIVE, INACTIVE | LOWER_BOUND, LOWER_BOUND
  | UPPER_BOUND, UPPER_BOUND | EQUALITY, EQUALITY => true
  | _, _ => false
  end.

Lemma act_dec : forall a b : act, {a = b} + {a <> b}.
Proof. decide equality. Defined.

Lemma count_spec s :
  as_count s = count_occ act_dec s LOWER_BOUND + count_occ act_dec s UPPER_BOUND.
Proof.
  induction s as [|a s IH]; [reflexivity|].
  unfold as_count; cbn [fold_left]. rewrite count_acc, IH. cbn [count_occ].
  destruct a;
    repeat match goal with |- context [if act_dec ?x ?y then _ else _] => destruct (act_dec x y); try congruence end;
    lia.
Qed.
