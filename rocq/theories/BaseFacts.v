(** Lemmas about the vocabulary of Base.v. *)
From Coq Require Import List Arith ZArith Lia Bool ZifyBool.
From Verif Require Import Base.
Import ListNotations.

Lemma bind_ok {A B} (x : outcome A) (f : A -> outcome B) b :
  bind x f = Ok b <-> exists a, x = Ok a /\ f a = Ok b.
Proof.
  destruct x; simpl; split; intros H.
  - exists a; auto.
  - destruct H as (a' & E & F); inversion E; subst; auto.
  - discriminate.
  - destruct H as (? & ? & _); discriminate.
  - discriminate.
  - destruct H as (? & ? & _); discriminate.
Qed.

Lemma assert_ok {A} c (x : outcome A) a :
  assert_then c x = Ok a <-> c = true /\ x = Ok a.
Proof. unfold assert_then; destruct c; intuition discriminate. Qed.

Lemma update_length {A} (l : list A) i v : length (update l i v) = length l.
Proof. revert i; induction l as [|h t IH]; destruct i; simpl; auto. Qed.

Lemma nth_error_update {A} (l : list A) i v j :
  nth_error (update l i v) j =
  if (i =? j) && (i <? length l) then Some v else nth_error l j.
Proof.
  revert i j; induction l as [|h t IH]; intros i j.
  - destruct i, j; simpl; rewrite ?andb_false_r; reflexivity.
  - destruct i as [|i], j as [|j]; simpl; try reflexivity.
    rewrite IH. reflexivity.
Qed.

Lemma checkLength_iff l m : checkLength l m = true <-> offset l + len l <= m.
Proof. unfold checkLength, loc_end; lia. Qed.

Lemma loc_eqb_eq a b : loc_eqb a b = true <-> a = b.
Proof.
  unfold loc_eqb; destruct a as [o1 l1], b as [o2 l2]; simpl.
  rewrite andb_true_iff, !Nat.eqb_eq. split.
  - intros [-> ->]; reflexivity.
  - intros E; inversion E; auto.
Qed.

Lemma nth_error_firstn {A} (l : list A) n i :
  nth_error (firstn n l) i = if i <? n then nth_error l i else None.
Proof.
  revert l i; induction n as [|n IH]; intros l i; simpl.
  - destruct i; reflexivity.
  - destruct l as [|h t].
    + destruct (i <? S n); destruct i; reflexivity.
    + destruct i as [|i]; simpl; [reflexivity|]. rewrite IH.
      replace (S i <? S n) with (i <? n) by (destruct (Nat.ltb_spec i n), (Nat.ltb_spec (S i) (S n)); lia).
      reflexivity.
Qed.

Lemma nth_error_skipn {A} (l : list A) n i :
  nth_error (skipn n l) i = nth_error l (n + i).
Proof.
  revert l; induction n as [|n IH]; intros l; simpl; [reflexivity|].
  destruct l as [|h t]; [destruct i; reflexivity|apply IH].
Qed.

Lemma nth_error_app {A} (a b : list A) i :
  nth_error (a ++ b) i = if i <? length a then nth_error a i else nth_error b (i - length a).
Proof.
  destruct (Nat.ltb_spec i (length a)).
  - apply nth_error_app1; assumption.
  - apply nth_error_app2; assumption.
Qed.

Lemma nth_error_ext {A} (a b : list A) :
  (forall i, nth_error a i = nth_error b i) -> a = b.
Proof.
  revert b; induction a as [|x a IH]; intros [|y b] H; auto.
  - specialize (H 0); discriminate.
  - specialize (H 0); discriminate.
  - f_equal.
    + specialize (H 0); simpl in H; congruence.
    + apply IH; intro i; exact (H (S i)).
Qed.

Lemma nth_error_repeat {A} (x : A) n i :
  nth_error (repeat x n) i = if i <? n then Some x else None.
Proof.
  revert i; induction n as [|n IH]; intros [|i]; simpl; auto.
  rewrite IH. destruct (Nat.ltb_spec i n), (Nat.ltb_spec (S i) (S n)); auto; lia.
Qed.

Lemma copy_into_ok {A} (dst : list A) off src r :
  copy_into dst off src = Ok r ->
  off + length src <= length dst /\
  r = firstn off dst ++ src ++ skipn (off + length src) dst.
Proof.
  unfold copy_into; destruct (Nat.leb_spec (off + length src) (length dst)) as [H|H]; intros E;
    inversion E; auto.
Qed.

Lemma copy_into_length {A} (dst : list A) off src r :
  copy_into dst off src = Ok r -> length r = length dst.
Proof.
  intros E; apply copy_into_ok in E; destruct E as [H ->].
  rewrite !app_length, skipn_length, firstn_length. lia.
Qed.

Lemma nth_error_copy_into {A} (dst : list A) off src r i :
  copy_into dst off src = Ok r ->
  nth_error r i =
  if (off <=? i) && (i <? off + length src) then nth_error src (i - off) else nth_error dst i.
Proof.
  intros E; apply copy_into_ok in E; destruct E as [H ->].
  rewrite nth_error_app, firstn_length, Nat.min_l by lia.
  destruct (Nat.ltb_spec i off) as [L|L].
  - rewrite nth_error_firstn.
    replace (off <=? i) with false by (symmetry; apply Nat.leb_gt; lia).
    replace (i <? off) with true by (symmetry; apply Nat.ltb_lt; lia).
    reflexivity.
  - rewrite nth_error_app, nth_error_skipn.
    replace (off <=? i) with true by (symmetry; apply Nat.leb_le; lia). simpl.
    destruct (Nat.ltb_spec (i - off) (length src)), (Nat.ltb_spec i (off + length src)); try lia; auto.
    f_equal; lia.
Qed.

Lemma nth_error_segment {A} (l : list A) off n i :
  nth_error (segment l off n) i = if i <? n then nth_error l (off + i) else None.
Proof. unfold segment; rewrite nth_error_firstn, nth_error_skipn; reflexivity. Qed.

Lemma segment_length {A} (l : list A) off n :
  off + n <= length l -> length (segment l off n) = n.
Proof. intros H; unfold segment; rewrite firstn_length, skipn_length; lia. Qed.

Lemma segment_all {A} (l : list A) : segment l 0 (length l) = l.
Proof. unfold segment; simpl; apply firstn_all. Qed.

(** Pointwise specification of a loop writing element [off + i] from [f i]. *)
Lemma for_up_write {A} (f : nat -> A) off n :
  forall first l,
  off + first + n <= length l ->
  exists r, for_up n first (fun i s => write_at s (off + i) (f i)) l = Ok r /\
            length r = length l /\
            forall j, nth_error r j =
                      if (off + first <=? j) && (j <? off + first + n) then Some (f (j - off))
                      else nth_error l j.
Proof.
  induction n as [|n IH]; intros first l H; simpl.
  - exists l; repeat split; auto. intros j.
    destruct (Nat.leb_spec (off + first) j), (Nat.ltb_spec j (off + first + 0)); simpl; auto; lia.
  - unfold write_at, assert_then.
    destruct (Nat.ltb_spec (off + first) (length l)) as [L|L]; [|lia]. simpl.
    destruct (IH (S first) (update l (off + first) (f first))) as (r & E & Hl & Hn).
    { rewrite update_length; lia. }
    unfold write_at, assert_then in E. rewrite E. exists r. split; [reflexivity|].
    rewrite update_length in Hl. split; [assumption|].
    intros j. rewrite Hn, nth_error_update.
    destruct (Nat.eqb_spec (off + first) j) as [<-|N].
    + replace (off + first <=? off + first) with true by (symmetry; apply Nat.leb_le; lia).
      replace (off + first <? length l) with true by (symmetry; apply Nat.ltb_lt; lia).
      replace (off + S first <=? off + first) with false by (symmetry; apply Nat.leb_gt; lia).
      replace (off + first <? off + first + S n) with true by (symmetry; apply Nat.ltb_lt; lia).
      simpl. f_equal. f_equal. lia.
    + simpl.
      destruct (Nat.leb_spec (off + S first) j), (Nat.ltb_spec j (off + S first + n)),
        (Nat.leb_spec (off + first) j), (Nat.ltb_spec j (off + first + S n)); simpl; auto; lia.
Qed.

Lemma skipn_skipn {A} (l : list A) a b : skipn a (skipn b l) = skipn (b + a) l.
Proof. apply nth_error_ext; intros i. rewrite !nth_error_skipn. f_equal; lia. Qed.
Lemma assert_true {A} c (x : outcome A) : c = true -> assert_then c x = x.
Proof. intros ->. reflexivity. Qed.
(** invariant of a counting loop which does not fail *)
Lemma for_up_inv {S} (P : nat -> S -> Prop) (body : nat -> S -> outcome S) count : forall first s,
  P first s ->
  (forall i s, first <= i < first + count -> P i s -> exists s', body i s = Ok s' /\ P (Datatypes.S i) s') ->
  exists s', for_up count first body s = Ok s' /\ P (first + count) s'.
Proof.
  induction count as [|c IH]; intros first s P0 H; cbn [for_up].
  - exists s. split; [reflexivity|]. rewrite Nat.add_0_r. exact P0.
  - destruct (H first s) as (s1 & E1 & P1); [lia|exact P0|]. rewrite E1. cbn [bind].
    destruct (IH (Datatypes.S first) s1) as (s2 & E2 & P2); [exact P1|intros i x Hi; apply H; lia|].
    exists s2. split; [exact E2|]. replace (first + Datatypes.S c) with (Datatypes.S first + c) by lia. exact P2.
Qed.
