(** * Proofs about the motion queue (C57) and the lookup of time instants (C59) *)
From Coq Require Import List Arith ZArith Lia Reals Lra Bool.
From Verif Require Import Base Mat2 PepperPreview PepperPreviewSpec.
Import ListNotations.

Lemma is_unlimited_iff m : is_unlimited m = true <-> mo_duration m = (-1)%Z.
Proof. unfold is_unlimited, UNLIMITED. apply Z.eqb_eq. Qed.
Lemma is_unlimited_false m : is_unlimited m = false <-> mo_duration m <> (-1)%Z.
Proof. unfold is_unlimited, UNLIMITED. apply Z.eqb_neq. Qed.
Lemma clip_pos d : (0 <= d)%Z -> clip_duration d = d.
Proof. intros H. unfold clip_duration. destruct (Z.ltb_spec d 0); lia. Qed.

Lemma shift_loop_timeline q : valid_queue q -> forall t u, (0 <= t)%Z -> (0 <= u)%Z -> commanded (shift_loop q t) u = commanded q (t + u).
Proof.
  induction 1 as [|m q V _ IH]; intros t u Ht Hu; [reflexivity|]. cbn [shift_loop].
  destruct (is_unlimited m) eqn:E.
  - apply is_unlimited_iff in E. unfold commanded. cbn. destruct (Z.eq_dec (mo_duration m) (-1)); [reflexivity|contradiction].
  - apply is_unlimited_false in E. destruct V as [V|V]; [contradiction|].
    destruct (Z.leb_spec (mo_duration m) t) as [L|L].
    + rewrite (IH (t - mo_duration m)%Z u) by lia. unfold commanded. cbn [executed].
      destruct (Z.eq_dec (mo_duration m) (-1)); [contradiction|]. destruct (Z_lt_dec (t + u) (mo_duration m)); [lia|].
      replace (t + u - mo_duration m)%Z with (t - mo_duration m + u)%Z by lia. reflexivity.
    + rewrite clip_pos by lia. unfold commanded. cbn [executed set_duration mo_duration].
      destruct (Z.eq_dec (mo_duration m - t) (-1)); [lia|]. destruct (Z.eq_dec (mo_duration m) (-1)); [contradiction|].
      destruct (Z_lt_dec u (mo_duration m - t)), (Z_lt_dec (t + u) (mo_duration m)); try lia; [reflexivity|].
      replace (t + u - mo_duration m)%Z with (u - (mo_duration m - t))%Z by lia. reflexivity.
Qed.

Lemma used_shift_default T : used_shift T (-1) = T.
Proof. reflexivity. Qed.
Lemma used_shift_given T t : (0 <= t)%Z -> used_shift T t = t.
Proof. intros H. unfold used_shift. destruct (Z.eqb_spec t (-1)); [lia|reflexivity]. Qed.

Theorem shift_timeline T t q u : valid_queue q -> (0 <= t)%Z -> (0 <= u)%Z -> commanded (shift_queue T t q) u = commanded q (t + u).
Proof. intros V Ht Hu. unfold shift_queue. rewrite used_shift_given by exact Ht. apply shift_loop_timeline; assumption. Qed.
Theorem shift_timeline_default T q u : valid_queue q -> (0 <= T)%Z -> (0 <= u)%Z -> commanded (shift_queue T (-1) q) u = commanded q (T + u).
Proof. intros V Ht Hu. unfold shift_queue. rewrite used_shift_default. apply shift_loop_timeline; assumption. Qed.

(** what is left: nothing, or the queue without some motions at its front, whose first motion is shortened *)
Lemma shift_loop_rest q : valid_queue q -> forall t, (0 <= t)%Z ->
  (shift_loop q t = [] /\ ~ endless q /\ (total q <= t)%Z) \/
  exists removed m rest d, q = removed ++ m :: rest /\ ~ endless removed /\ shift_loop q t = set_duration m d :: rest /\
    ((mo_duration m = (-1)%Z /\ d = (-1)%Z /\ (total removed <= t)%Z) \/
     (mo_duration m <> (-1)%Z /\ (0 < d <= mo_duration m)%Z /\ (total removed + (mo_duration m - d) = t)%Z)).
Proof.
  induction 1 as [|m q V _ IH]; intros t Ht.
  - left. split; [reflexivity|]. split; [intros (m & [] & _)|]. cbn. lia.
  - cbn [shift_loop]. destruct (is_unlimited m) eqn:E.
    + apply is_unlimited_iff in E. right. exists [], m, q, (-1)%Z. split; [reflexivity|]. split; [intros (m' & [] & _)|].
      split; [destruct m as [v p a d]; cbn in *; subst; reflexivity|]. left. cbn. repeat split; try assumption; lia.
    + apply is_unlimited_false in E. destruct V as [V|V]; [contradiction|].
      destruct (Z.leb_spec (mo_duration m) t) as [L|L].
      * destruct (IH (t - mo_duration m)%Z ltac:(lia)) as [(H1 & H2 & H3)|(removed & m' & rest & d & H1 & H2 & H3 & H4)].
        -- left. split; [exact H1|]. split; [|cbn; lia]. intros (x & [Hx|Hx] & Hd); [subst; contradiction|]. apply H2. exists x. tauto.
        -- right. exists (m :: removed), m', rest, d. rewrite H1 at 1. split; [reflexivity|].
           split; [intros (x & [Hx|Hx] & Hd); [subst; contradiction|]; apply H2; exists x; tauto|].
           split; [exact H3|]. cbn [total]. destruct H4 as [(A & B & C)|(A & B & C)]; [left|right]; repeat split; try assumption; lia.
      * right. exists [], m, q, (mo_duration m - t)%Z. split; [reflexivity|]. split; [intros (m' & [] & _)|].
        split; [rewrite clip_pos by lia; reflexivity|]. right. cbn. repeat split; try assumption; lia.
Qed.
Theorem shift_rest T t q : valid_queue q -> (0 <= t)%Z ->
  (shift_queue T t q = [] /\ ~ endless q /\ (total q <= t)%Z) \/
  exists removed m rest d, q = removed ++ m :: rest /\ ~ endless removed /\ shift_queue T t q = set_duration m d :: rest /\
    ((mo_duration m = (-1)%Z /\ d = (-1)%Z /\ (total removed <= t)%Z) \/
     (mo_duration m <> (-1)%Z /\ (0 < d <= mo_duration m)%Z /\ (total removed + (mo_duration m - d) = t)%Z)).
Proof. intros V Ht. unfold shift_queue. rewrite used_shift_given by exact Ht. apply shift_loop_rest; assumption. Qed.

Lemma total_app a b : total (a ++ b) = (total a + total b)%Z.
Proof. induction a as [|m a IH]; cbn; [lia|rewrite IH; lia]. Qed.
Lemma total_nonneg q : valid_queue q -> ~ endless q -> (0 <= total q)%Z.
Proof.
  induction 1 as [|m q V _ IH]; intros E; cbn; [lia|].
  assert (~ endless q) by (intros (x & Hx & Hd); apply E; exists x; split; [right; exact Hx|exact Hd]).
  destruct V as [V|V]; [exfalso; apply E; exists m; split; [left; reflexivity|exact V]|]. specialize (IH H). lia.
Qed.
Theorem shift_total T t q : valid_queue q -> ~ endless q -> (0 <= t)%Z -> total (shift_queue T t q) = Z.max 0 (total q - t).
Proof.
  intros V E Ht. destruct (shift_rest T t q V Ht) as [(H1 & H2 & H3)|(removed & m & rest & d & H1 & H2 & H3 & H4)].
  - rewrite H1. cbn. lia.
  - rewrite H3, H1, total_app. cbn. destruct H4 as [(A & B & C)|(A & B & C)].
    + exfalso. apply E. exists m. rewrite H1. split; [apply in_or_app; right; left; reflexivity|exact A].
    + assert (0 <= total rest)%Z; [|lia]. apply total_nonneg.
      * rewrite H1 in V. apply Forall_app in V. destruct V as [_ V]. inversion V; assumption.
      * intros (x & Hx & Hd). apply E. exists x. rewrite H1. split; [apply in_or_app; right; right; exact Hx|exact Hd].
Qed.
Theorem shift_valid T t q : valid_queue q -> (0 <= t)%Z -> valid_queue (shift_queue T t q).
Proof.
  intros V Ht. destruct (shift_rest T t q V Ht) as [(H1 & _)|(removed & m & rest & d & H1 & _ & H3 & H4)]; [rewrite H1; constructor|].
  rewrite H3. rewrite H1 in V. apply Forall_app in V. destruct V as [_ V]. inversion V as [|? ? Vm Vr]; subst. constructor; [|exact Vr].
  unfold valid_duration in *. cbn. destruct H4 as [(A & B & C)|(A & B & C)]; [left; exact B|right]. destruct Vm as [Vm|Vm]; [contradiction|]. lia.
Qed.
Theorem shift_endless T t q : valid_queue q -> (0 <= t)%Z -> endless q <-> endless (shift_queue T t q).
Proof.
  intros V Ht. destruct (shift_rest T t q V Ht) as [(H1 & H2 & _)|(removed & m & rest & d & H1 & H2 & H3 & H4)].
  - rewrite H1. split; [intros E; contradiction|intros (x & [] & _)].
  - rewrite H3, H1. split; intros (x & Hx & Hd).
    + apply in_app_or in Hx. destruct Hx as [Hx|[Hx|Hx]].
      * exfalso. apply H2. exists x. tauto.
      * subst x. destruct H4 as [(A & B & C)|(A & _)]; [|contradiction]. exists (set_duration m d). split; [left; reflexivity|exact B].
      * exists x. split; [right; exact Hx|exact Hd].
    + destruct Hx as [Hx|Hx].
      * subst x. cbn in Hd. destruct H4 as [(A & B & C)|(A & B & C)]; [|lia]. exists m. split; [apply in_or_app; right; left; reflexivity|exact A].
      * exists x. split; [apply in_or_app; right; right; exact Hx|exact Hd].
Qed.

(** one motion *)
Theorem shift_single_timeline T t m u : valid_duration m -> (0 <= t)%Z -> (0 <= u)%Z ->
  commanded [shift_single T t m] u = commanded [m] (t + u).
Proof.
  intros V Ht Hu. unfold shift_single. rewrite used_shift_given by exact Ht. destruct (is_unlimited m) eqn:E.
  - apply is_unlimited_iff in E. unfold commanded. cbn. destruct (Z.eq_dec (mo_duration m) (-1)); [reflexivity|contradiction].
  - apply is_unlimited_false in E. destruct V as [V|V]; [contradiction|]. unfold commanded. cbn [executed set_duration mo_duration].
    unfold clip_duration. destruct (Z.ltb_spec (mo_duration m - t) 0).
    + destruct (Z.eq_dec (mo_duration m) (-1)); [contradiction|]. cbn [Z.eq_dec]. destruct (Z.eq_dec 0 (-1)); [lia|].
      destruct (Z_lt_dec u 0); [lia|]. destruct (Z_lt_dec (t + u) (mo_duration m)); [lia|reflexivity].
    + destruct (Z.eq_dec (mo_duration m - t) (-1)); [lia|]. destruct (Z.eq_dec (mo_duration m) (-1)); [contradiction|].
      destruct (Z_lt_dec u (mo_duration m - t)), (Z_lt_dec (t + u) (mo_duration m)); try lia; reflexivity.
Qed.
Theorem shift_single_command T t m : command_of (shift_single T t m) = command_of m.
Proof. unfold shift_single. destruct (is_unlimited m); reflexivity. Qed.
Theorem shift_single_duration T t m : valid_duration m -> (0 <= t)%Z ->
  mo_duration (shift_single T t m) = if Z.eq_dec (mo_duration m) (-1) then (-1)%Z else Z.max 0 (mo_duration m - t).
Proof.
  intros V Ht. unfold shift_single. rewrite used_shift_given by exact Ht. destruct (is_unlimited m) eqn:E.
  - apply is_unlimited_iff in E. destruct (Z.eq_dec (mo_duration m) (-1)); [exact E|contradiction].
  - apply is_unlimited_false in E. destruct (Z.eq_dec (mo_duration m) (-1)); [contradiction|]. cbn. unfold clip_duration.
    destruct (Z.ltb_spec (mo_duration m - t) 0); lia.
Qed.

(** ** Lookup of a time instant *)
Lemma lookup_ms_spec ds : forall off k,
  match lookup_ms ds off k with
  | Ok (i, r) => (k <= i)%nat /\ exists d, nth_error ds (i - k) = Some d /\ (off = list_sum (firstn (i - k) ds) + r)%nat /\ (r <= d)%nat /\ (i = k \/ 0 < r)%nat
  | Throw => (list_sum ds < off)%nat \/ ds = []
  | UB => False
  end.
Proof.
  induction ds as [|d ds IH]; intros off k; cbn [lookup_ms]; [right; reflexivity|].
  destruct (Nat.ltb_spec d off) as [L|L].
  - specialize (IH (off - d)%nat (S k)). destruct (lookup_ms ds (off - d) (S k)) as [[i r]| |]; [| |exact IH].
    + destruct IH as (H1 & d' & H2 & H3 & H4 & H5). split; [lia|]. exists d'.
      replace (i - k)%nat with (S (i - S k)) by lia. cbn [nth_error firstn].
      change (list_sum (d :: firstn (i - S k) ds)) with (d + list_sum (firstn (i - S k) ds))%nat.
      destruct H5 as [H5|H5].
      * subst i. rewrite Nat.sub_diag in *. cbn in *. repeat split; try assumption; lia.
      * repeat split; try assumption; try lia.
    + left. destruct IH as [IH|IH]; [change (list_sum (d :: ds)) with (d + list_sum ds)%nat; lia|]. subst. cbn. lia.
  - split; [lia|]. exists d. rewrite Nat.sub_diag. cbn. repeat split; try lia.
Qed.

Theorem lookup_ms_sound ds off i r : getIntervalIndexByTimeOffset_ms ds off = Ok (i, r) ->
  exists d, nth_error ds i = Some d /\ off = (sum_before ds i + r)%nat /\ (r <= d)%nat /\ (i = 0 \/ 0 < r)%nat.
Proof.
  intros H. pose proof (lookup_ms_spec ds off 0) as S. unfold getIntervalIndexByTimeOffset_ms in H. rewrite H in S.
  rewrite Nat.sub_0_r in S. destruct S as (_ & d & S). exists d. exact S.
Qed.
Lemma sum_firstn_le ds : forall i, (list_sum (firstn i ds) <= list_sum ds)%nat.
Proof.
  induction ds as [|d ds IH]; intros [|i]; cbn [firstn]; try lia; [change (list_sum []) with 0%nat; lia|].
  change (list_sum (d :: firstn i ds)) with (d + list_sum (firstn i ds))%nat. change (list_sum (d :: ds)) with (d + list_sum ds)%nat. specialize (IH i). lia.
Qed.
Lemma sum_firstn_S ds : forall i d, nth_error ds i = Some d -> list_sum (firstn (S i) ds) = (list_sum (firstn i ds) + d)%nat.
Proof.
  induction ds as [|a ds IH]; intros [|i] d H; cbn [nth_error] in H; try discriminate.
  - injection H as ->. cbn. lia.
  - specialize (IH _ _ H). rewrite firstn_cons. change (firstn (S i) (a :: ds)) with (a :: firstn i ds).
    change (list_sum (a :: firstn (S i) ds)) with (a + list_sum (firstn (S i) ds))%nat.
    change (list_sum (a :: firstn i ds)) with (a + list_sum (firstn i ds))%nat. lia.
Qed.
Theorem lookup_ms_inside ds off : ds <> [] -> (off <= list_sum ds)%nat -> exists i r, getIntervalIndexByTimeOffset_ms ds off = Ok (i, r).
Proof.
  intros Hn H. pose proof (lookup_ms_spec ds off 0) as S. unfold getIntervalIndexByTimeOffset_ms.
  destruct (lookup_ms ds off 0) as [[i r]| |]; [exists i, r; reflexivity| |contradiction]. destruct S as [S|S]; [lia|contradiction].
Qed.
Theorem lookup_ms_outside ds off : (list_sum ds < off)%nat \/ ds = [] -> getIntervalIndexByTimeOffset_ms ds off = Throw.
Proof.
  intros H. unfold getIntervalIndexByTimeOffset_ms. pose proof (lookup_ms_spec ds off 0) as S.
  destruct (lookup_ms ds off 0) as [[i r]| |]; [|reflexivity|contradiction]. rewrite Nat.sub_0_r in S.
  destruct S as (_ & d & S1 & S2 & S3 & _). destruct H as [H|H]; [|subst; destruct i; discriminate].
  pose proof (sum_firstn_S _ _ _ S1). pose proof (sum_firstn_le ds (S i)). lia.
Qed.

(** in seconds: [d] may be any numbers *)
Lemma lookup_s_spec ds : forall off k,
  match lookup_s ds off k with
  | Ok (i, r) => (k <= i)%nat /\ exists d, nth_error ds (i - k) = Some d /\ off = (fold_right Rplus 0 (firstn (i - k) ds) + r)%R /\ (r <= d)%R /\ (i = k \/ 0 < r)%R
  | Throw => (fold_right Rplus 0 ds < off)%R \/ ds = []
  | UB => False
  end.
Proof.
  induction ds as [|d ds IH]; intros off k; cbn [lookup_s]; [right; reflexivity|].
  destruct (Rlt_dec d off) as [L|L].
  - specialize (IH (off - d)%R (S k)). destruct (lookup_s ds (off - d) (S k)) as [[i r]| |]; [| |exact IH].
    + destruct IH as (H1 & d' & H2 & H3 & H4 & H5). split; [lia|]. exists d'.
      replace (i - k)%nat with (S (i - S k)) by lia. cbn [nth_error firstn fold_right].
      split; [exact H2|]. split; [lra|]. split; [exact H4|]. right. destruct H5 as [H5|H5]; [|exact H5].
      subst i. rewrite Nat.sub_diag in H3. cbn in H3. lra.
    + left. destruct IH as [IH|IH]; [cbn; lra|]. subst. cbn. lra.
  - split; [lia|]. exists d. rewrite Nat.sub_diag. cbn. split; [reflexivity|]. split; [lra|]. split; [lra|]. left; reflexivity.
Qed.
Theorem lookup_s_sound ds off i r : getIntervalIndexByTimeOffset_s ds off = Ok (i, r) ->
  exists d, nth_error ds i = Some d /\ off = (sum_before_s ds i + r)%R /\ (r <= d)%R /\ (i = 0%nat \/ 0 < r)%R.
Proof.
  intros H. pose proof (lookup_s_spec ds off 0) as S. unfold getIntervalIndexByTimeOffset_s in H. rewrite H in S.
  rewrite Nat.sub_0_r in S. destruct S as (_ & d & S). exists d. exact S.
Qed.
Theorem lookup_s_inside ds off : ds <> [] -> (off <= fold_right Rplus 0 ds)%R -> exists i r, getIntervalIndexByTimeOffset_s ds off = Ok (i, r).
Proof.
  intros Hn H. pose proof (lookup_s_spec ds off 0) as S. unfold getIntervalIndexByTimeOffset_s.
  destruct (lookup_s ds off 0) as [[i r]| |]; [exists i, r; reflexivity| |contradiction]. destruct S as [S|S]; [lra|contradiction].
Qed.
Lemma sum_s_firstn_le ds : Forall (fun d => 0 <= d)%R ds -> forall i d, nth_error ds i = Some d -> (fold_right Rplus 0 (firstn i ds) + d <= fold_right Rplus 0 ds)%R.
Proof.
  induction 1 as [|a ds Ha Hf IH]; intros [|i] d H; cbn [nth_error] in H; try discriminate; cbn [firstn fold_right].
  - injection H as ->. assert (0 <= fold_right Rplus 0 ds)%R; [|lra]. clear -Hf. induction Hf; cbn; lra.
  - specialize (IH _ _ H). lra.
Qed.
Theorem lookup_s_outside ds off : Forall (fun d => 0 <= d)%R ds -> (fold_right Rplus 0 ds < off)%R \/ ds = [] -> getIntervalIndexByTimeOffset_s ds off = Throw.
Proof.
  intros F H. unfold getIntervalIndexByTimeOffset_s. pose proof (lookup_s_spec ds off 0) as S.
  destruct (lookup_s ds off 0) as [[i r]| |]; [|reflexivity|contradiction]. rewrite Nat.sub_0_r in S.
  destruct S as (_ & d & S1 & S2 & S3 & _). destruct H as [H|H]; [|subst; destruct i; discriminate].
  pose proof (sum_s_firstn_le ds F i d S1). lra.
Qed.

(** the walking module *)
Lemma com_lookup_eq ds : forall off k T, com_lookup ds off k T =
  match lookup_ms ds off k with
  | Ok (i, r) => (i, r, Some (nth (i - k) ds 0%nat))
  | _ => let '(_, r, T') := com_lookup ds off k T in ((k + length ds)%nat, r, T')
  end.
Proof.
  induction ds as [|d ds IH]; intros off k T; cbn [com_lookup lookup_ms]; [cbn; rewrite Nat.add_0_r; reflexivity|].
  destruct (Nat.ltb_spec d off) as [L|L].
  - rewrite (IH (off - d)%nat (S k) (Some d)). pose proof (lookup_ms_spec ds (off - d) (S k)) as Sp.
    destruct (lookup_ms ds (off - d) (S k)) as [[i r]| |].
    + destruct Sp as (S1 & _). replace (i - k)%nat with (S (i - S k)) by lia. reflexivity.
    + destruct (com_lookup ds (off - d) (S k) (Some d)) as [[? ?] ?]. cbn [length]. replace (S k + length ds)%nat with (k + S (length ds))%nat by lia. reflexivity.
    + contradiction.
  - rewrite Nat.sub_diag. reflexivity.
Qed.
Theorem com_interval_is_lookup ds t : com_interval ds t =
  bind (getIntervalIndexByTimeOffset_ms ds t) (fun r => Ok (fst r, snd r, nth (fst r) ds 0%nat)).
Proof.
  unfold com_interval, getIntervalIndexByTimeOffset_ms. rewrite com_lookup_eq. pose proof (lookup_ms_spec ds t 0) as S.
  destruct (lookup_ms ds t 0) as [[i r]| |]; cbn [bind fst snd].
  - rewrite Nat.sub_0_r in *. destruct S as (_ & d & S1 & _). assert (i < length ds)%nat by (apply nth_error_Some; congruence).
    unfold assert_then. destruct (Nat.ltb_spec i (length ds)); [reflexivity|lia].
  - destruct (com_lookup ds t 0 None) as [[? ?] ?]. cbn [Nat.add]. rewrite Nat.ltb_irrefl. reflexivity.
  - contradiction.
Qed.
