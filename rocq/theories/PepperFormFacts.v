(** * Proofs about the preview horizon of Pepper (C58) *)
From Coq Require Import List Arith ZArith Lia Reals Lra Bool.
From Verif Require Import Base Mat2 PepperPreview PepperPreviewSpec PepperPreviewFacts.
Import ListNotations.

Lemma upd_len {A} (l : list A) : forall i v, length (update l i v) = length l.
Proof. induction l as [|a l IH]; intros [|i] v; cbn; try reflexivity. rewrite IH. reflexivity. Qed.
Lemma upd_same {A} (l : list A) : forall i v, (i < length l)%nat -> nth_error (update l i v) i = Some v.
Proof. induction l as [|a l IH]; intros [|i] v H; cbn in *; try lia; [reflexivity|]. apply IH. lia. Qed.
Lemma upd_other {A} (l : list A) : forall i j v, i <> j -> nth_error (update l i v) j = nth_error l j.
Proof. induction l as [|a l IH]; intros [|i] [|j] v H; cbn; try reflexivity; try contradiction. apply IH. lia. Qed.

Section Form.
Variable p : mpc_parameters.
Variable model : pepper_view.

(** the value of [theta] before interval [k] *)
Definition theta_before (theta : R) (l : list interval) (i k : nat) : R :=
  if (k =? i)%nat then theta else match nth_error l (k - 1) with Some v => in_theta v | None => 0%R end.

Lemma fill_ok m : forall count i theta l, (i + count <= length l)%nat ->
  exists l', fill count i p m model theta l = Ok (theta_before theta l' i (i + count), l') /\ length l' = length l /\
    (forall k, (k < i \/ i + count <= k)%nat -> nth_error l' k = nth_error l k) /\
    (forall k, (i <= k < i + count)%nat -> nth_error l' k = Some (interval_initialize (theta_before theta l' i k) p m model)).
Proof.
  induction count as [|c IH]; intros i theta l H; cbn [fill].
  - exists l. split; [unfold theta_before; rewrite Nat.add_0_r, Nat.eqb_refl; reflexivity|].
    split; [reflexivity|]. split; [reflexivity|]. intros; lia.
  - destruct (Nat.ltb_spec i (length l)); [|lia]. set (v := interval_initialize theta p m model).
    destruct (IH (S i) (in_theta v) (update l i v)) as (l' & E & L & Hout & Hin); [rewrite upd_len; lia|].
    rewrite upd_len in L. exists l'.
    assert (Hi : nth_error l' i = Some v) by (rewrite Hout by lia; apply upd_same; lia).
    assert (Hb : forall k, (S i <= k)%nat -> theta_before (in_theta v) l' (S i) k = theta_before theta l' i k).
    { intros k Hk. unfold theta_before. destruct (Nat.eqb_spec k i); [lia|]. destruct (Nat.eqb_spec k (S i)) as [->|Hne]; [|reflexivity].
      replace (S i - 1)%nat with i by lia. rewrite Hi. reflexivity. }
    replace (i + S c)%nat with (S i + c)%nat by lia. rewrite Hb in E by lia. split; [exact E|]. split; [exact L|]. split.
    + intros k Hk. rewrite Hout by lia. apply upd_other. lia.
    + intros k Hk. destruct (Nat.eq_dec k i) as [->|Hne].
      * rewrite Hi. unfold theta_before. rewrite Nat.eqb_refl. reflexivity.
      * rewrite Hin by lia. rewrite Hb by lia. reflexivity.
Qed.

Let N := horizon_length p.
Let T := sampling_ms p.
Hypothesis HT : (0 < T <= 2 ^ 63)%Z.

Lemma endless_dec q : endless q \/ ~ endless q.
Proof.
  induction q as [|m q IH]; [right; intros (x & [] & _)|].
  destruct (Z.eq_dec (mo_duration m) (-1)) as [E|E]; [left; exists m; split; [left; reflexivity|exact E]|].
  destruct IH as [(x & Hx & Hd)|IH]; [left; exists x; split; [right; exact Hx|exact Hd]|].
  right. intros (x & [Hx|Hx] & Hd); [subst; contradiction|]. apply IH. exists x. tauto.
Qed.
Lemma endless_cons m q : mo_duration m <> (-1)%Z -> endless (m :: q) <-> endless q.
Proof.
  intros E. split; intros (x & Hx & Hd).
  - destruct Hx as [Hx|Hx]; [subst; contradiction|]. exists x. tauto.
  - exists x. split; [right; exact Hx|exact Hd].
Qed.

Lemma form_loop_ok q : valid_queue q -> forall i rem theta l, (i < N)%nat -> (0 <= rem < T)%Z -> length l = N ->
  exists b l', form_loop p model q i rem theta l = Ok (b, l') /\ length l' = N /\
    (forall k, (k < i)%nat -> nth_error l' k = nth_error l k) /\
    (b = true <-> (endless q \/ (Z.of_nat (N - i) * T <= rem + total q)%Z)) /\
    (b = true -> forall k, (i <= k < N)%nat -> exists m, executed q (Z.of_nat (k + 1 - i) * T - 1 - rem) = Some m /\
       nth_error l' k = Some (interval_initialize (theta_before theta l' i k) p m model)).
Proof.
  induction 1 as [|m q V Vq IH]; intros i rem theta l Hi Hrem Hl.
  - exists false, l. split; [reflexivity|]. split; [exact Hl|]. split; [reflexivity|]. split; [|discriminate].
    split; [discriminate|]. intros [(x & [] & _)|H]. cbn in H. assert (1 <= Z.of_nat (N - i))%Z by lia. nia.
  - cbn [form_loop]. fold N T. destruct (is_unlimited m) eqn:E.
    + apply is_unlimited_iff in E. destruct (fill_ok m (N - i) i theta l) as (l' & Ef & L & Hout & Hin); [lia|].
      rewrite Ef. cbn. exists true, l'. split; [reflexivity|]. split; [lia|]. split; [intros k Hk; apply Hout; lia|].
      split; [split; [intros _; left; exists m; split; [left; reflexivity|exact E]|reflexivity]|].
      intros _ k Hk. exists m. split; [destruct (Z.eq_dec (mo_duration m) (-1)); [reflexivity|contradiction]|]. apply Hin. lia.
    + apply is_unlimited_false in E. destruct V as [V|V]; [contradiction|].
      destruct (Z.eqb_spec T 0) as [H0|_]; [lia|].
      rewrite (Z.mod_small (rem + mo_duration m) two64) by (unfold two64; lia).
      set (A := (rem + mo_duration m)%Z). assert (HA : (0 <= A)%Z) by (unfold A; lia).
      pose proof (Z.div_mod A T ltac:(lia)) as DM. pose proof (Z.mod_pos_bound A T ltac:(lia)) as MB.
      assert (HD : (0 <= A / T)%Z) by (apply Z.div_pos; lia).
      set (n := Nat.min (Z.to_nat (A / T)) (N - i)).
      destruct (fill_ok m n i theta l) as (l' & Ef & L & Hout & Hin); [lia|]. rewrite Ef. cbn [bind fst snd].
      assert (Hexec : forall k, (i <= k < i + n)%nat -> executed (m :: q) (Z.of_nat (k + 1 - i) * T - 1 - rem) = Some m).
      { intros k Hk. cbn [executed]. destruct (Z.eq_dec (mo_duration m) (-1)); [contradiction|].
        destruct (Z_lt_dec (Z.of_nat (k + 1 - i) * T - 1 - rem) (mo_duration m)) as [|Hge]; [reflexivity|]. exfalso.
        assert (Z.of_nat (k + 1 - i) <= A / T)%Z by lia.
        assert (Z.of_nat (k + 1 - i) * T <= (A / T) * T)%Z by (apply Z.mul_le_mono_nonneg_r; lia). unfold A in *. lia. }
      destruct (Nat.eqb_spec (i + n) N) as [Hn|Hn].
      * exists true, l'. split; [reflexivity|]. split; [lia|]. split; [intros k Hk; apply Hout; lia|]. split.
        -- split; [intros _|reflexivity]. destruct (endless_dec (m :: q)) as [En|En]; [left; exact En|right].
           assert (~ endless q) by (intros X; apply En; apply endless_cons; assumption).
           pose proof (total_nonneg q Vq H). cbn [total].
           assert (Z.of_nat (N - i) <= A / T)%Z by lia.
           assert (Z.of_nat (N - i) * T <= (A / T) * T)%Z by (apply Z.mul_le_mono_nonneg_r; lia). unfold A in *. lia.
        -- intros _ k Hk. exists m. split; [apply Hexec; lia|apply Hin; lia].
      * assert (Hnq : Z.of_nat n = (A / T)%Z) by lia.
        destruct (IH (i + n)%nat (A mod T)%Z (theta_before theta l' i (i + n)) l') as (b & l'' & E2 & L2 & Hk2 & Hb2 & Hf2); [lia|lia|lia|].
        rewrite E2. exists b, l''. split; [reflexivity|]. split; [exact L2|]. split; [intros k Hk; rewrite Hk2 by lia; apply Hout; lia|]. split.
        -- rewrite Hb2. rewrite endless_cons by exact E. cbn [total].
           replace (Z.of_nat (N - (i + n)) * T)%Z with (Z.of_nat (N - i) * T - Z.of_nat n * T)%Z by (rewrite <- Z.mul_sub_distr_r; f_equal; lia).
           rewrite Hnq. assert ((A / T) * T = A - A mod T)%Z as -> by lia. unfold A.
           split; (intros [X|X]; [left; exact X|right; lia]).
        -- intros Hb k Hk.
           assert (Hsame : forall k, (i <= k < i + n)%nat -> theta_before theta l'' i k = theta_before theta l' i k).
           { intros k0 Hk0. unfold theta_before. destruct (Nat.eqb_spec k0 i); [reflexivity|]. rewrite Hk2 by lia. reflexivity. }
           destruct (le_lt_dec (i + n) k) as [Hge|Hlt].
           ++ destruct (Hf2 Hb k ltac:(lia)) as (m' & X1 & X2). exists m'. split.
              ** cbn [executed]. destruct (Z.eq_dec (mo_duration m) (-1)); [contradiction|].
                 assert (Hs : (Z.of_nat (k + 1 - i) * T = Z.of_nat (k + 1 - (i + n)) * T + (A / T) * T)%Z) by (rewrite <- Hnq, <- Z.mul_add_distr_r; f_equal; lia).
                 assert (1 <= Z.of_nat (k + 1 - (i + n)))%Z by lia.
                 assert (T <= Z.of_nat (k + 1 - (i + n)) * T)%Z by nia.
                 destruct (Z_lt_dec (Z.of_nat (k + 1 - i) * T - 1 - rem) (mo_duration m)) as [Hbad|_]; [unfold A in *; lia|].
                 rewrite <- X1. f_equal. unfold A in *. lia.
              ** rewrite X2. do 2 f_equal. unfold theta_before. destruct (Nat.eqb_spec k (i + n)) as [->|Hne].
                 --- destruct (Nat.eqb_spec (i + n) i) as [|Hn0]; [reflexivity|]. rewrite Hk2 by lia. reflexivity.
                 --- destruct (Nat.eqb_spec k i); [lia|reflexivity].
           ++ exists m. split; [apply Hexec; lia|]. rewrite Hk2 by lia. rewrite Hin by lia. rewrite Hsame by lia. reflexivity.
Qed.
End Form.

Lemma resize_length {A} (d : A) l n : length (vector_resize d l n) = n.
Proof. unfold vector_resize. rewrite app_length, repeat_length, firstn_length. lia. Qed.

Theorem form_queue_defined p model q l : proper p -> valid_queue q ->
  exists b l', form_queue p model q l = Ok (b, l') /\ length l' = horizon_length p /\
    (b = true <-> (endless q \/ (Z.of_nat (horizon_length p) * sampling_ms p <= total q)%Z)).
Proof.
  intros (HN & HT) V. unfold form_queue.
  destruct (form_loop_ok p model HT q V 0 0 (view_theta model) (vector_resize default_interval l (horizon_length p)) HN) as (b & l' & E & L & _ & Hb & _); [lia|apply resize_length|].
  exists b, l'. split; [exact E|]. split; [exact L|]. rewrite Hb, Nat.sub_0_r, Z.add_0_l. tauto.
Qed.
Theorem form_queue_intervals p model q l l' : proper p -> valid_queue q -> form_queue p model q l = Ok (true, l') ->
  exists theta : nat -> R, theta 0%nat = view_theta model /\ length l' = horizon_length p /\
  forall i, (i < horizon_length p)%nat -> exists v m, nth_error l' i = Some v /\
    executed q (Z.of_nat (i + 1) * sampling_ms p - 1) = Some m /\ follows p model v m (theta i) /\ in_theta v = theta (S i).
Proof.
  intros (HN & HT) V H. unfold form_queue in H.
  destruct (form_loop_ok p model HT q V 0 0 (view_theta model) (vector_resize default_interval l (horizon_length p)) HN) as (b & l'' & E & L & _ & _ & Hf); [lia|apply resize_length|].
  rewrite E in H. injection H as -> ->. exists (theta_before (view_theta model) l' 0). split; [reflexivity|]. split; [exact L|].
  intros i Hi. destruct (Hf eq_refl i) as (m & X1 & X2); [lia|]. rewrite Nat.sub_0_r, Z.sub_0_r in X1.
  eexists. exists m. split; [exact X2|]. split; [exact X1|]. split.
  - unfold follows. repeat split.
  - unfold theta_before at 2. destruct (Nat.eqb_spec (S i) 0); [lia|]. replace (S i - 1)%nat with i by lia. rewrite X2. reflexivity.
Qed.

(** the single-motion version *)
Theorem form_single_agrees p model m l l0 : proper p -> valid_duration m ->
  (forall l', form_single p model m l = Ok (true, l') <-> form_queue p model [m] l = Ok (true, l')) /\
  (form_single p model m l = Ok (false, l) <-> exists l', form_queue p model [m] l0 = Ok (false, l')).
Proof.
  intros P V. pose proof P as (HN & HT).
  assert (Hcase : form_single p model m l = Ok (false, l) /\ ~ (endless [m] \/ (Z.of_nat (horizon_length p) * sampling_ms p <= total [m])%Z) \/
                  (exists l', form_single p model m l = Ok (true, l') /\ form_queue p model [m] l = Ok (true, l')) /\ (endless [m] \/ (Z.of_nat (horizon_length p) * sampling_ms p <= total [m])%Z)).
  { unfold form_single, form_queue. cbn [form_loop]. destruct (is_unlimited m) eqn:E.
    - right. cbn [orb]. rewrite Nat.sub_0_r. destruct (fill_ok p model m (horizon_length p) 0 (view_theta model) (vector_resize default_interval l (horizon_length p))) as (l' & Ef & _); [rewrite resize_length; lia|].
      rewrite Ef. cbn. split; [exists l'; split; reflexivity|]. left. apply is_unlimited_iff in E. exists m. split; [left; reflexivity|exact E].
    - cbn [orb]. apply is_unlimited_false in E. destruct V as [V|V]; [contradiction|].
      destruct (Z.leb_spec (Z.of_nat (horizon_length p) * sampling_ms p) (mo_duration m)) as [L|L].
      + right. split; [|right; cbn; lia]. destruct (Z.eqb_spec (sampling_ms p) 0); [lia|].
        rewrite Z.add_0_l, (Z.mod_small (mo_duration m) two64) by (unfold two64; lia). rewrite Nat.sub_0_r.
        assert (HD : (Z.of_nat (horizon_length p) <= mo_duration m / sampling_ms p)%Z) by (apply Z.div_le_lower_bound; lia).
        rewrite Nat.min_r by lia.
        destruct (fill_ok p model m (horizon_length p) 0 (view_theta model) (vector_resize default_interval l (horizon_length p))) as (l' & Ef & _); [rewrite resize_length; lia|].
        rewrite Ef. cbn [bind fst snd]. rewrite Nat.add_0_l, Nat.eqb_refl. exists l'. split; reflexivity.
      + left. split; [reflexivity|]. intros [(x & [Hx|[]] & Hd)|Hbad]; [subst; contradiction|cbn in Hbad; lia]. }
  assert (Vq : valid_queue [m]) by (constructor; [exact V|constructor]).
  destruct (form_queue_defined p model [m] l P Vq) as (b & lq & Eq & _ & Hb).
  destruct (form_queue_defined p model [m] l0 P Vq) as (b0 & lq0 & Eq0 & _ & Hb0).
  destruct Hcase as [(X1 & X2)|((l' & X1 & X2) & X3)].
  - assert (b = false) by (destruct b; [exfalso; apply X2; apply Hb; reflexivity|reflexivity]). subst b.
    assert (b0 = false) by (destruct b0; [exfalso; apply X2; apply Hb0; reflexivity|reflexivity]). subst b0.
    split; [intros l'; rewrite X1, Eq; split; discriminate|]. rewrite X1. split; [intros _; exists lq0; exact Eq0|reflexivity].
  - assert (b0 = true) by (apply Hb0; exact X3). subst b0. split.
    + intros l2. rewrite X1, X2. tauto.
    + rewrite X1. split; [discriminate|]. intros (l2 & Y). congruence.
Qed.

(** a negative duration other than the unlimited one: refused alone, practically endless in a queue *)
Theorem negative_duration p model d l : proper p -> (- 2 ^ 63 <= d < -1)%Z -> (Z.of_nat (horizon_length p) * sampling_ms p <= 2 ^ 63)%Z ->
  let m := mkMotion v2zero v2zero 0 d in
  form_single p model m l = Ok (false, l) /\ exists l', form_queue p model [m] l = Ok (true, l').
Proof.
  intros (HN & HT) Hd HL. cbn zeta. split.
  - unfold form_single, is_unlimited, UNLIMITED. cbn [mo_duration]. destruct (Z.eqb_spec d (-1)); [lia|]. cbn [orb].
    destruct (Z.leb_spec (Z.of_nat (horizon_length p) * sampling_ms p) d); [|reflexivity]. assert (0 <= Z.of_nat (horizon_length p) * sampling_ms p)%Z by nia. lia.
  - unfold form_queue. cbn [form_loop]. unfold is_unlimited, UNLIMITED. cbn [mo_duration]. destruct (Z.eqb_spec d (-1)); [lia|].
    destruct (Z.eqb_spec (sampling_ms p) 0); [lia|]. rewrite Z.add_0_l, Nat.sub_0_r.
    assert (Hm : (d mod two64 = d + 2 ^ 64)%Z).
    { replace (d mod two64)%Z with ((d + 1 * two64) mod two64)%Z by (rewrite Z_mod_plus_full; reflexivity). rewrite Z.mod_small; unfold two64; lia. }
    rewrite Hm. assert (HD : (Z.of_nat (horizon_length p) <= (d + 2 ^ 64) / sampling_ms p)%Z) by (apply Z.div_le_lower_bound; lia).
    rewrite Nat.min_r by lia.
    destruct (fill_ok p model (mkMotion v2zero v2zero 0 d) (horizon_length p) 0 (view_theta model) (vector_resize default_interval l (horizon_length p))) as (l' & Ef & _); [rewrite resize_length; lia|].
    rewrite Ef. cbn [bind fst snd]. rewrite Nat.add_0_l, Nat.eqb_refl. exists l'. reflexivity.
Qed.

(** ** Receding horizon: what interval i+1 commands is what interval i commands after one shift *)
Theorem receding p q i : proper p -> valid_queue q ->
  commanded (shift_queue (sampling_ms p) (-1) q) (Z.of_nat (i + 1) * sampling_ms p - 1) = commanded q (Z.of_nat (S i + 1) * sampling_ms p - 1).
Proof.
  intros (HN & HT) V. assert (1 <= Z.of_nat (i + 1))%Z by lia. assert (sampling_ms p <= Z.of_nat (i + 1) * sampling_ms p)%Z by nia.
  rewrite shift_timeline_default by (assumption || lia). f_equal.
  replace (Z.of_nat (S i + 1)) with (1 + Z.of_nat (i + 1))%Z by lia. rewrite Z.mul_add_distr_r. lia.
Qed.

Theorem update_and_shift p model t q l : proper p -> valid_queue q -> (0 <= t)%Z ->
  exists b l' q', updateAndShift_queue p model t q l = Ok (b, l', q') /\
    (b = true <-> (endless q \/ (Z.of_nat (horizon_length p) * sampling_ms p <= total q)%Z)) /\
    (b = false -> q' = q) /\ (b = true -> forall u, (0 <= u)%Z -> commanded q' u = commanded q (t + u)).
Proof.
  intros P V Ht. destruct (form_queue_defined p model q l P V) as (b & l' & E & _ & Hb). unfold updateAndShift_queue. rewrite E. cbn [bind fst snd].
  exists b, l'. eexists. split; [reflexivity|]. split; [exact Hb|]. split; [intros ->; reflexivity|]. intros -> u Hu. apply shift_timeline; assumption.
Qed.
