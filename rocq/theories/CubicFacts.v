From Coq Require Import List Reals Lra Bool Lia.
From Verif Require Import Base BaseFacts CubicPolynomial CubicSpec.
Import ListNotations.
Open Scope R_scope.

Lemma time_ok_true t : 0 <= t <= 1 -> time_ok t = true.
Proof. unfold time_ok. intros H. destruct (Rle_dec 0 t), (Rle_dec t 1); try reflexivity; exfalso; lra. Qed.
Lemma time_ok_false t : t < 0 \/ 1 < t -> time_ok t = false.
Proof. unfold time_ok. intros H. destruct (Rle_dec 0 t), (Rle_dec t 1); try reflexivity; exfalso; lra. Qed.

Definition pos (p : cubic) (t : R) : R := a0 p + a1 p * t + a2 p * t * t + a3 p * t * t * t.
Definition vel (p : cubic) (t : R) : R := a1 p + 2 * a2 p * t + 3 * a3 p * t * t.
Definition acc (p : cubic) (t : R) : R := 2 * a2 p + 6 * a3 p * t.

Lemma reported_pos p : reported (fun t => eval p t POSITION) (pos p).
Proof. split; intros t H; simpl; unfold getPosition; [rewrite time_ok_true by assumption|rewrite time_ok_false by assumption]; reflexivity. Qed.
Lemma reported_vel p : reported (fun t => eval p t VELOCITY) (vel p).
Proof. split; intros t H; simpl; unfold getVelocity; [rewrite time_ok_true by assumption|rewrite time_ok_false by assumption]; reflexivity. Qed.
Lemma reported_acc p : reported (fun t => eval p t ACCELERATION) (acc p).
Proof. split; intros t H; simpl; unfold getAcceleration; [rewrite time_ok_true by assumption|rewrite time_ok_false by assumption]; reflexivity. Qed.

(** derivatives of polynomials, by the standard rules *)
Lemma d_lin c t : derivable_pt_lim (fun t => c * t) t c.
Proof. pose proof (derivable_pt_lim_scal id c t 1 (derivable_pt_lim_id t)) as H. rewrite Rmult_1_r in H. exact H. Qed.
Lemma d_sq c t : derivable_pt_lim (fun t => c * t * t) t (2 * c * t).
Proof.
  replace (2 * c * t) with (c * t + c * t * 1) by ring.
  replace (c * t + c * t * 1) with (c * id t + (c * t) * 1) by (unfold id; ring).
  apply (derivable_pt_lim_mult (fun t => c * t) id); [apply d_lin|apply derivable_pt_lim_id].
Qed.
Lemma d_cube c t : derivable_pt_lim (fun t => c * t * t * t) t (3 * c * t * t).
Proof.
  replace (3 * c * t * t) with (2 * c * t * id t + (c * t * t) * 1) by (unfold id; ring).
  apply (derivable_pt_lim_mult (fun t => c * t * t) id); [apply d_sq|apply derivable_pt_lim_id].
Qed.
Lemma d_plus f g t a b : derivable_pt_lim f t a -> derivable_pt_lim g t b -> derivable_pt_lim (fun t => f t + g t) t (a + b).
Proof. apply derivable_pt_lim_plus. Qed.

Lemma pos_vel p : derivative (pos p) (vel p).
Proof.
  intros t. unfold pos, vel. replace (a1 p + 2 * a2 p * t + 3 * a3 p * t * t) with (0 + a1 p + 2 * a2 p * t + 3 * a3 p * t * t) by ring.
  repeat apply d_plus; [apply (derivable_pt_lim_const (a0 p))|apply d_lin|apply d_sq|apply d_cube].
Qed.
Lemma vel_acc p : derivative (vel p) (acc p).
Proof.
  intros t. unfold vel, acc. replace (2 * a2 p + 6 * a3 p * t) with (0 + 2 * a2 p + 2 * (3 * a3 p) * t) by ring.
  repeat apply d_plus; [apply (derivable_pt_lim_const (a1 p))|apply d_lin|apply d_sq].
Qed.
Lemma acc_jerk p : derivative (acc p) (fun _ => getJerk p).
Proof.
  intros t. unfold acc, getJerk.
  pose proof (d_plus (fun _ => 2 * a2 p) (fun t => 6 * a3 p * t) t 0 (6 * a3 p) (derivable_pt_lim_const (2 * a2 p) t) (d_lin _ t)) as H.
  rewrite Rplus_0_l in H. exact H.
Qed.

Theorem cubic_derivatives p : exists x v a,
  reported (fun t => eval p t POSITION) x /\ reported (fun t => eval p t VELOCITY) v /\ reported (fun t => eval p t ACCELERATION) a /\
  derivative x v /\ derivative v a /\ derivative a (fun _ => getJerk p).
Proof.
  exists (pos p), (vel p), (acc p). exact (conj (reported_pos p) (conj (reported_vel p) (conj (reported_acc p) (conj (pos_vel p) (conj (vel_acc p) (acc_jerk p)))))).
Qed.

(** smooth step *)
Lemma rest_pos a b t : pos (cubic_rest a b) t = a + (b - a) * (t * t * (3 - 2 * t)).
Proof. unfold pos; simpl; ring. Qed.
Lemma step_mono s t : 0 <= s -> s <= t -> t <= 1 -> s * s * (3 - 2 * s) <= t * t * (3 - 2 * t).
Proof.
  intros. assert (E : t * t * (3 - 2 * t) = s * s * (3 - 2 * s) + (t - s) * (2 * (s * (1 - s)) + 2 * (t * (1 - t)) + s * (1 - t) + t * (1 - s))) by ring.
  assert (0 <= s * (1 - s)) by (apply Rmult_le_pos; lra). assert (0 <= s * (1 - t)) by (apply Rmult_le_pos; lra).
  assert (0 <= t * (1 - t)) by (apply Rmult_le_pos; lra). assert (0 <= t * (1 - s)) by (apply Rmult_le_pos; lra).
  assert (0 <= (t - s) * (2 * (s * (1 - s)) + 2 * (t * (1 - t)) + s * (1 - t) + t * (1 - s))) by (apply Rmult_le_pos; lra).
  lra.
Qed.

Theorem rest_ends a b :
  eval (cubic_rest a b) 0 POSITION = Ok a /\ eval (cubic_rest a b) 1 POSITION = Ok b /\
  eval (cubic_rest a b) 0 VELOCITY = Ok 0 /\ eval (cubic_rest a b) 1 VELOCITY = Ok 0.
Proof.
  repeat split; first [rewrite (proj1 (reported_pos _)) by lra | rewrite (proj1 (reported_vel _)) by lra];
    unfold pos, vel; simpl; f_equal; ring.
Qed.

Theorem rest_monotone a b s t x y : 0 <= s -> s <= t -> t <= 1 ->
  eval (cubic_rest a b) s POSITION = Ok x -> eval (cubic_rest a b) t POSITION = Ok y ->
  (a <= b -> x <= y) /\ (b <= a -> y <= x).
Proof.
  intros H1 H2 H3. rewrite !(proj1 (reported_pos _)) by lra. intros E F. inversion E; subst x. inversion F; subst y. rewrite !rest_pos.
  pose proof (step_mono s t H1 H2 H3). split; intros; nra.
Qed.

Lemma pos_between a b t : 0 <= t <= 1 -> between a b (pos (cubic_rest a b) t).
Proof.
  intros H. rewrite rest_pos. pose proof (step_mono 0 t). pose proof (step_mono t 1). unfold between, Rmin, Rmax.
  destruct (Rle_dec a b); nra.
Qed.
Theorem rest_between a b t x : eval (cubic_rest a b) t POSITION = Ok x -> between a b x.
Proof.
  intros E. destruct (Rle_dec 0 t); [destruct (Rle_dec t 1)|].
  - rewrite (proj1 (reported_pos _)) in E by lra. inversion E. apply pos_between. lra.
  - rewrite (proj2 (reported_pos _)) in E by lra. discriminate.
  - rewrite (proj2 (reported_pos _)) in E by lra. discriminate.
Qed.

(** boundary velocities: what is attained *)
Theorem velocities_attained a adot b bdot :
  let p := cubic_velocities a adot b bdot in
  eval p 0 POSITION = Ok a /\ eval p 0 VELOCITY = Ok adot /\
  eval p 1 POSITION = Ok (b - 2 * adot + 3 * bdot) /\ eval p 1 VELOCITY = Ok (7 * bdot - 6 * adot).
Proof.
  cbv zeta. repeat split; first [rewrite (proj1 (reported_pos _)) by lra | rewrite (proj1 (reported_vel _)) by lra];
    unfold pos, vel; simpl; f_equal; ring.
Qed.
Theorem velocities_exact_iff a adot b bdot :
  let p := cubic_velocities a adot b bdot in
  (eval p 1 POSITION = Ok b /\ eval p 1 VELOCITY = Ok bdot) <-> adot = 0 /\ bdot = 0.
Proof.
  cbv zeta. destruct (velocities_attained a adot b bdot) as (_ & _ & A & B). rewrite A, B. split.
  - intros [E F]. inversion E. inversion F. lra.
  - intros [-> ->]. split; f_equal; lra.
Qed.

(** sampling and scaling *)
Theorem eval_all_spec p k : forall ts vs, eval_all p ts k = Ok vs <-> Forall2 (fun t v => eval p t k = Ok v) ts vs.
Proof.
  induction ts as [|t ts IH]; intros vs; simpl.
  - split; [intros E; inversion E; constructor|intros F; inversion F; reflexivity].
  - split.
    + intros E. apply bind_ok in E. destruct E as (v & E1 & E2). apply bind_ok in E2. destruct E2 as (ws & E2 & E3). inversion E3; subst.
      constructor; [exact E1|]. apply IH, E2.
    + intros F. inversion F as [|? v ? ws E1 E2]; subst. rewrite E1. simpl. apply IH in E2. rewrite E2. reflexivity.
Qed.

Lemma fold_min ts : forall m, (forall x, In x (m :: ts) -> fold_left Rmin ts m <= x) /\ In (fold_left Rmin ts m) (m :: ts).
Proof.
  induction ts as [|t ts IH]; intros m; simpl; [split; [intros x [->|[]]; lra|auto]|].
  destruct (IH (Rmin m t)) as [A B]. split.
  - intros x [->|[->|H]].
    + apply Rle_trans with (Rmin x t); [apply A; left; reflexivity|apply Rmin_l].
    + apply Rle_trans with (Rmin m x); [apply A; left; reflexivity|apply Rmin_r].
    + apply A. right. exact H.
  - destruct B as [B|B]; [|auto]. rewrite <- B. unfold Rmin. destruct (Rle_dec m t); auto.
Qed.
Lemma fold_max ts : forall m, (forall x, In x (m :: ts) -> x <= fold_left Rmax ts m) /\ In (fold_left Rmax ts m) (m :: ts).
Proof.
  induction ts as [|t ts IH]; intros m; simpl; [split; [intros x [->|[]]; lra|auto]|].
  destruct (IH (Rmax m t)) as [A B]. split.
  - intros x [->|[->|H]].
    + apply Rle_trans with (Rmax x t); [apply Rmax_l|apply A; left; reflexivity].
    + apply Rle_trans with (Rmax m x); [apply Rmax_r|apply A; left; reflexivity].
    + apply A. right. exact H.
  - destruct B as [B|B]; [|auto]. rewrite <- B. unfold Rmax. destruct (Rle_dec m t); auto.
Qed.

Theorem scale_range ts ss : scale ts = Ok ss -> (exists a b, In a ts /\ In b ts /\ a <> b) ->
  Forall (fun s => 0 <= s <= 1) ss /\ In 0 ss /\ In 1 ss /\ length ss = length ts /\
  forall i j, (i < length ts)%nat -> (j < length ts)%nat -> nth i ts 0 <= nth j ts 0 <-> nth i ss 0 <= nth j ss 0.
Proof.
  destruct ts as [|t ts]; [intros _ (a & b & [] & _)|]. unfold scale. set (lo := fold_left Rmin ts t). set (hi := fold_left Rmax ts t).
  intros E (a & b & Ha & Hb & N). inversion E; subst ss. clear E.
  destruct (fold_min ts t) as [L1 L2]. destruct (fold_max ts t) as [U1 U2]. fold lo in L1, L2. fold hi in U1, U2.
  assert (P : 0 < hi - lo).
  { pose proof (L1 a Ha). pose proof (L1 b Hb). pose proof (U1 a Ha). pose proof (U1 b Hb).
    destruct (Rtotal_order a b) as [|[|]]; lra. }
  assert (PI : 0 < / (hi - lo)) by (apply Rinv_0_lt_compat, P).
  set (f := fun x => (x - lo) / (hi - lo)).
  change ((t - lo) / (hi - lo) :: map f ts) with (map f (t :: ts)).
  split; [|split; [|split; [|split]]].
  - apply Forall_forall. intros s Hs. apply in_map_iff in Hs. destruct Hs as (x & <- & Hx). unfold f.
    specialize (L1 x Hx). specialize (U1 x Hx). split.
    + apply Rmult_le_pos; lra.
    + apply Rmult_le_reg_r with (hi - lo); [exact P|]. replace ((x - lo) / (hi - lo) * (hi - lo)) with (x - lo) by (field; lra). lra.
  - replace 0 with (f lo) by (unfold f; field; lra). apply in_map, L2.
  - replace 1 with (f hi) by (unfold f; field; lra). apply in_map, U2.
  - apply map_length.
  - intros i j Hi Hj.
    rewrite (nth_indep (map f (t :: ts)) 0 (f 0)) by (rewrite map_length; exact Hi).
    rewrite (nth_indep (map f (t :: ts)) 0 (f 0)) by (rewrite map_length; exact Hj).
    rewrite !map_nth. unfold f. split.
    + intros H. apply Rmult_le_compat_r; lra.
    + intros H. apply Rmult_le_reg_r in H; [lra|exact PI].
Qed.
