(** * Finite sums of real numbers (mathematical vocabulary, models no code) *)
From Coq Require Import Reals Arith Lra Lia.
Open Scope R_scope.

(** f 0 + ... + f (n-1) *)
Fixpoint Rsum (n : nat) (f : nat -> R) : R :=
  match n with
  | O => 0
  | S k => Rsum k f + f k
  end.

Lemma Rsum_ext n f g : (forall i, (i < n)%nat -> f i = g i) -> Rsum n f = Rsum n g.
Proof. induction n as [|n IH]; intros H; simpl; [reflexivity|]. rewrite IH, H; auto. Qed.

Lemma Rsum_zero n f : (forall i, (i < n)%nat -> f i = 0) -> Rsum n f = 0.
Proof. induction n as [|n IH]; intros H; simpl; [reflexivity|]. rewrite IH, H; auto; lra. Qed.

Lemma Rsum_plus n f g : Rsum n (fun i => f i + g i) = Rsum n f + Rsum n g.
Proof. induction n as [|n IH]; simpl; [lra|]. rewrite IH; lra. Qed.

Lemma Rsum_minus n f g : Rsum n (fun i => f i - g i) = Rsum n f - Rsum n g.
Proof. induction n as [|n IH]; simpl; [lra|]. rewrite IH; lra. Qed.

Lemma Rsum_opp n f : Rsum n (fun i => - f i) = - Rsum n f.
Proof. induction n as [|n IH]; simpl; [lra|]. rewrite IH; lra. Qed.

Lemma Rsum_scal n c f : Rsum n (fun i => c * f i) = c * Rsum n f.
Proof. induction n as [|n IH]; simpl; [lra|]. rewrite IH; lra. Qed.

Lemma Rsum_scal_r n c f : Rsum n (fun i => f i * c) = Rsum n f * c.
Proof. induction n as [|n IH]; simpl; [lra|]. rewrite IH; lra. Qed.

Lemma Rsum_swap n m f : Rsum n (fun i => Rsum m (fun j => f i j)) = Rsum m (fun j => Rsum n (fun i => f i j)).
Proof.
  induction n as [|n IH]; simpl.
  - symmetry. apply Rsum_zero. reflexivity.
  - rewrite IH, <- Rsum_plus. reflexivity.
Qed.

Lemma Rsum_split n m f : Rsum (n + m) f = Rsum n f + Rsum m (fun i => f (n + i)%nat).
Proof.
  induction m as [|m IH]; simpl.
  - rewrite Nat.add_0_r. lra.
  - rewrite Nat.add_succ_r. simpl. rewrite IH. lra.
Qed.

(** a sum with a single nonzero term *)
Lemma Rsum_single n k f : (k < n)%nat -> (forall i, (i < n)%nat -> i <> k -> f i = 0) -> Rsum n f = f k.
Proof.
  intros H Z. replace n with (k + (1 + (n - k - 1)))%nat by lia.
  rewrite Rsum_split, Rsum_split. simpl.
  rewrite (Rsum_zero k); [|intros; apply Z; lia].
  rewrite (Rsum_zero (n - k - 1)); [|intros; apply Z; lia].
  rewrite Nat.add_0_r. lra.
Qed.

Lemma Rsum_delta n k f : (k < n)%nat -> Rsum n (fun i => if Nat.eqb i k then f i else 0) = f k.
Proof.
  intros H. rewrite (Rsum_single n k); [rewrite Nat.eqb_refl; reflexivity|assumption|].
  intros i _ N. apply Nat.eqb_neq in N. rewrite N. reflexivity.
Qed.

(** sum over n blocks of size m *)
Lemma Rsum_blocks n m f : Rsum (n * m) f = Rsum n (fun i => Rsum m (fun j => f (i * m + j)%nat)).
Proof.
  induction n as [|n IH]; simpl; [reflexivity|].
  rewrite Nat.add_comm, Rsum_split, IH. reflexivity.
Qed.

Lemma Rsum_nonneg n f : (forall i, (i < n)%nat -> 0 <= f i) -> 0 <= Rsum n f.
Proof. induction n as [|n IH]; intros H; simpl; [lra|]. assert (0 <= f n) by auto. assert (0 <= Rsum n f) by auto. lra. Qed.

Lemma Rsum_le n f g : (forall i, (i < n)%nat -> f i <= g i) -> Rsum n f <= Rsum n g.
Proof. induction n as [|n IH]; intros H; simpl; [lra|]. assert (f n <= g n) by auto. assert (Rsum n f <= Rsum n g) by auto. lra. Qed.

Lemma Rsum_first n f : Rsum (S n) f = f O + Rsum n (fun i => f (S i)).
Proof. induction n as [|n IH]; simpl in *; [lra|]. rewrite IH. lra. Qed.

Lemma Rsum_const n c : Rsum n (fun _ => c) = INR n * c.
Proof. induction n as [|n IH]; [simpl; lra|]. rewrite S_INR. simpl. rewrite IH. lra. Qed.
