(** * A method which solves all systems of linear equations with nonsingular matrices: elimination with a search of the pivot.
    Not a part of /repo: it stands for the factorisations of Eigen in the concrete cases. *)
From Coq Require Import List Arith Reals Bool Lra Lia.
From Verif Require Import Base RSum Matrix KKTSpec KKTPosedSpec.
Import ListNotations.
Open Scope R_scope.

Definition skip (p i : nat) : nat := if (i <? p)%nat then i else S i.
Fixpoint pivot (n : nat) (K : nat -> nat -> R) : option nat :=
  match n with
  | O => None
  | S n' => if Req_EM_T (K n' 0%nat) 0 then pivot n' K else Some n'
  end.
Fixpoint gauss (n : nat) (K : nat -> nat -> R) (b : nat -> R) : nat -> R :=
  match n with
  | O => fun _ => 0
  | S n' =>
    match pivot n K with
    | None => fun _ => 0
    | Some p =>
      let y := gauss n' (fun i j => K (skip p i) (S j) - K (skip p i) 0%nat / K p 0%nat * K p (S j)) (fun i => b (skip p i) - K (skip p i) 0%nat / K p 0%nat * b p) in
      fun j => match j with O => (b p - Rsum n' (fun j => K p (S j) * y j)) / K p 0%nat | S j' => y j' end
    end
  end.
Definition gauss_lin (K : mat) (r : vec) : vec := mkVec (mcols K) (gauss (mcols K) (mget K) (vget r)).

Lemma pivot_some n K p : pivot n K = Some p -> (p < n)%nat /\ K p 0%nat <> 0.
Proof. induction n as [|n IH]; cbn; [discriminate|]. destruct (Req_EM_T (K n 0%nat) 0); [intros E; apply IH in E; split; [lia|apply E]|intros [= <-]; split; [lia|assumption]]. Qed.
Lemma pivot_none n K : pivot n K = None -> forall i, (i < n)%nat -> K i 0%nat = 0.
Proof. induction n as [|n IH]; cbn; [lia|]. destruct (Req_EM_T (K n 0%nat) 0) as [E|]; [|discriminate]. intros N i I. destruct (Nat.eq_dec i n) as [->|]; [exact E|apply IH; [exact N|lia]]. Qed.
Lemma Rsum_head n f : Rsum (S n) f = f 0%nat + Rsum n (fun j => f (S j)).
Proof. induction n as [|n IH]; [cbn; lra|]. change (Rsum (S (S n)) f) with (Rsum (S n) f + f (S n)). rewrite IH. cbn. lra. Qed.
Lemma skip_range p n i : (p < S n)%nat -> (i < n)%nat -> (skip p i < S n)%nat /\ skip p i <> p.
Proof. intros P I. unfold skip. destruct (Nat.ltb_spec i p); lia. Qed.
Lemma skip_onto p n i : (p < S n)%nat -> (i < S n)%nat -> i <> p -> exists i', (i' < n)%nat /\ skip p i' = i.
Proof. intros P I N. destruct (Nat.lt_ge_cases i p); [exists i|exists (i - 1)%nat]; unfold skip; split; try lia; destruct (Nat.ltb_spec i p); try destruct (Nat.ltb_spec (i - 1) p); lia. Qed.
Lemma eliminated n a (b c : nat -> R) y : Rsum n (fun j => (b j - a * c j) * y j) = Rsum n (fun j => b j * y j) - a * Rsum n (fun j => c j * y j).
Proof. induction n as [|n IH]; cbn; [lra|]. rewrite IH. lra. Qed.

Theorem gauss_solves n : forall K b, (forall y, (forall i, (i < n)%nat -> Rsum n (fun j => K i j * y j) = 0) -> forall j, (j < n)%nat -> y j = 0) ->
  forall i, (i < n)%nat -> Rsum n (fun j => K i j * gauss n K b j) = b i.
Proof.
  induction n as [|n IH]; intros K b NS i I; [lia|]. cbn [gauss]. destruct (pivot (S n) K) as [p|] eqn:P.
  2: { exfalso. pose proof (NS (fun j => match j with O => 1 | _ => 0 end)) as Z. enough (1 = 0) by lra. apply (Z ltac:(intros i' I'; rewrite Rsum_head, (pivot_none _ _ P i' I'), Rsum_zero; [lra|intros; lra]) 0%nat). lia. }
  apply pivot_some in P. destruct P as [P N].
  set (K' := fun i j => K (skip p i) (S j) - K (skip p i) 0%nat / K p 0%nat * K p (S j)). set (b' := fun i => b (skip p i) - K (skip p i) 0%nat / K p 0%nat * b p).
  set (y := gauss n K' b').
  assert (Y : forall i, (i < n)%nat -> Rsum n (fun j => K' i j * y j) = b' i).
  { apply IH. intros z Z j J. pose proof (NS (fun j => match j with O => - Rsum n (fun j => K p (S j) * z j) / K p 0%nat | S j' => z j' end)) as NZ.
    refine (NZ _ (S j) ltac:(lia)). intros i' I'. rewrite Rsum_head. destruct (Nat.eq_dec i' p) as [->|NE]; [field; exact N|].
    destruct (skip_onto p n i' P I' NE) as (k & KN & <-). specialize (Z k KN). unfold K' in Z. rewrite eliminated in Z. rewrite <- Z. field. exact N. }
  rewrite Rsum_head. destruct (Nat.eq_dec i p) as [->|NE]; [field; exact N|].
  destruct (skip_onto p n i P I NE) as (k & KN & <-). specialize (Y k KN). unfold K', b' in Y. rewrite eliminated in Y.
  replace (b (skip p k)) with (b (skip p k) - K (skip p k) 0%nat / K p 0%nat * b p + K (skip p k) 0%nat / K p 0%nat * b p) by lra. rewrite <- Y. field. exact N.
Qed.
Theorem gauss_nonsingular : solves_nonsingular gauss_lin.
Proof.
  intros K r [SQ NS] L. split; [reflexivity|]. split; [symmetry; exact L|]. intros i I. cbn in I |- *. rewrite SQ in *. apply gauss_solves; [exact NS|exact I].
Qed.
Lemma definite_nonsingular S : positive_definite S -> nonsingular S.
Proof.
  intros [[SQ _] P]. split; [exact SQ|]. intros y Y j J. destruct (Req_dec (y j) 0) as [E|N]; [exact E|exfalso].
  specialize (P y ltac:(exists j; split; [lia|exact N])). rewrite Rsum_zero in P; [lra|]. intros i I.
  rewrite (Rsum_ext _ _ (fun j => y i * (mget S i j * y j))) by (intros; lra). rewrite Rsum_scal, (Y i I). lra.
Qed.
Theorem gauss_positive : solves_positive gauss_lin.
Proof. intros S r P L. apply gauss_nonsingular; [apply definite_nonsingular, P|exact L]. Qed.
