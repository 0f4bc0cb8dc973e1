From Coq Require Import List Reals Arith Lra Lia Bool.
From Verif Require Import Base BaseFacts RSum Matrix BlockDiagonalFacts BlockMatrix BlockMatrixFacts Condense CondenseSpec.
Import ListNotations.
Open Scope R_scope.

Lemma veq_refl a : veq a a.
Proof. split; auto. Qed.
Lemma veq_trans a b c : veq a b -> veq b c -> veq a c.
Proof. intros (A & B) (C & D). split; [congruence|]. intros i Hi. rewrite B by assumption. apply D. lia. Qed.
Lemma veq_sym a b : veq a b -> veq b a.
Proof. intros (A & B). split; [congruence|]. intros i Hi. symmetry. apply B. lia. Qed.
Lemma vadd_veq a a' b b' : veq a a' -> veq b b' -> vlen a = vlen b -> veq (vadd a b) (vadd a' b').
Proof. intros (A & B) (C & D) L. split; [exact A|]. cbn [vadd vget vlen]. intros i Hi. rewrite B, D by lia. reflexivity. Qed.
Lemma mulv_veq a a' x y : a ==m a' -> veq x y -> mcols a = vlen x -> veq (mulv a x) (mulv a' y).
Proof.
  intros (A & B & C) (D & E) L. split; [exact A|]. cbn [mulv vget vlen]. intros i Hi. rewrite <- B. apply Rsum_ext. intros k Hk.
  rewrite C, E by lia. reflexivity.
Qed.
Lemma mulv_mul a b x : mcols a = mrows b -> veq (mulv (mmul a b) x) (mulv a (mulv b x)).
Proof.
  intros H. split; [reflexivity|]. cbn [mulv mmul vget vlen mget mcols mrows]. intros i Hi.
  transitivity (Rsum (mcols b) (fun k => Rsum (mcols a) (fun l => mget a i l * mget b l k * vget x k))).
  - apply Rsum_ext. intros k Hk. rewrite <- Rsum_scal_r. reflexivity.
  - rewrite Rsum_swap. apply Rsum_ext. intros l Hl. rewrite <- Rsum_scal. apply Rsum_ext. intros; ring.
Qed.
Lemma mulv_add a x y : vlen x = mcols a -> veq (mulv a (vadd x y)) (vadd (mulv a x) (mulv a y)).
Proof.
  intros H. split; [reflexivity|]. cbn [mulv vadd vget vlen]. intros i Hi. rewrite <- Rsum_plus. apply Rsum_ext. intros; ring.
Qed.
Lemma mulv_id n x : vlen x = n -> veq (mulv (mid n) x) x.
Proof.
  intros H. split; [auto|]. cbn [mulv vget vlen mid mrows mcols mget]. intros i Hi. rewrite (Rsum_single n i); [rewrite Nat.eqb_refl; ring|lia|].
  intros k Hk N. replace (i =? k)%nat with false by (symmetry; apply Nat.eqb_neq; lia). ring.
Qed.

(** ** products of system matrices: psi A k d = A_{k+d} ... A_{k+1} *)
Fixpoint psi (A : list mat) (n k d : nat) : mat :=
  match d with O => mid n | S e => mmul (psi A n (S k) e) (mat_at A (S k)) end.

Lemma mat_at_ok l k : (k < length l)%nat -> vec_at l k = Ok (mat_at l k).
Proof. intros H. unfold vec_at, mat_at. rewrite (nth_error_nth' l (mzero 0 0)) by assumption. reflexivity. Qed.
Lemma mat_at_size l r c k : sized l r c -> (k < length l)%nat -> mrows (mat_at l k) = r /\ mcols (mat_at l k) = c.
Proof. intros H Hk. unfold sized in H. rewrite Forall_forall in H. apply H. apply nth_In, Hk. Qed.

Section Psi.
Variables (A : list mat) (n : nat).
Hypothesis HA : sized A n n.
Lemma psi_rows d : forall k, mrows (psi A n k d) = n.
Proof. induction d; intros k; simpl; auto. Qed.
Lemma psi_cols d : forall k, (k + d < length A)%nat -> mcols (psi A n k d) = n.
Proof. destruct d; intros k Hk; simpl; [reflexivity|]. apply (mat_at_size A n n); [exact HA|lia]. Qed.
(** left recursion *)
Lemma psi_left d : forall k, (k + S d < length A)%nat -> psi A n k (S d) ==m mmul (mat_at A (k + S d)) (psi A n k d).
Proof.
  induction d as [|d IH]; intros k Hk.
  - cbn [psi]. replace (k + 1)%nat with (S k) by lia. destruct (mat_at_size A n n (S k) HA) as [R C]; [lia|].
    rewrite <- R at 1. eapply meq_trans; [apply mmul_id_l|]. apply meq_sym. rewrite <- C. apply mmul_id_r.
  - change (psi A n k (S (S d))) with (mmul (psi A n (S k) (S d)) (mat_at A (S k))). eapply meq_trans; [apply mmul_meq; [exact (IH (S k) ltac:(lia))|apply meq_refl|]|].
    + rewrite psi_cols by lia. symmetry. apply (mat_at_size A n n); [exact HA|lia].
    + eapply meq_trans; [apply mmul_assoc|].
      * rewrite psi_rows. apply (mat_at_size A n n); [exact HA|lia].
      * rewrite psi_cols by lia. symmetry. apply (mat_at_size A n n); [exact HA|lia].
      * replace (S k + S d)%nat with (k + S (S d))%nat by lia. apply meq_refl.
Qed.
End Psi.

(** ** contents of the condensed matrices *)
Definition condensed (A B : list mat) (n m : nat) (S U : mat) : Prop :=
  let N := length A in
  mrows S = (N * n)%nat /\ mcols S = n /\ mrows U = (N * n)%nat /\ mcols U = (N * m)%nat /\
  (forall i p q, (i < N)%nat -> (p < n)%nat -> (q < n)%nat -> mget S (i * n + p) q = mget (mmul (psi A n 0 i) (mat_at A 0)) p q) /\
  (forall i j p q, (i < N)%nat -> (j < N)%nat -> (p < n)%nat -> (q < m)%nat ->
     mget U (i * n + p) (j * m + q) = if (j <=? i)%nat then mget (mmul (psi A n j (i - j)) (mat_at B j)) p q else 0).

(** sum of vectors of length n *)
Fixpoint vsum (n k : nat) (f : nat -> vec) : vec := match k with O => vconst n 0 | S j => vadd (vsum n j f) (f j) end.
Lemma vsum_get n k f i : vget (vsum n k f) i = Rsum k (fun j => vget (f j) i).
Proof. induction k as [|k IH]; simpl; [reflexivity|]. rewrite IH. reflexivity. Qed.
Lemma vsum_len n k f : vlen (vsum n k f) = n.
Proof. induction k as [|k IH]; simpl; auto. Qed.
Lemma mulv_get_ext a x y i : (forall l, (l < mcols a)%nat -> vget x l = vget y l) -> vget (mulv a x) i = vget (mulv a y) i.
Proof. intros H. cbn [mulv vget]. apply Rsum_ext. intros l Hl. rewrite H by assumption. reflexivity. Qed.

(** closed form of the simulation *)
Lemma simulate_closed A B n m u x0 : sized A n n -> sized B n m -> length A = length B -> vlen x0 = n ->
  forall i, (i < length A)%nat ->
  veq (simulate A B m u x0 (S i))
      (vadd (mulv (psi A n 0 i) (mulv (mat_at A 0) x0)) (vsum n (S i) (fun k => mulv (psi A n k (i - k)) (mulv (mat_at B k) (part u (k * m) m))))).
Proof.
  intros HA HB HL Hx. induction i as [|i IH]; intros Hi.
  - destruct (mat_at_size A n n 0 HA) as [R C]; [lia|]. destruct (mat_at_size B n m 0 HB) as [R' C']; [lia|].
    split; [cbn; exact R|]. cbn [simulate vadd vget vlen]. intros j Hj. cbn [mulv vlen] in Hj.
    rewrite vsum_get. cbn [Rsum]. rewrite Rplus_0_l. cbn [psi Nat.sub].
    rewrite (proj2 (mulv_id n (mulv (mat_at A 0) x0) ltac:(exact R))) by (cbn; lia).
    rewrite (proj2 (mulv_id n (mulv (mat_at B 0) (part u (0 * m) m)) ltac:(exact R'))) by (cbn; lia). reflexivity.
  - specialize (IH ltac:(lia)). destruct (mat_at_size A n n (S i) HA) as [R C]; [lia|].
    destruct (mat_at_size B n m (S i) HB) as [R' C']; [lia|].
    cbn [simulate]. fold (simulate A B m u x0 (S i)).
    assert (L : vlen (simulate A B m u x0 (S i)) = n). { destruct IH as [IH _]. rewrite IH. cbn. apply psi_rows. }
    change (veq (vadd (mulv (mat_at A (S i)) (simulate A B m u x0 (S i))) (mulv (mat_at B (S i)) (part u (S i * m) m)))
      (vadd (mulv (psi A n 0 (S i)) (mulv (mat_at A 0) x0)) (vsum n (S (S i)) (fun k => mulv (psi A n k (S i - k)) (mulv (mat_at B k) (part u (k * m) m)))))).
    split; [cbn; rewrite R, psi_rows; reflexivity|]. intros j Hj. cbn [vadd vlen mulv] in Hj. rewrite R in Hj.
    cbn [vadd vget].
    rewrite (proj2 (mulv_veq _ _ _ _ (meq_refl (mat_at A (S i))) IH ltac:(lia))) by (cbn; lia).
    rewrite (proj2 (mulv_add (mat_at A (S i)) (mulv (psi A n 0 i) (mulv (mat_at A 0) x0)) (vsum n (S i) (fun k => mulv (psi A n k (i - k)) (mulv (mat_at B k) (part u (k * m) m)))) ltac:(cbn; rewrite psi_rows; lia)))
      by (cbn; lia).
    cbn [vadd vget]. rewrite Rplus_assoc. f_equal.
    + pose proof (psi_left A n HA i 0 ltac:(lia)) as P. cbn [Nat.add] in P.
      rewrite (proj2 (mulv_veq _ _ (mulv (mat_at A 0) x0) _ P (veq_refl _) ltac:(cbn [mulv vlen]; rewrite (psi_cols A n HA) by lia; symmetry; apply (mat_at_size A n n 0 HA); lia))) by (cbn [mulv vlen]; rewrite psi_rows; lia).
      rewrite (proj2 (mulv_mul (mat_at A (S i)) (psi A n 0 i) (mulv (mat_at A 0) x0) ltac:(rewrite psi_rows; lia))) by (cbn; lia). reflexivity.
    + rewrite vsum_get. cbn [Rsum]. f_equal.
      * change (Rsum i (fun j0 => vget (mulv (psi A n j0 (S i - j0)) (mulv (mat_at B j0) (part u (j0 * m) m))) j) + vget (mulv (psi A n i (S i - i)) (mulv (mat_at B i) (part u (i * m) m))) j)
          with (Rsum (S i) (fun j0 => vget (mulv (psi A n j0 (S i - j0)) (mulv (mat_at B j0) (part u (j0 * m) m))) j)).
        transitivity (Rsum (S i) (fun k => vget (mulv (mat_at A (S i)) (mulv (psi A n k (i - k)) (mulv (mat_at B k) (part u (k * m) m)))) j)).
        -- cbn [mulv]. cbn [vget].
           transitivity (Rsum (mcols (mat_at A (S i))) (fun l => Rsum (S i) (fun k => mget (mat_at A (S i)) j l * vget (mulv (psi A n k (i - k)) (mulv (mat_at B k) (part u (k * m) m))) l))).
           ++ apply Rsum_ext. intros l Hl. rewrite vsum_get, Rsum_scal. reflexivity.
           ++ rewrite Rsum_swap. reflexivity.
        -- apply Rsum_ext. intros k Hk. destruct (mat_at_size B n m k HB ltac:(lia)) as [Rk Ck].
           pose proof (psi_left A n HA (i - k) k ltac:(lia)) as P. replace (k + S (i - k))%nat with (S i) in P by lia.
           replace (S i - k)%nat with (S (i - k)) by lia. symmetry.
           rewrite (proj2 (mulv_veq _ _ (mulv (mat_at B k) (part u (k * m) m)) _ P (veq_refl _) ltac:(cbn [mulv vlen]; rewrite (psi_cols A n HA) by lia; lia))) by (cbn [mulv vlen]; rewrite psi_rows; lia).
           rewrite (proj2 (mulv_mul (mat_at A (S i)) (psi A n k (i - k)) (mulv (mat_at B k) (part u (k * m) m)) ltac:(rewrite psi_rows; lia))) by (cbn; lia). reflexivity.
      * rewrite Nat.sub_diag. cbn [psi]. rewrite (proj2 (mulv_id n (mulv (mat_at B (S i)) (part u (S i * m) m)) ltac:(exact R'))) by (cbn; lia). reflexivity.
Qed.

Lemma Rsum_upto N i f : (i < N)%nat -> Rsum N (fun k => if (k <=? i)%nat then f k else 0) = Rsum (S i) f.
Proof.
  intros H. replace N with (S i + (N - S i))%nat by lia. rewrite Rsum_split.
  rewrite (Rsum_zero (N - S i)); [|intros k Hk; replace (S i + k <=? i)%nat with false by (symmetry; apply Nat.leb_gt; lia); reflexivity].
  rewrite Rplus_0_r. apply Rsum_ext. intros k Hk. replace (k <=? i)%nat with true by (symmetry; apply Nat.leb_le; lia). reflexivity.
Qed.

(** matrices with these contents reproduce the simulation *)
Lemma condensed_simulates A B n m S U : sized A n n -> sized B n m -> length A = length B -> condensed A B n m S U ->
  forall x0 u, vlen x0 = n -> vlen u = (length A * m)%nat ->
  stacks (length A) n S U x0 u (fun k => simulate A B m u x0 (Datatypes.S k)).
Proof.
  intros HA HB HL (S1 & S2 & U1 & U2 & CS & CU) x0 u Hx Hu i Hi.
  eapply veq_trans; [|apply veq_sym, (simulate_closed A B n m u x0 HA HB HL Hx i Hi)].
  split; [cbn; rewrite psi_rows; reflexivity|]. cbn [part vlen vget vadd]. intros p Hp. f_equal.
  - assert (Q : mcols (psi A n 0 i) = mrows (mat_at A 0)) by (rewrite (psi_cols A n HA) by lia; symmetry; apply (mat_at_size A n n); [exact HA|lia]).
    rewrite <- (proj2 (mulv_mul (psi A n 0 i) (mat_at A 0) x0 Q)) by (cbn; rewrite psi_rows; lia).
    cbn [mulv vget]. rewrite S2.
    replace (mcols (mmul (psi A n 0 i) (mat_at A 0))) with n by (cbn [mmul mcols]; symmetry; apply (mat_at_size A n n); [exact HA|lia]).
    apply Rsum_ext. intros k Hk. rewrite CS by lia. reflexivity.
  - rewrite vsum_get. cbn [mulv vget]. rewrite U2, Rsum_blocks. rewrite <- (Rsum_upto (length A) i) by assumption.
    apply Rsum_ext. intros j Hj.
    transitivity (Rsum m (fun q => (if (j <=? i)%nat then mget (mmul (psi A n j (i - j)) (mat_at B j)) p q else 0) * vget u (j * m + q))).
    { apply Rsum_ext. intros q Hq. rewrite CU by lia. reflexivity. }
    destruct (Nat.leb_spec j i) as [L|L].
    + destruct (mat_at_size B n m j HB ltac:(lia)) as [R C].
      assert (Q : mcols (psi A n j (i - j)) = mrows (mat_at B j)) by (rewrite (psi_cols A n HA) by lia; lia).
      pose proof (proj2 (mulv_mul (psi A n j (i - j)) (mat_at B j) (part u (j * m) m) Q)) as M.
      specialize (M p ltac:(cbn; rewrite psi_rows; lia)). cbn [mulv vget] in M. cbn [mmul mcols] in M. rewrite C in M.
      unfold mulv; cbn [vget]. rewrite C. exact M.
    + apply Rsum_zero. intros; ring.
Qed.
