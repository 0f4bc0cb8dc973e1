(** Filling a matrix block by block *)
From Coq Require Import List Reals Arith Lra Lia Bool.
From Verif Require Import Base BaseFacts RSum Matrix BlockDiagonalFacts BlockMatrix BlockMatrixFacts.
Open Scope R_scope.

Lemma grid_div r a p : (p < r)%nat -> ((a * r + p) / r = a)%nat.
Proof. intros H. rewrite Nat.div_add_l by lia. rewrite Nat.div_small by lia. lia. Qed.
Lemma grid_mod r a p : (p < r)%nat -> ((a * r + p) mod r = p)%nat.
Proof. intros H. rewrite Nat.add_comm, Nat.mod_add by lia. apply Nat.mod_small. lia. Qed.
Lemma grid_split r n i : (i < n * r)%nat -> exists a p, i = (a * r + p)%nat /\ (a < n)%nat /\ (p < r)%nat.
Proof.
  intros H. assert (R : r <> 0%nat) by nia. exists (i / r)%nat, (i mod r)%nat. pose proof (Nat.div_mod i r R). pose proof (Nat.mod_upper_bound i r R).
  split; [lia|]. split; [|lia]. apply Nat.div_lt_upper_bound; lia.
Qed.
Lemma divmod_iff s a i k : (k < s)%nat -> (a = i * s + k <-> a / s = i /\ a mod s = k)%nat.
Proof.
  intros H. split.
  - intros ->. rewrite grid_div, grid_mod by assumption. auto.
  - intros [<- <-]. pose proof (Nat.div_mod a s ltac:(lia)). lia.
Qed.
Lemma meq_grid m1 m2 r c nv nh : mrows m1 = (nv * r)%nat -> mcols m1 = (nh * c)%nat -> mrows m2 = (nv * r)%nat -> mcols m2 = (nh * c)%nat ->
  (forall a b p q, (a < nv)%nat -> (b < nh)%nat -> (p < r)%nat -> (q < c)%nat -> mget m1 (a * r + p) (b * c + q) = mget m2 (a * r + p) (b * c + q)) ->
  m1 ==m m2.
Proof.
  intros R1 C1 R2 C2 H. split; [lia|]. split; [lia|]. intros i j Hi Hj.
  destruct (grid_split r nv i) as (a & p & -> & Ha & Hp); [lia|]. destruct (grid_split c nh j) as (b & q & -> & Hb & Hq); [lia|]. apply H; assumption.
Qed.

(** the blocks (a, b) with [Q a b] have the contents [F a b], the others are those of [m0] *)
Definition filled (m0 : mat) (r c nv nh : nat) (F : nat -> nat -> nat -> nat -> R) (Q : nat -> nat -> Prop) (m : mat) : Prop :=
  mrows m = (nv * r)%nat /\ mcols m = (nh * c)%nat /\
  forall a b p q, (a < nv)%nat -> (b < nh)%nat -> (p < r)%nat -> (q < c)%nat ->
    (Q a b -> mget m (a * r + p) (b * c + q) = F a b p q) /\ (~ Q a b -> mget m (a * r + p) (b * c + q) = mget m0 (a * r + p) (b * c + q)).

Lemma filled_init m0 r c nv nh F Q : mrows m0 = (nv * r)%nat -> mcols m0 = (nh * c)%nat -> (forall a b, (a < nv)%nat -> (b < nh)%nat -> ~ Q a b) -> filled m0 r c nv nh F Q m0.
Proof. intros R C N. split; [exact R|]. split; [exact C|]. intros a b p q Ha Hb _ _. split; [intros H; destruct (N a b Ha Hb H)|reflexivity]. Qed.
Lemma filled_iff m0 r c nv nh F Q Q' m : filled m0 r c nv nh F Q m -> (forall a b, (a < nv)%nat -> (b < nh)%nat -> (Q a b <-> Q' a b)) -> filled m0 r c nv nh F Q' m.
Proof.
  intros (R & C & H) I. split; [exact R|]. split; [exact C|]. intros a b p q Ha Hb Hp Hq. destruct (H a b p q Ha Hb Hp Hq) as [H1 H2].
  split; intros X; [apply H1, I|apply H2; intros Y; apply X, I]; assumption.
Qed.

(** assignment of na x nb blocks at (a0, b0) *)
Lemma filled_put m0 r c nv nh F Q Q' m a0 b0 na nb src : filled m0 r c nv nh F Q m ->
  (a0 + na <= nv)%nat -> (b0 + nb <= nh)%nat -> mrows src = (na * r)%nat -> mcols src = (nb * c)%nat ->
  (forall a b p q, (a < na)%nat -> (b < nb)%nat -> (p < r)%nat -> (q < c)%nat -> mget src (a * r + p) (b * c + q) = F (a0 + a)%nat (b0 + b)%nat p q) ->
  (forall a b, (a < nv)%nat -> (b < nh)%nat -> (Q' a b <-> Q a b \/ ((a0 <= a < a0 + na)%nat /\ (b0 <= b < b0 + nb)%nat))) ->
  exists m', putb m (a0 * r) (b0 * c) (na * r) (nb * c) src = Ok m' /\ filled m0 r c nv nh F Q' m'.
Proof.
  intros (R & C & H) Ha0 Hb0 RS CS ES I. rewrite putb_ok by (first [assumption|nia]). eexists. split; [reflexivity|].
  split; [exact R|]. split; [exact C|]. intros a b p q Ha Hb Hp Hq. destruct (H a b p q Ha Hb Hp Hq) as [H1 H2]. cbn [mset_block mget]. rewrite RS, CS.
  assert (EB : forall x0 n x y w, (y < w)%nat -> in_block (x0 * w) (n * w) (x * w + y) = ((x0 <=? x) && (x <? x0 + n))%nat).
  { intros x0 n x y w Hy. destruct (Nat.leb_spec x0 x); destruct (Nat.ltb_spec x (x0 + n)); cbn [andb]; [apply in_block_iff|apply in_block_niff|apply in_block_niff|apply in_block_niff]; nia. }
  rewrite !EB by assumption.
  destruct ((a0 <=? a) && (a <? a0 + na))%nat eqn:B1; [destruct ((b0 <=? b) && (b <? b0 + nb))%nat eqn:B2|]; cbn [andb].
  - apply andb_true_iff in B1, B2. rewrite Nat.leb_le, Nat.ltb_lt in B1, B2.
    replace (a * r + p - a0 * r)%nat with ((a - a0) * r + p)%nat by nia. replace (b * c + q - b0 * c)%nat with ((b - b0) * c + q)%nat by nia.
    rewrite ES by lia. replace (a0 + (a - a0))%nat with a by lia. replace (b0 + (b - b0))%nat with b by lia. split; [reflexivity|].
    intros NQ. destruct NQ. apply I; [assumption|assumption|]. right. lia.
  - assert (NB : ~ (b0 <= b < b0 + nb)%nat) by (apply andb_false_iff in B2; rewrite Nat.leb_gt, Nat.ltb_ge in B2; lia).
    split; intros X; [apply H1|apply H2].
    + apply I in X; [|assumption|assumption]. tauto.
    + intros Y. apply X, I; [assumption|assumption|]. left; exact Y.
  - assert (NB : ~ (a0 <= a < a0 + na)%nat) by (apply andb_false_iff in B1; rewrite Nat.leb_gt, Nat.ltb_ge in B1; lia).
    split; intros X; [apply H1|apply H2].
    + apply I in X; [|assumption|assumption]. tauto.
    + intros Y. apply X, I; [assumption|assumption|]. left; exact Y.
Qed.
(** one block *)
Lemma filled_put1 m0 r c nv nh F Q Q' m a0 b0 src : filled m0 r c nv nh F Q m ->
  (a0 < nv)%nat -> (b0 < nh)%nat -> mrows src = r -> mcols src = c ->
  (forall p q, (p < r)%nat -> (q < c)%nat -> mget src p q = F a0 b0 p q) ->
  (forall a b, (a < nv)%nat -> (b < nh)%nat -> (Q' a b <-> Q a b \/ (a = a0 /\ b = b0))) ->
  exists m', putb m (a0 * r) (b0 * c) r c src = Ok m' /\ filled m0 r c nv nh F Q' m'.
Proof.
  intros H Ha Hb RS CS ES I. destruct (filled_put m0 r c nv nh F Q Q' m a0 b0 1 1 src H) as (m' & E & G); rewrite ?Nat.mul_1_l; try lia.
  - intros a b p q Ha' Hb' Hp Hq. replace a with 0%nat by lia. replace b with 0%nat by lia. cbn [Nat.mul Nat.add]. rewrite ES by assumption. rewrite !Nat.add_0_r. reflexivity.
  - intros a b Ha' Hb'. rewrite I by assumption. intuition lia.
  - exists m'. split; [|exact G]. rewrite !Nat.mul_1_l in E. exact E.
Qed.
Lemma filled_get m0 r c nv nh F Q m a b p q : filled m0 r c nv nh F Q m -> Q a b -> (a < nv)%nat -> (b < nh)%nat -> (p < r)%nat -> (q < c)%nat ->
  mget m (a * r + p) (b * c + q) = F a b p q.
Proof. intros (_ & _ & H) HQ Ha Hb Hp Hq. apply (H a b p q); assumption. Qed.
Lemma filled_get0 m0 r c nv nh F Q m a b p q : filled m0 r c nv nh F Q m -> ~ Q a b -> (a < nv)%nat -> (b < nh)%nat -> (p < r)%nat -> (q < c)%nat ->
  mget m (a * r + p) (b * c + q) = mget m0 (a * r + p) (b * c + q).
Proof. intros (_ & _ & H) HQ Ha Hb Hp Hq. apply (H a b p q); assumption. Qed.
