From Coq Require Import List Reals Arith Lra Lia Bool.
From Verif Require Import Base BaseFacts RSum Matrix BlockDiagonalFacts BlockMatrix BlockMatrixFacts Condense CondenseSpec CondenseFacts CondenseLoops.
Import ListNotations.
Open Scope R_scope.

(** assignment of the block rows below block row k *)
Lemma mset_below m k n N j0 c src a p q :
  (k < N)%nat -> (a < N)%nat -> (p < n)%nat -> mrows src = ((N - k - 1) * n)%nat -> mcols src = c ->
  mget (mset_block m ((k + 1) * n) j0 src) (a * n + p) q =
  if (k <? a)%nat && in_block j0 c q then mget src ((a - k - 1) * n + p) (q - j0) else mget m (a * n + p) q.
Proof.
  intros Hk Ha Hp R C. cbn [mset_block mget]. rewrite R, C.
  assert (E : in_block ((k + 1) * n) ((N - k - 1) * n) (a * n + p) = (k <? a)%nat).
  { destruct (Nat.ltb_spec k a); [apply in_block_iff|apply in_block_niff]; nia. }
  rewrite E. destruct (Nat.ltb_spec k a) as [L|L]; cbn [andb]; [|reflexivity]. destruct (in_block j0 c q); [|reflexivity].
  f_equal. nia.
Qed.

Section Dense.
Variables (A B : list mat) (n m : nat).
Hypothesis HA : sized A n n.
Hypothesis HB : sized B n m.
Hypothesis HL : length A = length B.
Hypothesis HN : (0 < length A)%nat.
Let N := length A.

Theorem condense_dense_ok junk : exists S U, condense_dense junk A B = Ok (S, U) /\ condensed A B n m S U.
Proof.
  unfold condense_dense. rewrite !(assert_true (length A =? length B)%nat), !(assert_true (0 <? length A)%nat) by (first [apply Nat.eqb_eq; exact HL | apply Nat.ltb_lt; exact HN]).
  assert (HNB : (0 < length B)%nat) by lia.
  rewrite (mat_at_ok A 0 HN), (mat_at_ok B 0 HNB). cbn [bind].
  destruct (mat_at_size A n n 0 HA HN) as [RA0 CA0]. destruct (mat_at_size B n m 0 HB HNB) as [RB0 CB0].
  rewrite assert_true by (apply andb_true_iff; split; apply Nat.eqb_eq; lia). cbv zeta. rewrite RB0, CB0. fold N. fold N in HN.
  assert (LB : (N - 1 < length B)%nat) by (unfold N in *; lia).
  rewrite (mat_at_ok B (N - 1) LB). destruct (mat_at_size B n m (N - 1) HB LB) as [RB CB].
  rewrite putb_ok by (cbn; nia). cbn [bind]. rewrite putb_ok by (cbn; nia). cbn [bind].
  set (S1 := mset_block _ _ _ (mid n)). set (U1 := mset_block _ _ _ _).
  match goal with |- context [for_up (N - 1) 0 ?b (S1, U1)] => set (body := b) end.
  destruct (for_up_inv (fun t (SU : mat * mat) => cinv A B n m (N - 1 - t) (fst SU) (snd SU)) body (N - 1) 0 (S1, U1)) as ([S U] & E & C).
  - cbn [fst snd]. rewrite Nat.sub_0_r. apply (cinv_init A B n m HB HL HN); try (cbn; unfold N; lia).
    + intros p q Hp Hq. unfold S1. rewrite (mset_grid_col _ n n) by auto. fold N. rewrite Nat.eqb_refl. reflexivity.
    + intros i j p q Hi Hj Hp Hq. unfold U1. rewrite mset_grid by auto. reflexivity.
  - intros t [S U] Ht C. unfold body. cbn [fst snd] in *. cbv zeta. set (k := (N - 2 - t)%nat).
    replace (N - 1 - t)%nat with (Datatypes.S k) in C by lia. assert (Hk : (Datatypes.S k < N)%nat) by lia.
    pose proof C as (S1' & S2' & U1' & U2' & CS & CU). fold N in S1', S2', U1', U2'.
    assert (LA : (k + 1 < length A)%nat) by (unfold N in *; lia).
    destruct (mat_at_size A n n (k + 1) HA LA) as [RA CA].
    assert (LBk : (k < length B)%nat) by (unfold N in *; lia). destruct (mat_at_size B n m k HB LBk) as [RBk CBk].
    rewrite getb_ok by (rewrite ?S1', ?S2'; nia). cbn [bind]. rewrite (mat_at_ok A _ LA). cbn [bind]. rewrite mmul_o_ok by (cbn; lia). cbn [bind].
    rewrite putb_ok by (cbn [mmul mblock mrows mcols]; rewrite ?S1', ?S2', ?CA; nia). cbn [bind]. set (X := mset_block S _ _ _).
    rewrite putb_ok by (cbn [X mset_block mid mrows mcols]; rewrite ?S1', ?S2'; nia). cbn [bind]. set (S' := mset_block X _ _ _).
    rewrite (mat_at_ok B _ LBk). cbn [bind]. rewrite putb_ok by (rewrite ?U1', ?U2', ?RBk, ?CBk; nia). cbn [bind]. set (U0 := mset_block U _ _ _).
    rewrite getb_ok by (cbn [S' X mset_block mrows mcols]; rewrite ?S1', ?S2'; nia). cbn [bind]. rewrite mmul_o_ok by (cbn; lia). cbn [bind].
    rewrite putb_ok by (cbn [U0 mset_block mmul mblock mrows mcols]; rewrite ?U1', ?U2', ?CBk; nia). cbn [bind].
    eexists. split; [reflexivity|]. cbn [fst snd]. replace (N - 1 - Datatypes.S t)%nat with k by lia.
    assert (ES' : forall a p q, (p < n)%nat -> (q < n)%nat -> mget S' (a * n + p) q = if (a =? k)%nat then mget (mid n) p q else mget X (a * n + p) q).
    { intros a p q Hp Hq. unfold S'. apply (mset_grid_col _ n n); auto. }
    apply (cinv_step A B n m HA HB HL HN k S U); auto.
    + intros i p q Hi Hp Hq. fold N in Hi. rewrite ES' by assumption. replace (i =? k)%nat with false by (symmetry; apply Nat.eqb_neq; lia).
      unfold X. rewrite (mset_below _ k n N 0 n) by (cbn [mmul mblock mrows mcols]; lia).
      replace (k <? i)%nat with true by (symmetry; apply Nat.ltb_lt; lia). replace (in_block 0 n q) with true by (symmetry; apply in_block_iff; lia).
      cbn [andb mmul mblock mget mcols]. apply Rsum_ext. intros l Hl. rewrite Nat.add_0_l, Nat.sub_0_r. replace (k + 1)%nat with (Datatypes.S k) by lia. f_equal. f_equal. nia.
    + intros p q Hp Hq. rewrite ES', Nat.eqb_refl by assumption. reflexivity.
    + intros i j p q Hi Hj Hp Hq. fold N in Hi, Hj. rewrite (mset_below _ k n N (k * m) m) by (cbn [mmul mblock mrows mcols]; lia).
      rewrite (in_block_grid m k j q Hq). unfold U0. rewrite mset_grid by auto.
      destruct (Nat.eqb_spec j k) as [->|]; rewrite ?andb_true_r, ?andb_false_r; cbn [andb]; [|reflexivity].
      destruct (Nat.ltb_spec k i), (Nat.leb_spec k i), (Nat.eqb_spec i k); try lia; try reflexivity.
      cbn [mmul mblock mget mcols]. apply Rsum_ext. intros l Hl. rewrite Nat.add_0_l. f_equal; f_equal; nia.
  - rewrite E. cbn [bind fst snd]. cbn [fst snd] in C. replace (N - 1 - (0 + (N - 1)))%nat with 0%nat in C by lia.
    pose proof C as (S1' & S2' & U1' & U2' & CS & CU). rewrite mmul_o_ok by lia. cbn [bind]. eexists. exists U. split; [reflexivity|].
    apply (cinv_final A B n m HA HL HN S); [exact C|exact S1'|cbn; exact CA0|].
    intros i p q Hi Hp Hq. cbn [mmul mget]. rewrite S2'. reflexivity.
Qed.
End Dense.

(** ** time invariant *)
Lemma mat_at_repeat a N k : (k < N)%nat -> mat_at (repeat a N) k = a.
Proof. revert k. induction N as [|N IH]; intros k Hk; [lia|]. destruct k; cbn; [reflexivity|]. apply IH. lia. Qed.
Fixpoint mpow (n : nat) (a : mat) (d : nat) : mat := match d with O => mid n | S d' => mmul (mpow n a d') a end.
Lemma psi_repeat a N n d : forall k, (k + d < N)%nat -> psi (repeat a N) n k d = mpow n a d.
Proof. induction d as [|d IH]; intros k Hk; cbn; [reflexivity|]. rewrite IH, mat_at_repeat by lia. reflexivity. Qed.
Lemma sized_repeat a N : sized (repeat a N) (mrows a) (mcols a).
Proof. induction N; cbn; constructor; auto. Qed.

Theorem condense_ti_ok junk N A B : mcols A = mrows A -> mrows B = mrows A -> (0 < N)%nat ->
  exists S U, condenseTimeInvariant junk N A B = Ok (S, U) /\ condensed (repeat A N) (repeat B N) (mrows A) (mcols B) S U.
Proof.
  intros HA HB HN. set (n := mrows A) in *. set (m := mcols B). unfold condenseTimeInvariant. cbv zeta. fold n m. rewrite HA, HB.
  rewrite putb_ok by (cbn; fold n; nia). cbn [bind]. set (S1 := mset_block _ _ _ A).
  match goal with |- context [for_up (N - 1) 1 ?b (A, S1)] => set (body := b) end.
  assert (PR : forall d, mrows (mpow n A d) = n) by (induction d; cbn; auto).
  assert (PC : forall d, mcols (mpow n A d) = n) by (destruct d; cbn; auto).
  destruct (for_up_inv (fun i (MS : mat * mat) => fst MS ==m mpow n A i /\ mrows (snd MS) = (n * N)%nat /\ mcols (snd MS) = n /\
     forall a p q, (a < i)%nat -> (p < n)%nat -> (q < n)%nat -> mget (snd MS) (a * n + p) q = mget (mpow n A (Datatypes.S a)) p q) body (N - 1) 1 (A, S1)) as ([M S] & E & _ & RS & CS & ES).
  - cbn [fst snd]. split; [apply meq_sym; cbn [mpow]; apply mmul_id_l|]. split; [reflexivity|]. split; [reflexivity|].
    intros a p q Ha Hp Hq. replace a with 0%nat by lia. unfold S1. change 0%nat with (0 * n)%nat at 1. rewrite (mset_grid_col _ n n) by auto. rewrite Nat.eqb_refl.
    cbn [mpow]. symmetry. apply (meq_get (mmul (mid n) A) A); [apply mmul_id_l|cbn; lia|cbn; lia].
  - intros i [M S] Hi (EM & RS & CS & ES). unfold body. cbn [fst snd] in *. pose proof EM as (RM & CM & _). rewrite PR in RM. rewrite PC in CM.
    rewrite mmul_o_ok by lia. cbn [bind]. rewrite putb_ok by (cbn [mmul mrows mcols]; nia). cbn [bind]. eexists. split; [reflexivity|]. cbn [fst snd].
    assert (EM' : mmul M A ==m mpow n A (Datatypes.S i)) by (cbn [mpow]; apply mmul_meq; [exact EM|apply meq_refl|lia]).
    split; [exact EM'|]. split; [exact RS|]. split; [exact CS|].
    intros a p q Ha Hp Hq. rewrite (mset_grid_col _ n n) by (cbn; auto). destruct (Nat.eqb_spec a i) as [->|Ne].
    + apply meq_get; [exact EM'|cbn; lia|cbn; lia].
    + apply ES; [lia|assumption|assumption].
  - rewrite E. cbn [bind snd]. cbn [snd] in RS, CS, ES. replace (1 + (N - 1))%nat with N in ES by lia.
    rewrite getb_ok by (rewrite ?RS, ?CS; nia). cbn [bind]. rewrite mmul_o_ok by (cbn; lia). cbn [bind].
    set (Uc := mvcat B _).
    assert (RU : mrows Uc = (n * N)%nat) by (cbn; nia). assert (CU : mcols Uc = m) by reflexivity.
    assert (EU : forall a p q, (a < N)%nat -> (p < n)%nat -> (q < m)%nat -> mget Uc (a * n + p) q = mget (mmul (mpow n A a) B) p q).
    { intros a p q Ha Hp Hq. unfold Uc. cbn [mvcat mget]. rewrite HB. destruct a as [|a].
      - cbn [Nat.mul Nat.add mpow]. replace (p <? n)%nat with true by (symmetry; apply Nat.ltb_lt; lia).
        symmetry. rewrite <- HB. apply (meq_get (mmul (mid (mrows B)) B) B); [apply mmul_id_l|cbn; lia|cbn; fold m; lia].
      - replace (Datatypes.S a * n + p <? n)%nat with false by (symmetry; apply Nat.ltb_ge; nia).
        replace (Datatypes.S a * n + p - n)%nat with (a * n + p)%nat by nia. cbn [mmul mblock mget mcols]. rewrite PC.
        apply Rsum_ext. intros l Hl. rewrite !Nat.add_0_l. rewrite ES by lia. reflexivity. }
    match goal with |- context [for_up N 0 ?b ?z] => set (body2 := b) end.
    destruct (for_up_inv (fun i (U : mat) => mrows U = (n * N)%nat /\ mcols U = (m * N)%nat /\
      forall a b p q, (a < N)%nat -> (b < N)%nat -> (p < n)%nat -> (q < m)%nat ->
        mget U (a * n + p) (b * m + q) = if (b <? i)%nat && (b <=? a)%nat then mget Uc ((a - b) * n + p) q else 0) body2 N 0 (mzero (n * N) (m * N)))
      as (U & E2 & RU2 & CU2 & EU2).
    + split; [reflexivity|]. split; [reflexivity|]. intros; reflexivity.
    + intros i U Hi (R & C & EE). unfold body2. rewrite getb_ok by (rewrite ?RU, ?CU; nia). cbn [bind]. rewrite putb_ok by (cbn; nia).
      eexists. split; [reflexivity|]. cbn [mset_block mrows mcols]. split; [exact R|]. split; [exact C|].
      intros a b p q Ha Hb Hp Hq. cbn [mset_block mget mblock mrows mcols].
      assert (B1 : in_block (n * i) (n * (N - i)) (a * n + p) = (i <=? a)%nat).
      { destruct (Nat.leb_spec i a); [apply in_block_iff|apply in_block_niff]; nia. }
      rewrite B1. rewrite (Nat.mul_comm m i), (in_block_grid m i b q Hq), EE by assumption.
      destruct (Nat.eqb_spec b i) as [->|Nb].
      * rewrite andb_true_r. replace (i <? i)%nat with false by (symmetry; apply Nat.ltb_irrefl).
        replace (i <? Datatypes.S i)%nat with true by (symmetry; apply Nat.ltb_lt; lia). cbn [andb].
        destruct (Nat.leb_spec i a); [|reflexivity]. f_equal; nia.
      * rewrite andb_false_r. destruct (Nat.ltb_spec b i), (Nat.ltb_spec b (Datatypes.S i)); try lia; reflexivity.
    + rewrite E2. cbn [bind]. exists S, U. split; [reflexivity|]. cbn [Nat.add] in EU2. unfold condensed. rewrite repeat_length. fold m.
      repeat split; [nia|nia|nia|nia| |].
      * intros i p q Hi Hp Hq. rewrite psi_repeat, mat_at_repeat by lia. apply ES; assumption.
      * intros i j p q Hi Hj Hp Hq. rewrite EU2 by assumption. replace (j <? N)%nat with true by (symmetry; apply Nat.ltb_lt; lia). cbn [andb].
        destruct (Nat.leb_spec j i); [|reflexivity]. rewrite psi_repeat, mat_at_repeat by lia. apply EU; lia.
Qed.
