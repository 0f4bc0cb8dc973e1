(** * Proofs about the life of block matrices *)
From Coq Require Import List Arith ZArith Reals Bool Lia.
From Verif Require Import Base RSum Matrix Eigentools SelectRowsFacts BlockLife BlockLifeSpec.
Import ListNotations.
Local Open Scope Z_scope.

(** the members agree with the template parameters *)
Definition sized (z : bsize) (s : bstate) : Prop := (t_rows z <> DYNAMIC -> s_rows s = t_rows z) /\ (t_cols z <> DYNAMIC -> s_cols s = t_cols z).

Lemma then_fine r f s : then_ r f = Fine s -> exists s1, r = Fine s1 /\ f s1 = Fine s.
Proof. destruct r as [s1|s1]; cbn; [|discriminate]. intros H. exists s1. auto. Qed.
Lemma check_fine c s s1 : check c s = Fine s1 -> c = true /\ s1 = s.
Proof. unfold check. destruct c; intros H; inversion H; auto. Qed.
Ltac fine := repeat match goal with
  | H : then_ _ _ = Fine _ |- _ => apply then_fine in H; destruct H as (? & ? & ?)
  | H : check _ _ = Fine _ |- _ => apply check_fine in H; destruct H as (? & ->)
  | H : Fine _ = Fine _ |- _ => injection H as H; try subst
  | H : (_ =? _) = true |- _ => apply Z.eqb_eq in H
  | H : (_ <? _) = true |- _ => apply Z.ltb_lt in H
  | H : Refused _ = Fine _ |- _ => discriminate H
  end.

Lemma finalize_fine z s s' : finalize z s = Fine s' ->
  s_raw s' = s_raw s /\ s_rows s' = s_rows s /\ s_cols s' = s_cols s /\ (known z s -> consistent z s').
Proof.
  unfold finalize. intros H. fine. rename x into s1.
  assert (A : s_raw s1 = s_raw s /\ s_rows s1 = s_rows s /\ s_cols s1 = s_cols s /\ s_nh s1 = s_nh s /\
    (negb (t_rows z =? DYNAMIC) || negb (s_rows s =? UNDEFINED) = true ->
       0 < block_rows_num z s /\ Z.rem (Z.of_nat (mrows (s_raw s))) (block_rows_num z s) = 0 /\
       s_nv s1 = Some (Z.quot (Z.of_nat (mrows (s_raw s))) (block_rows_num z s)))).
  { destruct (negb (t_rows z =? DYNAMIC) || negb (s_rows s =? UNDEFINED)); fine; cbn; repeat split; auto; try discriminate. }
  clear H. destruct A as (A1 & A2 & A3 & A4 & A5).
  assert (B : s_raw s' = s_raw s1 /\ s_rows s' = s_rows s1 /\ s_cols s' = s_cols s1 /\ s_nv s' = s_nv s1 /\
    (negb (t_cols z =? DYNAMIC) || negb (s_cols s1 =? UNDEFINED) = true ->
       0 < block_cols_num z s1 /\ Z.rem (Z.of_nat (mcols (s_raw s1))) (block_cols_num z s1) = 0 /\
       s_nh s' = Some (Z.quot (Z.of_nat (mcols (s_raw s1))) (block_cols_num z s1)))).
  { destruct (negb (t_cols z =? DYNAMIC) || negb (s_cols s1 =? UNDEFINED)); fine; cbn; repeat split; auto; try discriminate. }
  clear H0. destruct B as (B1 & B2 & B3 & B4 & B5).
  split; [congruence|]. split; [congruence|]. split; [congruence|]. intros [K1 K2].
  assert (D1 : negb (t_rows z =? DYNAMIC) || negb (s_rows s =? UNDEFINED) = true).
  { destruct (Z.eqb_spec (t_rows z) DYNAMIC), (Z.eqb_spec (s_rows s) UNDEFINED); cbn; auto; exfalso; apply K1; split; congruence. }
  assert (D2 : negb (t_cols z =? DYNAMIC) || negb (s_cols s1 =? UNDEFINED) = true).
  { destruct (Z.eqb_spec (t_cols z) DYNAMIC), (Z.eqb_spec (s_cols s1) UNDEFINED); cbn; auto; exfalso; apply K2; split; congruence. }
  specialize (A5 D1). specialize (B5 D2). destruct A5 as (P1 & R1 & N1), B5 as (P2 & R2 & N2).
  assert (E1 : block_rows_num z s' = block_rows_num z s) by (unfold block_rows_num; congruence).
  assert (E2 : block_cols_num z s' = block_cols_num z s1) by (unfold block_cols_num; congruence).
  set (br := block_rows_num z s) in *. set (bc := block_cols_num z s1) in *.
  pose proof (Z.quot_rem' (Z.of_nat (mrows (s_raw s))) br) as Q1. rewrite R1, Z.add_0_r in Q1.
  pose proof (Z.quot_rem' (Z.of_nat (mcols (s_raw s1))) bc) as Q2. rewrite R2, Z.add_0_r in Q2.
  exists (Z.quot (Z.of_nat (mrows (s_raw s))) br), (Z.quot (Z.of_nat (mcols (s_raw s1))) bc), br, bc.
  assert (Z1 : 0 <= Z.quot (Z.of_nat (mrows (s_raw s))) br) by (apply Z.quot_pos; lia).
  assert (Z2 : 0 <= Z.quot (Z.of_nat (mcols (s_raw s1))) bc) by (apply Z.quot_pos; lia).
  unfold divided, getNumberOfBlocksVertical, getNumberOfBlocksHorizontal, getNumberOfRows, getNumberOfColumns.
  rewrite B4, N1, N2, B1, A1, E1, E2. cbn [initialised bind]. rewrite A1 in *. repeat split; auto; try (rewrite Z.mul_comm; assumption); congruence.
Qed.
Lemma init_fine z r c s s' : initializeBlockSize z r c s = Fine s' ->
  s_raw s' = s_raw s /\ s_nv s' = s_nv s /\ s_nh s' = s_nh s /\ sized z s' /\
  (t_rows z = DYNAMIC -> s_rows s' = r) /\ (t_cols z = DYNAMIC -> s_cols s' = c) /\
  (t_rows z <> DYNAMIC -> r = UNDEFINED) /\ (t_cols z <> DYNAMIC -> c = UNDEFINED).
Proof.
  unfold initializeBlockSize, sized. intros H. fine. rename x into s1.
  destruct (Z.eqb_spec (t_rows z) DYNAMIC) as [E|E], (Z.eqb_spec (t_cols z) DYNAMIC) as [F|F]; fine; cbn in *; repeat split; auto; try contradiction; congruence.
Qed.
Lemma init_sized z r c s : sized z s -> sized z (after (initializeBlockSize z r c s)).
Proof.
  unfold initializeBlockSize, sized. intros [A B].
  destruct (Z.eqb_spec (t_rows z) DYNAMIC) as [E|E], (Z.eqb_spec (t_cols z) DYNAMIC) as [F|F];
    try destruct (Z.eqb_spec r UNDEFINED); try destruct (Z.eqb_spec c UNDEFINED); cbn; try subst r; try subst c; cbn; split; intros; try contradiction; auto.
Qed.
Lemma finalize_keeps z s : s_raw (after (finalize z s)) = s_raw s /\ s_rows (after (finalize z s)) = s_rows s /\ s_cols (after (finalize z s)) = s_cols s.
Proof.
  unfold finalize, check, then_. repeat match goal with |- context [if ?b then _ else _] => destruct b; cbn end; auto.
Qed.
Lemma write_area_keeps a src s : s_rows (after (write_area a src s)) = s_rows s /\ s_cols (after (write_area a src s)) = s_cols s.
Proof. destruct a as [[[i j] r] c]. unfold write_area. destruct (write (s_raw s) i j r c src); cbn; auto. Qed.
Lemma after_then r f : after (then_ r f) = match r with Fine s => after (f s) | Refused s => s end.
Proof. destruct r; reflexivity. Qed.

Lemma do_sized z k s : sized z s -> sized z (after (do_ z k s)).
Proof.
  intros S. destruct k as [r c|m|junk nv nh|nv nh|i j src|j f n src|i f n src]; cbn [do_].
  - unfold setBlockSize. rewrite after_then. unfold check. destruct (negb (t_rows z =? DYNAMIC) || (0 <? r)); [|exact S].
    rewrite after_then. destruct (negb (t_cols z =? DYNAMIC) || (0 <? c)); [|exact S]. rewrite after_then.
    pose proof (init_sized z r c s S) as S1. destruct (initializeBlockSize z r c s) as [s1|s1]; cbn in S1; [|exact S1].
    destruct (finalize_keeps z s1) as (_ & A & B). unfold sized. rewrite A, B. exact S1.
  - unfold set. match goal with |- context [finalize z ?s1] => destruct (finalize_keeps z s1) as (_ & A & B); unfold sized; rewrite A, B end. exact S.
  - unfold resize, eigen_resize, check. match goal with |- context [if ?b then _ else _] => destruct b; cbn [then_ after] end; [|exact S].
    match goal with |- context [finalize z ?s1] => destruct (finalize_keeps z s1) as (_ & A & B); unfold sized; rewrite A, B end. exact S.
  - unfold setZero, eigen_resize, check. match goal with |- context [if ?b then _ else _] => destruct b; cbn [then_ after] end; [|exact S].
    match goal with |- context [finalize z ?s1] => destruct (finalize_keeps z s1) as (_ & A & B); unfold sized; rewrite A, B end. exact S.
  - match goal with |- context [write_area ?a src s] => destruct (write_area_keeps a src s) as (A & B); unfold sized; rewrite A, B end. exact S.
  - match goal with |- context [write_area ?a src s] => destruct (write_area_keeps a src s) as (A & B); unfold sized; rewrite A, B end. exact S.
  - match goal with |- context [write_area ?a src s] => destruct (write_area_keeps a src s) as (A & B); unfold sized; rewrite A, B end. exact S.
Qed.
Lemma construct_inv z m r c s : construct z m r c = Ok s -> exists s1, initializeBlockSize z r c (mkState m None None 0 0) = Fine s1 /\ finalize z s1 = Fine s.
Proof.
  unfold construct. destruct (then_ _ _) eqn:E; intros H; [|discriminate]. injection H as <-. apply then_fine in E. exact E.
Qed.
Lemma construct_sized z m r c s : construct z m r c = Ok s -> sized z s.
Proof.
  intros H. apply construct_inv in H. destruct H as (s1 & A & B). apply init_fine in A. destruct A as (_ & _ & _ & A & _).
  apply finalize_fine in B. destruct B as (_ & B1 & B2 & _). unfold sized. rewrite B1, B2. exact A.
Qed.
Lemma history_sized z cs : forall s, sized z s -> sized z (history z cs s).
Proof. induction cs as [|k cs IH]; intros s S; [exact S|]. cbn. apply IH. apply do_sized. exact S. Qed.
Lemma reachable_sized z s : reachable z s -> sized z s.
Proof. intros (m & r & c & s0 & cs & C & ->). apply history_sized. eapply construct_sized. exact C. Qed.
Lemma history_snoc z cs k s : history z (cs ++ [k]) s = after (do_ z k (history z cs s)).
Proof. unfold history. rewrite fold_left_app. reflexivity. Qed.
Lemma reachable_next z s k : reachable z s -> reachable z (after (do_ z k s)).
Proof. intros (m & r & c & s0 & cs & C & ->). exists m, r, c, s0, (cs ++ [k])%list. split; [exact C|]. symmetry. apply history_snoc. Qed.
Lemma undisturbed_reachable z s : undisturbed z s -> reachable z s.
Proof.
  induction 1 as [m r c s C|s k s' U IH D]; [exists m, r, c, s, []; auto|]. replace s' with (after (do_ z k s)) by (rewrite D; reflexivity).
  apply reachable_next. exact IH.
Qed.

(** ** sizes *)
Lemma divides_rem a b : 0 < b -> (Z.rem a b = 0 <-> (b | a)).
Proof.
  intros B. split; intros H.
  - exists (Z.quot a b). pose proof (Z.quot_rem' a b). lia.
  - apply Z.rem_divide; [lia|exact H].
Qed.
Definition dim_ok (t m n : Z) : bool :=
  if negb (t =? DYNAMIC) || negb (m =? UNDEFINED) then (0 <? eff t m) && (Z.rem n (eff t m) =? 0) else true.
Ltac no := split; [intros [s' H]; discriminate H|intros [H1 H2]; first [discriminate H1|discriminate H2]].
Lemma finalize_iff z s : (exists s', finalize z s = Fine s') <->
  dim_ok (t_rows z) (s_rows s) (Z.of_nat (mrows (s_raw s))) = true /\ dim_ok (t_cols z) (s_cols s) (Z.of_nat (mcols (s_raw s))) = true.
Proof.
  unfold finalize, dim_ok, block_rows_num, block_cols_num, check.
  destruct (negb (t_rows z =? DYNAMIC) || negb (s_rows s =? UNDEFINED)).
  - destruct (0 <? eff (t_rows z) (s_rows s)); cbn [then_ andb s_raw s_cols]; [|no].
    destruct (Z.rem (Z.of_nat (mrows (s_raw s))) (eff (t_rows z) (s_rows s)) =? 0); cbn [then_]; [|no].
    cbn [s_cols s_raw]. destruct (negb (t_cols z =? DYNAMIC) || negb (s_cols s =? UNDEFINED)).
    + destruct (0 <? eff (t_cols z) (s_cols s)); cbn [then_ andb s_raw s_cols]; [|no].
      destruct (Z.rem (Z.of_nat (mcols (s_raw s))) (eff (t_cols z) (s_cols s)) =? 0); cbn [then_]; [|no].
      split; [auto|]. intros _. eexists. reflexivity.
    + split; [auto|]. intros _. eexists. reflexivity.
  - cbn [then_]. destruct (negb (t_cols z =? DYNAMIC) || negb (s_cols s =? UNDEFINED)).
    + destruct (0 <? eff (t_cols z) (s_cols s)); cbn [then_ andb s_raw s_cols]; [|no].
      destruct (Z.rem (Z.of_nat (mcols (s_raw s))) (eff (t_cols z) (s_cols s)) =? 0); cbn [then_]; [|no].
      split; [auto|]. intros _. eexists. reflexivity.
    + split; [auto|]. intros _. eexists. reflexivity.
Qed.
Definition member (t a : Z) : Z := if t =? DYNAMIC then a else t.
Lemma fits_iff t a n : fits t a n <-> (t = DYNAMIC \/ a = UNDEFINED) /\ dim_ok t (member t a) n = true.
Proof.
  unfold fits, dim_ok, member, eff. destruct (Z.eqb_spec t DYNAMIC) as [->|N]; cbn [negb orb].
  - destruct (Z.eqb_spec a UNDEFINED) as [->|A]; cbn [negb].
    + split; auto.
    + cbn [Z.ltb DYNAMIC Z.compare]. change (0 <? DYNAMIC) with false. cbn iota. split.
      * intros [[_ H]|(b & B & [[_ ->]|[Hb _]] & D)]; [contradiction| |unfold DYNAMIC in Hb; lia]. split; [auto|].
        apply andb_true_intro. split; [apply Z.ltb_lt; exact B|apply Z.eqb_eq; apply divides_rem; assumption].
      * intros [_ H]. apply andb_prop in H. destruct H as [H1 H2]. apply Z.ltb_lt in H1. apply Z.eqb_eq in H2. right. exists a.
        split; [exact H1|]. split; [auto|apply divides_rem; assumption].
  - split.
    + intros [[H _]|(b & B & [[H _]|[-> ->]] & D)]; try contradiction. split; [auto|]. rewrite (proj2 (Z.ltb_lt 0 b) B).
      rewrite (proj2 (Z.ltb_lt 0 b) B). cbn. apply Z.eqb_eq. apply divides_rem; assumption.
    + intros [[H| ->] H2]; [contradiction|]. right. destruct (Z.ltb_spec 0 t) as [L|L].
      * apply andb_prop in H2. destruct H2 as [_ H2]. apply Z.eqb_eq in H2. exists t. split; [exact L|]. split; [auto|apply divides_rem; assumption].
      * apply andb_prop in H2. destruct H2 as [H2 _]. apply Z.ltb_lt in H2. lia.
Qed.
Lemma init_iff z r c s : (exists s', initializeBlockSize z r c s = Fine s') <-> (t_rows z = DYNAMIC \/ r = UNDEFINED) /\ (t_cols z = DYNAMIC \/ c = UNDEFINED).
Proof.
  unfold initializeBlockSize, check.
  destruct (Z.eqb_spec (t_rows z) DYNAMIC) as [E|E], (Z.eqb_spec (t_cols z) DYNAMIC) as [F|F]; cbn [then_];
    try destruct (Z.eqb_spec r UNDEFINED); cbn [then_]; try destruct (Z.eqb_spec c UNDEFINED); cbn [then_];
    (split; [intros [s' H]; try discriminate H; auto|intros [H1 H2]; try (eexists; reflexivity); exfalso; tauto]).
Qed.
Lemma construct_accepts (z : bsize) (m : mat) (r c : Z) :
  (exists s, construct z m r c = Ok s) <-> fits (t_rows z) r (Z.of_nat (mrows m)) /\ fits (t_cols z) c (Z.of_nat (mcols m)).
Proof.
  rewrite !fits_iff. split.
  - intros [s H]. apply construct_inv in H. destruct H as (s1 & A & B).
    pose proof (proj1 (init_iff z r c _) (ex_intro _ s1 A)) as [I1 I2]. apply init_fine in A. destruct A as (A1 & _ & _ & [A2 A3] & A4 & A5 & _).
    pose proof (proj1 (finalize_iff z s1) (ex_intro _ s B)) as [F1 F2]. rewrite A1 in F1, F2. cbn [s_raw] in F1, F2.
    assert (M1 : member (t_rows z) r = s_rows s1) by (unfold member; destruct (Z.eqb_spec (t_rows z) DYNAMIC); [rewrite A4|rewrite A2]; auto).
    assert (M2 : member (t_cols z) c = s_cols s1) by (unfold member; destruct (Z.eqb_spec (t_cols z) DYNAMIC); [rewrite A5|rewrite A3]; auto).
    rewrite M1, M2. auto.
  - intros [[I1 F1] [I2 F2]]. destruct (proj2 (init_iff z r c (mkState m None None 0 0)) (conj I1 I2)) as [s1 A].
    pose proof A as A0. apply init_fine in A. destruct A as (A1 & _ & _ & [A2 A3] & A4 & A5 & _).
    assert (M1 : member (t_rows z) r = s_rows s1) by (unfold member; destruct (Z.eqb_spec (t_rows z) DYNAMIC); [rewrite A4|rewrite A2]; auto).
    assert (M2 : member (t_cols z) c = s_cols s1) by (unfold member; destruct (Z.eqb_spec (t_cols z) DYNAMIC); [rewrite A5|rewrite A3]; auto).
    rewrite M1 in F1. rewrite M2 in F2. destruct (proj2 (finalize_iff z s1)) as [s B]; [rewrite A1; auto|].
    exists s. unfold construct. rewrite A0. cbn [then_]. rewrite B. reflexivity.
Qed.
Lemma constructed (z : bsize) (m : mat) (r c : Z) (s : bstate) : construct z m r c = Ok s ->
  s_raw s = m /\ block_rows_num z s = (if t_rows z =? DYNAMIC then r else t_rows z) /\ block_cols_num z s = (if t_cols z =? DYNAMIC then c else t_cols z) /\
  (known z s -> consistent z s).
Proof.
  intros H. pose proof (construct_sized _ _ _ _ _ H) as [S1 S2]. apply construct_inv in H. destruct H as (s1 & A & B). apply init_fine in A.
  destruct A as (A1 & _ & _ & _ & A4 & A5 & _). apply finalize_fine in B. destruct B as (B1 & B2 & B3 & B4). cbn in A1. split; [congruence|].
  unfold block_rows_num, block_cols_num, eff. split; [|split].
  - destruct (Z.eqb_spec (t_rows z) DYNAMIC) as [E|E]; [rewrite E; cbn; rewrite B2; auto|]. rewrite (S1 E). destruct (0 <? t_rows z); reflexivity.
  - destruct (Z.eqb_spec (t_cols z) DYNAMIC) as [E|E]; [rewrite E; cbn; rewrite B3; auto|]. rewrite (S2 E). destruct (0 <? t_cols z); reflexivity.
  - intros K. apply B4. unfold known in *. rewrite <- B2, <- B3. exact K.
Qed.
(** a size which is known remains known *)
Lemma do_known z k s : known z s -> known z (after (do_ z k s)).
Proof.
  intros S. destruct k as [r c|m|junk nv nh|nv nh|i j src|j f n src|i f n src]; cbn [do_].
  - unfold setBlockSize. rewrite after_then. unfold check. destruct (negb (t_rows z =? DYNAMIC) || (0 <? r)) eqn:E1; [|exact S].
    rewrite after_then. destruct (negb (t_cols z =? DYNAMIC) || (0 <? c)) eqn:E2; [|exact S]. rewrite after_then.
    assert (S1 : known z (after (initializeBlockSize z r c s))).
    { unfold initializeBlockSize, known in *. destruct S as [Sa Sb].
      destruct (Z.eqb_spec (t_rows z) DYNAMIC) as [E|E], (Z.eqb_spec (t_cols z) DYNAMIC) as [F|F]; cbn in E1, E2;
      try apply Z.ltb_lt in E1; try apply Z.ltb_lt in E2; unfold UNDEFINED in *;
      try destruct (Z.eqb_spec r 0); try destruct (Z.eqb_spec c 0); unfold check; cbn; split; intros [H1 H2]; try contradiction; try lia;
      try (apply Sa; split; assumption); try (apply Sb; split; assumption). }
    destruct (initializeBlockSize z r c s) as [s1|s1]; cbn in S1; [|exact S1].
    destruct (finalize_keeps z s1) as (_ & A & B). unfold known. rewrite A, B. exact S1.
  - unfold set. match goal with |- context [finalize z ?s1] => destruct (finalize_keeps z s1) as (_ & A & B); unfold known; rewrite A, B end. exact S.
  - unfold resize, eigen_resize, check. match goal with |- context [if ?b then _ else _] => destruct b; cbn [then_ after] end; [|exact S].
    match goal with |- context [finalize z ?s1] => destruct (finalize_keeps z s1) as (_ & A & B); unfold known; rewrite A, B end. exact S.
  - unfold setZero, eigen_resize, check. match goal with |- context [if ?b then _ else _] => destruct b; cbn [then_ after] end; [|exact S].
    match goal with |- context [finalize z ?s1] => destruct (finalize_keeps z s1) as (_ & A & B); unfold known; rewrite A, B end. exact S.
  - match goal with |- context [write_area ?a src s] => destruct (write_area_keeps a src s) as (A & B); unfold known; rewrite A, B end. exact S.
  - match goal with |- context [write_area ?a src s] => destruct (write_area_keeps a src s) as (A & B); unfold known; rewrite A, B end. exact S.
  - match goal with |- context [write_area ?a src s] => destruct (write_area_keeps a src s) as (A & B); unfold known; rewrite A, B end. exact S.
Qed.

(** ** restructuring *)
Lemma set_inv z m s s' : set z m s = Fine s' -> s_raw s' = m /\ s_rows s' = s_rows s /\ s_cols s' = s_cols s /\ (known z s' -> consistent z s').
Proof.
  unfold set. intros H. apply finalize_fine in H. cbn in H. destruct H as (A & B & C & D). split; [exact A|]. split; [exact B|]. split; [exact C|].
  intros K. apply D. unfold known in *. cbn. rewrite B, C in K. exact K.
Qed.
Lemma resize_inv z f nv nh s s' : then_ (eigen_resize f (nv * block_rows_num z s) (nh * block_cols_num z s) s) (finalize z) = Fine s' ->
  s_raw s' = mkMat (Z.to_nat (nv * block_rows_num z s)) (Z.to_nat (nh * block_cols_num z s)) f /\ s_rows s' = s_rows s /\ s_cols s' = s_cols s /\
  (known z s' -> divided z s' nv nh (block_rows_num z s) (block_cols_num z s)).
Proof.
  intros H. apply then_fine in H. destruct H as (s1 & A & B). unfold eigen_resize in A. apply then_fine in A. destruct A as (s2 & A & A2).
  apply check_fine in A. destruct A as (A & ->). injection A2 as <-. apply andb_prop in A. destruct A as [A1 A2]. apply Z.leb_le in A1, A2.
  apply finalize_fine in B. cbn in B. destruct B as (B1 & B2 & B3 & B4). split; [exact B1|]. split; [exact B2|]. split; [exact B3|]. intros K.
  destruct B4 as (nv' & nh' & br & bc & D); [unfold known in *; cbn; rewrite <- B2, <- B3; exact K|].
  assert (E1 : block_rows_num z s' = block_rows_num z s) by (unfold block_rows_num; congruence).
  assert (E2 : block_cols_num z s' = block_cols_num z s) by (unfold block_cols_num; congruence).
  assert (X : nv' = nv /\ nh' = nh).
  { destruct D as (P1 & P2 & P3 & P4 & P5 & P6 & P7 & P8 & P9 & P10 & _). rewrite B1 in P9, P10. cbn in P9, P10.
    rewrite Z2Nat.id in P9, P10 by assumption. rewrite E1 in P5. rewrite E2 in P6. rewrite P5 in P9. rewrite P6 in P10. split; nia. }
  destruct X as [-> ->]. assert (br = block_rows_num z s /\ bc = block_cols_num z s) as [-> ->]; [|exact D].
  destruct D as (_ & _ & _ & _ & P5 & P6 & _). split; congruence.
Qed.
Lemma setBlockSize_inv z r c s s' : setBlockSize z r c s = Fine s' -> s_raw s' = s_raw s /\ sized z s' /\ known z s' /\ consistent z s' /\
  (t_rows z = DYNAMIC -> s_rows s' = r) /\ (t_cols z = DYNAMIC -> s_cols s' = c).
Proof.
  unfold setBlockSize. intros H. fine. apply init_fine in H1. destruct H1 as (A1 & _ & _ & [A2 A3] & A4 & A5 & _).
  apply finalize_fine in H2. destruct H2 as (B1 & B2 & B3 & B4).
  assert (K : known z x1).
  { split; intros [E U].
    - rewrite E in H. cbn in H. apply Z.ltb_lt in H. rewrite (A4 E) in U. unfold UNDEFINED in U. lia.
    - rewrite E in H0. cbn in H0. apply Z.ltb_lt in H0. rewrite (A5 E) in U. unfold UNDEFINED in U. lia. }
  split; [congruence|]. unfold sized, known. rewrite B2, B3. split; [auto|]. split; [exact K|]. split; [apply B4; exact K|]. auto.
Qed.
Lemma restructured (z : bsize) (s s' : bstate) (k : call) : restructures k = true -> do_ z k s = Fine s' -> known z s' -> consistent z s'.
Proof.
  destruct k as [r c|m|junk nv nh|nv nh|i j src|j f n src|i f n src]; cbn [restructures do_]; intros R D K; try discriminate.
  - apply setBlockSize_inv in D. tauto.
  - apply set_inv in D. tauto.
  - apply resize_inv in D. do 4 eexists. apply D. exact K.
  - apply resize_inv in D. do 4 eexists. apply D. exact K.
Qed.
Lemma restructured_to (z : bsize) (s s' : bstate) (k : call) : reachable z s -> do_ z k s = Fine s' -> known z s' ->
  match k with
  | SetBlockSize r c => s_raw s' = s_raw s /\ block_rows_num z s' = (if t_rows z =? DYNAMIC then r else t_rows z) /\
                        block_cols_num z s' = (if t_cols z =? DYNAMIC then c else t_cols z)
  | SetRaw m => s_raw s' = m /\ block_rows_num z s' = block_rows_num z s /\ block_cols_num z s' = block_cols_num z s
  | Resize _ nv nh => divided z s' nv nh (block_rows_num z s) (block_cols_num z s)
  | SetZero nv nh => divided z s' nv nh (block_rows_num z s) (block_cols_num z s) /\ forall i j, mget (s_raw s') i j = 0%R
  | _ => True
  end.
Proof.
  intros R. destruct k as [r c|m|junk nv nh|nv nh|i j src|j f n src|i f n src]; cbn [do_]; intros D K; auto.
  - apply setBlockSize_inv in D. destruct D as (A & [S1 S2] & _ & _ & B & C). split; [exact A|]. unfold block_rows_num, block_cols_num, eff. split.
    + destruct (Z.eqb_spec (t_rows z) DYNAMIC) as [E|E]; [rewrite (B E), E; reflexivity|]. rewrite (S1 E). destruct (0 <? t_rows z); reflexivity.
    + destruct (Z.eqb_spec (t_cols z) DYNAMIC) as [E|E]; [rewrite (C E), E; reflexivity|]. rewrite (S2 E). destruct (0 <? t_cols z); reflexivity.
  - apply set_inv in D. unfold block_rows_num, block_cols_num. destruct D as (A & B & C & _). rewrite B, C. auto.
  - apply resize_inv in D. apply D. exact K.
  - apply resize_inv in D. split; [apply D; exact K|]. destruct D as (A & _). rewrite A. reflexivity.
Qed.

(** ** writing *)
Lemma inside_true m i j r c : inside m i j r c = true <->
  0 <= i /\ 0 <= r /\ i <= Z.of_nat (mrows m) - r /\ 0 <= j /\ 0 <= c /\ j <= Z.of_nat (mcols m) - c.
Proof. unfold inside. rewrite !andb_true_iff, !Z.leb_le. tauto. Qed.
Lemma write_area_inv i j r c src s s' : write_area (i, j, r, c) src s = Fine s' ->
  inside (s_raw s) i j r c = true /\ Z.of_nat (mrows src) = r /\ Z.of_nat (mcols src) = c /\
  s' = mkState (mset_block (s_raw s) (Z.to_nat i) (Z.to_nat j) src) (s_nv s) (s_nh s) (s_rows s) (s_cols s).
Proof.
  unfold write_area, write. destruct (inside (s_raw s) i j r c); cbn [assert_then]; [|discriminate].
  destruct ((Z.of_nat (mrows src) =? r) && (Z.of_nat (mcols src) =? c)) eqn:E; cbn [assert_then]; [|discriminate].
  apply andb_prop in E. destruct E as [E1 E2]. apply Z.eqb_eq in E1, E2. intros H. injection H as <-. auto.
Qed.
Lemma write_divided z a src s s' nv nh br bc : write_area a src s = Fine s' -> divided z s nv nh br bc -> divided z s' nv nh br bc.
Proof.
  destruct a as [[[i j] r] c]. intros H. apply write_area_inv in H. destruct H as (_ & _ & _ & ->). unfold divided. auto.
Qed.
Lemma undisturbed_consistent (z : bsize) (s : bstate) : undisturbed z s -> known z s -> consistent z s.
Proof.
  induction 1 as [m r c s C|s k s' U IH D]; intros K.
  - apply constructed in C. apply C. exact K.
  - destruct (restructures k) eqn:E; [eapply restructured; eassumption|].
    assert (W : exists a src, do_ z k s = write_area a src s) by (destruct k; try discriminate E; cbn [do_]; do 2 eexists; reflexivity).
    destruct W as (a & src & W). rewrite W in D. destruct (write_area_keeps a src s) as [K1 K2]. rewrite D in K1, K2. cbn in K1, K2.
    destruct IH as (nv & nh & br & bc & V); [unfold known; rewrite <- K1, <- K2; exact K|]. exists nv, nh, br, bc. eapply write_divided; eassumption.
Qed.
Lemma known_forever (z : bsize) (s : bstate) (cs : list call) : known z s -> known z (history z cs s).
Proof. revert s. induction cs as [|k cs IH]; intros s K; [exact K|]. cbn. apply IH, do_known, K. Qed.
Lemma harmless (z : bsize) (s s' : bstate) (k : call) : do_ z k s = Refused s' ->
  match k with
  | SetRaw _ => False
  | SetBlockSize r c => (t_rows z = DYNAMIC /\ r <= 0) \/ (t_cols z = DYNAMIC /\ c <= 0)
  | Resize _ nv nh | SetZero nv nh => nv * block_rows_num z s < 0 \/ nh * block_cols_num z s < 0
  | _ => True
  end -> s' = s.
Proof.
  destruct k as [r c|m|junk nv nh|nv nh|i j src|j f n src|i f n src]; cbn [do_]; intros D H; try contradiction.
  - unfold setBlockSize, check in D. destruct (negb (t_rows z =? DYNAMIC) || (0 <? r)) eqn:E1; cbn [then_] in D; [|injection D; auto].
    destruct (negb (t_cols z =? DYNAMIC) || (0 <? c)) eqn:E2; cbn [then_] in D; [|injection D; auto].
    destruct H as [[H1 H2]|[H1 H2]]; [rewrite H1 in E1; cbn in E1; apply Z.ltb_lt in E1|rewrite H1 in E2; cbn in E2; apply Z.ltb_lt in E2]; lia.
  - unfold resize, eigen_resize, check in D. destruct ((0 <=? nv * block_rows_num z s) && (0 <=? nh * block_cols_num z s)) eqn:E; cbn [then_] in D; [|injection D; auto].
    apply andb_prop in E. destruct E as [E1 E2]. apply Z.leb_le in E1, E2. lia.
  - unfold setZero, eigen_resize, check in D. destruct ((0 <=? nv * block_rows_num z s) && (0 <=? nh * block_cols_num z s)) eqn:E; cbn [then_] in D; [|injection D; auto].
    apply andb_prop in E. destruct E as [E1 E2]. apply Z.leb_le in E1, E2. lia.
  - destruct (block_area z s i j) as [[[a b] r] c]. unfold write_area in D. destruct (write (s_raw s) a b r c src); inversion D; auto.
  - unfold write_area, column_area in D. destruct (write (s_raw s) _ _ _ _ src); inversion D; auto.
  - unfold write_area, row_area in D. destruct (write (s_raw s) _ _ _ _ src); inversion D; auto.
Qed.

(** ** access *)
Lemma block_area_eq z s i j : sized z s -> 0 < block_rows_num z s -> 0 < block_cols_num z s ->
  block_area z s i j = (i * block_rows_num z s, j * block_cols_num z s, block_rows_num z s, block_cols_num z s).
Proof.
  unfold block_area, sized, block_rows_num, block_cols_num, eff. intros [S1 S2].
  destruct (Z.eqb_spec (t_rows z) DYNAMIC) as [E1|E1], (Z.eqb_spec (t_cols z) DYNAMIC) as [E2|E2]; cbn [orb];
    try rewrite E1; try rewrite E2; unfold DYNAMIC; cbn [Z.ltb Z.compare]; try rewrite (S1 E1); try rewrite (S2 E2);
    try (destruct (Z.ltb_spec 0 (t_rows z))); try (destruct (Z.ltb_spec 0 (t_cols z))); intros; try lia; reflexivity.
Qed.
Lemma view_part m i j r c : inside m i j r c = true -> exists b, view m i j r c = Ok b /\ part m i j r c b.
Proof.
  intros I. unfold view. rewrite I. eexists. split; [reflexivity|]. apply inside_true in I. unfold part, mblock. cbn.
  repeat split; try (apply Z2Nat.id; lia).
Qed.
Lemma view_throw m i j r c : inside m i j r c = false -> view m i j r c = Throw.
Proof. intros I. unfold view. rewrite I. reflexivity. Qed.
Lemma inside_false m i j r c : ~ (0 <= i /\ 0 <= r /\ i <= Z.of_nat (mrows m) - r /\ 0 <= j /\ 0 <= c /\ j <= Z.of_nat (mcols m) - c) ->
  inside m i j r c = false.
Proof. intros H. destruct (inside m i j r c) eqn:E; [|reflexivity]. apply inside_true in E. contradiction. Qed.
Lemma block_access (z : bsize) (s : bstate) (nv nh br bc i j : Z) : reachable z s -> divided z s nv nh br bc ->
  (0 <= i < nv /\ 0 <= j < nh -> exists b, getBlock z s i j = Ok b /\ part (s_raw s) (i * br) (j * bc) br bc b) /\
  (~ (0 <= i < nv /\ 0 <= j < nh) -> getBlock z s i j = Throw).
Proof.
  intros R D. apply reachable_sized in R. destruct D as (P1 & P2 & P3 & P4 & P5 & P6 & _ & _ & P9 & P10 & _).
  unfold getBlock. rewrite block_area_eq by (auto; lia). rewrite P5, P6. cbn [view_area]. split; intros H.
  - apply view_part. apply inside_true. nia.
  - apply view_throw, inside_false. intros I. apply H. nia.
Qed.
Lemma row_access (z : bsize) (s : bstate) (nv nh br bc i first num : Z) : divided z s nv nh br bc ->
  (0 <= i < nv /\ 0 <= first /\ 0 <= num /\ first + num <= nh ->
     exists b, getRow z s i first num = Ok b /\ part (s_raw s) (i * br) (first * bc) br (num * bc) b) /\
  (~ (0 <= i < nv /\ 0 <= first /\ 0 <= num /\ first + num <= nh) -> getRow z s i first num = Throw) /\
  getRowFrom z s i first = getRow z s i first (nh - first).
Proof.
  intros (P1 & P2 & P3 & P4 & P5 & P6 & P7 & P8 & P9 & P10 & _). unfold getRowFrom, getRow, row_area. rewrite P5, P6.
  unfold getNumberOfBlocksHorizontal in P8. rewrite P8. cbn [bind view_area]. split; [|split; [|reflexivity]]; intros H.
  - apply view_part. apply inside_true. nia.
  - apply view_throw, inside_false. intros I. apply H. nia.
Qed.
Lemma column_access (z : bsize) (s : bstate) (nv nh br bc j first num : Z) : divided z s nv nh br bc ->
  (0 <= j < nh /\ 0 <= first /\ 0 <= num /\ first + num <= nv ->
     exists b, getColumn z s j first num = Ok b /\ part (s_raw s) (first * br) (j * bc) (num * br) bc b) /\
  (~ (0 <= j < nh /\ 0 <= first /\ 0 <= num /\ first + num <= nv) -> getColumn z s j first num = Throw) /\
  getColumnFrom z s j first = getColumn z s j first (nv - first).
Proof.
  intros (P1 & P2 & P3 & P4 & P5 & P6 & P7 & P8 & P9 & P10 & _). unfold getColumnFrom, getColumn, column_area. rewrite P5, P6.
  unfold getNumberOfBlocksVertical in P7. rewrite P7. cbn [bind view_area]. split; [|split; [|reflexivity]]; intros H.
  - apply view_part. apply inside_true. nia.
  - apply view_throw, inside_false. intros I. apply H. nia.
Qed.
Lemma one_block (z : bsize) (s : bstate) (nv nh br bc : Z) (a b : nat) : divided z s nv nh br bc -> (a < mrows (s_raw s))%nat -> (b < mcols (s_raw s))%nat ->
  exists i j, (0 <= i < nv /\ 0 <= j < nh /\ i * br <= Z.of_nat a < (i + 1) * br /\ j * bc <= Z.of_nat b < (j + 1) * bc) /\
    forall i' j', i' * br <= Z.of_nat a < (i' + 1) * br -> j' * bc <= Z.of_nat b < (j' + 1) * bc -> i' = i /\ j' = j.
Proof.
  intros (P1 & P2 & P3 & P4 & _ & _ & _ & _ & P9 & P10 & _) A B. exists (Z.of_nat a / br), (Z.of_nat b / bc).
  pose proof (Z.div_mod (Z.of_nat a) br ltac:(lia)). pose proof (Z.mod_pos_bound (Z.of_nat a) br ltac:(lia)).
  pose proof (Z.div_mod (Z.of_nat b) bc ltac:(lia)). pose proof (Z.mod_pos_bound (Z.of_nat b) bc ltac:(lia)).
  set (i := Z.of_nat a / br) in *. set (j := Z.of_nat b / bc) in *.
  split; [repeat split; nia|]. intros i' j' H3 H4. split; nia.
Qed.
