(** Proofs about StanceFSM.v *)
From Coq Require Import List Arith ZArith Lia Bool ZifyBool.
From Verif Require Import Base BaseFacts StanceFSM StanceSpec.
Import ListNotations.

(** foot of the k-th single support when the first one is [f] *)
Fixpoint alternate (f : stance_type) (k : nat) : stance_type :=
  match k with O => f | S j => alternate (opp f) j end.

Lemma opp_opp f : opp (opp f) = f.
Proof. destruct f; reflexivity. Qed.

Lemma is_ss_opp f : is_ss (opp f) = is_ss f.
Proof. destruct f; reflexivity. Qed.

Lemma alternate_S f k : alternate f (S k) = opp (alternate f k).
Proof. revert f; induction k as [|k IH]; intros f; [reflexivity|]. cbn [alternate] in *. rewrite IH. reflexivity. Qed.

Lemma is_ss_alternate f k : is_ss (alternate f k) = is_ss f.
Proof. revert f; induction k as [|k IH]; intros f; simpl; [reflexivity|]. rewrite IH; apply is_ss_opp. Qed.

Lemma shifts_S n s : shifts (S n) s = bind (shiftStance s) (shifts n).
Proof. reflexivity. Qed.

Lemma shifts_plus a b s : shifts (a + b) s = bind (shifts a s) (shifts b).
Proof.
  revert s; induction a as [|a IH]; intros s; simpl; [reflexivity|].
  destruct (shiftStance s); simpl; auto.
Qed.

Lemma shifts_S_r n s : shifts (S n) s = bind (shifts n s) shiftStance.
Proof.
  replace (S n) with (n + 1) by lia. rewrite shifts_plus.
  destruct (shifts n s) as [a| |]; simpl; auto. destruct (shiftStance a); reflexivity.
Qed.

(** Sequence of stances starting from a TDS with [k] steps to go *)
Definition tail_spec (f : stance_type) (k i : nat) : stance_type :=
  if i <=? 2 * k then (if Nat.even i then TDS else alternate f (i / 2)) else DS.

Lemma terminal_ds s : st_type (cur s) = DS -> ss_left s = 0 ->
  forall i, exists s', shifts i s = Ok s' /\ st_type (cur s') = DS /\ ss_left s' = 0.
Proof.
  intros H1 H2 i; revert s H1 H2; induction i as [|i IH]; intros s H1 H2; simpl.
  - exists s; auto.
  - unfold shiftStance. rewrite H1, H2. simpl. apply IH; reflexivity.
Qed.

Lemma tds_sequence k : forall s f,
  is_ss f = true ->
  st_type (cur s) = TDS -> ss_left s = k -> prev_nonds (cur s) = opp f ->
  forall i, exists s', shifts i s = Ok s' /\ st_type (cur s') = tail_spec f k i.
Proof.
  induction k as [|k IH]; intros s f Hf Ht Hk Hp i.
  - destruct i as [|i].
    + exists s; split; [reflexivity|]. rewrite Ht; reflexivity.
    + rewrite shifts_S. unfold shiftStance. rewrite Ht, Hk. simpl.
      edestruct terminal_ds as (s' & E & T & _); [| |exists s'; split; [exact E|]]; try reflexivity.
      rewrite T. unfold tail_spec. reflexivity.
  - destruct i as [|[|i]].
    + exists s; split; [reflexivity|]. rewrite Ht; reflexivity.
    + simpl. unfold shiftStance. rewrite Ht, Hk, Hp.
      destruct f; try discriminate Hf; simpl; eexists; (split; [reflexivity|reflexivity]).
    + rewrite shifts_S. unfold shiftStance at 1. rewrite Ht, Hk, Hp.
      assert (G : forall s1, st_type (cur s1) = f -> ss_left s1 = k ->
                exists s', shifts (S i) s1 = Ok s' /\ st_type (cur s') = tail_spec f (S k) (S (S i))).
      { intros s1 T1 K1. rewrite shifts_S. unfold shiftStance at 1. rewrite T1.
        assert (Z : forall s2, st_type (cur s2) = TDS -> ss_left s2 = k -> prev_nonds (cur s2) = f ->
                  exists s', shifts i s2 = Ok s' /\ st_type (cur s') = tail_spec f (S k) (S (S i))).
        { intros s2 A B C. destruct (IH s2 (opp f)) with (i := i) as (s' & E & Es); auto.
          - rewrite is_ss_opp; assumption.
          - rewrite opp_opp; assumption.
          - exists s'; split; [exact E|]. rewrite Es. unfold tail_spec.
            replace (S (S i) / 2) with (S (i / 2)).
            2:{ replace (S (S i)) with (i + 1 * 2) by lia. rewrite Nat.div_add by lia. lia. }
            cbn [alternate Nat.even].
            replace (S (S i) <=? 2 * S k) with (i <=? 2 * k) by lia. reflexivity. }
        destruct f; try discriminate Hf; simpl; apply Z; try reflexivity; assumption. }
      destruct f; try discriminate Hf; cbn [getDuration bind opp]; apply G; reflexivity.
Qed.

(** ** Sequence from the initial state *)

Definition walk_ds_spec (f : stance_type) (n i : nat) : stance_type :=
  match i with O => DS | S j => tail_spec f n j end.

Definition walk_ss_spec (f : stance_type) (n i : nat) : stance_type :=
  match i with O => f | S j => tail_spec (opp f) n j end.

Lemma walk_from_ds p s n f :
  init p = Ok s -> first_stance p = DS -> first_ss_type p = f -> is_ss f = true ->
  num_steps p = n -> n <> 0 ->
  forall i, exists s', shifts i s = Ok s' /\ st_type (cur s') = walk_ds_spec f n i.
Proof.
  intros Hi Hs Hf Hss Hn N0 i.
  unfold init in Hi. apply assert_ok in Hi; destruct Hi as [_ Hi].
  cbv zeta in Hi. rewrite Hs, Hf in Hi.
  assert (E : exists s0, s = s0 /\ st_type (cur s0) = DS /\ ss_left s0 = n /\ prev_nonds (cur s0) = opp f).
  { destruct f; try discriminate Hss; inversion Hi; subst; eexists; repeat split; try reflexivity; simpl; congruence. }
  destruct E as (s0 & -> & T & K & P).
  destruct i as [|i].
  - exists s0; split; [reflexivity|exact T].
  - rewrite shifts_S. unfold shiftStance. rewrite T, K. destruct n as [|n]; [congruence|]. simpl.
    apply tds_sequence; auto.
Qed.

Lemma walk_from_ss p s n f :
  init p = Ok s -> first_stance p = f -> is_ss f = true -> num_steps p = n ->
  forall i, exists s', shifts i s = Ok s' /\ st_type (cur s') = walk_ss_spec f n i.
Proof.
  intros Hi Hs Hss Hn i.
  unfold init in Hi. apply assert_ok in Hi; destruct Hi as [_ Hi].
  cbv zeta in Hi. rewrite Hs in Hi.
  assert (E : exists s0, s = s0 /\ st_type (cur s0) = f /\ ss_left s0 = n).
  { destruct f; try discriminate Hss; inversion Hi; subst; eexists; repeat split; try reflexivity; simpl; congruence. }
  destruct E as (s0 & -> & T & K).
  destruct i as [|i].
  - exists s0; split; [reflexivity|exact T].
  - rewrite shifts_S. unfold shiftStance. rewrite T.
    destruct f; try discriminate Hss; simpl; apply tds_sequence; auto.
Qed.

Lemma walk_no_steps p s :
  init p = Ok s -> first_stance p = DS -> num_steps p = 0 ->
  forall i, exists s', shifts i s = Ok s' /\ st_type (cur s') = DS.
Proof.
  intros Hi Hs Hn i.
  unfold init in Hi. apply assert_ok in Hi; destruct Hi as [_ Hi].
  cbv zeta in Hi. rewrite Hs in Hi.
  assert (E : st_type (cur s) = DS /\ ss_left s = 0).
  { destruct (first_ss_type p); try discriminate Hi; inversion Hi; subst; simpl; auto. }
  destruct E as [T K]. destruct (terminal_ds s T K i) as (s' & E & F & _); eauto.
Qed.

(** The failing configuration: DS first, undefined foot, nonzero number of steps *)
Lemma walk_undefined_foot_throws p s :
  init p = Ok s -> first_stance p = DS -> first_ss_type p = ST_UNDEFINED -> num_steps p <> 0 ->
  shifts 2 s = Throw.
Proof.
  intros Hi Hs Hf Hn.
  unfold init in Hi. apply assert_ok in Hi; destruct Hi as [_ Hi].
  cbv zeta in Hi. rewrite Hs, Hf in Hi. inversion Hi; subst; clear Hi.
  cbn [shifts bind]. unfold shiftStance; simpl. destruct (num_steps p) as [|n]; [congruence|reflexivity].
Qed.

Lemma init_accepts p :
  (exists s, init p = Ok s) <->
  num_steps p <> 1 /\
  (is_ss (first_stance p) = true \/
   first_stance p = DS /\ (is_ss (first_ss_type p) = true \/ first_ss_type p = ST_UNDEFINED)).
Proof.
  unfold init, assert_then. destruct (Nat.eqb_spec (num_steps p) 1) as [E|E]; simpl.
  - split; [intros [s H]; discriminate | intros [H _]; congruence].
  - cbv zeta. destruct (first_stance p); simpl;
      [ split; [intros [s H]; discriminate | intros [_ [H|[H _]]]; discriminate ]
      | | split; [intros; auto | intros _; eexists; reflexivity]
      | split; [intros; auto | intros _; eexists; reflexivity]
      | split; [intros [s H]; discriminate | intros [_ [H|[H _]]]; discriminate ] ].
    destruct (first_ss_type p); simpl;
      first [ split; [intros; auto | intros _; eexists; reflexivity]
            | split; [intros [s H]; discriminate | intros [_ [H|[_ [H|H]]]]; discriminate ] ].
Qed.

(** Consequences for alternation *)
Lemma tail_spec_even f k i : Nat.even i = true -> tail_spec f k i = TDS \/ tail_spec f k i = DS.
Proof. intros H; unfold tail_spec; rewrite H; destruct (_ <=? _); auto. Qed.

Lemma tail_spec_ss f k i : is_ss (tail_spec f k i) = true ->
  Nat.even i = false /\ i <= 2 * k /\ tail_spec f k i = alternate f (i / 2).
Proof.
  unfold tail_spec. destruct (Nat.leb_spec i (2 * k)); [|discriminate].
  destruct (Nat.even i) eqn:E; [discriminate|auto].
Qed.

Lemma even_S_false i : Nat.even i = false -> Nat.even (S i) = true.
Proof. rewrite Nat.even_succ, <- Nat.negb_even. intros ->; reflexivity. Qed.

Lemma tail_spec_neighbours f k i : is_ss (tail_spec f k i) = true ->
  tail_spec f k (S i) = TDS /\ (exists j, i = S j /\ tail_spec f k j = TDS) /\
  (is_ss (tail_spec f k (S (S i))) = true -> tail_spec f k (S (S i)) = opp (tail_spec f k i)).
Proof.
  intros H. apply tail_spec_ss in H. destruct H as (E & L & V).
  assert (i <> 2 * k) by (intros ->; rewrite Nat.even_mul in E; discriminate).
  repeat split.
  - unfold tail_spec. replace (S i <=? 2 * k) with true by lia. rewrite (even_S_false _ E). reflexivity.
  - destruct i as [|j]; [discriminate|]. exists j; split; [reflexivity|].
    unfold tail_spec. replace (j <=? 2 * k) with true by lia.
    rewrite Nat.even_succ, <- Nat.negb_even in E. destruct (Nat.even j); [reflexivity|discriminate].
  - intros H2. apply tail_spec_ss in H2. destruct H2 as (_ & _ & V2). rewrite V2, V.
    replace (S (S i) / 2) with (S (i / 2)).
    2:{ replace (S (S i)) with (i + 1 * 2) by lia. rewrite Nat.div_add by lia. lia. }
    apply alternate_S.
Qed.

(** Counting single supports among the first stances *)
Lemma count_tail k : forall f m, is_ss f = true -> 2 * k <= m ->
  length (filter is_ss (map (tail_spec f k) (seq 0 m))) = k.
Proof.
  induction k as [|k IH]; intros f m Hf Hm.
  - assert (Z : forall l, length (filter is_ss (map (tail_spec f 0) l)) = 0).
    { induction l as [|a l IHl]; [reflexivity|]. cbn [map filter].
      destruct (is_ss (tail_spec f 0 a)) eqn:E; [|exact IHl].
      apply tail_spec_ss in E. destruct E as (E1 & E2 & _). destruct a; [discriminate|lia]. }
    apply Z.
  - destruct m as [|[|m]]; try lia.
    cbn [seq map filter].
    assert (T0 : tail_spec f (S k) 0 = TDS) by reflexivity.
    assert (T1 : tail_spec f (S k) 1 = f) by reflexivity.
    rewrite T0, T1, Hf. cbn [is_ss]. cbn [length]. f_equal.
    transitivity (length (filter is_ss (map (tail_spec (opp f) k) (seq 0 m))));
      [|apply IH; [rewrite is_ss_opp; assumption|lia]].
    rewrite <- !seq_shift, !map_map. f_equal. f_equal. apply map_ext. intros i.
    unfold tail_spec. replace (S (S i) / 2) with (S (i / 2)).
    2:{ replace (S (S i)) with (i + 1 * 2) by lia. rewrite Nat.div_add by lia. lia. }
    cbn [alternate Nat.even]. replace (S (S i) <=? 2 * S k) with (i <=? 2 * k) by lia. reflexivity.
Qed.

Lemma count_walk_ds f n m : is_ss f = true -> 2 * n + 1 <= m ->
  length (filter is_ss (map (walk_ds_spec f n) (seq 0 m))) = n.
Proof.
  intros Hf Hm. destruct m as [|m]; [lia|]. cbn [seq map filter walk_ds_spec is_ss].
  rewrite <- seq_shift, map_map. cbn [walk_ds_spec].
  change (fun x => tail_spec f n x) with (tail_spec f n). apply count_tail; [assumption|lia].
Qed.

Lemma count_walk_ss f n m : is_ss f = true -> 2 * n + 1 <= m ->
  length (filter is_ss (map (walk_ss_spec f n) (seq 0 m))) = S n.
Proof.
  intros Hf Hm. destruct m as [|m]; [lia|]. cbn [seq map filter walk_ss_spec]. rewrite Hf. cbn [length]. f_equal.
  rewrite <- seq_shift, map_map. cbn [walk_ss_spec].
  change (fun x => tail_spec (opp f) n x) with (tail_spec (opp f) n).
  apply count_tail; [rewrite is_ss_opp; assumption|lia].
Qed.
