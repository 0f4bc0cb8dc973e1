(** Lifting of the stance sequence facts to arbitrary executions. *)
From Coq Require Import List Arith ZArith Lia Bool ZifyBool.
From Verif Require Import Base BaseFacts StanceFSM StanceSpec StanceFSMFacts StanceTimeFacts.
Import ListNotations.

Lemma shifts_cur n : forall s s', cur s = cur s' -> ss_left s = ss_left s' -> fparams s = fparams s' ->
  match shifts n s, shifts n s' with
  | Ok a, Ok b => cur a = cur b /\ ss_left a = ss_left b /\ fparams a = fparams b
  | Throw, Throw => True
  | UB, UB => True
  | _, _ => False
  end.
Proof.
  induction n as [|n IH]; intros s s' H1 H2 H3; simpl; [auto|].
  assert (E : shiftStance s = shiftStance s') by (unfold shiftStance; rewrite H1, H2, H3; reflexivity).
  rewrite E. destruct (shiftStance s') as [a| |]; simpl; auto. apply IH; reflexivity.
Qed.

Lemma reach_is_shifts s s' : reach s s' ->
  exists k s'', shifts k s = Ok s'' /\ cur s' = cur s'' /\ ss_left s' = ss_left s'' /\ fparams s' = fparams s''.
Proof.
  induction 1 as [s|s s1 s2 E _ (k & s'' & A & B)|s t fuel s1 s2 E _ (k & s'' & A & B)].
  - exists 0, s; simpl; auto.
  - exists (S k), s''. simpl. rewrite E. auto.
  - apply shiftTime_is_shifts in E. destruct E as (k1 & s1' & A1 & B1 & B2 & B3).
    pose proof (shifts_cur k s1 s1' B1 B2 B3) as C. rewrite A in C.
    destruct (shifts k s1') as [b| |] eqn:Eb; try contradiction.
    exists (k1 + k), b. rewrite shifts_plus, A1. simpl. split; [exact Eb|].
    destruct C as (C1 & C2 & C3). destruct B as (D1 & D2 & D3). repeat split; congruence.
Qed.

(** All accepted parameters fall in one of these cases *)
Lemma init_cases p s : init p = Ok s ->
  (first_stance p = DS /\ is_ss (first_ss_type p) = true /\ num_steps p <> 0) \/
  (first_stance p = DS /\ num_steps p = 0) \/
  (first_stance p = DS /\ first_ss_type p = ST_UNDEFINED /\ num_steps p <> 0) \/
  is_ss (first_stance p) = true.
Proof.
  intros H. assert (A : exists s, init p = Ok s) by eauto. apply init_accepts in A.
  destruct A as [_ [A|[A [B|B]]]]; destruct (Nat.eq_dec (num_steps p) 0); auto 6.
Qed.

Lemma type_at_fun s i a b : type_at s i a -> type_at s i b -> a = b.
Proof. intros (x & E & <-) (y & F & <-). congruence. Qed.

Lemma alternation p s i t : init p = Ok s -> type_at s i t -> is_ss t = true ->
  type_at s (S i) TDS /\
  (i = 0 \/ exists j, i = S j /\ type_at s j TDS) /\
  (forall t', type_at s (S (S i)) t' -> is_ss t' = true -> t' = opp t).
Proof.
  intros Hi Ht Hss.
  destruct (init_cases p s Hi) as [(C1 & C2 & C3)|[(C1 & C2)|[(C1 & C2 & C3)|C1]]].
  - pose proof (walk_from_ds p s (num_steps p) (first_ss_type p) Hi C1 eq_refl C2 eq_refl C3) as Wk.
    assert (TT : forall k, type_at s k (walk_ds_spec (first_ss_type p) (num_steps p) k))
      by (intro k; destruct (Wk k) as (x & A & B); exists x; auto).
    rewrite (type_at_fun _ _ _ _ Ht (TT i)) in *.
    destruct i as [|i]; [discriminate|]. cbn [walk_ds_spec] in Hss.
    destruct (tail_spec_neighbours _ _ _ Hss) as (N1 & (j & -> & N2) & N3).
    split; [|split].
    + rewrite <- N1. apply (TT (S (S (S j)))).
    + right. exists (S j). split; [reflexivity|]. rewrite <- N2. apply (TT (S j)).
    + intros t' T' S'. rewrite (type_at_fun _ _ _ _ T' (TT _)) in *. apply N3; exact S'.
  - destruct (walk_no_steps p s Hi C1 C2 i) as (x & A & B).
    destruct Ht as (y & Ey & <-). rewrite A in Ey. inversion Ey; subst. rewrite B in Hss; discriminate.
  - exfalso. pose proof (walk_undefined_foot_throws p s Hi C1 C2 C3) as TH.
    destruct i as [|[|i]].
    + destruct Ht as (y & Ey & <-). simpl in Ey; inversion Ey; subst y; clear Ey.
      unfold init in Hi. apply assert_ok in Hi; destruct Hi as [_ Hi]. cbv zeta in Hi.
      rewrite C1, C2 in Hi. inversion Hi; subst; discriminate.
    + destruct Ht as (y & Ey & <-). simpl in Ey.
      unfold init in Hi. apply assert_ok in Hi; destruct Hi as [_ Hi]. cbv zeta in Hi.
      rewrite C1, C2 in Hi. inversion Hi; subst; clear Hi. unfold shiftStance in Ey; simpl in Ey.
      destruct (num_steps p); [congruence|]. simpl in Ey. inversion Ey; subst; discriminate.
    + destruct Ht as (y & Ey & _). replace (S (S i)) with (2 + i) in Ey by lia.
      rewrite shifts_plus, TH in Ey. discriminate.
  - pose proof (walk_from_ss p s (num_steps p) (first_stance p) Hi eq_refl C1 eq_refl) as Wk.
    assert (TT : forall k, type_at s k (walk_ss_spec (first_stance p) (num_steps p) k))
      by (intro k; destruct (Wk k) as (x & A & B); exists x; auto).
    rewrite (type_at_fun _ _ _ _ Ht (TT i)) in *.
    destruct i as [|i].
    + split; [|split].
      * apply (TT 1).
      * auto.
      * intros t' T' S'. rewrite (type_at_fun _ _ _ _ T' (TT _)) in *. cbn [walk_ss_spec] in *.
        unfold tail_spec in *. destruct (1 <=? 2 * num_steps p); [reflexivity|discriminate].
    + cbn [walk_ss_spec] in Hss.
      destruct (tail_spec_neighbours _ _ _ Hss) as (N1 & (j & -> & N2) & N3).
      split; [|split].
      * rewrite <- N1. apply (TT (S (S (S j)))).
      * right. exists (S j). split; [reflexivity|]. rewrite <- N2. apply (TT (S j)).
      * intros t' T' S'. rewrite (type_at_fun _ _ _ _ T' (TT _)) in *. apply N3; exact S'.
Qed.

Lemma reach_type p s s' : init p = Ok s -> reach s s' -> exists i, type_at s i (st_type (cur s')).
Proof.
  intros _ R. apply reach_is_shifts in R. destruct R as (k & s'' & A & B & _).
  exists k, s''. split; [exact A|congruence].
Qed.

Lemma exact_steps_ds p s n : init p = Ok s -> first_stance p = DS -> is_ss (first_ss_type p) = true ->
  num_steps p = n -> n <> 0 ->
  exists ty : nat -> stance_type,
    (forall i, type_at s i (ty i)) /\
    ty 0 = DS /\ ty 1 = TDS /\ ty 2 = first_ss_type p /\
    (forall m, 2 * n + 1 <= m -> length (filter is_ss (map ty (seq 0 m))) = n) /\
    (forall i, 2 * n + 2 <= i -> ty i = DS).
Proof.
  intros Hi C1 C2 C3 N. exists (walk_ds_spec (first_ss_type p) n).
  split; [|split; [reflexivity|split; [reflexivity|split]]].
  - intro i. destruct (walk_from_ds p s n (first_ss_type p) Hi C1 eq_refl C2 C3 N i) as (x & A & B).
    exists x; auto.
  - unfold walk_ds_spec, tail_spec. destruct n as [|n]; [congruence|]. reflexivity.
  - split.
    + intros m Hm. apply count_walk_ds; assumption.
    + intros i Hm. destruct i as [|i]; [lia|]. cbn [walk_ds_spec]. unfold tail_spec.
      replace (i <=? 2 * n) with false by lia. reflexivity.
Qed.

Lemma exact_steps_ss p s n : init p = Ok s -> is_ss (first_stance p) = true ->
  num_steps p = n ->
  exists ty : nat -> stance_type,
    (forall i, type_at s i (ty i)) /\
    ty 0 = first_stance p /\
    (forall m, 2 * n + 1 <= m -> length (filter is_ss (map ty (seq 0 m))) = S n) /\
    (forall i, 2 * n + 2 <= i -> ty i = DS).
Proof.
  intros Hi C2 C3. exists (walk_ss_spec (first_stance p) n).
  split; [|split; [reflexivity|split]].
  - intro i. destruct (walk_from_ss p s n (first_stance p) Hi eq_refl C2 C3 i) as (x & A & B).
    exists x; auto.
  - intros m Hm. apply count_walk_ss; assumption.
  - intros i Hm. destruct i as [|i]; [lia|]. cbn [walk_ss_spec]. unfold tail_spec.
    replace (i <=? 2 * n) with false by lia. reflexivity.
Qed.

Lemma terminal_absorbing s s' : st_type (cur s) = DS -> ss_left s = 0 -> reach s s' ->
  st_type (cur s') = DS /\ ss_left s' = 0.
Proof.
  intros H1 H2 R. apply reach_is_shifts in R. destruct R as (k & s'' & A & B & C & _).
  destruct (terminal_ds s H1 H2 k) as (x & X1 & X2 & X3). rewrite A in X1. inversion X1; subst.
  rewrite B, C; auto.
Qed.

Lemma shiftTimes_sum fuel ts : forall s s', shiftTimes fuel s ts = Finished (Ok s') ->
  exists g, shiftTime g s (list_sum ts) = Finished (Ok s').
Proof.
  induction ts as [|t ts IH]; intros s s' H; simpl in *.
  - inversion H; subst. exists 0; reflexivity.
  - destruct (shiftTime fuel s t) as [[s1| |]|] eqn:E; try discriminate.
    apply IH in H. destruct H as (g & H). exists (fuel + g). eapply shiftTime_compose; eauto.
Qed.

Lemma shiftTimes_sum_conv ts : forall s s' g, shiftTime g s (list_sum ts) = Finished (Ok s') ->
  exists f, shiftTimes f s ts = Finished (Ok s').
Proof.
  induction ts as [|t ts IH]; intros s s' g H.
  - change (list_sum []) with 0 in H. rewrite shiftTime_0 in H. exists 0. exact H.
  - change (list_sum (t :: ts)) with (t + list_sum ts) in H.
    destruct (shiftTime_prefix _ _ _ _ _ H) as (q & Hq).
    destruct q as [s1| |].
    + assert (HH : exists h, shiftTime h s1 (list_sum ts) = Finished (Ok s')).
      { clear IH. revert s t s1 Hq H. generalize (list_sum ts) as b.
        induction g as [|g IHg]; intros b s t s1 Hq H.
        - destruct (Nat.eq_dec t 0) as [->|N].
          + rewrite shiftTime_0 in Hq; inversion Hq; subst. exists 0; exact H.
          + rewrite shiftTime_O in Hq by assumption; discriminate.
        - destruct (Nat.eq_dec t 0) as [->|N].
          { rewrite shiftTime_0 in Hq; inversion Hq; subst. exists (S g); exact H. }
          rewrite shiftTime_S in Hq by assumption. rewrite shiftTime_S in H by lia. cbv zeta in *.
          change (cur_time (set_tds_started s false)) with (cur_time s) in *.
          change (cur (set_tds_started s false)) with (cur s) in *.
          rewrite shiftStance_flag in *.
          destruct (Nat.ltb_spec (cur_time s + t) (duration (cur s))) as [L|L].
          + inversion Hq; subst s1; clear Hq. exists (S g).
            destruct (Nat.eq_dec b 0) as [->|Nb].
            { rewrite shiftTime_0. rewrite Nat.add_0_r in H.
              replace (cur_time s + t <? duration (cur s)) with true in H by lia. exact H. }
            rewrite shiftTime_S by assumption. cbv zeta. rewrite shiftStance_flag, shiftStance_time, shiftStance_flag.
            cbn [set_tds_started set_cur_time cur_time cur is_tds_started ss_left fparams].
            rewrite Nat.add_assoc in H.
            destruct (Nat.ltb_spec (cur_time s + t + b) (duration (cur s))); [exact H|].
            replace (cur_time s + t <=? duration (cur s)) with true by lia.
            replace (cur_time s <=? duration (cur s)) with true in H by lia.
            replace (b - (duration (cur s) - (cur_time s + t)))
              with (t + b - (duration (cur s) - cur_time s)) by lia. exact H.
          + destruct (Nat.ltb_spec (cur_time s + (t + b)) (duration (cur s))); [lia|].
            destruct (_ <=? _) eqn:LE; [|discriminate].
            destruct (shiftStance s) as [s2| |]; try discriminate.
            replace (t + b - (duration (cur s) - cur_time s))
              with (t - (duration (cur s) - cur_time s) + b) in H by lia.
            eapply IHg; eauto. }
      destruct HH as (h & Hh). apply IH in Hh. destruct Hh as (f & Hf).
      exists (f + g). cbn [shiftTimes]. rewrite (shiftTime_mono _ _ _ _ _ Hq) by lia.
      assert (MM : forall l x y f1 f2, shiftTimes f1 x l = Finished (Ok y) -> f1 <= f2 -> shiftTimes f2 x l = Finished (Ok y)).
      { induction l as [|a l IHl]; intros x y f1 f2 X L; cbn [shiftTimes] in *; [exact X|].
        destruct (shiftTime f1 x a) as [[z| |]|] eqn:Ez; try discriminate.
        rewrite (shiftTime_mono _ _ _ _ _ Ez L). eapply IHl; eauto. }
      eapply MM; [exact Hf|lia].
    + exfalso. pose proof (shiftTime_compose_fail _ _ _ (list_sum ts) _ Hq) as X.
      rewrite X in H by discriminate. discriminate.
    + exfalso. pose proof (shiftTime_compose_fail _ _ _ (list_sum ts) _ Hq) as X.
      rewrite X in H by discriminate. discriminate.
Qed.

Lemma step_bookkeeping s s' : shiftStance s = Ok s' ->
  fparams s' = fparams s /\ cur_time s' = 0 /\
  getDuration (fparams s) (st_type (cur s')) = Ok (duration (cur s')) /\
  prev_nontds (cur s') = (if is_tds (st_type (cur s)) then prev_nontds (cur s) else st_type (cur s)) /\
  prev_nonds (cur s') = (if is_ss (st_type (cur s)) then st_type (cur s) else prev_nonds (cur s)) /\
  (subtype (cur s') = LAST <-> st_type (cur s) = TDS /\ st_type (cur s') = DS) /\
  subtype (cur s') <> FIRST /\
  (is_tds_started s' = false <-> st_type (cur s) = TDS).
Proof.
  unfold shiftStance.
  destruct (st_type (cur s)) eqn:T; try discriminate; simpl.
  - destruct (ss_left s); simpl; intros E; inversion E; subst; simpl; intuition congruence.
  - intros E; inversion E; subst; simpl; intuition congruence.
  - intros E; inversion E; subst; simpl; intuition congruence.
  - destruct (ss_left s); simpl; [intros E; inversion E; subst; simpl; intuition congruence|].
    destruct (prev_nonds (cur s)); try discriminate; intros E; inversion E; subst; simpl; intuition congruence.
Qed.

Lemma init_bookkeeping p s : init p = Ok s ->
  cur_time s = 0 /\ st_type (cur s) = first_stance p /\ duration (cur s) = first_duration p /\
  subtype (cur s) = FIRST /\ ss_left s = num_steps p /\
  (ss_duration (fparams s), tds_duration (fparams s), last_duration (fparams s)) =
  (ss_duration p, tds_duration p, last_duration p).
Proof.
  intros H. unfold init in H. apply assert_ok in H. destruct H as [_ H]. cbv zeta in H.
  destruct (first_stance p); try discriminate; [destruct (first_ss_type p); try discriminate| |];
    inversion H; subst; simpl; auto 8.
Qed.

Lemma durations_configured p s i s' : init p = Ok s -> shifts (S i) s = Ok s' ->
  cur_time s' = 0 /\
  duration (cur s') = match st_type (cur s') with
                      | DS => last_duration p | TDS => tds_duration p | _ => ss_duration p end.
Proof.
  intros H0 H. destruct (init_bookkeeping _ _ H0) as (_ & _ & _ & _ & _ & P).
  assert (G : forall n x y, shifts n x = Ok y -> fparams y = fparams x).
  { induction n as [|n IHn]; intros x y X; simpl in X; [congruence|].
    apply bind_ok in X. destruct X as (z & Z1 & Z2). apply IHn in Z2.
    apply step_bookkeeping in Z1. destruct Z1 as (Z1 & _). congruence. }
  rewrite shifts_S_r in H. apply bind_ok in H. destruct H as (x & X1 & X2).
  apply G in X1. apply step_bookkeeping in X2. destruct X2 as (Y1 & Y2 & Y3 & _).
  split; [exact Y2|]. rewrite X1 in Y3. inversion P as [[P1 P2 P3]].
  destruct (st_type (cur s')); simpl in Y3; inversion Y3; congruence.
Qed.
