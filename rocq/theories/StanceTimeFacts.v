(** Proofs about shiftTime and previewStances (StanceFSM.v) *)
From Coq Require Import List Arith ZArith Lia Bool ZifyBool.
From Verif Require Import Base BaseFacts StanceFSM StanceSpec StanceFSMFacts.
Import ListNotations.

Lemma shiftTime_0 f s : shiftTime f s 0 = Finished (Ok s).
Proof. destruct f; reflexivity. Qed.

Lemma shiftTime_S f s t : t <> 0 ->
  shiftTime (S f) s t =
      let s1 := set_tds_started s false in
      if cur_time s1 + t <? duration (cur s1)
      then Finished (Ok (set_cur_time s1 (cur_time s1 + t)))
      else if cur_time s1 <=? duration (cur s1)
      then match shiftStance s1 with
           | Ok s2 => shiftTime f s2 (t - (duration (cur s1) - cur_time s1))
           | Throw => Finished Throw
           | UB => Finished UB
           end
      else Finished UB.
Proof.
  intros H. cbn [shiftTime]. destruct (Nat.eqb_spec t 0); [congruence|].
  cbv zeta. rewrite shiftTime_0. reflexivity.
Qed.

Lemma shiftTime_O s t : t <> 0 -> shiftTime 0 s t = NoFuel.
Proof. intros H; simpl; destruct (Nat.eqb_spec t 0); [congruence|reflexivity]. Qed.

(** More fuel does not change a finished run *)
Lemma shiftTime_mono f : forall s t r g, shiftTime f s t = Finished r -> f <= g ->
  shiftTime g s t = Finished r.
Proof.
  induction f as [|f IH]; intros s t r g H L.
  - destruct (Nat.eq_dec t 0) as [->|N].
    + rewrite shiftTime_0 in *; exact H.
    + rewrite shiftTime_O in H by assumption; discriminate.
  - destruct (Nat.eq_dec t 0) as [->|N]; [rewrite shiftTime_0 in *; exact H|].
    destruct g as [|g]; [lia|].
    rewrite shiftTime_S in * by assumption. cbv zeta in *.
    destruct (_ <? _); [exact H|]. destruct (_ <=? _); [|exact H].
    destruct (shiftStance _); try exact H. apply IH; [exact H|lia].
Qed.

Lemma shiftTime_det f g s t r q :
  shiftTime f s t = Finished r -> shiftTime g s t = Finished q -> r = q.
Proof.
  intros H1 H2. apply shiftTime_mono with (g := f + g) in H1; [|lia].
  apply shiftTime_mono with (g := f + g) in H2; [|lia]. congruence.
Qed.

Lemma shiftStance_time s t : shiftStance (set_cur_time s t) = shiftStance s.
Proof. reflexivity. Qed.

Lemma shiftStance_flag s b : shiftStance (set_tds_started s b) = shiftStance s.
Proof. reflexivity. Qed.

(** Shifting by [a] and then by [b] is shifting by [a + b] *)
Lemma shiftTime_compose f1 : forall f2 s a b s1 r,
  shiftTime f1 s a = Finished (Ok s1) -> shiftTime f2 s1 b = Finished r ->
  shiftTime (f1 + f2) s (a + b) = Finished r.
Proof.
  induction f1 as [|f IH]; intros f2 s a b s1 r H1 H2.
  - destruct (Nat.eq_dec a 0) as [->|N].
    + rewrite shiftTime_0 in H1. inversion H1; subst. exact H2.
    + rewrite shiftTime_O in H1 by assumption; discriminate.
  - destruct (Nat.eq_dec a 0) as [->|N].
    { rewrite shiftTime_0 in H1. inversion H1; subst. eapply shiftTime_mono; [exact H2|lia]. }
    rewrite shiftTime_S in H1 by assumption. cbv zeta in H1.
    cbn [plus]. rewrite shiftTime_S by lia. cbv zeta.
    change (cur_time (set_tds_started s false)) with (cur_time s) in *.
    change (cur (set_tds_started s false)) with (cur s) in *.
    rewrite shiftStance_flag in *.
    destruct (Nat.ltb_spec (cur_time s + a) (duration (cur s))) as [L|L].
    + inversion H1; subst s1; clear H1.
      destruct (Nat.eq_dec b 0) as [->|Nb].
      * rewrite shiftTime_0 in H2. rewrite Nat.add_0_r.
        replace (cur_time s + a <? duration (cur s)) with true by lia. exact H2.
      * destruct f2 as [|f2]; [rewrite shiftTime_O in H2 by assumption; discriminate|].
        rewrite shiftTime_S in H2 by assumption. cbv zeta in H2.
        cbn [set_tds_started set_cur_time cur_time cur is_tds_started ss_left fparams] in H2.
        rewrite shiftStance_flag in H2.
        rewrite Nat.add_assoc.
        destruct (Nat.ltb_spec (cur_time s + a + b) (duration (cur s))) as [L2|L2].
        { rewrite <- H2. reflexivity. }
        replace (cur_time s + a <=? duration (cur s)) with true in H2 by lia.
        replace (cur_time s <=? duration (cur s)) with true by lia.
        replace (a + b - (duration (cur s) - cur_time s))
          with (b - (duration (cur s) - (cur_time s + a))) by lia.
        rewrite shiftStance_time, shiftStance_flag in H2.
        destruct (shiftStance s) as [s2| |]; try exact H2.
        eapply shiftTime_mono; [exact H2|lia].
    + destruct (Nat.leb_spec (cur_time s) (duration (cur s))) as [L3|L3]; [|discriminate].
      replace (cur_time s + (a + b) <? duration (cur s)) with false by lia.
      destruct (shiftStance s) as [s2| |]; try discriminate.
      replace (a + b - (duration (cur s) - cur_time s))
        with (a - (duration (cur s) - cur_time s) + b) by lia.
      eapply IH; eauto.
Qed.

(** If shifting by [a + b] finishes, so does shifting by [a] *)
Lemma shiftTime_prefix f : forall s a b r,
  shiftTime f s (a + b) = Finished r -> exists q, shiftTime f s a = Finished q.
Proof.
  induction f as [|f IH]; intros s a b r H.
  - destruct (Nat.eq_dec (a + b) 0) as [E|N].
    + replace a with 0 by lia. rewrite shiftTime_0. eauto.
    + rewrite shiftTime_O in H by assumption; discriminate.
  - destruct (Nat.eq_dec a 0) as [->|N]; [rewrite shiftTime_0; eauto|].
    rewrite shiftTime_S in H by lia. rewrite shiftTime_S by lia. cbv zeta in *.
    change (cur_time (set_tds_started s false)) with (cur_time s) in *.
    change (cur (set_tds_started s false)) with (cur s) in *.
    rewrite shiftStance_flag in *.
    destruct (Nat.ltb_spec (cur_time s + a) (duration (cur s))) as [L|L]; [eauto|].
    destruct (Nat.ltb_spec (cur_time s + (a + b)) (duration (cur s))) as [L1|L1]; [lia|].
    destruct (Nat.leb_spec (cur_time s) (duration (cur s))) as [L3|L3]; [|eauto].
    destruct (shiftStance s) as [s2| |]; eauto.
    replace (a + b - (duration (cur s) - cur_time s))
        with (a - (duration (cur s) - cur_time s) + b) in H by lia.
    eapply IH; eauto.
Qed.

Lemma shiftTime_compose_fail f : forall s a b r,
  shiftTime f s a = Finished r -> (forall s1, r <> Ok s1) ->
  shiftTime f s (a + b) = Finished r.
Proof.
  induction f as [|f IH]; intros s a b r H NR.
  - destruct (Nat.eq_dec a 0) as [->|N].
    + rewrite shiftTime_0 in H. inversion H; subst; exfalso; eapply NR; eauto.
    + rewrite shiftTime_O in H by assumption; discriminate.
  - destruct (Nat.eq_dec a 0) as [->|N].
    { rewrite shiftTime_0 in H. inversion H; subst; exfalso; eapply NR; eauto. }
    rewrite shiftTime_S in H by assumption. rewrite shiftTime_S by lia. cbv zeta in *.
    change (cur_time (set_tds_started s false)) with (cur_time s) in *.
    change (cur (set_tds_started s false)) with (cur s) in *.
    rewrite shiftStance_flag in *.
    destruct (Nat.ltb_spec (cur_time s + a) (duration (cur s))) as [L|L].
    { inversion H; subst; exfalso; eapply NR; eauto. }
    destruct (Nat.ltb_spec (cur_time s + (a + b)) (duration (cur s))) as [L1|L1]; [lia|].
    destruct (Nat.leb_spec (cur_time s) (duration (cur s))) as [L3|L3]; [|exact H].
    destruct (shiftStance s) as [s2| |]; try exact H.
    replace (a + b - (duration (cur s) - cur_time s))
        with (a - (duration (cur s) - cur_time s) + b) by lia.
    apply IH; assumption.
Qed.

(** ** Time shifts only go through the sequence of stances *)
Lemma shiftTime_is_shifts f : forall s t s', shiftTime f s t = Finished (Ok s') ->
  exists k s'', shifts k s = Ok s'' /\ cur s' = cur s'' /\ ss_left s' = ss_left s'' /\ fparams s' = fparams s''.
Proof.
  induction f as [|f IH]; intros s t s' H.
  - destruct (Nat.eq_dec t 0) as [->|N].
    + rewrite shiftTime_0 in H. inversion H; subst. exists 0, s'; simpl; auto.
    + rewrite shiftTime_O in H by assumption; discriminate.
  - destruct (Nat.eq_dec t 0) as [->|N].
    { rewrite shiftTime_0 in H. inversion H; subst. exists 0, s'; simpl; auto. }
    rewrite shiftTime_S in H by assumption. cbv zeta in H. rewrite shiftStance_flag in H.
    destruct (_ <? _).
    + inversion H; subst. exists 0, s; simpl; auto.
    + destruct (_ <=? _); [|discriminate].
      destruct (shiftStance s) as [s2| |] eqn:E; try discriminate.
      apply IH in H. destruct H as (k & s'' & H1 & H2). exists (S k), s''. split; [|exact H2].
      simpl. rewrite E. exact H1.
Qed.

(** ** Well-formed states *)
Lemma wf_shiftStance s : wf s -> exists s', shiftStance s = Ok s' /\ wf s' /\ cur_time s' = 0 /\ fparams s' = fparams s.
Proof.
  unfold wf, shiftStance. destruct s as [fl k ct c p]; destruct c as [ty pn pt su d td]; simpl.
  intros [H1 H2]. destruct ty; try contradiction; simpl.
  - destruct k as [|k]; simpl; eexists; (split; [reflexivity|]); simpl; (split; [|auto]); (split; [lia|]); auto.
  - eexists; (split; [reflexivity|]); simpl; (split; [|auto]); (split; [lia|]); auto.
  - eexists; (split; [reflexivity|]); simpl; (split; [|auto]); (split; [lia|]); auto.
  - destruct k as [|k]; simpl.
    + eexists; (split; [reflexivity|]); simpl; (split; [|auto]); (split; [lia|]); auto.
    + destruct H2 as [H2|H2]; [discriminate|].
      destruct pn; try discriminate; eexists; (split; [reflexivity|]); simpl; (split; [|auto]); (split; [lia|]); auto.
Qed.

Lemma wf_init p s : init p = Ok s ->
  (first_stance p = DS -> num_steps p = 0 \/ first_ss_type p <> ST_UNDEFINED) -> wf s.
Proof.
  intros H C. unfold init in H. apply assert_ok in H. destruct H as [_ H]. cbv zeta in H.
  destruct (first_stance p) eqn:F; try discriminate.
  - destruct (first_ss_type p) eqn:G; inversion H; subst; unfold wf; simpl; (split; [lia|]); auto.
    destruct (C eq_refl); [auto|congruence].
  - inversion H; subst; unfold wf; simpl; (split; [lia|]); auto.
  - inversion H; subst; unfold wf; simpl; (split; [lia|]); auto.
Qed.

Lemma wf_shiftTime f : forall s t r, wf s -> shiftTime f s t = Finished r ->
  exists s', r = Ok s' /\ wf s' /\ fparams s' = fparams s.
Proof.
  induction f as [|f IH]; intros s t r W H.
  - destruct (Nat.eq_dec t 0) as [->|N].
    + rewrite shiftTime_0 in H. inversion H; subst. eauto.
    + rewrite shiftTime_O in H by assumption; discriminate.
  - destruct (Nat.eq_dec t 0) as [->|N].
    { rewrite shiftTime_0 in H. inversion H; subst. eauto. }
    rewrite shiftTime_S in H by assumption. cbv zeta in H. rewrite shiftStance_flag in H.
    change (cur_time (set_tds_started s false)) with (cur_time s) in *.
    change (cur (set_tds_started s false)) with (cur s) in *.
    destruct (Nat.ltb_spec (cur_time s + t) (duration (cur s))).
    + inversion H; subst. eexists; split; [reflexivity|]. split; [|reflexivity].
      destruct W as [W1 W2]. split; simpl; [lia|exact W2].
    + replace (cur_time s <=? duration (cur s)) with true in H by (destruct W; lia).
      destruct (wf_shiftStance s W) as (s2 & E & W2 & _ & P2). rewrite E in H.
      apply IH in H; [|assumption]. destruct H as (s' & A & B & C). exists s'; split; [exact A|]. split; [exact B|]. congruence.
Qed.

(** ** Termination *)

(** twice the number of stances before the terminal double support *)
Definition stances_left (s : fsm) : nat :=
  match st_type (cur s) with
  | DS => if ss_left s =? 0 then 0 else 2 * (2 * ss_left s + 2)
  | LSS | RSS => 2 * (2 * ss_left s + 2)
  | TDS => 2 * (2 * ss_left s + 1)
  | ST_UNDEFINED => 0
  end.

Definition bonus (s : fsm) : nat := if cur_time s <? duration (cur s) then 0 else 1.

Lemma shiftStance_measure s s' : shiftStance s = Ok s' ->
  fparams s' = fparams s /\ cur_time s' = 0 /\
  (st_type (cur s) = DS /\ ss_left s = 0 /\ st_type (cur s') = DS /\ ss_left s' = 0 /\
     duration (cur s') = last_duration (fparams s)
   \/ (stances_left s' + 2 <= stances_left s)).
Proof.
  unfold shiftStance. destruct s as [fl k ct c p]; destruct c as [ty pn pt su d td]; simpl.
  destruct ty; try discriminate; simpl.
  - destruct k as [|k]; simpl; intros E; inversion E; subst; simpl; (split; [reflexivity|]); (split; [reflexivity|]).
    + left; repeat split.
    + right; unfold stances_left; simpl; lia.
  - intros E; inversion E; subst; simpl; repeat split; auto. right; unfold stances_left; simpl; lia.
  - intros E; inversion E; subst; simpl; repeat split; auto. right; unfold stances_left; simpl; lia.
  - destruct k as [|k]; simpl.
    + intros E; inversion E; subst; simpl; repeat split; auto; right; unfold stances_left; simpl; lia.
    + destruct pn; try discriminate; intros E; inversion E; subst; simpl; repeat split; auto;
        right; unfold stances_left; simpl; lia.
Qed.

Lemma shiftTime_terminates fuel : forall s t,
  last_duration (fparams s) > 0 ->
  stances_left s + t + bonus s <= fuel ->
  exists r, shiftTime fuel s t = Finished r.
Proof.
  induction fuel as [|f IH]; intros s t HP HF.
  - replace t with 0 by lia. rewrite shiftTime_0; eauto.
  - destruct (Nat.eq_dec t 0) as [->|N]; [rewrite shiftTime_0; eauto|].
    rewrite shiftTime_S by assumption. cbv zeta. rewrite shiftStance_flag.
    change (cur_time (set_tds_started s false)) with (cur_time s) in *.
    change (cur (set_tds_started s false)) with (cur s) in *.
    destruct (Nat.ltb_spec (cur_time s + t) (duration (cur s))); [eauto|].
    destruct (Nat.leb_spec (cur_time s) (duration (cur s))); [|eauto].
    destruct (shiftStance s) as [s2| |] eqn:E; eauto.
    apply shiftStance_measure in E. destruct E as (P2 & C2 & M).
    apply IH; [rewrite P2; assumption|].
    unfold bonus in *. rewrite C2.
    destruct M as [(T1 & K1 & T2 & K2 & D2)|M].
    + assert (S1 : stances_left s = 0) by (unfold stances_left; rewrite T1, K1; reflexivity).
      assert (S2 : stances_left s2 = 0) by (unfold stances_left; rewrite T2, K2; reflexivity).
      rewrite S1 in HF; rewrite S2. rewrite D2.
      replace (0 <? last_duration (fparams s)) with true by lia.
      destruct (Nat.ltb_spec (cur_time s) (duration (cur s))); lia.
    + destruct (0 <? duration (cur s2)), (cur_time s <? duration (cur s)); lia.
Qed.

(** ** Non-termination *)
Lemma shiftTime_diverges_zero fuel : forall s t,
  st_type (cur s) = DS -> ss_left s = 0 -> last_duration (fparams s) = 0 ->
  cur_time s = 0 -> duration (cur s) = 0 -> t > 0 ->
  shiftTime fuel s t = NoFuel.
Proof.
  induction fuel as [|f IH]; intros s t HT HK HL HC HD Ht.
  - apply shiftTime_O; lia.
  - rewrite shiftTime_S by lia. cbv zeta. rewrite shiftStance_flag.
    change (cur_time (set_tds_started s false)) with (cur_time s) in *.
    change (cur (set_tds_started s false)) with (cur s) in *.
    rewrite HC, HD. replace (0 + t <? 0) with false by lia. cbn [Nat.leb].
    unfold shiftStance. rewrite HT, HK. cbn [getDuration bind].
    apply IH; simpl; auto; lia.
Qed.

Lemma shiftTime_diverges_terminal fuel s t :
  st_type (cur s) = DS -> ss_left s = 0 -> last_duration (fparams s) = 0 ->
  cur_time s <= duration (cur s) -> t > duration (cur s) - cur_time s ->
  shiftTime fuel s t = NoFuel.
Proof.
  intros HT HK HL HC Ht. destruct fuel as [|f]; [apply shiftTime_O; lia|].
  rewrite shiftTime_S by lia. cbv zeta. rewrite shiftStance_flag.
  change (cur_time (set_tds_started s false)) with (cur_time s) in *.
  change (cur (set_tds_started s false)) with (cur s) in *.
  replace (cur_time s + t <? duration (cur s)) with false by lia.
  replace (cur_time s <=? duration (cur s)) with true by lia.
  unfold shiftStance. rewrite HT, HK. cbn [getDuration bind].
  apply shiftTime_diverges_zero; simpl; auto; lia.
Qed.

Lemma shiftTime_diverges_gen n : forall s, wf s -> last_duration (fparams s) = 0 ->
  stances_left s <= n ->
  exists T, forall t fuel, t > T -> shiftTime fuel s t = NoFuel.
Proof.
  induction n as [n IH] using lt_wf_ind. intros s W HL HN.
  destruct (wf_shiftStance s W) as (s2 & E & W2 & C2 & P2).
  pose proof (shiftStance_measure _ _ E) as (_ & _ & M).
  destruct M as [(T1 & K1 & _)|M].
  - exists (duration (cur s) - cur_time s). intros t fuel Ht.
    apply shiftTime_diverges_terminal; auto. destruct W; auto.
  - destruct (IH (stances_left s2)) with (s := s2) as (T & HT); auto; [lia|congruence|].
    exists (T + (duration (cur s) - cur_time s)). intros t fuel Ht.
    destruct fuel as [|f]; [apply shiftTime_O; lia|].
    rewrite shiftTime_S by lia. cbv zeta. rewrite shiftStance_flag.
    change (cur_time (set_tds_started s false)) with (cur_time s) in *.
    change (cur (set_tds_started s false)) with (cur s) in *.
    replace (cur_time s + t <? duration (cur s)) with false by lia.
    replace (cur_time s <=? duration (cur s)) with true by (destruct W; lia).
    rewrite E. apply HT. lia.
Qed.

(** ** Preview *)
Lemma preview_loop_0 f s acc : preview_loop f s 0 acc = Finished (Ok (s, false, acc)).
Proof. destruct f; reflexivity. Qed.

Lemma preview_loop_S f s t acc : t <> 0 ->
  preview_loop (S f) s t acc =
      if negb (cur_time s <=? duration (cur s)) then Finished UB
      else
      if cur_time s + t <=? duration (cur s)
      then Finished (Ok (s, false, acc ++ [preview_entry s t]))
      else
        if (ss_left s =? 0) && match st_type (cur s) with DS => true | _ => false end
        then Finished (Ok (s, true, acc))
        else match shiftStance s with
             | Ok s2 => preview_loop f s2 (t - (duration (cur s) - cur_time s)) (acc ++ [preview_entry s t])
             | Throw => Finished Throw
             | UB => Finished UB
             end.
Proof.
  intros H. cbn [preview_loop]. destruct (Nat.eqb_spec t 0); [congruence|].
  cbv zeta. rewrite preview_loop_0. reflexivity.
Qed.

Lemma preview_loop_O s t acc : t <> 0 -> preview_loop 0 s t acc = NoFuel.
Proof. intros H; simpl; destruct (Nat.eqb_spec t 0); [congruence|reflexivity]. Qed.

Lemma shiftTime_within s t : cur_time s + t < duration (cur s) ->
  exists s', shiftTime 1 s t = Finished (Ok s') /\ cur s' = cur s /\ cur_time s' = cur_time s + t /\ ss_left s' = ss_left s.
Proof.
  intros H. destruct (Nat.eq_dec t 0) as [->|N].
  - exists s. rewrite shiftTime_0, Nat.add_0_r; auto.
  - rewrite shiftTime_S by assumption. cbv zeta. simpl.
    replace (cur_time s + t <? duration (cur s)) with true by lia.
    eexists; split; [reflexivity|]. simpl; auto.
Qed.

Lemma shiftTime_past f s t s2 r : 0 < t -> duration (cur s) - cur_time s <= t -> cur_time s <= duration (cur s) ->
  shiftStance s = Ok s2 -> shiftTime f s2 (t - (duration (cur s) - cur_time s)) = Finished r ->
  shiftTime (S f) s t = Finished r.
Proof.
  intros H0 H1 HC E H. rewrite shiftTime_S by lia. cbv zeta. rewrite shiftStance_flag. simpl.
  replace (cur_time s + t <? duration (cur s)) with false by lia.
  replace (cur_time s <=? duration (cur s)) with true by lia.
  rewrite E. exact H.
Qed.

Lemma shiftStance_pos s s2 : pos_durations (fparams s) -> shiftStance s = Ok s2 -> duration (cur s2) > 0.
Proof.
  intros (H1 & H2 & H3). unfold shiftStance.
  destruct (st_type (cur s)); try discriminate; simpl.
  - destruct (ss_left s); simpl; intros E; inversion E; subst; simpl; assumption.
  - intros E; inversion E; subst; simpl; assumption.
  - intros E; inversion E; subst; simpl; assumption.
  - destruct (ss_left s); simpl; [intros E; inversion E; subst; simpl; assumption|].
    destruct (prev_nonds (cur s)); try discriminate; intros E; inversion E; subst; simpl; assumption.
Qed.

(** what the preview loop collects *)
Lemma preview_loop_spec f : forall s T acc s' ne l',
  preview_loop f s T acc = Finished (Ok (s', ne, l')) ->
  wf s -> pos_durations (fparams s) -> cur_time s < duration (cur s) ->
  exists l, l' = acc ++ l /\
    (ne = false -> psum l (length l) = T) /\
    (ne = true -> psum l (length l) < T /\ terminal s' /\ shifts (length l) s = Ok s' /\
                  duration (cur s') - cur_time s' < T - psum l (length l)) /\
    (ne = false -> T > 0 -> exists k, length l = S k /\ shifts k s = Ok s') /\
    (forall i e, nth_error l i = Some e ->
       duration e > 0 /\
       (exists si, shifts i s = Ok si /\ same_stance e si) /\
       forall t, psum l i <= t < psum l (S i) ->
       exists g s1, shiftTime g s t = Finished (Ok s1) /\ same_stance e s1 /\
         cur_time s1 = (if i =? 0 then cur_time s else 0) + (t - psum l i)).
Proof.
  induction f as [|f IH]; intros s T acc s' ne l' H W HP HC.
  - destruct (Nat.eq_dec T 0) as [->|N].
    + rewrite preview_loop_0 in H. inversion H; subst. exists []. rewrite app_nil_r. repeat split; auto; try discriminate; try lia.
      all: try (destruct i; discriminate).
    + rewrite preview_loop_O in H by assumption; discriminate.
  - destruct (Nat.eq_dec T 0) as [->|N].
    { rewrite preview_loop_0 in H. inversion H; subst. exists []. rewrite app_nil_r. repeat split; auto; try discriminate; try lia.
      all: try (destruct i; discriminate). }
    rewrite preview_loop_S in H by assumption.
    replace (cur_time s <=? duration (cur s)) with true in H by lia. cbn [negb] in H.
    destruct (Nat.leb_spec (cur_time s + T) (duration (cur s))) as [L|L].
    + inversion H; subst; clear H. exists [preview_entry s' T]. split; [reflexivity|].
      assert (D : duration (preview_entry s' T) = T) by (simpl; lia).
      split; [intros _; cbn [psum length]; lia|].
      split; [discriminate|].
      split; [intros _ _; exists 0; simpl; auto|].
      intros i e Hi. destruct i as [|i]; [|destruct i; discriminate].
      inversion Hi; subst e. split; [lia|].
      split; [exists s'; simpl; repeat split|].
      intros t Ht. cbn [psum] in Ht. rewrite D in Ht.
      destruct (shiftTime_within s' t) as (s1 & E1 & E2 & E3 & _); [lia|].
      exists 1, s1. split; [exact E1|]. split; [unfold same_stance; rewrite E2; simpl; auto|].
      simpl. lia.
    + destruct ((ss_left s =? 0) && match st_type (cur s) with DS => true | _ => false end) eqn:TT.
      * inversion H; subst; clear H. exists []. rewrite app_nil_r. split; [reflexivity|].
        split; [discriminate|]. split.
        { intros _. split; [simpl; lia|]. split; [|split; [reflexivity|simpl; lia]].
          unfold terminal. destruct (st_type (cur s')); try (rewrite andb_false_r in TT; discriminate).
          split; [reflexivity|lia]. }
        split; [discriminate|]. intros i e Hi; destruct i; discriminate.
      * destruct (wf_shiftStance s W) as (s2 & E2 & W2 & C2 & P2). rewrite E2 in H.
        assert (D2 : duration (cur s2) > 0) by (eapply shiftStance_pos; eauto).
        apply IH in H; [|assumption|rewrite P2; assumption|lia].
        destruct H as (l & -> & Hs & Hn & Hk & Hall).
        exists (preview_entry s T :: l). rewrite <- app_assoc. split; [reflexivity|].
        assert (D : duration (preview_entry s T) = duration (cur s) - cur_time s) by (simpl; lia).
        cbn [length psum]. rewrite D.
        split; [intros NE; rewrite (Hs NE); lia|].
        split.
        { intros NE. destruct (Hn NE) as (A & B & C & DD). split; [lia|]. split; [assumption|].
          split; [simpl; rewrite E2; exact C|lia]. }
        split.
        { intros NE _. destruct (Hk NE) as (k & K1 & K2); [lia|].
          exists (S k). split; [congruence|]. simpl; rewrite E2; exact K2. }
        intros i e Hi. destruct i as [|i].
        { inversion Hi; subst e. split; [simpl; lia|]. split; [exists s; simpl; repeat split|].
          intros t Ht. cbn [psum] in Ht. replace (psum l 0) with 0 in Ht by (destruct l; reflexivity).
          destruct (shiftTime_within s t) as (s1 & E1 & E3 & E4 & _); [lia|].
          exists 1, s1. split; [exact E1|]. split; [unfold same_stance; rewrite E3; simpl; auto|]. simpl; lia. }
        cbn [nth_error] in Hi. destruct (Hall i e Hi) as (A & (si & B1 & B2) & C). split; [exact A|].
        split.
        { exists si. split; [simpl; rewrite E2; exact B1|exact B2]. }
        intros t Ht. 
        destruct (C (t - (duration (cur s) - cur_time s))) as (g & s1 & G1 & G2 & G3); [cbn [psum] in Ht |- *; lia|].
        exists (S g), s1. split; [eapply shiftTime_past; eauto; lia|].
        split; [exact G2|]. rewrite G3. destruct (i =? 0); cbn [Nat.eqb]; lia.
Qed.

Lemma preview_loop_terminates f : forall s T acc,
  wf s -> stances_left s + 1 <= f -> exists r, preview_loop f s T acc = Finished (Ok r).
Proof.
  induction f as [|f IH]; intros s T acc W H; [lia|].
  destruct (Nat.eq_dec T 0) as [->|N]; [rewrite preview_loop_0; eauto|].
  rewrite preview_loop_S by assumption.
  replace (cur_time s <=? duration (cur s)) with true by (destruct W; lia). cbn [negb].
  destruct (_ <=? _); [eauto|].
  destruct ((ss_left s =? 0) && match st_type (cur s) with DS => true | _ => false end) eqn:TT; [eauto|].
  destruct (wf_shiftStance s W) as (s2 & E2 & W2 & C2 & P2). rewrite E2.
  apply IH; [assumption|]. apply shiftStance_measure in E2. destruct E2 as (_ & _ & M).
  destruct M as [(T1 & K1 & _)|M]; [rewrite T1, K1 in TT; discriminate|lia].
Qed.

Lemma last_map_some {A} (l : list A) x : last (map Some (l ++ [x])) None = Some x.
Proof. rewrite map_app; simpl. apply last_last. Qed.

Lemma same_stance_cur e s s' : same_stance e s -> cur s = cur s' -> same_stance e s'.
Proof. unfold same_stance; intros H E; rewrite <- E; exact H. Qed.

Lemma preview_loop_acc_nil_ne f : forall s T acc s' l',
  preview_loop f s T acc = Finished (Ok (s', false, l')) -> T > 0 -> exists l e, l' = acc ++ l ++ [e] /\ cur s' = cur s' /\ st_type e = st_type (cur s').
Proof.
  induction f as [|f IH]; intros s T acc s' l' H HT.
  - rewrite preview_loop_O in H by lia; discriminate.
  - rewrite preview_loop_S in H by lia.
    destruct (negb _); [discriminate|].
    destruct (Nat.leb_spec (cur_time s + T) (duration (cur s))).
    + inversion H; subst. exists [], (preview_entry s' T). simpl; auto.
    + destruct (_ && _); [discriminate|]. destruct (shiftStance s) as [s2| |]; try discriminate.
      apply IH in H; [|lia]. destruct H as (l & e & -> & A & B).
      exists (preview_entry s T :: l), e. rewrite <- app_assoc. simpl; auto.
Qed.

Lemma wf_preview_loop f : forall s T acc s' ne l,
  wf s -> preview_loop f s T acc = Finished (Ok (s', ne, l)) -> wf s'.
Proof.
  induction f as [|f IH]; intros s T acc s' ne l W H.
  - destruct (Nat.eq_dec T 0) as [->|N].
    + rewrite preview_loop_0 in H. inversion H; subst; assumption.
    + rewrite preview_loop_O in H by assumption; discriminate.
  - destruct (Nat.eq_dec T 0) as [->|N].
    + rewrite preview_loop_0 in H. inversion H; subst; assumption.
    + rewrite preview_loop_S in H by assumption. destruct (negb _); [discriminate|].
      destruct (_ <=? _); [inversion H; subst; assumption|].
      destruct (_ && _); [inversion H; subst; assumption|].
      destruct (wf_shiftStance s W) as (s2 & E2 & W2 & _). rewrite E2 in H. eapply IH; eauto.
Qed.

Lemma preview_defined s T : wf s -> T > 0 ->
  exists f l, previewStances f s T = Finished (Ok l).
Proof.
  intros W HT. destruct (preview_loop_terminates (stances_left s + 1) s T [] W) as (r & H); [lia|].
  exists (stances_left s + 1). unfold previewStances. rewrite H.
  destruct r as [[s' ne] l]. destruct ne; [eauto|].
  destruct (preview_loop_acc_nil_ne _ _ _ _ _ _ H HT) as (l0 & e & E & _ & Te).
  simpl in E. subst l. rewrite last_map_some.
  destruct (is_tds (st_type e)) eqn:ET; [|eauto].
  rewrite <- Te, ET.
  destruct (wf_shiftStance s' (wf_preview_loop _ _ _ _ _ _ _ W H)) as (s2 & E2 & _). rewrite E2. eauto.
Qed.

Lemma preview_zero f s : previewStances f s 0 = Finished UB.
Proof. unfold previewStances. rewrite preview_loop_0. reflexivity. Qed.

Lemma psum_app_l l1 l2 i : i <= length l1 -> psum (l1 ++ l2) i = psum l1 i.
Proof.
  revert i; induction l1 as [|e l1 IH]; intros i H; destruct i as [|i]; simpl in *; try lia.
  - destruct l2; reflexivity.
  - rewrite IH by lia. reflexivity.
Qed.

Lemma psum_snoc l e : psum (l ++ [e]) (length (l ++ [e])) = psum l (length l) + duration e.
Proof. induction l as [|a l IH]; simpl; lia. Qed.

Lemma shiftStance_from_tds s s' : st_type (cur s) = TDS -> shiftStance s = Ok s' -> st_type (cur s') <> TDS.
Proof.
  intros H. unfold shiftStance. rewrite H. simpl.
  destruct (ss_left s); [intros E; inversion E; subst; discriminate|].
  destruct (prev_nonds (cur s)); try discriminate; intros E; inversion E; subst; discriminate.
Qed.

Lemma preview_correct f s T l :
  wf s -> pos_durations (fparams s) -> cur_time s < duration (cur s) -> T > 0 ->
  previewStances f s T = Finished (Ok l) ->
  (forall i e, nth_error l i = Some e -> exists si, shifts i s = Ok si /\ same_kind e si) /\
  (forall i e t, nth_error l i = Some e -> psum l i <= t < psum l (S i) ->
     exists g s1, shiftTime g s t = Finished (Ok s1) /\ same_stance e s1 /\
       cur_time s1 = (if i =? 0 then cur_time s else 0) + (t - psum l i)) /\
  ( psum l (length l) = T /\ (exists e l', l = l' ++ [e] /\ st_type e <> TDS)
    \/
    psum l (length l) < T /\ exists s', shifts (length l) s = Ok s' /\ terminal s' /\
        duration (cur s') - cur_time s' < T - psum l (length l)).
Proof.
  intros W HP HC HT H. unfold previewStances in H.
  destruct (preview_loop f s T []) as [[r| |]|] eqn:E; try discriminate.
  destruct r as [[s' ne] l0].
  destruct (preview_loop_spec _ _ _ _ _ _ _ E W HP HC) as (l1 & Hl & Hs & Hn & Hk & Hall).
  simpl in Hl; subst l0.
  assert (K : forall i e, nth_error l1 i = Some e -> exists si, shifts i s = Ok si /\ same_kind e si).
  { intros i e Hi. destruct (Hall i e Hi) as (_ & (si & A & B) & _). exists si; split; [exact A|].
    unfold same_stance in B; unfold same_kind; tauto. }
  destruct ne.
  - inversion H; subst l1; clear H. split; [exact K|].
    split; [intros i e t Hi Ht; destruct (Hall i e Hi) as (_ & _ & A); auto|].
    right. destruct (Hn eq_refl) as (A & B & C & D). split; [exact A|]. exists s'; auto.
  - destruct (preview_loop_acc_nil_ne _ _ _ _ _ _ E HT) as (l0 & e & El & _ & Te). simpl in El. subst l1.
    rewrite last_map_some in H.
    destruct (is_tds (st_type e)) eqn:ET.
    + rewrite <- Te, ET in H.
      destruct (shiftStance s') as [s2| |] eqn:E2; try discriminate. inversion H; subst l; clear H.
      destruct (Hk eq_refl HT) as (k & K1 & K2).
      split; [|split].
      * intros i e' Hi. rewrite nth_error_app in Hi. destruct (Nat.ltb_spec i (length (l0 ++ [e]))); [apply K; assumption|].
        destruct (i - length (l0 ++ [e])) as [|j] eqn:Ej; [|destruct j; discriminate].
        inversion Hi; subst e'. exists s2. split; [|unfold same_kind; simpl; auto].
        replace i with (S k) by lia. rewrite shifts_S_r, K2. exact E2.
      * intros i e' t Hi Ht. rewrite nth_error_app in Hi. destruct (Nat.ltb_spec i (length (l0 ++ [e]))).
        { rewrite (psum_app_l (l0 ++ [e]) _ i), (psum_app_l (l0 ++ [e]) _ (S i)) in Ht by lia.
          rewrite (psum_app_l (l0 ++ [e]) _ i) by lia.
          destruct (Hall i e' Hi) as (_ & _ & A); auto. }
        destruct (i - length (l0 ++ [e])) as [|j] eqn:Ej; [|destruct j; discriminate].
        inversion Hi; subst e'. exfalso.
        replace i with (length (l0 ++ [e])) in Ht by lia.
        rewrite (psum_app_l (l0 ++ [e]) _ (length (l0 ++ [e]))) in Ht by lia.
        replace (S (length (l0 ++ [e]))) with (length ((l0 ++ [e]) ++ [preview_last_entry s2])) in Ht
          by (rewrite !app_length; simpl; lia).
        rewrite (psum_snoc (l0 ++ [e])) in Ht. simpl in Ht. lia.
      * left. rewrite psum_snoc, (Hs eq_refl). split; [simpl; lia|].
        exists (preview_last_entry s2), (l0 ++ [e]). split; [reflexivity|]. simpl.
        eapply shiftStance_from_tds; [|exact E2]. rewrite <- Te. destruct (st_type e); try discriminate; reflexivity.
    + inversion H; subst l; clear H. split; [exact K|].
      split; [intros i e' t Hi Ht; destruct (Hall i e' Hi) as (_ & _ & A); auto|].
      left. split; [apply Hs; reflexivity|]. exists e, l0. split; [reflexivity|].
      intros X; rewrite X in ET; discriminate.
Qed.
