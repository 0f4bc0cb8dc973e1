(** * The walking loop: the horizon of one iteration *)
From Coq Require Import String List Reals Arith Bool Lra Lia Sorting.Sorted.
From Verif Require Import Base BaseFacts Matrix Mat2 Mat3 LeftRight FootParameters FootTrajectory PointMass6z PointMass6zSpec Solution MpcGuess
  StanceFSM StanceSpec StanceFSMFacts StanceFSMFacts2 StanceTimeFacts WalkPreview WalkPreviewSpec WalkPreviewFacts WalkPreviewFacts2 WalkHeadingFacts WalkPreviewFacts3
  WalkMpc WalkMpcFacts WalkProfiles WalkProfilesSpec WalkModel WalkModelSpec WalkModelFacts WalkLoop.
Import ListNotations.
Local Open Scope nat_scope.

Lemma rbind_ok {A B} (r : run A) (f : A -> run B) b : rbind r f = Finished (Ok b) -> exists a, r = Finished (Ok a) /\ f a = Finished (Ok b).
Proof. destruct r as [[a| |]|]; try discriminate. intros H. exists a. auto. Qed.

(** ** enough fuel *)
Lemma form_fuel m ly ry inc s f : wf s -> stances_left s + 1 <= f -> exists r, form f m ly ry inc s = Finished r.
Proof.
  intros W F. destruct (preview_loop_terminates f s (horizon_length m * sampling_ms m) [] W F) as [[[s' ne] l] E].
  unfold form, previewStances. rewrite E. destruct ne; [eexists; reflexivity|].
  destruct (last (map Some l) None) as [b|]; [|eexists; reflexivity].
  destruct (is_tds (st_type b)); [|eexists; reflexivity].
  destruct (if is_tds (st_type (cur s')) then shiftStance s' else Ok s'); eexists; reflexivity.
Qed.

(** ** the first interval *)
Lemma form_loop_keeps N T tds : forall n rest wi idx ivs steps ivs' steps', length rest <= n -> wi > 0 ->
  form_loop N T tds wi rest idx ivs steps = Ok (ivs', steps') ->
  (forall j, j < idx -> nth_error ivs' j = nth_error ivs j) /\ (forall i, In i steps' -> In i steps \/ idx <= i).
Proof.
  induction n as [|n IH]; intros rest wi idx ivs steps ivs' steps' Ln W H.
  - destruct rest; [|simpl in Ln; lia]. simpl in H. destruct (N <=? idx); [|discriminate]. inversion H; subst. auto.
  - destruct rest as [|s r]; simpl in H.
    + destruct (N <=? idx); [|discriminate]. inversion H; subst. auto.
    + destruct (N <=? idx); [inversion H; subst; auto|]. destruct (Nat.eqb_spec wi 0); [lia|].
      destruct (is_tds (st_type s)); [|discriminate]. destruct r as [|s2 r2]; [discriminate|].
      apply IH in H; [|simpl in Ln; lia|lia]. destruct H as [H1 H2]. split.
      * intros j J. rewrite H1 by lia. rewrite nth_error_fill. destruct (Nat.leb_spec (idx + 1) j); [lia|]. cbn [andb].
        rewrite nth_error_set_nth. destruct (Nat.eqb_spec j idx); [lia|]. reflexivity.
      * intros i I. destruct (H2 i I) as [A|A]; [|right; lia]. apply in_app_or in A. destruct A as [A|[<-|[]]]; auto.
Qed.
Lemma first_interval f m ly ry inc s h : form f m ly ry inc s = Finished (Ok (Some h)) -> 0 < horizon_length m ->
  (forall e, nth_error (map ws_stance (h_states h)) 0 = Some e -> is_tds (st_type e) = false -> 0 < duration e) -> 0 < sampling_ms m ->
  exists e iv, nth_error (map ws_stance (h_states h)) 0 = Some e /\ interval_at h 0 iv /\ iv_state iv = (if is_tds (st_type e) then 1 else 0) /\
    iv_T_ms iv = (if is_tds (st_type e) then duration e else if duration e mod sampling_ms m =? 0 then sampling_ms m else duration e mod sampling_ms m) /\
    forall i, In i (h_steps h) -> 0 < i.
Proof.
  intros H NP D TP. apply form_inv in H. destruct H as (l & b & _ & HS & NE & A & _ & Fl).
  rewrite (preview_states_stances _ _ _ _ HS) in *. destruct l as [|e r]; [contradiction|]. exists e.
  destruct (horizon_length m) as [|N] eqn:EN; [lia|]. cbn [form_loop] in Fl. cbn [Nat.leb] in Fl. change (0 =? 0) with true in Fl. cbv iota in Fl.
  specialize (D e eq_refl).
  assert (K : forall wi rest next iv ivT steps', wi > 0 -> 0 < next ->
    form_loop (S N) (sampling_ms m) (tds_sampling_ms m) wi rest next (fill (set_nth (repeat None (S N)) 0 iv) (0 + 1) (Nat.min (S N) next - (0 + 1)) ivT) [] = Ok (h_intervals h, steps') ->
    nth_error (h_intervals h) 0 = Some (Some iv) /\ forall i, In i steps' -> 0 < i).
  { intros wi rest next iv ivT steps' W X E. apply form_loop_keeps with (n := length rest) in E; [|lia|exact W]. destruct E as [E1 E2]. split.
    - rewrite E1 by exact X. rewrite nth_error_fill. change (0 + 1 <=? 0) with false. cbn [andb]. rewrite nth_error_set_nth. cbn [length repeat]. rewrite Nat.eqb_refl. reflexivity.
    - intros i I. destruct (E2 i I) as [[]|]; lia. }
  destruct (is_tds (st_type e)).
  - destruct r as [|s2 r2]; [discriminate|]. apply K in Fl; [|lia|lia]. destruct Fl as [F1 F2]. eexists. split; [reflexivity|]. split; [exact F1|]. cbn. auto.
  - specialize (D eq_refl). cbv zeta in Fl. apply K in Fl; [|lia|].
    + destruct Fl as [F1 F2]. eexists. split; [reflexivity|]. split; [exact F1|]. cbn. auto.
    + destruct (Nat.eqb_spec (duration e mod sampling_ms m) 0) as [M|M]; [|lia].
      assert (duration e / sampling_ms m <> 0); [|lia]. intros Z. apply Nat.div_small_iff in Z; [|lia]. rewrite Nat.mod_small in M by exact Z. lia.
Qed.
(** bounds on the CoP in the states *)
Lemma preview_states_cop inc : forall l h ws, preview_states inc h l = Ok ws -> forall w, In w ws -> is_tds (st_type (ws_stance w)) = false ->
  ws_cop w = match st_type (ws_stance w) with DS => CopADS | _ => CopSS end.
Proof.
  assert (P1 : forall h s n h1 w, preview_state inc h s n = Ok (h1, w) -> is_tds (st_type (ws_stance w)) = false -> ws_cop w = match st_type (ws_stance w) with DS => CopADS | _ => CopSS end).
  { intros h s n h1 w H T. pose proof (preview_state_stance _ _ _ _ _ _ H) as E. rewrite E in T |- *. unfold preview_state in H. unfold cop_of in H.
    destruct (st_type s) eqn:Ts; try discriminate T; try discriminate H; [destruct (subtype s); try discriminate H| |];
      apply bind_ok in H; destruct H as (fd & _ & H); inversion H; subst; reflexivity. }
  induction l as [|s r IH]; intros h ws H; simpl in H; [inversion H; subst; intros w []|].
  apply bind_ok in H. destruct H as ([h1 w1] & H1 & H). apply bind_ok in H. destruct H as (ws1 & H2 & H). inversion H; subst ws.
  intros w [<-|I] T; [eapply P1; eassumption|eapply IH; eassumption].
Qed.
Lemma terminal_dec s : {terminal s} + {~ terminal s}.
Proof.
  unfold terminal. destruct (st_type (cur s)); try (right; intros [X _]; discriminate X).
  destruct (Nat.eq_dec (ss_left s) 0) as [->|N]; [left; auto|right; intros [_ X]; contradiction].
Qed.
(** the first entry of a preview *)
Lemma preview_head f s T e r : 0 < T -> cur_time s < duration (cur s) -> previewStances f s T = Finished (Ok (e :: r)) ->
  st_type e = st_type (cur s) /\ duration e = Nat.min (duration (cur s) - cur_time s) T.
Proof.
  intros TP CT H. assert (E : e = preview_entry s T); [|subst e; split; reflexivity].
  destruct (terminal_dec s) as [Tm|Tm]; [|eapply preview_first; [exact TP|lia|exact Tm|exact H]].
  destruct (Nat.le_gt_cases T (duration (cur s) - cur_time s)) as [L|L].
  - pose proof (preview_now f s T _ TP ltac:(lia) L ltac:(destruct Tm as [X _]; rewrite X; discriminate) H) as K. congruence.
  - pose proof (preview_terminal f s T _ Tm ltac:(lia) L H). discriminate.
Qed.

(** ** the horizon formed in an iteration of a regular walk *)
Lemma regular_first f m ly ry inc s h : form f m ly ry inc s = Finished (Ok (Some h)) -> 2 <= horizon_length m -> 0 < sampling_ms m ->
  cur_time s < duration (cur s) -> (st_type (cur s) = TDS -> duration (cur s) - cur_time s = sampling_ms m) ->
  (terminal s \/ exists k, duration (cur s) - cur_time s = k * sampling_ms m) ->
  exists iv w, interval_at h 0 iv /\ iv_T_ms iv = sampling_ms m /\ iv_state iv = (if is_tds (st_type (cur s)) then 1 else 0) /\
    nth_error (h_states h) (iv_state iv) = Some w /\ is_tds (st_type (ws_stance w)) = false /\
    ws_cop w = match st_type (ws_stance w) with DS => CopADS | _ => CopSS end /\ (forall i, In i (h_steps h) -> 0 < i).
Proof.
  intros H N2 TP CT Td G. pose proof (form_inv _ _ _ _ _ _ _ H) as (l & b & P & HS & NE & A & _ & Fl).
  pose proof (preview_states_stances _ _ _ _ HS) as ES. destruct l as [|e r]; [contradiction|].
  assert (NT : 0 < horizon_length m * sampling_ms m) by nia.
  destruct (preview_head f s _ e r NT CT P) as [E1 E2].
  destruct (first_interval _ _ _ _ _ _ _ H ltac:(lia)) as (e' & iv & X1 & X2 & X3 & X4 & X5).
  { rewrite ES. intros e0 X _. injection X as <-. lia. }
  { exact TP. }
  rewrite ES in X1. injection X1 as <-. rewrite E1 in X3, X4.
  destruct (form_filled _ _ _ _ _ _ _ H) as ((_ & F & _) & _). destruct (F 0 ltac:(lia)) as (iv' & I' & t & (w & W1 & W2) & W3).
  assert (iv' = iv) by (unfold interval_at in *; congruence). subst iv'.
  assert (Tw : is_tds (st_type (ws_stance w)) = false) by (rewrite W2; destruct t; try reflexivity; contradiction).
  exists iv, w. split; [exact X2|]. split.
  - rewrite X4. destruct (is_tds (st_type (cur s))) eqn:Ts.
    + rewrite E2, Td by (destruct (st_type (cur s)); try discriminate Ts; reflexivity). nia.
    + assert (M : exists k, duration e = k * sampling_ms m).
      { destruct (Nat.le_gt_cases (horizon_length m * sampling_ms m) (duration (cur s) - cur_time s)) as [L|L].
        - exists (horizon_length m). lia.
        - destruct G as [G|[k G]]; [|exists k; lia]. exfalso. pose proof (preview_terminal f s _ _ G ltac:(lia) L P). discriminate. }
      destruct M as [k M]. rewrite M, Nat.mod_mul by lia. reflexivity.
  - split; [exact X3|]. split; [exact W1|]. split; [exact Tw|]. split; [|exact X5].
    eapply preview_states_cop; [exact HS|eapply nth_error_In; exact W1|exact Tw].
Qed.
(** all of the rotation matrices can be formed *)
Lemma regular_rotations p s0 s f m ly ry inc h : init p = Ok s0 -> walkable p -> reach s0 s -> pos_durations p ->
  (exists k, ss_duration p = k * sampling_ms m) -> tds_duration p = sampling_ms m -> 0 < sampling_ms m -> 0 < horizon_length m ->
  cur_time s < duration (cur s) -> (terminal s \/ exists k, duration (cur s) - cur_time s = k * sampling_ms m) ->
  form f m ly ry inc s = Finished (Ok (Some h)) ->
  exists rs, form_rotations h = Ok rs /\ (~ terminal s -> length rs = length (h_steps h) /\
    forall j k i iv, nth_error rs j = Some k -> nth_error (h_steps h) j = Some i -> interval_at h i iv -> k + 2 = iv_state iv).
Proof.
  intros H0 Wk Rc HP G1 G2 TP NP CT G H. destruct (terminal_dec s) as [Tm|Tm].
  - assert (L : length (h_states h) = 1).
    { apply form_inv in H. destruct H as (l & b & P & HS & NE & _). pose proof (preview_states_stances _ _ _ _ HS) as ES.
      assert (NT : 0 < horizon_length m * sampling_ms m) by nia.
      destruct (Nat.le_gt_cases (horizon_length m * sampling_ms m) (duration (cur s) - cur_time s)) as [L|L].
      - pose proof (preview_now f s _ _ NT ltac:(lia) L ltac:(destruct Tm as [X _]; rewrite X; discriminate) P) as K. rewrite <- (map_length ws_stance), ES, K. reflexivity.
      - exfalso. apply NE. eapply preview_terminal; [exact Tm| |exact L|exact P]; lia. }
    exists []. split; [|contradiction]. unfold form_rotations, rotation_states. rewrite L. reflexivity.
  - destruct G as [G|G]; [contradiction|].
    destruct (form_rotations_grid p s0 s m ly ry inc f h H0 Wk Rc HP G1 G2 CT G H) as (rs & R1 & R2 & R3). exists rs. split; [exact R1|].
    intros _. split; [exact R2|]. intros j k i iv A B C. apply (R3 j k i iv A B C).
Qed.
Lemma sorted_lt_le l : StronglySorted lt l -> Sorted le l.
Proof.
  intros H. apply StronglySorted_Sorted. induction H as [|a l _ IH F]; constructor; [exact IH|]. eapply Forall_impl; [|exact F]. intros. lia.
Qed.
Lemma regular_formed f m ly ry inc s h nan md rs H : form f m ly ry inc s = Finished (Ok (Some h)) -> 2 <= horizon_length m -> 0 < sampling_ms m -> 0 < tds_sampling_ms m ->
  (forall iv, interval_at h 0 iv -> iv_T_ms iv = sampling_ms m) -> (0 < H)%R ->
  formed_walk (horizon_length m) (intervals_of h H) (interval_rotations h) (h_steps h) (step_rotations h rs) (support_of nan md) (cstate_of md).
Proof.
  intros F N2 TP DP I0 HP. destruct (form_filled _ _ _ _ _ _ _ F) as ((L & Fi & St & Fo & _) & Ti).
  unfold formed_walk, intervals_of, interval_rotations, step_rotations. rewrite !map_length, seq_length.
  split; [lia|]. split; [exact L|]. split; [exact L|]. split; [reflexivity|]. split; [reflexivity|]. split; [reflexivity|]. split; [|split].
  - intros v Hv. apply in_map_iff in Hv. destruct Hv as (o & <- & Ho). cbn [wi_T_ms wi_height]. split; [|exact HP].
    apply In_nth_error in Ho. destruct Ho as [i Ho]. assert (Hi : i < horizon_length m) by (rewrite <- L; apply nth_error_Some; congruence).
    destruct (Fi i Hi) as (iv & I1 & _). unfold interval_at in I1. rewrite I1 in Ho. injection Ho as <-.
    destruct (Ti i iv I1) as (T1 & T2 & _). destruct (in_dec Nat.eq_dec i (h_steps h)) as [X|X]; [rewrite (proj1 (T1 X)); exact DP|].
    destruct i as [|i]; [rewrite (I0 iv I1); exact TP|rewrite T2; [exact TP|exact X|lia]].
  - intros x X. rewrite Forall_forall in Fo. specialize (Fo x X). lia.
  - apply sorted_lt_le, St.
Qed.
