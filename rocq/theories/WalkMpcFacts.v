(** * Rotations of the preceding foot positions *)
From Coq Require Import List Arith Bool Reals Sorted Lia.
From Verif Require Import Base BaseFacts StanceFSM StanceSpec StanceFSMFacts StanceFSMFacts2 StanceTimeFacts WalkPreview WalkPreviewSpec
  WalkPreviewFacts WalkPreviewFacts2 WalkHeadingFacts WalkPreviewFacts3 WalkMpc.
Import ListNotations.

(** ** indices of the non-transitional states in an alternating list *)
Definition nontds_idx (l : list stance) (from n : nat) : list nat :=
  filter (fun i => match nth_error l i with Some s => negb (is_tds (st_type s)) | None => false end) (seq from n).
Lemma rotation_states_idx ws : rotation_states ws = nontds_idx (map ws_stance ws) 0 (length ws - 1).
Proof.
  unfold rotation_states, nontds_idx. apply filter_ext. intros i. rewrite nth_error_map. destruct (nth_error ws i); reflexivity.
Qed.
Lemma altern_type b l : altern b l -> forall i s, nth_error l i = Some s -> is_tds (st_type s) = if Nat.even i then b else negb b.
Proof.
  revert b. induction l as [|a r IH]; intros b H i s E; [destruct i; discriminate|]. destruct H as [H1 H2].
  destruct i as [|i]; simpl in E; [inversion E; subst s; exact H1|].
  rewrite (IH _ H2 i s E). rewrite Nat.even_succ, <- Nat.negb_even. destruct (Nat.even i); simpl; rewrite ?negb_involutive; reflexivity.
Qed.
(** every second index *)
Lemma filter_every_second base n : forall from, (from + base) mod 2 = 0 ->
  filter (fun i => Nat.even (i + base)) (seq from (2 * n)) = map (fun j => from + 2 * j) (seq 0 n).
Proof.
  induction n as [|n IH]; intros from H; [reflexivity|].
  replace (2 * S n) with (S (S (2 * n))) by lia. cbn [seq filter].
  assert (E : Nat.even (from + base) = true). { apply Nat.even_spec. exists ((from + base) / 2). pose proof (Nat.div_mod (from + base) 2 ltac:(lia)). lia. }
  rewrite E. replace (S from + base) with (S (from + base)) by lia. rewrite Nat.even_succ, <- Nat.negb_even, E. cbn [negb].
  rewrite IH by (replace (S (S from) + base) with (from + base + 1 * 2) by lia; rewrite Nat.mod_add by lia; exact H).
  cbn [seq map]. f_equal; [lia|]. rewrite <- seq_shift, map_map. apply map_ext. intros; lia.
Qed.

(** ** the loop uses all states when they fit on the grid exactly *)
Definition exact (T : nat) (l : list stance) (i : nat) (e : stance) : Prop :=
  duration e > 0 \/ S i = length l.
Definition exact2 (T : nat) (l : list stance) (i : nat) (e : stance) : Prop :=
  if is_tds (st_type e) then (S (S i) < length l -> duration e = T) else (S i < length l -> exists k, duration e = k * T).

Lemma form_loop_all N T tds : T > 0 -> forall n rest wi idx ivs steps ivs' steps', length rest <= n ->
  wi > 0 -> altern true rest ->
  (forall i e, nth_error rest i = Some e -> exact T rest i e /\ exact2 T rest i e) ->
  (forall l' e, rest = l' ++ [e] -> st_type e <> TDS) ->
  idx * T + psum rest (length rest) = N * T ->
  form_loop N T tds wi rest idx ivs steps = Ok (ivs', steps') -> 2 * length steps' = 2 * length steps + length rest.
Proof.
  intros TP. induction n as [|n IH]; intros rest wi idx ivs steps ivs' steps' Ln W A G L S H.
  - destruct rest; [|simpl in Ln; lia]. simpl in *. destruct (N <=? idx); [inversion H; subst; lia|discriminate].
  - destruct rest as [|s1 r]; simpl in H.
    { destruct (N <=? idx); [inversion H; subst; simpl; lia|discriminate]. }
    destruct A as [A1 A2].
    assert (D1 : duration s1 > 0).
    { destruct (G 0 s1 eq_refl) as [[X|X] _]; [exact X|]. simpl in X. destruct r; [|discriminate].
      exfalso. apply (L [] s1); [reflexivity|]. destruct (st_type s1); try discriminate; reflexivity. }
    destruct (Nat.leb_spec N idx) as [Hn|Hn].
    { exfalso. rewrite psum_all_cons in S. nia. }
    destruct (Nat.eqb_spec wi 0); [lia|]. rewrite A1 in H. destruct r as [|s2 r2]; [discriminate|].
    destruct A2 as [A2 A3]. rewrite !psum_all_cons in S.
    destruct (G 0 s1 eq_refl) as [_ G1]. unfold exact2 in G1. rewrite A1 in G1.
    destruct (G 1 s2 eq_refl) as [_ G2]. unfold exact2 in G2. rewrite A2 in G2.
    destruct r2 as [|s3 r3].
    + simpl in H. destruct (N <=? idx + 1 + duration s2 / T); [|discriminate]. inversion H; subst. rewrite app_length. simpl. lia.
    + specialize (G1 ltac:(simpl; lia)). destruct (G2 ltac:(simpl; lia)) as [k K].
      rewrite K in S, H. rewrite Nat.div_mul in H by lia. apply IH in H.
      * rewrite H, app_length. simpl. lia.
      * simpl in Ln |- *. lia.
      * lia.
      * exact A3.
      * intros i e E. destruct (G (Datatypes.S (Datatypes.S i)) e E) as [Ga Gb]. unfold exact, exact2 in *. simpl in Ga, Gb |- *.
        split; [lia|]. destruct (is_tds (st_type e)); intros; apply Gb; lia.
      * intros l' e E. apply (L (s1 :: s2 :: l') e). rewrite E. reflexivity.
      * nia.
Qed.

(** the whole loop: number of the variable steps *)
Lemma form_loop_steps N T tds l b ivs ivs' steps' : T > 0 -> N > 0 -> altern b l ->
  (forall i e, nth_error l i = Some e -> exact T l i e /\ (i > 0 -> exact2 T l i e)) ->
  (forall e, nth_error l 0 = Some e -> S (if is_tds (st_type e) then 1 else 0) < length l ->
     if is_tds (st_type e) then duration e = T else exists k, duration e = k * T) ->
  (forall l' e, l = l' ++ [e] -> st_type e <> TDS) ->
  psum l (length l) = N * T ->
  form_loop N T tds 0 l 0 ivs [] = Ok (ivs', steps') ->
  length l = (if b then 2 else 1) + 2 * length steps'.
Proof.
  intros TP NP A G F L S H. destruct l as [|s r].
  { simpl in S. nia. }
  simpl in H. destruct (Nat.leb_spec N 0); [lia|]. destruct A as [A1 A2]. specialize (F s eq_refl).
  destruct (is_tds (st_type s)) eqn:Ts.
  - destruct r as [|s2 r2].
    { exfalso. apply (L [] s); [reflexivity|]. destruct (st_type s); try discriminate; reflexivity. }
    subst b. destruct A2 as [A2 A3]. rewrite !psum_all_cons in S.
    destruct (G 1 s2 eq_refl) as [_ G2]. unfold exact2 in G2. rewrite A2 in G2. specialize (G2 ltac:(lia)).
    destruct r2 as [|s3 r3].
    + simpl in H. destruct (N <=? Datatypes.S (duration s2 / T)); [|discriminate]. inversion H; subst. reflexivity.
    + destruct (G2 ltac:(simpl; lia)) as [k K]. specialize (F ltac:(simpl; lia)). rewrite K in S, H. rewrite Nat.div_mul in H by lia.
      eapply form_loop_all in H; [|exact TP|reflexivity|lia|exact A3| | |].
      * simpl in H |- *. lia.
      * intros i e E. destruct (G (Datatypes.S (Datatypes.S i)) e E) as [Ga Gb]. specialize (Gb ltac:(lia)). unfold exact, exact2 in *. simpl in Ga, Gb |- *.
        split; [lia|]. destruct (is_tds (st_type e)); intros; apply Gb; lia.
      * intros l' e E. apply (L (s :: s2 :: l') e). rewrite E. reflexivity.
      * nia.
  - subst b. simpl in A2. rewrite psum_all_cons in S.
    destruct r as [|s2 r2].
    + simpl in H. match type of H with (if ?c then _ else _) = _ => destruct c; [|discriminate] end. inversion H; subst. reflexivity.
    + destruct (F ltac:(simpl; lia)) as [k K]. rewrite K in S, H. rewrite Nat.mod_mul in H by lia. rewrite Nat.eqb_refl in H.
      rewrite Nat.div_mul in H by lia.
      eapply form_loop_all in H; [|exact TP|reflexivity|lia|exact A2| | |].
      * simpl in H |- *. lia.
      * intros i e E. destruct (G (Datatypes.S i) e E) as [Ga Gb]. specialize (Gb ltac:(lia)). unfold exact, exact2 in *. simpl in Ga, Gb |- *.
        split; [lia|]. destruct (is_tds (st_type e)); intros; apply Gb; lia.
      * intros l' e E. apply (L (s :: l') e). rewrite E. reflexivity.
      * rewrite Nat.sub_0_r. exact S.
Qed.

(** ** which state belongs to which step *)
Definition step_states (base : nat) (prod : list interval) (steps : list nat) : Prop :=
  forall j i, nth_error steps j = Some i -> exists iv, nth_error prod i = Some iv /\ iv_state iv = base + 2 * S j.
Lemma step_states_step base prod steps wi iv ivT num : step_states base prod steps -> wi = base + 1 + 2 * length steps ->
  iv_state iv = S wi -> step_states base (prod ++ iv :: repeat ivT num) (steps ++ [length prod]).
Proof.
  intros H W I j i E. destruct (Nat.lt_ge_cases j (length steps)) as [C|C].
  - rewrite nth_error_app1 in E by exact C. destruct (H j i E) as (v & V1 & V2). exists v. split; [|exact V2].
    rewrite nth_error_app1; [exact V1|]. apply nth_error_Some. congruence.
  - rewrite nth_error_app2 in E by exact C. destruct (j - length steps) as [|k] eqn:J; [|destruct k; discriminate].
    simpl in E. inversion E; subst i. exists iv. rewrite nth_error_app2, Nat.sub_diag by lia. split; [reflexivity|].
    rewrite I, W. lia.
Qed.
Lemma form_loop_later_states N T tds base : forall n rest wi ivs prod steps ivs' steps', length rest <= n ->
  wi = base + 1 + 2 * length steps -> altern true rest -> written N ivs prod -> step_states base prod steps ->
  (forall i, In i steps -> i < N) ->
  form_loop N T tds wi rest (length prod) ivs steps = Ok (ivs', steps') ->
  exists prod', written N ivs' prod' /\ step_states base prod' steps' /\ forall i, In i steps' -> i < N.
Proof.
  induction n as [|n IH]; intros rest wi ivs prod steps ivs' steps' Ln W A Wr I B H.
  - destruct rest; [|simpl in Ln; lia]. simpl in H. destruct (N <=? length prod); [|discriminate]. inversion H; subst. eauto.
  - destruct rest as [|s1 r]; simpl in H.
    + destruct (N <=? length prod); [|discriminate]. inversion H; subst. eauto.
    + destruct (Nat.leb_spec N (length prod)) as [G|G]; [inversion H; subst; eauto|].
      destruct (Nat.eqb_spec wi 0); [lia|]. destruct A as [A1 A2]. rewrite A1 in H.
      destruct r as [|s2 r2]; [discriminate|]. destruct A2 as [A2 A3].
      pose proof (written_chunk N ivs prod (mkInterval (S wi) wi tds) (mkInterval (S wi) wi T) (duration s2 / T) Wr G) as Wr'.
      pose proof (step_states_step base prod steps wi (mkInterval (S wi) wi tds) (mkInterval (S wi) wi T) (duration s2 / T) I W eq_refl) as I'.
      eapply IH; [| | | exact Wr' | exact I' | |].
      * simpl in Ln. instantiate (1 := r2). lia.
      * instantiate (1 := S (S wi)). rewrite app_length. simpl. lia.
      * exact A3.
      * intros i Hi. apply in_app_or in Hi. destruct Hi as [Hi|[<-|[]]]; [apply B; exact Hi|exact G].
      * rewrite app_length. simpl. rewrite repeat_length.
        replace (length prod + S (duration s2 / T)) with (length prod + 1 + duration s2 / T) by lia. exact H.
Qed.
Lemma form_loop_states N T tds l b ivs' steps' : altern b l ->
  form_loop N T tds 0 l 0 (repeat None N) [] = Ok (ivs', steps') ->
  forall j i, nth_error steps' j = Some i -> exists iv, nth_error ivs' i = Some (Some iv) /\ iv_state iv = (if b then 1 else 0) + 2 * S j.
Proof.
  intros A H.
  assert (E : exists prod', written N ivs' prod' /\ step_states (if b then 1 else 0) prod' steps' /\ forall i, In i steps' -> i < N).
  { assert (S0 : forall base prod, step_states base prod []) by (intros base prod [|j] i X; discriminate).
    destruct l as [|s r]; simpl in H.
    - destruct (Nat.leb_spec N 0); [|discriminate]. inversion H; subst. exists []. split; [apply written_repeat|]. split; [apply S0|intros i []].
    - destruct (Nat.leb_spec N 0) as [G|G].
      { inversion H; subst. exists []. split; [apply written_repeat|]. split; [apply S0|intros i []]. }
      destruct A as [A1 A2]. destruct (is_tds (st_type s)) eqn:Ts.
      + destruct r as [|s2 r2]; [discriminate|]. subst b. destruct A2 as [A2 A3].
        pose proof (written_chunk N (repeat None N) [] (mkInterval 1 0 (duration s)) (mkInterval 1 0 T) (duration s2 / T) (written_repeat N) G) as Wr.
        simpl app in Wr. simpl length in Wr.
        eapply (form_loop_later_states N T tds 1 (length r2) r2 2 _ (mkInterval 1 0 (duration s) :: repeat (mkInterval 1 0 T) (duration s2 / T)) []);
          [lia|reflexivity|exact A3|exact Wr|apply S0|intros i []|]. simpl length. rewrite repeat_length. exact H.
      + subst b. simpl in A2.
        destruct (Nat.eqb_spec (duration s mod T) 0) as [M|M].
        * destruct (Nat.eq_dec (duration s / T) 0) as [Z|Z].
          { rewrite Z in H. replace (Nat.min N (1 + 0 - 1) - 1) with 0 in H by lia. simpl in H.
            eapply (form_loop_later_states N T tds 0 (length r) r 1 _ [] []); [lia|reflexivity|exact A2| |apply S0|intros i []|exact H].
            split; [destruct N; simpl; rewrite ?repeat_length; lia|]. intros [|j] iv _ E; discriminate. }
          pose proof (written_chunk N (repeat None N) [] (mkInterval 0 0 T) (mkInterval 0 0 T) (duration s / T - 1) (written_repeat N) G) as Wr.
          simpl app in Wr. simpl length in Wr.
          eapply (form_loop_later_states N T tds 0 (length r) r 1 _ (mkInterval 0 0 T :: repeat (mkInterval 0 0 T) (duration s / T - 1)) []);
            [lia|reflexivity|exact A2|exact Wr|apply S0|intros i []|].
          simpl length. rewrite repeat_length. replace (0 + 1 + (duration s / T - 1)) with (1 + duration s / T - 1) by lia.
          replace (S (duration s / T - 1)) with (1 + duration s / T - 1) by lia. exact H.
        * pose proof (written_chunk N (repeat None N) [] (mkInterval 0 0 (duration s mod T)) (mkInterval 0 0 T) (duration s / T) (written_repeat N) G) as Wr.
          simpl app in Wr. simpl length in Wr.
          eapply (form_loop_later_states N T tds 0 (length r) r 1 _ (mkInterval 0 0 (duration s mod T) :: repeat (mkInterval 0 0 T) (duration s / T)) []);
            [lia|reflexivity|exact A2|exact Wr|apply S0|intros i []|].
          simpl length. rewrite repeat_length. exact H. }
  destruct E as (prod & [_ W] & S & B). intros j i E. destruct (S j i E) as (iv & V1 & V2). exists iv. split; [|exact V2].
  apply W; [|exact V1]. apply B. eapply nth_error_In; eassumption.
Qed.

(** ** the rotations *)
Lemma rotations_idx ws b n : altern b (map ws_stance ws) -> length ws = (if b then 2 else 1) + 2 * n ->
  rotation_states ws = map (fun j => (if b then 1 else 0) + 2 * j) (seq 0 n).
Proof.
  intros A L. rewrite rotation_states_idx. unfold nontds_idx.
  rewrite (filter_ext_in _ (fun i => Nat.even (i + (if b then 1 else 0)))).
  - rewrite L. destruct b.
    + replace (2 + 2 * n - 1) with (1 + 2 * n) by lia. rewrite seq_app. cbn [seq app filter].
      change (Nat.even (0 + 1)) with false. cbv iota. simpl (0 + 1). apply filter_every_second. reflexivity.
    + replace (1 + 2 * n - 1) with (2 * n) by lia. apply filter_every_second. reflexivity.
  - intros i Hi. apply in_seq in Hi. destruct (nth_error (map ws_stance ws) i) as [s|] eqn:E.
    + rewrite (altern_type _ _ A i s E). destruct b; rewrite ?Nat.add_1_r, ?Nat.add_0_r, ?Nat.even_succ, <- ?Nat.negb_even; destruct (Nat.even i); reflexivity.
    + apply nth_error_None in E. rewrite map_length in E. lia.
Qed.

Lemma preview_now f s T l : 0 < T -> cur_time s <= duration (cur s) -> T <= duration (cur s) - cur_time s -> st_type (cur s) <> TDS ->
  previewStances f s T = Finished (Ok l) -> l = [preview_entry s T].
Proof.
  intros TP CT LE NT. unfold previewStances. destruct f as [|f]; cbn [preview_loop].
  - destruct (Nat.eqb_spec T 0); [lia|discriminate].
  - destruct (Nat.eqb_spec T 0); [lia|]. destruct (Nat.leb_spec (cur_time s) (duration (cur s))); [|lia]. cbn [negb]. cbv zeta.
    destruct (Nat.leb_spec (cur_time s + T) (duration (cur s))); [|lia]. rewrite preview_loop_0. simpl.
    destruct (st_type (cur s)); try contradiction; simpl; congruence.
Qed.
(** durations of the listed stances *)
Lemma preview_full f s T l : T > 0 -> wf s -> pos_durations (fparams s) -> cur_time s < duration (cur s) ->
  previewStances f s T = Finished (Ok l) ->
  forall i e, nth_error l i = Some e -> exists si, shifts i s = Ok si /\ same_kind e si /\
    (S i < length l -> duration e > 0) /\
    ((if is_tds (st_type e) then S (S i) else S i) < length l -> duration e = duration (cur si) - cur_time si).
Proof.
  unfold previewStances. intros TP W HP CT H.
  destruct (preview_loop f s T []) as [[r| |]|] eqn:E; try discriminate.
  destruct r as [[s' ne] l0]. pose proof (preview_loop_spec _ _ _ _ _ _ _ E W HP CT) as (l2 & E2 & _ & _ & _ & Pos). simpl in E2. subst l2.
  apply preview_loop_durations in E. destruct E as (l1 & E & F & K). simpl in E. subst l0.
  assert (F' : forall i e, nth_error l1 i = Some e -> exists si, shifts i s = Ok si /\ same_kind e si /\
    duration e > 0 /\ (S i < length l1 -> duration e = duration (cur si) - cur_time si)).
  { intros i e X. destruct (F i e X) as (si & A & B & C & D). destruct (Pos i e X) as (Pe & _). exists si. auto. }
  assert (F1 : forall i e, nth_error l1 i = Some e -> exists si, shifts i s = Ok si /\ same_kind e si /\
    (S i < length l1 -> duration e > 0) /\
    ((if is_tds (st_type e) then S (S i) else S i) < length l1 -> duration e = duration (cur si) - cur_time si)).
  { intros i e X. destruct (F' i e X) as (si & A & B & C & D). exists si. repeat (split; [solve [auto]|]).
    intros Y. apply D. destruct (is_tds (st_type e)); lia. }
  destruct ne; [inversion H; subst; exact F1|].
  destruct (K eq_refl TP) as (k & K1 & K2).
  destruct l1 as [|e0 r0] using rev_ind; [discriminate|]. clear IHr0.
  rewrite app_length in K1. simpl in K1. assert (k = length r0) by lia. subst k.
  rewrite last_some_snoc in H. destruct (is_tds (st_type e0)) eqn:Te; [|inversion H; subst; exact F1].
  assert (K3 : is_tds (st_type (cur s')) = true).
  { destruct (F (length r0) e0) as (si & A & B & _).
    - rewrite nth_error_app2, Nat.sub_diag by lia. reflexivity.
    - rewrite K2 in A. inversion A; subst si. destruct B as [B _]. rewrite B. exact Te. }
  rewrite K3 in H. destruct (shiftStance s') as [s''| |] eqn:S; try discriminate. inversion H; subst l. clear H.
  intros i e X. destruct (Nat.lt_ge_cases i (length (r0 ++ [e0]))) as [C|C].
  - rewrite nth_error_app1 in X by exact C. destruct (F' i e X) as (si & A1 & A2 & A3 & A4). exists si.
    repeat (split; [solve [auto]|]). intros B2. apply A4. rewrite !app_length in *. simpl in *.
    destruct (Nat.eq_dec i (length r0)) as [->|].
    + exfalso. rewrite nth_error_app2, Nat.sub_diag in X by lia. simpl in X. inversion X; subst e0. rewrite Te in B2. lia.
    + lia.
  - rewrite nth_error_app2 in X by exact C. rewrite !app_length in *. simpl in *.
    destruct (i - (length r0 + 1)) as [|j] eqn:J; [|destruct j; discriminate]. simpl in X. inversion X; subst e.
    assert (i = Datatypes.S (length r0)) by lia. subst i. exists s''. split.
    + rewrite shifts_S_r, K2. simpl. exact S.
    + split; [apply same_kind_last|]. split; [intros; lia|]. simpl. destruct (is_tds (st_type (cur s''))); intros; lia.
Qed.

(** a double support after the first stance is the last one of the list *)
Lemma preview_ds_last f s T l i e : previewStances f s T = Finished (Ok l) ->
  (forall i e, nth_error l i = Some e -> exists si, shifts i s = Ok si /\ same_kind e si) ->
  nth_error l (S i) = Some e -> st_type e = DS -> S (S i) < length l -> False.
Proof.
  intros P Dur Ha Ta Ln. destruct (previewStances_chain _ _ _ _ P) as [Ch _]. destruct (chain_altern l Ch) as [b A].
  destruct (nth_error l (S (S i))) as [c|] eqn:Hc; [|apply nth_error_None in Hc; lia].
  destruct (Dur _ _ Ha) as (si & D1 & (D2 & _)).
  pose proof (altern_nth _ _ A _ _ _ Ha Hc) as Al. rewrite Ta in Al. simpl in Al.
  destruct (nth_error l i) as [a0|] eqn:H1; [|apply nth_error_None in H1; lia].
  pose proof (altern_nth _ _ A _ _ _ H1 Ha) as Al0. rewrite Ta in Al0.
  destruct (Dur i a0 H1) as (s1 & E1 & (E2 & _)).
  destruct (Dur (S (S i)) c Hc) as (sc & E3 & (E4 & _)).
  rewrite shifts_S_r, D1 in E3. simpl in E3. rewrite shifts_S_r, E1 in D1. simpl in D1. rewrite Ta in D2.
  rewrite <- E2 in Al0. unfold shiftStance in D1. destruct (st_type (cur s1)) eqn:T1; try discriminate Al0.
  destruct (ss_left s1); [|destruct (prev_nonds (cur s1)); try discriminate; simpl in D1; inversion D1; subst si; discriminate D2].
  simpl in D1. inversion D1; subst si. unfold shiftStance in E3. simpl in E3. inversion E3; subst sc. simpl in E4. rewrite <- E4 in Al. discriminate.
Qed.

Lemma form_rotations_grid p s0 s m ly ry inc f h : init p = Ok s0 -> walkable p -> reach s0 s -> pos_durations p ->
  (exists k, ss_duration p = k * sampling_ms m) -> tds_duration p = sampling_ms m ->
  cur_time s < duration (cur s) -> (exists k, duration (cur s) - cur_time s = k * sampling_ms m) ->
  form f m ly ry inc s = Finished (Ok (Some h)) ->
  exists rs, form_rotations h = Ok rs /\ length rs = length (h_steps h) /\
    forall j k i iv, nth_error rs j = Some k -> nth_error (h_steps h) j = Some i -> interval_at h i iv ->
      k + 2 = iv_state iv /\ state_type h (S k) TDS.
Proof.
  intros H0 Wk Rc HP (kss & G3) G4 CT (kc & Gc) HF.
  destruct (reached p s0 s H0 Wk Rc) as (W & Hs & FP & Td & Cfg). inversion FP as [[FP1 FP2 FP3]]. clear FP.
  assert (HP' : pos_durations (fparams s)).
  { unfold pos_durations in *. rewrite FP1, FP2, FP3. exact HP. }
  pose proof HP as (Hss & Htds & _).
  assert (TP : sampling_ms m > 0) by lia.
  pose proof (form_inv _ _ _ _ _ _ _ HF) as (l & b & P & HS & NE & A & _ & Fl).
  destruct (Nat.eq_dec (horizon_length m) 0) as [Z|Z].
  { rewrite Z in P. simpl in P. rewrite preview_zero in P. discriminate. }
  assert (NT : horizon_length m * sampling_ms m > 0) by nia.
  destruct (preview_correct _ _ _ _ W HP' CT NT P) as (Kind & _ & Alt).
  pose proof (preview_full _ _ _ _ NT W HP' CT P) as Dur.
  pose proof (preview_states_stances _ _ _ _ HS) as El.
  assert (L : forall l' e, l = l' ++ [e] -> st_type e <> TDS).
  { intros l' e E T. rewrite E in HS. rewrite preview_states_tds_last in HS by exact T. discriminate. }
  destruct Alt as [[Sum _]|[Sh (s' & S1 & (S2 & S2') & _)]].
  2:{ exfalso. assert (NTm : ~ terminal s).
      { intros Tm. destruct (Nat.lt_ge_cases (duration (cur s) - cur_time s) (horizon_length m * sampling_ms m)) as [C|C].
        - apply NE. eapply preview_terminal; [exact Tm| |exact C|exact P]. lia.
        - assert (Tn : st_type (cur s) <> TDS) by (destruct Tm as [Tm _]; rewrite Tm; discriminate).
          rewrite (preview_now f s (horizon_length m * sampling_ms m) l ltac:(lia) ltac:(lia) C Tn P) in Sh. simpl in Sh. lia. }
      pose proof (form_walk_too_short m s ly ry inc f _ l f W HP' CT NT P Sh NTm HF). discriminate. }
  assert (Len : length l = (if b then 2 else 1) + 2 * length (h_steps h)).
  { eapply (form_loop_steps (horizon_length m)); [exact TP|lia|exact A| | |exact L|exact Sum|exact Fl].
    - intros i e Hi. destruct (Dur i e Hi) as (si & D1 & (D2 & _) & D3 & D4). split.
      + unfold exact. destruct (Nat.eq_dec (S i) (length l)) as [Li|Li]; [auto|]. left. apply D3.
        assert (i < length l) by (apply nth_error_Some; congruence). lia.
      + intros Ip. destruct i as [|i]; [lia|]. destruct (Cfg i si D1) as (_ & Wi & C1 & C2). unfold exact2.
        destruct (st_type e) eqn:Te; simpl; intros Li; simpl in D4; rewrite D2 in C2.
        * exfalso. destruct Wi as [_ Wi]. rewrite D2 in Wi. exact Wi.
        * exfalso. eapply preview_ds_last; eassumption.
        * rewrite (D4 Li), C1, C2. exists kss. lia.
        * rewrite (D4 Li), C1, C2. exists kss. lia.
        * rewrite (D4 Li), C1, C2. lia.
    - intros e He Le. destruct (Dur 0 e He) as (si & D1 & (D2 & _) & D3 & D4). simpl in D1. inversion D1; subst si.
      destruct (is_tds (st_type e)) eqn:Te.
      + rewrite (D4 Le). assert (Tc : st_type (cur s) = TDS) by (rewrite D2; destruct (st_type e); try discriminate; reflexivity).
        pose proof (Td Tc). assert (kc > 0) by (destruct kc; simpl in Gc; lia). nia.
      + rewrite (D4 Le). eauto. }
  unfold form_rotations.
  assert (Lw : length (h_states h) = (if b then 2 else 1) + 2 * length (h_steps h)) by (rewrite <- Len, <- El, map_length; reflexivity).
  rewrite (rotations_idx (h_states h) b (length (h_steps h))) by (rewrite ?El; assumption).
  rewrite map_length, seq_length. unfold assert_then. rewrite Nat.leb_refl.
  eexists. split; [reflexivity|]. rewrite map_length, seq_length. split; [reflexivity|].
  intros j k i iv Hk Hi Hiv.
  assert (Jl : j < length (h_steps h)) by (apply nth_error_Some; congruence).
  rewrite nth_error_map in Hk. rewrite (nth_error_nth' _ 0) in Hk by (rewrite seq_length; exact Jl).
  rewrite seq_nth in Hk by exact Jl. simpl in Hk. inversion Hk as [Ek]. clear Hk.
  destruct (form_loop_states _ _ _ _ _ _ _ A Fl j i Hi) as (iv' & V1 & V2). unfold interval_at in Hiv.
  assert (iv' = iv) by congruence. subst iv'. split; [rewrite V2; lia|].
  assert (Kl : S k < length l) by (rewrite Len; subst k; destruct b; lia).
  destruct (nth_error l (S k)) as [st|] eqn:Es; [|apply nth_error_None in Es; lia].
  destruct (states_nth h l (S k) st El Es) as (w & Hw & Ew). rewrite <- Ek in Es, Hw.
  exists w. split; [exact Hw|]. rewrite Ew.
  pose proof (altern_type _ _ A _ _ Es) as At.
  assert (is_tds (st_type st) = true).
  { rewrite At. destruct b.
    - replace (Nat.even (S (1 + (j + (j + 0))))) with true; [reflexivity|]. symmetry. apply Nat.even_spec. exists (S j). lia.
    - replace (Nat.even (S (0 + (j + (j + 0))))) with false; [reflexivity|]. symmetry. apply Bool.not_true_iff_false. intros E.
      apply Nat.even_spec in E. destruct E as [q E]. lia. }
  destruct (st_type st); try discriminate; reflexivity.
Qed.

(** the transitional double support is shorter than the sampling interval: a rotation is written outside of the matrix *)
Definition short_tds_params : params := mkParams DS RSS DS 700 50 300 2900 7.
Lemma rotations_out_of_range : exists s0 s, init short_tds_params = Ok s0 /\ shiftTime 5 s0 300 = Finished (Ok s) /\ cur_time s < duration (cur s) /\
  forall ly ry inc, exists h, form 20 default_mpc ly ry inc s = Finished (Ok (Some h)) /\ form_rotations h = Throw.
Proof.
  eexists. eexists. split; [reflexivity|]. split; [vm_compute; reflexivity|]. split; [vm_compute; lia|].
  intros ly ry inc. eexists. split; vm_compute; reflexivity.
Qed.

Lemma form_first_heading_reached p s0 s f m ly ry inc h : init p = Ok s0 -> walkable p -> reach s0 s ->
  form f m ly ry inc s = Finished (Ok (Some h)) ->
  (is_ss (st_type (cur s)) = true -> heading_at (h_states h) 0 (st_type (cur s)) (foot_yaw ly ry (st_type (cur s)))) /\
  (st_type (cur s) = DS -> heading_at (h_states h) 0 DS ((ly + ry) / 2)%R) /\
  (st_type (cur s) = TDS -> exists tht tb thb,
     heading_at (h_states h) 0 TDS tht /\ heading_at (h_states h) 1 tb thb /\
     (is_ss tb = true -> is_ss (prev_nontds (cur s)) = true -> tb = opp (prev_nontds (cur s)) /\ thb = (foot_yaw ly ry (prev_nontds (cur s)) + inc)%R /\ tht = thb) /\
     (is_ss tb = true -> prev_nontds (cur s) = DS -> thb = foot_yaw ly ry tb /\ tht = ((ly + ry) / 2)%R) /\
     (tb = DS -> is_ss (prev_nontds (cur s)) = true -> thb = foot_yaw ly ry (prev_nontds (cur s)) /\ tht = thb)).
Proof.
  intros H0 Wk Rc HF. destruct (reached p s0 s H0 Wk Rc) as (_ & Hs & _).
  destruct (form_first_heading _ _ _ _ _ _ _ HF) as (A & B & C). auto.
Qed.

Definition short_walk : params := mkParams DS RSS DS 700 100 300 1000 2.
Lemma form_end_of_walk : exists s0 s, init short_walk = Ok s0 /\ shiftTime 9 s0 1500 = Finished (Ok s) /\
  forall ly ry inc, form 20 default_mpc ly ry inc s = Finished Throw.
Proof. eexists. eexists. split; [reflexivity|]. split; [vm_compute; reflexivity|]. intros. vm_compute. reflexivity. Qed.
