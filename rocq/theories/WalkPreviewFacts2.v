(** * When the walking preview horizon can be formed *)
From Coq Require Import List Arith Bool Reals Sorted Lia.
From Verif Require Import Base BaseFacts StanceFSM StanceSpec StanceFSMFacts StanceFSMFacts2 StanceTimeFacts WalkPreview WalkPreviewSpec WalkPreviewFacts.
Import ListNotations.

(** ** history of the stances reached from accepted parameters *)
Definition history_ok (s : fsm) : Prop :=
  match st_type (cur s) with
  | LSS => subtype (cur s) = FIRST \/ prev_nontds (cur s) = DS \/ prev_nontds (cur s) = RSS
  | RSS => subtype (cur s) = FIRST \/ prev_nontds (cur s) = DS \/ prev_nontds (cur s) = LSS
  | DS => subtype (cur s) = FIRST /\ ss_left s <> 1 \/
          subtype (cur s) = LAST /\ is_ss (prev_nontds (cur s)) = true /\ ss_left s = 0 \/
          subtype (cur s) = INTERMEDIATE /\ ss_left s = 0
  | TDS => prev_nontds (cur s) = DS /\ ss_left s > 1 \/ is_ss (prev_nontds (cur s)) = true /\ prev_nonds (cur s) = prev_nontds (cur s)
  | ST_UNDEFINED => True
  end.
Lemma history_init p s : init p = Ok s -> history_ok s.
Proof.
  unfold init. intros H. apply assert_ok in H. destruct H as [N H]. cbv zeta in H.
  assert (num_steps p <> 1) by (destruct (Nat.eqb_spec (num_steps p) 1); [discriminate|assumption]).
  destruct (first_stance p); try discriminate; [destruct (first_ss_type p); try discriminate| |];
    inversion H; subst; unfold history_ok; simpl; auto.
Qed.
Lemma history_shift s s' : history_ok s -> shiftStance s = Ok s' -> history_ok s'.
Proof.
  unfold history_ok, shiftStance. destruct s as [fl k ct c p]; destruct c as [ty pn pt su d td]; simpl.
  destruct ty; try discriminate; simpl.
  - intros H E. destruct k as [|k]; inversion E; subst; simpl; [tauto|]. left. split; [reflexivity|].
    destruct H as [[_ H]|[[_ [_ H]]|[_ H]]]; lia.
  - intros _ E; inversion E; subst; simpl. auto.
  - intros _ E; inversion E; subst; simpl. auto.
  - intros H E. destruct k as [|k].
    + inversion E; subst; simpl. destruct H as [[_ H]|[H _]]; [lia|]. auto.
    + destruct pn; try discriminate; inversion E; subst; simpl; destruct H as [[H _]|[_ H]]; auto.
Qed.
Lemma history_shifts n : forall s s', history_ok s -> shifts n s = Ok s' -> history_ok s'.
Proof.
  induction n as [|n IH]; intros s s' H E; simpl in E; [congruence|].
  apply bind_ok in E. destruct E as (x & X1 & X2). eapply IH; [|exact X2]. eapply history_shift; eassumption.
Qed.
Lemma history_cur s s' : cur s = cur s' -> ss_left s = ss_left s' -> history_ok s' -> history_ok s.
Proof. unfold history_ok. intros -> ->. auto. Qed.

Lemma wf_shifts n : forall s s', wf s -> shifts n s = Ok s' -> wf s' /\ fparams s' = fparams s.
Proof.
  induction n as [|n IH]; intros s s' W E; simpl in E; [inversion E; subst; auto|].
  apply bind_ok in E. destruct E as (x & X1 & X2).
  destruct (wf_shiftStance s W) as (y & Y1 & Y2 & _ & Y4). rewrite X1 in Y1. inversion Y1; subst y.
  destruct (IH x s' Y2 X2) as [A B]. split; [exact A|congruence].
Qed.
Lemma wf_reach s s' : reach s s' -> wf s -> wf s'.
Proof.
  induction 1 as [s|s s1 s2 H _ IH|s t f s1 s2 H _ IH]; intros W; auto; apply IH.
  - destruct (wf_shiftStance s W) as (y & Y1 & Y2 & _). congruence.
  - destruct (wf_shiftTime f s t _ W H) as (y & Y1 & Y2 & _). congruence.
Qed.

(** ** headings and constraints of the previewed states can be determined *)
Definition entry_ok (e : stance) : Prop :=
  match st_type e with
  | LSS | RSS => exists fd, fd_of e = Ok fd
  | DS => (subtype e = FIRST \/ subtype e = LAST) /\ exists fd, fd_of e = Ok fd
  | TDS => True
  | ST_UNDEFINED => False
  end.
Lemma preview_state_ok inc h e n : entry_ok e -> (st_type e = TDS -> n <> None) ->
  exists h1 w, preview_state inc h e n = Ok (h1, w).
Proof.
  unfold entry_ok, preview_state. destruct (st_type e) eqn:T; intros H N.
  - contradiction.
  - destruct H as [[H|H] [fd F]]; rewrite H, F; simpl; eauto.
  - destruct H as [fd F]; rewrite F; simpl; eauto.
  - destruct H as [fd F]; rewrite F; simpl; eauto.
  - destruct n as [t|]; [|exfalso; apply N; reflexivity].
    destruct t, (prev_nontds e); simpl; eauto.
Qed.
Lemma preview_states_ok inc : forall l h, Forall entry_ok l -> (forall l' e, l = l' ++ [e] -> st_type e <> TDS) ->
  exists ws, preview_states inc h l = Ok ws.
Proof.
  induction l as [|e r IH]; intros h F L; simpl; [eauto|]. inversion F as [|? ? F1 F2]; subst.
  destruct (preview_state_ok inc h e (option_map st_type (hd_error r)) F1) as (h1 & w & E).
  { intros T. destruct r as [|x r]; [|discriminate]. exfalso. apply (L [] e); [reflexivity|exact T]. }
  rewrite E. simpl. destruct (IH h1 F2) as [ws W].
  { intros l' x X. apply (L (e :: l') x). rewrite X. reflexivity. }
  rewrite W. simpl. eauto.
Qed.

(** ** the loop ends before the states do *)
Definition grid (T : nat) (l : list stance) (i : nat) (e : stance) : Prop :=
  if is_tds (st_type e) then duration e <= T else S i < length l -> exists k, duration e = k * T.
Lemma psum_all_cons e l : psum (e :: l) (length (e :: l)) = duration e + psum l (length l).
Proof. reflexivity. Qed.

Lemma form_loop_later_ok N T tds : T > 0 -> forall n rest wi idx ivs steps, length rest <= n ->
  wi > 0 -> altern true rest -> (forall i e, nth_error rest i = Some e -> grid T rest i e) ->
  (forall l' e, rest = l' ++ [e] -> st_type e <> TDS) ->
  N * T <= idx * T + psum rest (length rest) ->
  exists r, form_loop N T tds wi rest idx ivs steps = Ok r.
Proof.
  intros TP. induction n as [|n IH]; intros rest wi idx ivs steps Ln W A G L S.
  - destruct rest; [|simpl in Ln; lia]. simpl in *. destruct (Nat.leb_spec N idx); [eauto|]. nia.
  - destruct rest as [|s1 r]; simpl.
    { simpl in S. destruct (Nat.leb_spec N idx); [eauto|]. nia. }
    destruct (Nat.leb_spec N idx) as [H|H]; [eauto|]. destruct (Nat.eqb_spec wi 0); [lia|].
    destruct A as [A1 A2]. rewrite A1. destruct r as [|s2 r2].
    { exfalso. apply (L [] s1); [reflexivity|]. destruct (st_type s1); try discriminate; reflexivity. }
    destruct A2 as [A2 A3]. rewrite !psum_all_cons in S.
    pose proof (G 0 s1 eq_refl) as G1. unfold grid in G1. rewrite A1 in G1.
    pose proof (G 1 s2 eq_refl) as G2. unfold grid in G2. rewrite A2 in G2.
    destruct r2 as [|s3 r3].
    + simpl. destruct (Nat.leb_spec N (idx + 1 + duration s2 / T)); [eauto|].
      pose proof (Nat.div_mod (duration s2) T ltac:(lia)). pose proof (Nat.mod_upper_bound (duration s2) T ltac:(lia)).
      simpl in S. nia.
    + destruct (G2 ltac:(simpl; lia)) as [k K]. rewrite K in S |- *. rewrite Nat.div_mul by lia.
      apply IH; clear IH.
      * simpl in Ln |- *. lia.
      * lia.
      * exact A3.
      * intros i e E. specialize (G (Datatypes.S (Datatypes.S i)) e E). unfold grid in *.
        destruct (is_tds (st_type e)); [exact G|]. simpl in G |- *. intros; apply G; lia.
      * intros l' e E. apply (L (s1 :: s2 :: l') e). rewrite E. reflexivity.
      * nia.
Qed.

Lemma form_loop_ok N T tds l b ivs : T > 0 -> altern b l ->
  (forall i e, nth_error l i = Some e -> (i > 0 \/ st_type e = TDS) -> grid T l i e) ->
  (forall l' e, l = l' ++ [e] -> st_type e <> TDS) ->
  N * T <= psum l (length l) ->
  exists r, form_loop N T tds 0 l 0 ivs [] = Ok r.
Proof.
  intros TP A G L S. destruct l as [|s r].
  { simpl in S. simpl. destruct (Nat.leb_spec N 0); [eauto|]. nia. }
  simpl. destruct (Nat.leb_spec N 0); [eauto|]. destruct A as [A1 A2].
  destruct (is_tds (st_type s)) eqn:Ts.
  - destruct r as [|s2 r2].
    { exfalso. apply (L [] s); [reflexivity|]. destruct (st_type s); try discriminate; reflexivity. }
    subst b. destruct A2 as [A2 A3]. rewrite !psum_all_cons in S.
    pose proof (G 0 s eq_refl) as G1. unfold grid in G1. rewrite Ts in G1.
    assert (G1' : duration s <= T) by (apply G1; right; destruct (st_type s); try discriminate; reflexivity).
    pose proof (G 1 s2 eq_refl) as G2. unfold grid in G2. rewrite A2 in G2.
    destruct r2 as [|s3 r3].
    + simpl. destruct (Nat.leb_spec N (Datatypes.S (duration s2 / T))); [eauto|].
      pose proof (Nat.div_mod (duration s2) T ltac:(lia)). pose proof (Nat.mod_upper_bound (duration s2) T ltac:(lia)).
      simpl in S. nia.
    + destruct (G2 ltac:(left; lia) ltac:(simpl; lia)) as [k K]. rewrite K in S |- *. rewrite Nat.div_mul by lia.
      apply form_loop_later_ok with (n := length (s3 :: r3)); [exact TP|lia|lia|exact A3| | |].
      * intros i e E. specialize (G (Datatypes.S (Datatypes.S i)) e E ltac:(left; lia)). unfold grid in *.
        destruct (is_tds (st_type e)); [exact G|]. simpl in G |- *. intros; apply G; lia.
      * intros l' e E. apply (L (s :: s2 :: l') e). rewrite E. reflexivity.
      * nia.
  - subst b. simpl in A2. rewrite psum_all_cons in S.
    pose proof (Nat.div_mod (duration s) T ltac:(lia)) as D. pose proof (Nat.mod_upper_bound (duration s) T ltac:(lia)) as D2.
    assert (G' : forall i e, nth_error r i = Some e -> grid T r i e).
    { intros i e E. specialize (G (Datatypes.S i) e E ltac:(left; lia)). unfold grid in *.
      destruct (is_tds (st_type e)); [exact G|]. simpl in G |- *. intros; apply G; lia. }
    assert (L' : forall l' e, r = l' ++ [e] -> st_type e <> TDS).
    { intros l' e E. apply (L (s :: l') e). rewrite E. reflexivity. }
    destruct (Nat.eqb_spec (duration s mod T) 0) as [M|M].
    + apply form_loop_later_ok with (n := length r); [exact TP|lia|lia|exact A2|exact G'|exact L'|].
      rewrite M in D. nia.
    + apply form_loop_later_ok with (n := length r); [exact TP|lia|lia|exact A2|exact G'|exact L'|]. nia.
Qed.

(** ** durations of the previewed stances *)
Lemma preview_loop_durations f : forall s T acc s' ne l', preview_loop f s T acc = Finished (Ok (s', ne, l')) ->
  exists l, l' = acc ++ l /\
    (forall i e, nth_error l i = Some e -> exists si, shifts i s = Ok si /\ same_kind e si /\ duration e <= duration (cur si) /\
      (S i < length l -> duration e = duration (cur si) - cur_time si)) /\
    (ne = false -> T > 0 -> exists k, length l = S k /\ shifts k s = Ok s').
Proof.
  induction f as [|f IH]; intros s T acc s' ne l' H.
  - destruct (Nat.eq_dec T 0) as [->|N].
    + simpl in H. inversion H; subst. exists []. rewrite app_nil_r. split; [reflexivity|]. split; [|lia]. intros [|i] e E; discriminate.
    + simpl in H. destruct (Nat.eqb_spec T 0); [contradiction|discriminate].
  - destruct (Nat.eq_dec T 0) as [->|N].
    { rewrite preview_loop_0 in H. inversion H; subst. exists []. rewrite app_nil_r. split; [reflexivity|]. split; [|lia]. intros [|i] e E; discriminate. }
    cbn [preview_loop] in H. destruct (Nat.eqb_spec T 0); [contradiction|].
    destruct (Nat.leb_spec (cur_time s) (duration (cur s))) as [Le|Le]; [|discriminate]. cbv zeta in H. cbn [negb] in H.
    destruct (Nat.leb_spec (cur_time s + T) (duration (cur s))) as [Lt|Lt].
    { rewrite preview_loop_0 in H. inversion H; subst. exists [preview_entry s' T]. split; [reflexivity|]. split.
      - intros [|i] e E; [|destruct i; discriminate]. simpl in E. inversion E; subst. exists s'. split; [reflexivity|].
        split; [apply same_kind_entry|]. simpl. split; lia.
      - intros _ _. exists 0. auto. }
    destruct ((ss_left s =? 0) && match st_type (cur s) with DS => true | _ => false end) eqn:Term.
    { inversion H; subst. exists []. rewrite app_nil_r. split; [reflexivity|]. split; [|discriminate]. intros [|i] e E; discriminate. }
    destruct (shiftStance s) as [s2| |] eqn:E; try discriminate.
    apply IH in H. destruct H as (l & -> & F & K). exists (preview_entry s T :: l).
    split; [rewrite <- app_assoc; reflexivity|]. split.
    + intros [|i] e X; simpl in X.
      * inversion X; subst. exists s. split; [reflexivity|]. split; [apply same_kind_entry|]. simpl. split; lia.
      * destruct (F i e X) as (si & S1 & S2 & S3 & S4). exists si. simpl. rewrite E. simpl.
        split; [exact S1|]. split; [exact S2|]. split; [exact S3|]. intros; apply S4; lia.
    + intros Z _. destruct (K Z ltac:(lia)) as (k & K1 & K2). exists (S k). simpl. rewrite E, K1. auto.
Qed.

Lemma preview_durations f s T l : T > 0 -> previewStances f s T = Finished (Ok l) ->
  forall i e, nth_error l i = Some e -> exists si, shifts i s = Ok si /\ same_kind e si /\ duration e <= duration (cur si) /\
    (is_tds (st_type e) = false -> S i < length l -> duration e = duration (cur si) - cur_time si).
Proof.
  unfold previewStances. intros TP H.
  destruct (preview_loop f s T []) as [[r| |]|] eqn:E; try discriminate.
  destruct r as [[s' ne] l0]. apply preview_loop_durations in E. destruct E as (l1 & E & F & K). simpl in E. subst l0.
  assert (F' : forall i e, nth_error l1 i = Some e -> exists si, shifts i s = Ok si /\ same_kind e si /\ duration e <= duration (cur si) /\
    (is_tds (st_type e) = false -> S i < length l1 -> duration e = duration (cur si) - cur_time si)).
  { intros i e X. destruct (F i e X) as (si & A & B & C & D). exists si. repeat (split; [assumption|]). intros; auto. }
  destruct ne; [inversion H; subst; exact F'|].
  destruct (K eq_refl TP) as (k & K1 & K2).
  destruct l1 as [|e0 r0] using rev_ind; [discriminate|]. clear IHr0.
  rewrite app_length in K1. simpl in K1. assert (k = length r0) by lia. subst k.
  rewrite last_some_snoc in H. destruct (is_tds (st_type e0)) eqn:Te; [|inversion H; subst; exact F'].
  assert (K3 : is_tds (st_type (cur s')) = true).
  { destruct (F (length r0) e0) as (si & A & B & _).
    - rewrite nth_error_app2, Nat.sub_diag by lia. reflexivity.
    - rewrite K2 in A. inversion A; subst si. destruct B as [B _]. rewrite B. exact Te. }
  rewrite K3 in H. destruct (shiftStance s') as [s''| |] eqn:S; try discriminate. inversion H; subst l. clear H.
  intros i e X. destruct (Nat.lt_ge_cases i (length (r0 ++ [e0]))) as [C|C].
  - rewrite nth_error_app1 in X by exact C. destruct (F' i e X) as (si & A1 & A2 & A3 & A4). exists si.
    repeat (split; [assumption|]). intros B1 B2. apply A4; [exact B1|]. rewrite app_length in *. simpl in *.
    destruct (Nat.eq_dec i (length r0)) as [->|]; [|lia]. exfalso.
    rewrite nth_error_app2, Nat.sub_diag in X by lia. simpl in X. congruence.
  - rewrite nth_error_app2 in X by exact C. rewrite app_length in *. simpl in *.
    destruct (i - (length r0 + 1)) as [|j] eqn:J; [|destruct j; discriminate]. simpl in X. inversion X; subst e.
    assert (i = Datatypes.S (length r0)) by lia. subst i. exists s''. split.
    + rewrite shifts_S_r, K2. simpl. exact S.
    + split; [apply same_kind_last|]. simpl. split; [lia|]. intros _ Q. rewrite !app_length in Q. simpl in Q. lia.
Qed.

(** ** forming *)
Lemma reach_shifts s s' : reach s s' -> exists k x, shifts k s = Ok x /\ cur s' = cur x /\ ss_left s' = ss_left x /\ fparams s' = fparams x.
Proof. apply reach_is_shifts. Qed.

Lemma entry_ok_of e s : same_kind e s -> history_ok s -> wf s -> (st_type (cur s) = DS -> subtype (cur s) <> INTERMEDIATE) -> entry_ok e.
Proof.
  intros (K1 & K2 & K3 & K4) H [_ W] N. unfold entry_ok, fd_of. unfold history_ok in H.
  rewrite K1, ?K3, ?K4 in *. destruct (st_type e) eqn:T.
  - contradiction.
  - destruct H as [[H _]|[[H [H' _]]|[H _]]]; [| |exfalso; apply N; auto]; rewrite H.
    + split; [auto|eauto].
    + split; [auto|]. destruct (prev_nontds e); try discriminate; eauto.
  - destruct (subtype e); eauto; destruct H as [H|[H|H]]; try discriminate; rewrite H; eauto.
  - destruct (subtype e); eauto; destruct H as [H|[H|H]]; try discriminate; rewrite H; eauto.
  - exact I.
Qed.

Lemma altern_nth b l : altern b l -> forall i x y, nth_error l i = Some x -> nth_error l (S i) = Some y ->
  is_tds (st_type y) = negb (is_tds (st_type x)).
Proof.
  revert b. induction l as [|a r IH]; intros b H i x y X Y; [destruct i; discriminate|].
  destruct H as [H1 H2]. destruct i as [|i]; simpl in X, Y.
  - destruct r as [|c r]; [discriminate|]. simpl in Y. inversion X; inversion Y; subst. simpl in H2. destruct H2 as [H2 _]. exact H2.
  - eapply IH; eassumption.
Qed.

Lemma preview_loop_mono f : forall s T acc r g, preview_loop f s T acc = Finished r -> f <= g -> preview_loop g s T acc = Finished r.
Proof.
  induction f as [|f IH]; intros s T acc r g H L.
  - destruct (Nat.eq_dec T 0) as [->|N]; [rewrite preview_loop_0 in *; exact H|].
    simpl in H. destruct (Nat.eqb_spec T 0); [contradiction|discriminate].
  - destruct (Nat.eq_dec T 0) as [->|N]; [rewrite preview_loop_0 in *; exact H|].
    destruct g as [|g]; [lia|]. cbn [preview_loop] in *. destruct (Nat.eqb_spec T 0); [contradiction|].
    destruct (negb _); [exact H|]. cbv zeta in *. destruct (_ <=? _); [apply IH; [exact H|lia]|].
    destruct (_ && _); [exact H|]. destruct (shiftStance s); try exact H. apply IH; [exact H|lia].
Qed.
Lemma previewStances_mono f s T r g : previewStances f s T = Finished r -> f <= g -> previewStances g s T = Finished r.
Proof.
  unfold previewStances. intros H L. destruct (preview_loop f s T []) as [o|] eqn:E; [|discriminate].
  rewrite (preview_loop_mono _ _ _ _ _ _ E L). exact H.
Qed.
Lemma previewStances_det f g s T r q : previewStances f s T = Finished r -> previewStances g s T = Finished q -> r = q.
Proof.
  intros A B. apply previewStances_mono with (g := f + g) in A; [|lia]. apply previewStances_mono with (g := f + g) in B; [|lia]. congruence.
Qed.

Lemma preview_terminal f s T l : terminal s -> cur_time s <= duration (cur s) -> duration (cur s) - cur_time s < T ->
  previewStances f s T = Finished (Ok l) -> l = [].
Proof.
  intros [T1 T2] CT LT. unfold previewStances. destruct f as [|f]; cbn [preview_loop].
  - destruct (Nat.eqb_spec T 0); [lia|discriminate].
  - destruct (Nat.eqb_spec T 0); [lia|]. destruct (Nat.leb_spec (cur_time s) (duration (cur s))); [|lia]. cbn [negb]. cbv zeta.
    destruct (Nat.leb_spec (cur_time s + T) (duration (cur s))); [lia|]. rewrite T1, T2. simpl. congruence.
Qed.

Lemma shifts_cur n : forall a b c, cur a = cur b -> ss_left a = ss_left b -> fparams a = fparams b ->
  shifts (S n) a = Ok c -> shifts (S n) b = Ok c.
Proof.
  intros a b c Q1 Q2 Q3 H. simpl in *. replace (shiftStance b) with (shiftStance a); [exact H|].
  unfold shiftStance. rewrite Q1, Q2, Q3. reflexivity.
Qed.
Lemma shifts_add k : forall n s x r, shifts k s = Ok x -> shifts n x = r -> shifts (k + n) s = r.
Proof.
  induction k as [|k IH]; intros n s x r H1 H2; simpl in *; [inversion H1; subst; reflexivity|].
  apply bind_ok in H1. destruct H1 as (y & Y1 & Y2). rewrite Y1. simpl. eapply IH; eassumption.
Qed.

(** everything known about a machine reached from accepted parameters *)
Lemma reached p s0 s : init p = Ok s0 -> walkable p -> reach s0 s ->
  wf s /\ history_ok s /\
  (ss_duration (fparams s), tds_duration (fparams s), last_duration (fparams s)) = (ss_duration p, tds_duration p, last_duration p) /\
  (st_type (cur s) = TDS -> duration (cur s) = tds_duration p) /\
  (forall i si, shifts (S i) s = Ok si -> history_ok si /\ wf si /\ cur_time si = 0 /\
     duration (cur si) = match st_type (cur si) with DS => last_duration p | TDS => tds_duration p | _ => ss_duration p end).
Proof.
  intros H0 Wk Rc. destruct (reach_shifts _ _ Rc) as (k & x & X1 & X2 & X3 & X4).
  pose proof (wf_init p s0 H0 Wk) as W0. pose proof (wf_reach _ _ Rc W0) as W.
  pose proof (history_cur _ _ X2 X3 (history_shifts _ _ _ (history_init _ _ H0) X1)) as Hs.
  destruct (init_bookkeeping _ _ H0) as (_ & IB & _ & IS & _ & FP).
  destruct (wf_shifts _ _ _ W0 X1) as [_ FPx].
  split; [exact W|]. split; [exact Hs|]. split; [rewrite X4, FPx; exact FP|]. split.
  - intros T. destruct k as [|k].
    + simpl in X1. inversion X1; subst x. rewrite X2, IB in T. unfold init in H0. rewrite T in H0. simpl in H0.
      apply assert_ok in H0. destruct H0 as [_ H0]. discriminate.
    + destruct (durations_configured p s0 k x H0 X1) as [_ D]. rewrite X2 in *. rewrite T in D. exact D.
  - intros i si E. split; [eapply history_shifts; eassumption|]. split; [eapply wf_shifts; [exact W|exact E]|].
    apply (durations_configured p s0 (k + i) si H0). rewrite <- Nat.add_succ_r. eapply shifts_add; [exact X1|].
    eapply shifts_cur; eassumption.
Qed.

Theorem form_defined p s0 s m ly ry inc f r : init p = Ok s0 -> walkable p -> reach s0 s -> pos_durations p -> on_grid m p ->
  cur_time s < duration (cur s) -> (st_type (cur s) = DS -> subtype (cur s) <> INTERMEDIATE) ->
  form f m ly ry inc s = Finished r ->
  (terminal s /\ duration (cur s) - cur_time s < horizon_length m * sampling_ms m -> r = Ok None) /\
  (~ (terminal s /\ duration (cur s) - cur_time s < horizon_length m * sampling_ms m) -> exists h, r = Ok (Some h)).
Proof.
  intros H0 Wk Rc HP (G1 & G2 & (kss & G3) & G4 & G5) CT NI HF.
  destruct (reached p s0 s H0 Wk Rc) as (W & Hs & FP & Td & Cfg). inversion FP as [[FP1 FP2 FP3]]. clear FP.
  assert (HP' : pos_durations (fparams s)).
  { unfold pos_durations in *. rewrite FP1, FP2, FP3. exact HP. }
  assert (NT : horizon_length m * sampling_ms m > 0) by nia.
  destruct (preview_defined s (horizon_length m * sampling_ms m) W NT) as (f' & l & P').
  unfold form in HF.
  destruct (previewStances f s (horizon_length m * sampling_ms m)) as [o|] eqn:P; [|discriminate].
  pose proof (previewStances_det _ _ _ _ _ _ P P') as ->. clear P' f'.
  split.
  { intros [T1 T2]. assert (l = []) by (eapply preview_terminal; [exact T1| |exact T2|exact P]; lia). subst l.
    simpl in HF. congruence. }
  intros NTm.
  destruct (preview_correct _ _ _ _ W HP' CT NT P) as (_ & _ & Alt).
  destruct (previewStances_chain _ _ _ _ P) as [Ch Fst].
  pose proof (preview_durations _ _ _ _ NT P) as Dur.
  destruct Alt as [[Sum (e & l' & El & Te)]|[Sum (s' & S1 & S2 & S3)]].
  2:{ exfalso. destruct (length l) as [|n] eqn:Ln.
      - simpl in S1. inversion S1; subst s'. apply NTm. split; [exact S2|]. lia.
      - destruct (Cfg n s' S1) as (_ & _ & C1 & C2). destruct S2 as [S2 _]. rewrite S2 in C2. lia. }
  destruct (chain_altern l Ch) as [b A].
  assert (L : forall l1 x, l = l1 ++ [x] -> st_type x <> TDS).
  { intros l1 x E. rewrite El in E. apply app_inj_tail in E. destruct E as [_ <-]. exact Te. }
  destruct (preview_states_ok inc l (initial_headings ly ry)) as [ws Ws]; [|exact L|].
  { rewrite Forall_forall. intros a Ha. apply In_nth_error in Ha. destruct Ha as [i Hi].
    destruct (Dur i a Hi) as (si & D1 & D2 & _). destruct i as [|i].
    - simpl in D1. inversion D1; subst si. eapply entry_ok_of; eassumption.
    - destruct (Cfg i si D1) as (C1 & C2 & _). eapply entry_ok_of; try eassumption.
      destruct (nth_error l i) as [c|] eqn:Hc.
      2:{ apply nth_error_None in Hc. assert (S i < length l) by (apply nth_error_Some; congruence). lia. }
      pose proof (altern_nth _ _ A i c a Hc Hi) as Al. destruct (Dur i c Hc) as (sc & E1 & E2 & _).
      rewrite shifts_S_r, E1 in D1. simpl in D1. apply step_bookkeeping in D1. destruct D1 as (_ & _ & _ & _ & _ & B & _).
      intros T. destruct D2 as [D2 _]. rewrite D2 in T. rewrite T in Al. destruct E2 as [E2 _]. rewrite <- E2 in Al.
      destruct (st_type (cur sc)) eqn:Tc; try discriminate Al.
      assert (subtype (cur si) = LAST) by (apply B; rewrite D2; auto). congruence. }
  rewrite Ws in HF. simpl in HF.
  destruct ws as [|w ws].
  { apply preview_states_stances in Ws. simpl in Ws. rewrite <- Ws in El. destruct l'; discriminate. }
  destruct (Nat.eqb_spec (sampling_ms m) 0); [lia|]. simpl in HF.
  destruct (form_loop_ok (horizon_length m) (sampling_ms m) (tds_sampling_ms m) l b (repeat None (horizon_length m)) G2 A) as [[ivs steps] Fl].
  - intros i a Ha Ci. destruct (Dur i a Ha) as (si & D1 & D2 & D3 & D4). unfold grid.
    destruct D2 as [D2 _]. destruct i as [|i].
    + destruct Ci as [Ci|Ci]; [lia|]. rewrite Ci. simpl in D1 |- *. inversion D1; subst si. rewrite Ci in D2. rewrite (Td D2) in D3. lia.
    + destruct (Cfg i si D1) as (_ & _ & C1 & C2). rewrite D2 in C2.
      destruct (st_type a) eqn:Ta; cbn [is_tds] in *; try lia.
      * intros. rewrite (D4 eq_refl) by assumption. rewrite C1, C2, G3. exists kss. lia.
      * (* a double support is not followed by anything *)
        intros Ln. exfalso. destruct (nth_error l (S (S i))) as [c|] eqn:Hc; [|apply nth_error_None in Hc; lia].
        pose proof (altern_nth _ _ A _ _ _ Ha Hc) as Al. rewrite Ta in Al. simpl in Al.
        destruct (nth_error l i) as [a0|] eqn:H1; [|apply nth_error_None in H1; lia].
        pose proof (altern_nth _ _ A _ _ _ H1 Ha) as Al0. rewrite Ta in Al0.
        destruct (Dur i a0 H1) as (s1 & E1 & (E2 & _) & _).
        destruct (Dur (S (S i)) c Hc) as (sc & E3 & (E4 & _) & _).
        rewrite shifts_S_r, D1 in E3. simpl in E3. rewrite shifts_S_r, E1 in D1. simpl in D1.
        rewrite <- E2 in Al0. unfold shiftStance in D1. destruct (st_type (cur s1)) eqn:T1; try discriminate Al0.
        destruct (ss_left s1); [|destruct (prev_nonds (cur s1)); try discriminate; simpl in D1; inversion D1; subst si; discriminate D2].
        simpl in D1. inversion D1; subst si. unfold shiftStance in E3. simpl in E3. inversion E3; subst sc. simpl in E4. rewrite <- E4 in Al. discriminate.
      * intros. rewrite (D4 eq_refl) by assumption. rewrite C1, C2, G3. exists kss. lia.
      * intros. rewrite (D4 eq_refl) by assumption. rewrite C1, C2, G3. exists kss. lia.
  - exact L.
  - lia.
  - rewrite Fl in HF. simpl in HF. inversion HF. eauto.
Qed.

Lemma form_terminates p s0 s m ly ry inc : init p = Ok s0 -> walkable p -> reach s0 s -> horizon_length m * sampling_ms m > 0 ->
  exists f r, form f m ly ry inc s = Finished r.
Proof.
  intros H0 Wk Rc NT. destruct (reached p s0 s H0 Wk Rc) as (W & _).
  destruct (preview_defined s (horizon_length m * sampling_ms m) W NT) as (f & l & P). exists f. unfold form. rewrite P. eauto.
Qed.
