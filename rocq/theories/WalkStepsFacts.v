(** * The planned steps of two consecutive horizons *)
From Coq Require Import String List Reals Arith Bool Lia Sorting.Sorted.
From Verif Require Import Base BaseFacts StanceFSM StanceSpec StanceFSMFacts StanceFSMFacts2 StanceTimeFacts WalkPreview WalkPreviewSpec WalkPreviewFacts WalkPreviewFacts2 WalkHeadingFacts WalkPreviewFacts3
  WalkMpc WalkMpcFacts LeftRight WalkLoop WalkLoopSpec WalkLoopFacts WalkLoopFacts2 WalkLoopFacts4.
Import ListNotations.
Local Open Scope nat_scope.

(** times at which transitional double supports of the list begin *)
Fixpoint starts (t : nat) (l : list stance) : list nat :=
  match l with [] => [] | s :: r => (if is_tds (st_type s) then [t] else []) ++ starts (t + duration s) r end.
Definition later_starts (l : list stance) : list nat := match l with [] => [] | s :: r => starts (duration s) r end.
Definition below (n : nat) (l : list nat) : list nat := filter (fun i => i <? n) l.

Lemma starts_ge l : forall t x, In x (starts t l) -> t <= x.
Proof.
  induction l as [|s r IH]; intros t x H; [contradiction|]. cbn in H. apply in_app_or in H. destruct H as [H|H].
  - destruct (is_tds (st_type s)); [destruct H as [<-|[]]; lia|contradiction].
  - apply IH in H. lia.
Qed.
Lemma starts_shift l d : forall t, starts (t + d) l = map (fun x => x + d) (starts t l).
Proof.
  induction l as [|s r IH]; intros t; [reflexivity|]. cbn. rewrite map_app. f_equal; [destruct (is_tds (st_type s)); reflexivity|].
  rewrite <- IH. f_equal. lia.
Qed.
Lemma starts_snoc l e : st_type e <> TDS -> forall t, starts t (l ++ [e]) = starts t l.
Proof.
  intros H. induction l as [|s r IH]; intros t; cbn.
  - destruct (st_type e); try reflexivity. congruence.
  - rewrite IH. reflexivity.
Qed.
Lemma below_none n l : (forall x, In x l -> n <= x) -> below n l = [].
Proof.
  intros H. unfold below. induction l as [|a r IH]; [reflexivity|]. cbn [filter map]. destruct (Nat.ltb_spec a n) as [L|L].
  - specialize (H a (or_introl eq_refl)). lia.
  - apply IH. intros x Hx. apply H. right. exact Hx.
Qed.
Lemma below_app n a b : below n (a ++ b) = below n a ++ below n b.
Proof. apply filter_app. Qed.
Lemma below_map_S n l : below n (map S (below n l)) = below n (map S l).
Proof.
  unfold below. induction l as [|a r IH]; [reflexivity|]. cbn [filter map]. destruct (Nat.ltb_spec a n); cbn [filter map].
  - destruct (S a <? n); rewrite IH; reflexivity.
  - destruct (Nat.ltb_spec (S a) n); [lia|]. exact IH.
Qed.
Lemma below_div T n l : 0 < T -> below n (map (fun x => x / T) l) = map (fun x => x / T) (below (n * T) l).
Proof.
  intros TP. unfold below. induction l as [|a r IH]; [reflexivity|]. cbn [filter map]. rewrite IH.
  assert (E : (a / T <? n) = (a <? n * T)).
  { destruct (Nat.ltb_spec a (n * T)) as [L|L]; [apply Nat.ltb_lt, Nat.div_lt_upper_bound; nia|apply Nat.ltb_ge, Nat.div_le_lower_bound; nia]. }
  rewrite E. destruct (a <? n * T); reflexivity.
Qed.

(** ** the loop *)
Lemma loop_starts N T tds : T > 0 -> forall n rest wi idx ivs steps ivs' steps', length rest <= n -> wi > 0 -> altern true rest ->
  (forall i e, nth_error rest i = Some e -> exact2 T rest i e) ->
  form_loop N T tds wi rest idx ivs steps = Ok (ivs', steps') -> steps' = steps ++ below N (map (fun x => x / T) (starts (idx * T) rest)).
Proof.
  intros TP. induction n as [|n IH]; intros rest wi idx ivs steps ivs' steps' Ln W A G H.
  - destruct rest; [|simpl in Ln; lia]. simpl in *. destruct (N <=? idx); [inversion H; subst; rewrite app_nil_r; reflexivity|discriminate].
  - assert (Stop : N <= idx -> steps' = steps -> steps' = steps ++ below N (map (fun x => x / T) (starts (idx * T) rest))).
    { intros Hn ->. rewrite below_none, app_nil_r; [reflexivity|]. intros x Hx. apply in_map_iff in Hx. destruct Hx as (y & <- & Hy). apply starts_ge in Hy.
      apply Nat.div_le_lower_bound; nia. }
    destruct rest as [|s1 r]; simpl in H.
    { destruct (N <=? idx); [inversion H; subst; cbn; rewrite app_nil_r; reflexivity|discriminate]. }
    destruct A as [A1 A2].
    destruct (Nat.leb_spec N idx) as [Hn|Hn].
    { apply Stop; [exact Hn|]. inversion H. reflexivity. }
    clear Stop. destruct (Nat.eqb_spec wi 0); [lia|]. rewrite A1 in H. destruct r as [|s2 r2]; [discriminate|].
    destruct A2 as [A2 A3]. cbn [starts]. rewrite A1. cbn [negb] in A2. rewrite A2. cbn [app].
    cbn [map]. rewrite Nat.div_mul by lia. unfold below. cbn [filter]. destruct (Nat.ltb_spec idx N); [|lia]. fold (below N).
    pose proof (G 0 s1 eq_refl) as G1. unfold exact2 in G1. rewrite A1 in G1.
    pose proof (G 1 s2 eq_refl) as G2. unfold exact2 in G2. rewrite A2 in G2.
    destruct r2 as [|s3 r3].
    + simpl in H. destruct (N <=? idx + 1 + duration s2 / T); [|discriminate]. inversion H; subst. reflexivity.
    + specialize (G1 ltac:(simpl; lia)). destruct (G2 ltac:(simpl; lia)) as [k K].
      rewrite K in H. rewrite Nat.div_mul in H by lia. apply IH in H.
      * rewrite H, <- app_assoc. cbn [app]. replace (idx * T + duration s1 + duration s2) with ((idx + 1 + k) * T) by (rewrite G1, K; ring). reflexivity.
      * simpl in Ln |- *. lia.
      * lia.
      * exact A3.
      * intros i e E. pose proof (G (Datatypes.S (Datatypes.S i)) e E) as Gb. unfold exact2 in *. simpl in Gb |- *.
        destruct (is_tds (st_type e)); intros; apply Gb; lia.
Qed.

Lemma first_starts N T tds l b ivs ivs' steps' : T > 0 -> N > 0 -> altern b l ->
  (forall i e, nth_error l i = Some e -> i > 0 -> exact2 T l i e) ->
  (forall e, nth_error l 0 = Some e -> S (if is_tds (st_type e) then 1 else 0) < length l ->
     if is_tds (st_type e) then duration e = T else exists k, 0 < k /\ duration e = k * T) ->
  form_loop N T tds 0 l 0 ivs [] = Ok (ivs', steps') ->
  steps' = below N (map (fun x => x / T) (later_starts l)).
Proof.
  intros TP NP A G F H. destruct l as [|s r].
  { simpl in H. destruct (Nat.leb_spec N 0); [lia|discriminate]. }
  simpl in H. destruct (Nat.leb_spec N 0); [lia|]. destruct A as [A1 A2]. specialize (F s eq_refl). cbn [later_starts].
  destruct (is_tds (st_type s)) eqn:Ts.
  - destruct r as [|s2 r2]; [discriminate|]. subst b. destruct A2 as [A2 A3]. cbn [starts]. cbn [negb] in A2. rewrite A2. cbn [app].
    pose proof (G 1 s2 eq_refl ltac:(lia)) as G2. unfold exact2 in G2. rewrite A2 in G2.
    destruct r2 as [|s3 r3].
    + simpl in H. destruct (N <=? Datatypes.S (duration s2 / T)); [|discriminate]. inversion H; subst. reflexivity.
    + destruct (G2 ltac:(simpl; lia)) as [k K]. specialize (F ltac:(simpl; lia)). rewrite K in H. rewrite Nat.div_mul in H by lia.
      eapply loop_starts in H; [|exact TP|reflexivity|lia|exact A3|].
      * rewrite H. cbn [app]. replace (duration s + duration s2) with (S k * T) by (rewrite F, K; ring). reflexivity.
      * intros i e E. pose proof (G (Datatypes.S (Datatypes.S i)) e E ltac:(lia)) as Gb. unfold exact2 in *. simpl in Gb |- *.
        destruct (is_tds (st_type e)); intros; apply Gb; lia.
  - subst b. simpl in A2. destruct r as [|s2 r2].
    + simpl in H. match type of H with (if ?c then _ else _) = _ => destruct c; [|discriminate] end. inversion H; subst. reflexivity.
    + destruct (F ltac:(simpl; lia)) as (k & KP & K). rewrite K in H. rewrite Nat.mod_mul in H by lia. rewrite Nat.eqb_refl in H.
      rewrite Nat.div_mul in H by lia.
      eapply loop_starts in H; [|exact TP|reflexivity|lia|exact A2|].
      * rewrite H. cbn [app]. rewrite K. replace (k - 0) with k by lia. reflexivity.
      * intros i e E. pose proof (G (Datatypes.S i) e E ltac:(lia)) as Gb. unfold exact2 in *. simpl in Gb |- *.
        destruct (is_tds (st_type e)); intros; apply Gb; lia.
Qed.

(** ** a longer preview begins in the same way *)
Lemma preview_grows f : forall s t acc r, preview_loop f s t acc = Finished (Ok r) -> exists l, snd r = acc ++ l.
Proof.
  intros s t acc [[s' ne] l'] H. apply preview_loop_durations in H. destruct H as (l & -> & _). exists l. reflexivity.
Qed.
Lemma preview_longer f : forall s t d acc acc' s1 n1 l1 s2 n2 l2 t0,
  preview_loop f s t acc = Finished (Ok (s1, n1, acc ++ l1)) -> preview_loop f s (t + d) acc' = Finished (Ok (s2, n2, acc' ++ l2)) ->
  below (t0 + t) (starts t0 l1) = below (t0 + t) (starts t0 l2).
Proof.
  induction f as [|f IH]; intros s t d acc acc' s1 n1 l1 s2 n2 l2 t0 H1 H2.
  - destruct (Nat.eq_dec t 0) as [->|N].
    + simpl in H1. injection H1 as <- <- X3. assert (l1 = []) by (apply (app_inv_head acc); rewrite app_nil_r; congruence). subst l1. cbn [starts]. symmetry. rewrite Nat.add_0_r.
      apply below_none. apply starts_ge.
    + simpl in H1. destruct (Nat.eqb_spec t 0); [contradiction|discriminate].
  - destruct (Nat.eq_dec t 0) as [->|N].
    { rewrite preview_loop_0 in H1. injection H1 as <- <- X3. assert (l1 = []) by (apply (app_inv_head acc); rewrite app_nil_r; congruence). subst l1. cbn [starts]. symmetry. rewrite Nat.add_0_r.
      apply below_none. apply starts_ge. }
    cbn [preview_loop] in H1, H2. destruct (Nat.eqb_spec t 0); [contradiction|]. destruct (Nat.eqb_spec (t + d) 0); [lia|].
    destruct (Nat.leb_spec (cur_time s) (duration (cur s))) as [Le|Le]; [|discriminate]. cbv zeta in H1, H2. cbn [negb] in H1, H2.
    set (te := (ss_left s =? 0) && match st_type (cur s) with DS => true | _ => false end) in *.
    destruct (Nat.leb_spec (cur_time s + t) (duration (cur s))) as [Lt|Lt].
    { rewrite preview_loop_0 in H1. injection H1 as <- <- X3. apply app_inv_head in X3. subst l1. cbn [starts]. cbn [st_type preview_entry].
      destruct (Nat.leb_spec (cur_time s + (t + d)) (duration (cur s))) as [Lt2|Lt2].
      - rewrite preview_loop_0 in H2. injection H2 as <- <- Y3. apply app_inv_head in Y3. subst l2. cbn [starts preview_entry st_type]. reflexivity.
      - destruct te eqn:Te.
        + injection H2 as <- <- Y3. assert (l2 = []) by (apply (app_inv_head acc'); rewrite app_nil_r; congruence). subst l2. cbn [starts].
          unfold te in Te. apply andb_prop in Te. destruct Te as [_ Te]. destruct (st_type (cur s)); try discriminate Te. reflexivity.
        + destruct (shiftStance s) as [s'| |]; try discriminate. destruct (preview_grows _ _ _ _ _ H2) as (r & E). cbn [snd] in E.
          rewrite <- app_assoc in E. apply app_inv_head in E. subst l2. cbn [app starts preview_entry st_type duration]. rewrite app_nil_r, below_app.
          rewrite (below_none (t0 + t) (starts _ r)), app_nil_r; [reflexivity|]. intros x Hx. apply starts_ge in Hx. lia. }
    destruct (Nat.leb_spec (cur_time s + (t + d)) (duration (cur s))) as [Lt2|_]; [lia|].
    destruct te eqn:Te.
    { injection H1 as <- <- Y3. injection H2 as <- <- Z3.
      assert (l1 = []) by (apply (app_inv_head acc); rewrite app_nil_r; congruence). assert (l2 = []) by (apply (app_inv_head acc'); rewrite app_nil_r; congruence). subst. reflexivity. }
    destruct (shiftStance s) as [s'| |]; try discriminate.
    destruct (preview_grows _ _ _ _ _ H1) as (r1 & E1). destruct (preview_grows _ _ _ _ _ H2) as (r2 & E2). cbn [snd] in E1, E2. rewrite E1 in H1. rewrite E2 in H2.
    rewrite <- app_assoc in E1, E2. apply app_inv_head in E1, E2. subst l1 l2. cbn [app starts preview_entry st_type duration]. rewrite !below_app. f_equal.
    replace (t + d - (duration (cur s) - cur_time s)) with (t - (duration (cur s) - cur_time s) + d) in H2 by lia.
    replace (Nat.min (duration (cur s) - cur_time s) t) with (duration (cur s) - cur_time s) by lia.
    replace (Nat.min (duration (cur s) - cur_time s) (t + d)) with (duration (cur s) - cur_time s) by lia.
    specialize (IH s' _ d _ _ _ _ _ _ _ _ (t0 + (duration (cur s) - cur_time s)) H1 H2).
    replace (t0 + (duration (cur s) - cur_time s) + (t - (duration (cur s) - cur_time s))) with (t0 + t) in IH by lia. exact IH.
Qed.

(** what previewStances() adds to the list *)
Lemma not_tds_after s s' : st_type (cur s) = TDS -> shiftStance s = Ok s' -> st_type (cur s') <> TDS.
Proof.
  intros T E. unfold shiftStance in E. rewrite T in E. destruct (ss_left s).
  - inversion E. discriminate.
  - destruct (prev_nonds (cur s)); try discriminate E; inversion E; discriminate.
Qed.
Lemma preview_raw f s t l : previewStances f s t = Finished (Ok l) -> exists s' ne l0, preview_loop f s t [] = Finished (Ok (s', ne, l0)) /\
  (l = l0 \/ exists e, l = l0 ++ [e] /\ st_type e <> TDS /\ l0 <> []).
Proof.
  unfold previewStances. destruct (preview_loop f s t []) as [[[[s' ne] l0]| |]|]; try discriminate. intros H. exists s', ne, l0. split; [reflexivity|].
  destruct ne; [left; inversion H; reflexivity|]. destruct l0 as [|a r] using rev_ind; [discriminate|]. clear IHr. rewrite last_some_snoc in H.
  destruct (is_tds (st_type a)) eqn:Ta; [|left; inversion H; reflexivity]. right.
  destruct (is_tds (st_type (cur s'))) eqn:Tc.
  - destruct (shiftStance s') as [s''| |] eqn:S; try discriminate. injection H as <-. eexists. split; [reflexivity|]. split; [|destruct r; discriminate].
    cbn. apply (not_tds_after s'); [destruct (st_type (cur s')); try discriminate; reflexivity|exact S].
  - injection H as <-. eexists. split; [reflexivity|]. split; [|destruct r; discriminate]. cbn. destruct (st_type (cur s')); discriminate.
Qed.
Lemma later_raw l l0 : (l = l0 \/ exists e, l = l0 ++ [e] /\ st_type e <> TDS /\ l0 <> []) -> later_starts l = later_starts l0.
Proof.
  intros [->|(e & -> & T & N)]; [reflexivity|]. destruct l0 as [|a r]; [congruence|]. cbn. apply starts_snoc. exact T.
Qed.

Lemma preview_acc : forall g y u a b p q r, preview_loop g y u a = Finished (Ok (p, q, a ++ r)) -> preview_loop g y u b = Finished (Ok (p, q, b ++ r)).
Proof.
induction g as [|g IH]; intros y u a b p q r E.
    - cbn in *. destruct (u =? 0); [|discriminate]. injection E as <- <- X3. assert (r = []) by (apply (app_inv_head a); rewrite app_nil_r; congruence). subst. rewrite app_nil_r. reflexivity.
    - cbn [preview_loop] in *. destruct (u =? 0).
      { injection E as <- <- X3. assert (r = []) by (apply (app_inv_head a); rewrite app_nil_r; congruence). subst. rewrite app_nil_r. reflexivity. }
      cbv zeta in *. destruct (negb (cur_time y <=? duration (cur y))); [discriminate|]. destruct (cur_time y + u <=? duration (cur y)).
      { rewrite preview_loop_0 in *. injection E as <- <- X3. apply app_inv_head in X3. subst. reflexivity. }
      destruct ((ss_left y =? 0) && match st_type (cur y) with DS => true | _ => false end).
      { injection E as <- <- X3. assert (r = []) by (apply (app_inv_head a); rewrite app_nil_r; congruence). subst. rewrite app_nil_r. reflexivity. }
      destruct (shiftStance y) as [z| |]; try discriminate. destruct (preview_grows _ _ _ _ _ E) as (k & K). cbn [snd] in K. rewrite <- app_assoc in K. apply app_inv_head in K. subst r.
      replace (a ++ [preview_entry y u] ++ k) with ((a ++ [preview_entry y u]) ++ k) in E by (rewrite <- app_assoc; reflexivity).
      apply (IH _ _ _ (b ++ [preview_entry y u])) in E. rewrite E, <- app_assoc. reflexivity.
Qed.
(** ** one sampling interval later *)
Lemma preview_same_stance f s s' T : cur s' = cur s -> ss_left s' = ss_left s -> fparams s' = fparams s -> cur_time s' = cur_time s + T -> forall t s1 n1 l, 0 < t ->
  preview_loop f s' t [] = Finished (Ok (s1, n1, l)) -> exists s2 L, preview_loop f s (t + T) [] = Finished (Ok (s2, n1, L)) /\
    (l = [] /\ L = [] \/ exists e e' r, l = e' :: r /\ L = e :: r /\ duration e = duration e' + T /\ st_type e = st_type e').
Proof.
  intros C S P Ct t s1 n1 l TP H. destruct f as [|f]; [cbn in H; destruct (Nat.eqb_spec t 0); [lia|discriminate]|].
  cbn [preview_loop] in H |- *. destruct (Nat.eqb_spec t 0); [lia|]. destruct (Nat.eqb_spec (t + T) 0); [lia|]. rewrite C, S in H. cbv zeta in H |- *.
  destruct (Nat.leb_spec (cur_time s') (duration (cur s))) as [Le|Le]; [|discriminate]. destruct (Nat.leb_spec (cur_time s) (duration (cur s))); [|lia]. cbn [negb] in H |- *.
  replace (cur_time s + (t + T) <=? duration (cur s)) with (cur_time s' + t <=? duration (cur s)) by (f_equal; lia).
  destruct (Nat.leb_spec (cur_time s' + t) (duration (cur s))) as [Lt|Lt].
  { rewrite preview_loop_0 in H |- *. inversion H; subst. do 2 eexists. split; [reflexivity|]. right. do 3 eexists. split; [reflexivity|]. split; [reflexivity|].
    cbn [app preview_entry duration st_type]. rewrite C. split; [lia|reflexivity]. }
  destruct ((ss_left s =? 0) && match st_type (cur s) with DS => true | _ => false end).
  { inversion H; subst. do 2 eexists. split; [reflexivity|]. left. split; reflexivity. }
  assert (SS : shiftStance s' = shiftStance s) by (unfold shiftStance; rewrite C, S, P; reflexivity). rewrite SS in H.
  destruct (shiftStance s) as [x| |]; try discriminate. cbn [app] in H |- *.
  replace (t + T - (duration (cur s) - cur_time s)) with (t - (duration (cur s) - cur_time s')) by lia.
  destruct (preview_grows _ _ _ _ _ H) as (k & K). cbn [snd] in K. subst l. apply (preview_acc _ _ _ _ [preview_entry s (t + T)]) in H.
  do 2 eexists. split; [exact H|]. right. do 3 eexists. split; [reflexivity|]. split; [reflexivity|]. cbn [preview_entry duration st_type]. rewrite C. split; [lia|reflexivity].
Qed.

Lemma formed_starts p s0 s m ly ry inc f h : regular m p -> init p = Ok s0 -> reach s0 s -> cur_time s < duration (cur s) ->
  (terminal s \/ exists k, duration (cur s) - cur_time s = k * sampling_ms m) -> form f m ly ry inc s = Finished (Ok (Some h)) ->
  exists l, previewStances f s (horizon_length m * sampling_ms m) = Finished (Ok l) /\ h_steps h = below (horizon_length m) (map (fun x => x / sampling_ms m) (later_starts l)).
Proof.
  intros (Wk & HP & N2 & TP & DP & (kss & G3) & G4 & FP0 & Gf & Gl) H0 Rc CT Gc HF.
  destruct (reached p s0 s H0 Wk Rc) as (W & Hs & FP & Td & Cfg). inversion FP as [[FP1 FP2 FP3]]. clear FP.
  assert (HP' : pos_durations (fparams s)) by (unfold pos_durations in *; rewrite FP1, FP2, FP3; exact HP).
  pose proof (form_inv _ _ _ _ _ _ _ HF) as (l & b & P & HS & NE & A & _ & Fl). exists l. split; [exact P|].
  assert (NT : horizon_length m * sampling_ms m > 0) by nia.
  pose proof (preview_full _ _ _ _ NT W HP' CT P) as Dur.
  eapply first_starts; [exact TP|lia|exact A| | |exact Fl].
  - intros i e Hi Ip. destruct (Dur i e Hi) as (si & D1 & (D2 & _) & D3 & D4).
    destruct i as [|i]; [lia|]. destruct (Cfg i si D1) as (_ & Wi & C1 & C2). unfold exact2.
    destruct (st_type e) eqn:Te; simpl; intros Li; simpl in D4; rewrite D2 in C2.
    + exfalso. destruct Wi as [_ Wi]. rewrite D2 in Wi. exact Wi.
    + exfalso. apply (preview_ds_last f s (horizon_length m * sampling_ms m) l i e P); [|exact Hi|exact Te|exact Li].
      intros j x Hx. destruct (Dur j x Hx) as (sj & Y1 & Y2 & _). exists sj. split; assumption.
    + rewrite (D4 Li), C1, C2. exists kss. lia.
    + rewrite (D4 Li), C1, C2. exists kss. lia.
    + rewrite (D4 Li), C1, C2. lia.
  - intros e He Le. destruct (Dur 0 e He) as (si & D1 & (D2 & _) & D3 & D4). simpl in D1. inversion D1; subst si.
    destruct Gc as [Tm|(kc & Gc)].
    { exfalso. destruct (Nat.le_gt_cases (horizon_length m * sampling_ms m) (duration (cur s) - cur_time s)) as [L|L].
      - pose proof (preview_now f s _ _ NT ltac:(lia) L ltac:(destruct Tm as [X _]; rewrite X; discriminate) P) as K. rewrite K in Le. cbn in Le. lia.
      - apply NE. eapply preview_terminal; [exact Tm| |exact L|exact P]; lia. }
    assert (kc > 0) by (destruct kc; simpl in Gc; lia).
    destruct (is_tds (st_type e)) eqn:Te.
    + rewrite (D4 Le). assert (Tc : st_type (cur s) = TDS) by (rewrite D2; destruct (st_type e); try discriminate; reflexivity).
      pose proof (Td Tc). nia.
    + rewrite (D4 Le). exists kc. split; [lia|exact Gc].
Qed.

Lemma starts_later s l : hd_error l = Some s -> starts 0 l = (if is_tds (st_type s) then [0] else []) ++ later_starts l.
Proof. destruct l as [|x r]; [discriminate|]. cbn. intros H. injection H as ->. reflexivity. Qed.
Lemma preview_first f s t acc s' ne l : 0 < t -> ~ terminal s -> preview_loop f s t acc = Finished (Ok (s', ne, acc ++ l)) -> exists e r, l = e :: r /\ st_type e = st_type (cur s).
Proof.
  intros TP NT H. destruct f as [|f]; [cbn in H; destruct (Nat.eqb_spec t 0); [lia|discriminate]|].
  cbn [preview_loop] in H. destruct (Nat.eqb_spec t 0); [lia|]. cbv zeta in H. destruct (negb _); [discriminate|].
  destruct (cur_time s + t <=? duration (cur s)).
  { rewrite preview_loop_0 in H. injection H as <- <- X. apply app_inv_head in X. subst l. do 2 eexists. split; reflexivity. }
  destruct ((ss_left s =? 0) && match st_type (cur s) with DS => true | _ => false end) eqn:Te.
  { exfalso. apply NT. apply andb_prop in Te. destruct Te as [X Y]. split; [destruct (st_type (cur s)); try discriminate; reflexivity|apply Nat.eqb_eq; exact X]. }
  destruct (shiftStance s); try discriminate. destruct (preview_grows _ _ _ _ _ H) as (k & K). cbn [snd] in K. rewrite <- app_assoc in K. apply app_inv_head in K. subst l.
  do 2 eexists. split; reflexivity.
Qed.

(** the steps of a horizon are those of the next one, one interval later, and the one which begins at the start of the next horizon *)
Theorem steps_shift p s0 s s' m ly ry ly' ry' inc f f' g h h' : regular m p -> init p = Ok s0 -> reach s0 s -> cur_time s < duration (cur s) ->
  (terminal s \/ exists k, duration (cur s) - cur_time s = k * sampling_ms m) -> form f m ly ry inc s = Finished (Ok (Some h)) ->
  1 <= g -> shiftTime g s (sampling_ms m) = Finished (Ok s') -> form f' m ly' ry' inc s' = Finished (Ok (Some h')) ->
  h_steps h = below (horizon_length m) (map S ((if is_tds (st_type (cur s')) then [0] else []) ++ h_steps h')).
Proof.
  intros Reg H0 Rc CT Gc HF GP Sh HF'. pose proof Reg as (Wk & HP & N2 & TP & DP & (kss & G3) & G4 & FP0 & Gf & Gl).
  destruct (reached p s0 s H0 Wk Rc) as (W & Hs & FP & Td & Cfg). inversion FP as [[FP1 FP2 FP3]]. clear FP.
  destruct (formed_starts _ _ _ _ _ _ _ _ _ Reg H0 Rc CT Gc HF) as (l & P & Eh). set (N := horizon_length m) in *. set (T := sampling_ms m) in *.
  assert (NT : N * T > 0) by nia.
  assert (NE : l <> []). { pose proof (form_inv _ _ _ _ _ _ _ HF) as (q & b & P' & _ & NE & _). fold N T in P'. rewrite P in P'. injection P' as <-. exact NE. }
  assert (Rem : T <= duration (cur s) - cur_time s).
  { destruct Gc as [Tm|(k & K)].
    - destruct (Nat.le_gt_cases (N * T) (duration (cur s) - cur_time s)) as [L|L]; [nia|]. exfalso. apply NE. eapply preview_terminal; [exact Tm| |exact L|exact P]; lia.
    - destruct k; nia. }
  assert (Big : terminal s -> T < duration (cur s) - cur_time s).
  { intros Tm. destruct (Nat.le_gt_cases (N * T) (duration (cur s) - cur_time s)) as [L|L]; [nia|]. exfalso. apply NE. eapply preview_terminal; [exact Tm| |exact L|exact P]; lia. }
  destruct (machine_moves g p s0 m s s' Reg H0 Rc GP CT Rem Big Gc Sh) as (CT' & Gc' & _ & _ & _ & _).
  pose proof (reach_shift _ _ _ _ _ Rc Sh) as Rc'.
  destruct (formed_starts _ _ _ _ _ _ _ _ _ Reg H0 Rc' CT' Gc' HF') as (l' & P' & Eh'). fold N T in P', Eh'.
  destruct (machine_step g s T TP GP W CT Rem) as (s1 & Sh1 & C). rewrite Sh in Sh1. injection Sh1 as <-.
  destruct (terminal_dec s) as [Tm|Tm].
  { destruct C as [(C1 & C2 & _)|(C1 & _)]; [|specialize (Big Tm); lia].
    assert (One : forall x q k, terminal x -> cur_time x < duration (cur x) -> previewStances k x (N * T) = Finished (Ok q) -> later_starts q = []).
    { intros x q k Tx Cx Q. destruct (Nat.le_gt_cases (N * T) (duration (cur x) - cur_time x)) as [L|L].
      - rewrite (preview_now k x _ _ NT ltac:(lia) L ltac:(destruct Tx as [X _]; rewrite X; discriminate) Q). reflexivity.
      - rewrite (preview_terminal k x _ q Tx ltac:(lia) L Q). reflexivity. }
    rewrite (One s l f Tm CT P) in Eh. assert (Tm' : terminal s') by (destruct Tm; split; congruence).
    rewrite (One s' l' f' Tm' CT' P') in Eh'. rewrite Eh, Eh'. destruct Tm' as [-> _]. reflexivity. }
  destruct (preview_raw _ _ _ _ P) as (x & ne & r & R1 & R2). apply later_raw in R2. rewrite R2 in Eh. clear R2 P NE.
  destruct (preview_raw _ _ _ _ P') as (x' & ne' & r' & R1' & R2'). apply later_raw in R2'. rewrite R2' in Eh'. clear R2' P'.
  assert (L : exists k x2 ne2 q, preview_loop k s (N * T + T) [] = Finished (Ok (x2, ne2, q)) /\ later_starts q = map (fun y => y + T) ((if is_tds (st_type (cur s')) then [0] else []) ++ later_starts r')).
  { destruct C as [(C1 & C2 & C3 & C4 & _ & C5)|(C1 & C2)].
    - destruct (preview_same_stance f' s s' T C1 C2 C5 C3 (N * T) _ _ _ NT R1') as (y & q & Y & D). exists f', y, ne', q. split; [exact Y|].
      assert (Z : is_tds (st_type (cur s')) = false).
      { rewrite C1. destruct (st_type (cur s)) eqn:E; try reflexivity. specialize (Td eq_refl). lia. }
      rewrite Z. cbn [app]. destruct D as [[-> ->]|(e & e' & k & -> & -> & D1 & _)]; [reflexivity|]. cbn [later_starts]. rewrite D1. apply starts_shift.
    - exists (S f'). cbn [preview_loop]. destruct (Nat.eqb_spec (N * T + T) 0); [lia|]. destruct (Nat.leb_spec (cur_time s) (duration (cur s))); [|lia]. cbv zeta. cbn [negb].
      destruct (Nat.leb_spec (cur_time s + (N * T + T)) (duration (cur s))); [lia|].
      destruct ((ss_left s =? 0) && match st_type (cur s) with DS => true | _ => false end) eqn:Te.
      { exfalso. apply Tm. apply andb_prop in Te. destruct Te as [X Y]. split; [destruct (st_type (cur s)); try discriminate; reflexivity|apply Nat.eqb_eq; exact X]. }
      rewrite C2. replace (N * T + T - (duration (cur s) - cur_time s)) with (N * T) by lia. cbn [app].
      assert (Acc : forall b, preview_loop f' s' (N * T) b = Finished (Ok (x', ne', b ++ r'))) by (intros b; exact (preview_acc _ _ _ [] b _ _ _ R1')).
      exists x', ne', (preview_entry s (N * T + T) :: r'). split; [apply Acc|]. cbn [later_starts preview_entry duration].
      replace (Nat.min (duration (cur s) - cur_time s) (N * T + T)) with (0 + T) by lia. rewrite starts_shift. f_equal.
      destruct (terminal_dec s') as [Tm'|Tm'].
      + assert (r' = [] \/ exists e q, r' = e :: q /\ st_type e = st_type (cur s')) as [->|(e & q & -> & E)].
        { destruct f' as [|k]; [cbn in R1'; destruct (Nat.eqb_spec (N * T) 0); [lia|discriminate]|]. cbn [preview_loop] in R1'. destruct (Nat.eqb_spec (N * T) 0); [lia|]. cbv zeta in R1'.
          destruct (negb _); [discriminate|]. destruct (_ <=? _); [rewrite preview_loop_0 in R1'; injection R1' as <- <- <-; right; do 2 eexists; split; reflexivity|].
          destruct Tm' as [Z1 Z2]. rewrite Z1, Z2 in R1'. injection R1' as <- <- <-. left. reflexivity. }
        * destruct Tm' as [-> _]. reflexivity.
        * rewrite (starts_later e) by reflexivity. rewrite E. reflexivity.
      + destruct (preview_first f' s' (N * T) [] x' ne' r' NT Tm' R1') as (e & q & -> & E). rewrite (starts_later e) by reflexivity. rewrite E. reflexivity. }
  destruct L as (k & x2 & ne2 & q & Q1 & Q2).
  set (F := Nat.max f k). pose proof (preview_loop_mono f s (N * T) [] _ F R1 ltac:(unfold F; lia)) as M1. pose proof (preview_loop_mono k s (N * T + T) [] _ F Q1 ltac:(unfold F; lia)) as M2.
  pose proof (preview_longer F s (N * T) T [] [] _ _ r _ _ q 0 M1 M2) as E. cbn [Nat.add] in E.
  destruct (preview_first F s (N * T) [] _ _ r NT Tm M1) as (e & t & -> & Et). destruct (preview_first F s (N * T + T) [] _ _ q ltac:(lia) Tm M2) as (e2 & t2 & -> & Et2).
  rewrite (starts_later e) in E by reflexivity. rewrite (starts_later e2) in E by reflexivity. rewrite Et, Et2, !below_app in E. apply app_inv_head in E.
  rewrite Eh, below_div, E, Q2 by exact TP. rewrite <- below_div by exact TP. rewrite map_map.
  replace (map (fun y => (y + T) / T) ((if is_tds (st_type (cur s')) then [0] else []) ++ later_starts r')) with (map S (map (fun y => y / T) ((if is_tds (st_type (cur s')) then [0] else []) ++ later_starts r'))).
  2:{ rewrite map_map. apply map_ext. intros y. replace (y + T) with (y + 1 * T) by lia. rewrite Nat.div_add by lia. lia. }
  rewrite !map_app, !below_app. f_equal.
  - destruct (is_tds (st_type (cur s'))); [|reflexivity]. cbn [map]. rewrite Nat.div_0_l by lia. reflexivity.
  - rewrite Eh', below_map_S. reflexivity.
Qed.
Lemma below_length n l : length (below n l) <= length l.
Proof. unfold below. induction l as [|a r IH]; [cbn; lia|]. cbn [filter]. destruct (a <? n); cbn [length]; lia. Qed.
Lemma below_loses N l : StronglySorted lt l -> Forall (fun i => i < N) l -> length l <= S (length (below N (map S l))).
Proof.
  intros S F. induction S as [|a r S IH H]; [cbn; lia|]. inversion F; subst. cbn [map]. unfold below. cbn [filter]. fold (below N (map Datatypes.S r)).
  destruct (Nat.ltb_spec (Datatypes.S a) N) as [L|L]; [cbn [length]; specialize (IH H3); lia|].
  destruct r as [|b r]; [cbn; lia|]. exfalso. inversion H; subst. inversion H3; subst. lia.
Qed.
(** the number of steps changes by at most one *)
Theorem steps_number p s0 s s' m ly ry ly' ry' inc f f' g h h' : regular m p -> init p = Ok s0 -> reach s0 s -> cur_time s < duration (cur s) ->
  (terminal s \/ exists k, duration (cur s) - cur_time s = k * sampling_ms m) -> form f m ly ry inc s = Finished (Ok (Some h)) ->
  1 <= g -> shiftTime g s (sampling_ms m) = Finished (Ok s') -> form f' m ly' ry' inc s' = Finished (Ok (Some h')) ->
  length (h_steps h) <= S (length (h_steps h')) /\ length (h_steps h') <= S (length (h_steps h)).
Proof.
  intros Reg H0 Rc CT Gc HF GP Sh HF'. rewrite (steps_shift _ _ _ _ _ _ _ _ _ _ _ _ _ _ _ Reg H0 Rc CT Gc HF GP Sh HF').
  destruct (form_filled _ _ _ _ _ _ _ HF') as ((_ & _ & So & Fo & _) & _).
  split.
  - etransitivity; [apply below_length|]. rewrite map_length, app_length. destruct (is_tds (st_type (cur s'))); cbn [length]; lia.
  - rewrite map_app, below_app, app_length. pose proof (below_loses _ _ So Fo). lia.
Qed.
