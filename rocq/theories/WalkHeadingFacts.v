(** * Headings of the previewed walk states *)
From Coq Require Import List Arith Bool Reals Lia Lra.
From Verif Require Import Base BaseFacts StanceFSM StanceSpec StanceFSMFacts StanceFSMFacts2 StanceTimeFacts WalkPreview WalkPreviewSpec WalkPreviewFacts WalkPreviewFacts2.
Import ListNotations.

Lemma chain_skipn k : forall l, chain l -> chain (skipn k l).
Proof. induction k as [|k IH]; intros l H; [exact H|]. destruct l as [|a r]; [exact I|]. apply IH, H. Qed.
Lemma preview_states_skipn inc k : forall l h ws, preview_states inc h l = Ok ws ->
  exists h', preview_states inc h' (skipn k l) = Ok (skipn k ws).
Proof.
  induction k as [|k IH]; intros l h ws H; [eauto|].
  destruct l as [|a r]; simpl in H; [inversion H; subst; exists h; reflexivity|].
  apply bind_ok in H. destruct H as ([h1 w] & H1 & H). apply bind_ok in H. destruct H as (ws1 & H2 & H). inversion H; subst.
  simpl. eapply IH; eassumption.
Qed.

(** consecutive stances of the machine *)
Lemma follows_ss a b : follows a b -> is_ss (st_type a) = true -> st_type b = TDS /\ prev_nontds b = st_type a /\ prev_nonds b = st_type a.
Proof.
  intros (s & s' & (K1 & _) & (K2 & K4 & K3 & _) & S & _) H. rewrite <- K1 in H |- *. rewrite <- K2, <- K3, <- K4.
  unfold shiftStance in S. destruct (st_type (cur s)) eqn:T; try discriminate; simpl in S; inversion S; auto.
Qed.
Lemma follows_ds a b : follows a b -> st_type a = DS -> st_type b = TDS /\ prev_nontds b = DS.
Proof.
  intros (s & s' & (K1 & _) & (K2 & _ & K3 & _) & S & N) H. rewrite <- K1 in H. rewrite <- K2, <- K3.
  unfold shiftStance in S. unfold terminal in N. rewrite H in S, N. destruct (ss_left s); [exfalso; apply N; auto|]. inversion S; auto.
Qed.
Lemma follows_tds a b : follows a b -> st_type a = TDS -> st_type b = DS \/ st_type b = opp (prev_nonds a) /\ is_ss (prev_nonds a) = true.
Proof.
  intros (s & s' & (K1 & K4 & _) & (K2 & _) & S & _) H. rewrite <- K1 in H. rewrite <- K2, <- K4.
  unfold shiftStance in S. rewrite H in S. destruct (ss_left s); simpl in S; [inversion S; auto|].
  destruct (prev_nonds (cur s)); try discriminate; inversion S; auto.
Qed.

Ltac fin H := apply bind_ok in H; let x := fresh in destruct H as (x & _ & H); inversion H; subst; clear H; simpl.
(** one state *)
Lemma ps_ss inc h e n h1 w : preview_state inc h e n = Ok (h1, w) -> is_ss (st_type e) = true ->
  h1 = h /\ ws_theta w = match st_type e with LSS => lss_th h | _ => rss_th h end.
Proof. unfold preview_state. destruct (st_type e); try discriminate; intros H _; fin H; auto. Qed.
Lemma ps_ds inc h e n h1 w : preview_state inc h e n = Ok (h1, w) -> st_type e = DS -> h1 = h /\ ws_theta w = ds_th h.
Proof. unfold preview_state. intros H T. rewrite T in H. destruct (subtype e); try discriminate; fin H; auto. Qed.
(** transitional support between two single supports, or before the final double support *)
Lemma ps_tds inc h e t h1 w : preview_state inc h e (Some t) = Ok (h1, w) -> st_type e = TDS ->
  (prev_nontds e = LSS -> t = RSS -> lss_th h1 = lss_th h /\ rss_th h1 = (lss_th h + inc)%R /\ ws_theta w = (lss_th h + inc)%R) /\
  (prev_nontds e = RSS -> t = LSS -> rss_th h1 = rss_th h /\ lss_th h1 = (rss_th h + inc)%R /\ ws_theta w = (rss_th h + inc)%R) /\
  (prev_nontds e = LSS -> t = DS -> ds_th h1 = lss_th h /\ ws_theta w = lss_th h) /\
  (prev_nontds e = RSS -> t = DS -> ds_th h1 = rss_th h /\ ws_theta w = rss_th h) /\
  (prev_nontds e = DS -> is_ss t = true -> h1 = h /\ ws_theta w = ds_th h).
Proof.
  unfold preview_state. intros H T. rewrite T in H.
  destruct (prev_nontds e), t; simpl in H; inversion H; subst; simpl; repeat split; intros; try discriminate; auto.
Qed.

Lemma opp_cases t : is_ss t = true -> t = LSS \/ t = RSS.
Proof. destruct t; try discriminate; auto. Qed.

(** three consecutive states [a], [t], [b] around a transitional double support *)
Lemma headings_around inc h a t b r ws : preview_states inc h (a :: t :: b :: r) = Ok ws -> chain (a :: t :: b :: r) -> st_type t = TDS ->
  exists wa wt wb wr, ws = wa :: wt :: wb :: wr /\
   (is_ss (st_type a) = true -> is_ss (st_type b) = true ->
      st_type b = opp (st_type a) /\ ws_theta wb = (ws_theta wa + inc)%R /\ ws_theta wt = ws_theta wb) /\
   (is_ss (st_type a) = true -> st_type b = DS -> ws_theta wb = ws_theta wa /\ ws_theta wt = ws_theta wa) /\
   (st_type a = DS -> is_ss (st_type b) = true -> ws_theta wb = foot_yaw (lss_th h) (rss_th h) (st_type b) /\ ws_theta wt = ws_theta wa).
Proof.
  intros H (F1 & F2 & _) T. cbn [preview_states hd_error option_map] in H.
  apply bind_ok in H. destruct H as ([h1 w] & P & H). apply bind_ok in H. destruct H as (ws1 & Q & H). inversion H; subst ws; clear H.
  apply bind_ok in Q. destruct Q as ([h2 w0] & P0 & H). apply bind_ok in H. destruct H as (ws2 & Q & H). inversion H; subst ws1; clear H.
  apply bind_ok in Q. destruct Q as ([h3 w1] & P1 & H). apply bind_ok in H. destruct H as (ws3 & Q & H). inversion H; subst ws2; clear H.
  exists w, w0, w1, ws3. split; [reflexivity|].
  pose proof (ps_tds _ _ _ _ _ _ P0 T) as (A1 & A2 & A3 & A4 & A5).
  split; [|split].
  - intros Ta Tb. destruct (follows_ss _ _ F1 Ta) as (_ & Pv & Pn). destruct (ps_ss _ _ _ _ _ _ P Ta) as [-> Wa].
    destruct (ps_ss _ _ _ _ _ _ P1 Tb) as [_ Wb]. rewrite Wa, Wb.
    destruct (follows_tds _ _ F2 T) as [Ds|[Op _]]; [rewrite Ds in Tb; discriminate|]. rewrite Pn in Op. split; [exact Op|].
    destruct (opp_cases _ Ta) as [Z|Z]; rewrite Z in *; simpl in Op; rewrite Op in *.
    + destruct (A1 Pv eq_refl) as (B1 & B2 & B3). rewrite B2, B3. auto.
    + destruct (A2 Pv eq_refl) as (B1 & B2 & B3). rewrite B2, B3. auto.
  - intros Ta Tb. destruct (follows_ss _ _ F1 Ta) as (_ & Pv & Pn). destruct (ps_ss _ _ _ _ _ _ P Ta) as [-> Wa].
    destruct (ps_ds _ _ _ _ _ _ P1 Tb) as [_ Wb]. rewrite Wa, Wb.
    destruct (opp_cases _ Ta) as [Z|Z]; rewrite Z in *.
    + destruct (A3 Pv Tb) as (B1 & B2). auto.
    + destruct (A4 Pv Tb) as (B1 & B2). auto.
  - intros Ta Tb. destruct (follows_ds _ _ F1 Ta) as [_ Pv]. destruct (ps_ds _ _ _ _ _ _ P Ta) as [-> Wa].
    destruct (ps_ss _ _ _ _ _ _ P1 Tb) as [_ Wb]. destruct (A5 Pv Tb) as [-> Wt]. rewrite Wa, Wb, Wt.
    unfold foot_yaw. destruct (st_type b); auto.
Qed.

Lemma skipn_nth {A} (l : list A) : forall k a, nth_error l k = Some a -> skipn k l = a :: skipn (S k) l.
Proof.
  induction l as [|x l IH]; intros [|k] a H; try discriminate; simpl in H.
  - inversion H; reflexivity.
  - simpl. rewrite (IH k a H). reflexivity.
Qed.
Lemma skipn3 {A} (l : list A) k a t b : nth_error l k = Some a -> nth_error l (S k) = Some t -> nth_error l (S (S k)) = Some b ->
  skipn k l = a :: t :: b :: skipn (S (S (S k))) l.
Proof. intros. rewrite (skipn_nth l k a), (skipn_nth l (S k) t), (skipn_nth l (S (S k)) b); auto. Qed.
Lemma nth_skipn {A} (l : list A) : forall k i, nth_error (skipn k l) i = nth_error l (k + i).
Proof. induction l as [|x l IH]; intros [|k] i; simpl; auto. destruct i; reflexivity. Qed.

Lemma form_headings f m ly ry inc s h : form f m ly ry inc s = Finished (Ok (Some h)) ->
  forall k ta tha tht tb thb,
  heading_at (h_states h) k ta tha -> heading_at (h_states h) (S k) TDS tht -> heading_at (h_states h) (S (S k)) tb thb ->
  (is_ss ta = true -> is_ss tb = true -> tb = opp ta /\ thb = (tha + inc)%R /\ tht = thb) /\
  (is_ss ta = true -> tb = DS -> thb = tha /\ tht = tha) /\
  (k = 0 -> ta = DS -> is_ss tb = true -> thb = foot_yaw ly ry tb /\ tht = tha).
Proof.
  intros H k ta tha tht tb thb (wa & A1 & A2 & A3) (wt & T1 & T2 & T3) (wb & B1 & B2 & B3).
  apply form_inv in H. destruct H as (l & _ & P & HS & _ & _ & _ & _).
  destruct (previewStances_chain _ _ _ _ P) as [Ch _].
  pose proof (preview_states_stances _ _ _ _ HS) as El.
  assert (L : forall i w, nth_error (h_states h) i = Some w -> nth_error l i = Some (ws_stance w)).
  { intros i w E. rewrite <- El, nth_error_map, E. reflexivity. }
  destruct (preview_states_skipn inc k _ _ _ HS) as [h' Hk].
  pose proof (skipn3 _ _ _ _ _ (L _ _ A1) (L _ _ T1) (L _ _ B1)) as Sk.
  pose proof (chain_skipn k l Ch) as Ck. rewrite Sk in Hk, Ck.
  assert (Tt : st_type (ws_stance wt) = TDS) by exact T2.
  destruct (headings_around _ _ _ _ _ _ _ Hk Ck Tt) as (va & vt & vb & vr & E & R1 & R2 & R3).
  rewrite (skipn3 _ _ _ _ _ A1 T1 B1) in E. inversion E; subst va vt vb. clear E.
  subst ta tha tht tb thb. split; [exact R1|]. split; [exact R2|].
  intros -> Ta Tb.
  (* at the beginning the headings are those of the feet *)
  rewrite <- Sk in Hk, Ck. simpl skipn in *.
  assert (Sk' : l = ws_stance wa :: ws_stance wt :: ws_stance wb :: skipn 3 l) by exact Sk.
  rewrite Sk' in HS, Ch. destruct (headings_around _ _ _ _ _ _ _ HS Ch Tt) as (va & vt & vb & vr2 & E & _ & _ & R4).
  rewrite E in A1, T1, B1. simpl in A1, T1, B1. inversion A1; inversion T1; inversion B1; subst.
  exact (R4 Ta Tb).
Qed.

(** the first state *)
Lemma form_first_heading f m ly ry inc s h : form f m ly ry inc s = Finished (Ok (Some h)) ->
  (is_ss (st_type (cur s)) = true -> heading_at (h_states h) 0 (st_type (cur s)) (foot_yaw ly ry (st_type (cur s)))) /\
  (st_type (cur s) = DS -> heading_at (h_states h) 0 DS ((ly + ry) / 2)%R) /\
  (st_type (cur s) = TDS -> history_ok s -> exists tht tb thb,
     heading_at (h_states h) 0 TDS tht /\ heading_at (h_states h) 1 tb thb /\
     (is_ss tb = true -> is_ss (prev_nontds (cur s)) = true -> tb = opp (prev_nontds (cur s)) /\ thb = (foot_yaw ly ry (prev_nontds (cur s)) + inc)%R /\ tht = thb) /\
     (is_ss tb = true -> prev_nontds (cur s) = DS -> thb = foot_yaw ly ry tb /\ tht = ((ly + ry) / 2)%R) /\
     (tb = DS -> is_ss (prev_nontds (cur s)) = true -> thb = foot_yaw ly ry (prev_nontds (cur s)) /\ tht = thb)).
Proof.
  intros H. apply form_inv in H. destruct H as (l & _ & P & HS & NE & _ & _ & _).
  destruct (previewStances_chain _ _ _ _ P) as [Ch Fs].
  destruct l as [|a r]; [contradiction|]. destruct (Fs a r eq_refl) as (K1 & K4 & K3 & _). rewrite K1.
  cbn [preview_states hd_error option_map] in HS.
  apply bind_ok in HS. destruct HS as ([h1 w] & P1 & HS). apply bind_ok in HS. destruct HS as (ws1 & Q & HS). inversion HS as [HS']. clear HS.
  pose proof (preview_state_stance _ _ _ _ _ _ P1) as E1.
  unfold heading_at. rewrite K3. simpl. split; [|split].
  - intros T. destruct (ps_ss _ _ _ _ _ _ P1 T) as [_ Wt]. exists w. split; [reflexivity|]. rewrite E1. split; [reflexivity|].
    rewrite Wt. unfold foot_yaw. destruct (st_type a); reflexivity.
  - intros T. destruct (ps_ds _ _ _ _ _ _ P1 T) as [_ Wt]. exists w. rewrite E1. auto.
  - intros T Hi. unfold history_ok in Hi. rewrite K1, T, K3, K4 in Hi. destruct r as [|b r].
    { unfold preview_state in P1. rewrite T in P1. discriminate. }
    cbn [preview_states hd_error option_map] in Q.
    apply bind_ok in Q. destruct Q as ([h2 w2] & P2 & Q). apply bind_ok in Q. destruct Q as (ws2 & _ & Q). inversion Q; subst ws1.
    pose proof (preview_state_stance _ _ _ _ _ _ P2) as E2. simpl in P1.
    pose proof (ps_tds _ _ _ _ _ _ P1 T) as (A1 & A2 & A3 & A4 & A5).
    exists (ws_theta w), (st_type b), (ws_theta w2). split; [exists w; rewrite E1; auto|]. split; [exists w2; rewrite E2; auto|].
    destruct Ch as [F _]. destruct (follows_tds _ _ F T) as [Ds|[Op Ss]].
    + rewrite Ds. split; [discriminate|]. split; [discriminate|]. intros _ Sp.
      destruct (ps_ds _ _ _ _ _ _ P2 Ds) as [_ Wb]. rewrite Wb.
      destruct (opp_cases _ Sp) as [Z|Z]; rewrite Z in *; [destruct (A3 eq_refl Ds)|destruct (A4 eq_refl Ds)]; simpl in *; split; congruence.
    + assert (Sb : is_ss (st_type b) = true) by (rewrite Op; destruct (prev_nonds a); try discriminate; reflexivity).
      destruct (ps_ss _ _ _ _ _ _ P2 Sb) as [_ Wb]. rewrite Wb. split; [|split].
      * intros _ Sp. destruct Hi as [[Hi _]|[_ Hi]]; [rewrite Hi in Sp; discriminate|]. rewrite Hi in Op. split; [exact Op|].
        destruct (opp_cases _ Sp) as [Z|Z]; rewrite Z in *; simpl in Op; rewrite Op.
        { destruct (A1 eq_refl Op) as (B1 & B2 & B3). simpl in *. rewrite B2, B3. auto. }
        { destruct (A2 eq_refl Op) as (B1 & B2 & B3). simpl in *. rewrite B2, B3. auto. }
      * intros _ Ds. destruct (A5 Ds Sb) as [-> Wt]. rewrite Wt. simpl. unfold foot_yaw. destruct (st_type b); auto.
      * intros Ds. rewrite Ds in Sb. discriminate.
Qed.
