(** * When the walking preview horizon cannot be formed; bounds of the previewed states *)
From Coq Require Import List Arith Bool Reals Sorted Lia.
From Verif Require Import Base BaseFacts StanceFSM StanceSpec StanceFSMFacts StanceFSMFacts2 StanceTimeFacts WalkPreview WalkPreviewSpec
  WalkPreviewFacts WalkPreviewFacts2 WalkHeadingFacts.
Import ListNotations.

(** a list of stances which ends with a transitional double support *)
Lemma preview_states_tds_last inc : forall l h e, st_type e = TDS -> preview_states inc h (l ++ [e]) = Throw.
Proof.
  induction l as [|a r IH]; intros h e T.
  - simpl. unfold preview_state. rewrite T. reflexivity.
  - simpl. destruct (preview_state inc h a _) as [[h1 w]| |] eqn:E; simpl; try reflexivity.
    + rewrite IH by assumption. reflexivity.
    + exfalso. clear - E. unfold preview_state in E.
      assert (F : forall s, fd_of s <> UB).
      { intros s. unfold fd_of. destruct (subtype s), (st_type s), (prev_nontds s); discriminate. }
      destruct (st_type a) eqn:T; try discriminate.
      * destruct (subtype a); try discriminate; destruct (fd_of a) eqn:G; try discriminate; exact (F _ G).
      * destruct (fd_of a) eqn:G; try discriminate; exact (F _ G).
      * destruct (fd_of a) eqn:G; try discriminate; exact (F _ G).
      * destruct (option_map st_type (hd_error (r ++ [e]))) as [t|]; [|discriminate].
        destruct t, (prev_nontds a); simpl in E; discriminate.
Qed.

(** when the states run out, the final double support is not listed *)
Lemma preview_loop_nonterminal f : forall s T acc s' l', preview_loop f s T acc = Finished (Ok (s', true, l')) ->
  exists l, l' = acc ++ l /\ forall i si, i < length l -> shifts i s = Ok si -> ~ terminal si.
Proof.
  induction f as [|f IH]; intros s T acc s' l' H.
  - destruct (Nat.eq_dec T 0) as [->|N].
    + simpl in H. discriminate.
    + simpl in H. destruct (Nat.eqb_spec T 0); [contradiction|discriminate].
  - destruct (Nat.eq_dec T 0) as [->|N].
    { rewrite preview_loop_0 in H. discriminate. }
    cbn [preview_loop] in H. destruct (Nat.eqb_spec T 0); [contradiction|].
    destruct (negb _); [discriminate|]. cbv zeta in H.
    destruct (_ <=? _); [rewrite preview_loop_0 in H; discriminate|].
    destruct ((ss_left s =? 0) && match st_type (cur s) with DS => true | _ => false end) eqn:Term.
    { inversion H; subst. exists []. rewrite app_nil_r. split; [reflexivity|]. simpl. lia. }
    destruct (shiftStance s) as [s2| |] eqn:E; try discriminate.
    apply IH in H. destruct H as (l & -> & F). exists (preview_entry s T :: l).
    split; [rewrite <- app_assoc; reflexivity|]. intros [|i] si L S; simpl in S.
    + inversion S; subst. intros [T1 T2]. rewrite T1, T2 in Term. discriminate.
    + rewrite E in S. simpl in S. apply (F i); [simpl in L; lia|exact S].
Qed.

(** the walk ends within the horizon, but not in the current stance: exception instead of "not formed" *)
Lemma form_walk_too_short m s ly ry inc f r l g : wf s -> pos_durations (fparams s) -> cur_time s < duration (cur s) ->
  horizon_length m * sampling_ms m > 0 ->
  previewStances g s (horizon_length m * sampling_ms m) = Finished (Ok l) -> psum l (length l) < horizon_length m * sampling_ms m ->
  ~ terminal s -> form f m ly ry inc s = Finished r -> r = Throw.
Proof.
  intros W HP CT TP P' Short NT HF. unfold form in HF.
  destruct (previewStances f s (horizon_length m * sampling_ms m)) as [o|] eqn:P; [|discriminate].
  pose proof (previewStances_det _ _ _ _ _ _ P P') as ->. clear P' g.
  destruct (preview_correct _ _ _ _ W HP CT TP P) as (Kind & _ & Alt).
  destruct Alt as [[Sum _]|[_ (s' & S1 & S2 & _)]]; [lia|].
  destruct l as [|e l' _] using rev_ind.
  - simpl in S1. inversion S1; subst. contradiction.
  - assert (T : st_type e = TDS).
    { destruct (Kind (length l') e) as (si & K1 & (K2 & _)).
      { rewrite nth_error_app2, Nat.sub_diag by lia. reflexivity. }
      assert (NTi : ~ terminal si).
      { unfold previewStances in P. destruct (preview_loop f s _ []) as [[z| |]|] eqn:E; try discriminate.
        destruct z as [[z ne] l0]. destruct ne.
        - inversion P; subst l0. apply preview_loop_nonterminal in E. destruct E as (l1 & E & F). simpl in E. subst l1.
          apply (F (length l')); [rewrite app_length; simpl; lia|exact K1].
        - exfalso. destruct (preview_loop_spec _ _ _ _ _ _ _ E W HP CT) as (l1 & E1 & Hs & _). simpl in E1. subst l0.
          specialize (Hs eq_refl). destruct (last (map (@Some stance) l1) None) as [b|]; [|discriminate].
          destruct (is_tds (st_type b)); [|inversion P; subst l1; lia].
          assert (Hp : forall q, psum (l1 ++ [q]) (length (l1 ++ [q])) >= psum l1 (length l1)).
          { intros q. clear. induction l1 as [|x l1 IH]; simpl; lia. }
          destruct (if is_tds (st_type (cur z)) then shiftStance z else Ok z) as [f0| |]; try discriminate. inversion P as [P']. rewrite <- P' in Short.
          specialize (Hp (preview_last_entry f0)). lia. }
      rewrite app_length in S1. simpl in S1. rewrite Nat.add_1_r, shifts_S_r, K1 in S1. simpl in S1.
      rewrite <- K2. destruct S2 as [S2 S3]. unfold shiftStance in S1. unfold terminal in NTi.
      destruct (st_type (cur si)) eqn:T; try reflexivity; try discriminate; simpl in S1.
      - exfalso. destruct (ss_left si) eqn:Z; [apply NTi; auto|]. simpl in S1. inversion S1; subst s'. discriminate.
      - inversion S1; subst s'. discriminate.
      - inversion S1; subst s'. discriminate. }
    rewrite preview_states_tds_last in HF by exact T. simpl in HF. congruence.
Qed.

(** after the end of the walk *)
Lemma form_after_end m s ly ry inc f r : terminal s -> subtype (cur s) = INTERMEDIATE -> cur_time s <= duration (cur s) ->
  0 < horizon_length m * sampling_ms m <= duration (cur s) - cur_time s ->
  form f m ly ry inc s = Finished r -> r = Throw.
Proof.
  intros [T1 T2] Su CT [TP LE] HF. unfold form, previewStances in HF. destruct f as [|f]; cbn [preview_loop] in HF.
  - destruct (Nat.eqb_spec (horizon_length m * sampling_ms m) 0); [lia|discriminate].
  - destruct (Nat.eqb_spec (horizon_length m * sampling_ms m) 0); [lia|].
    destruct (Nat.leb_spec (cur_time s) (duration (cur s))); [|lia]. cbn [negb] in HF. cbv zeta in HF.
    destruct (Nat.leb_spec (cur_time s + horizon_length m * sampling_ms m) (duration (cur s))); [|lia].
    rewrite preview_loop_0 in HF. simpl in HF. rewrite T1 in HF. simpl in HF. unfold preview_state in HF. simpl in HF.
    rewrite T1, Su in HF. simpl in HF. congruence.
Qed.

(** a walk with a single support of one and a half sampling intervals *)
Definition off_grid_params : params := mkParams LSS ST_UNDEFINED DS 150 100 150 1000 4.
Lemma form_off_grid ly ry inc : exists s, init off_grid_params = Ok s /\
  form 20 (mkMpc 9 100 100 100) ly ry inc s = Finished Throw.
Proof. eexists. split; [reflexivity|]. vm_compute. reflexivity. Qed.

(** bounds on the foot positions and on the CoP *)
Lemma form_bounds f m ly ry inc s h : form f m ly ry inc s = Finished (Ok (Some h)) ->
  forall k a t b, nth_error (h_states h) k = Some a -> nth_error (h_states h) (S k) = Some t -> nth_error (h_states h) (S (S k)) = Some b ->
  st_type (ws_stance t) = TDS ->
  ws_fd b = (match st_type (ws_stance b) with
             | DS => match st_type (ws_stance a) with LSS => FdBounds false AlignedToSS | _ => FdBounds true AlignedToSS end
             | LSS => FdBounds true (match st_type (ws_stance a) with DS => WithRespectToADS | _ => WithRespectToSS end)
             | _ => FdBounds false (match st_type (ws_stance a) with DS => WithRespectToADS | _ => WithRespectToSS end)
             end) /\
  ws_cop b = (match st_type (ws_stance b) with DS => CopADS | _ => CopSS end).
Proof.
  intros H k a t b A T B Tt. apply form_inv in H. destruct H as (l & _ & P & HS & _ & _ & _ & _).
  destruct (previewStances_chain _ _ _ _ P) as [Ch _].
  pose proof (preview_states_stances _ _ _ _ HS) as El.
  assert (L : forall i w, nth_error (h_states h) i = Some w -> nth_error l i = Some (ws_stance w)).
  { intros i w E. rewrite <- El, nth_error_map, E. reflexivity. }
  destruct (preview_states_skipn inc (S (S k)) _ _ _ HS) as [h' Hk].
  pose proof (skipn3 _ _ _ _ _ (L _ _ A) (L _ _ T) (L _ _ B)) as Sk.
  pose proof (chain_skipn k l Ch) as Ck. rewrite Sk in Ck. destruct Ck as (F1 & F2 & _).
  rewrite (skipn_nth l _ _ (L _ _ B)), (skipn_nth _ _ _ B) in Hk. cbn [preview_states] in Hk.
  apply bind_ok in Hk. destruct Hk as ([h1 w] & Pw & Hk). apply bind_ok in Hk. destruct Hk as (ws1 & _ & Hk). inversion Hk; subst w. clear Hk.
  set (sa := ws_stance a) in *. set (st := ws_stance t) in *. set (sb := ws_stance b) in *.
  (* the subtype of b is not FIRST and its history is that of t *)
  assert (X : subtype sb <> FIRST /\ prev_nontds sb = prev_nontds st /\ prev_nonds sb = prev_nonds st /\
      (st_type sb = DS \/ st_type sb = opp (prev_nonds st) /\ is_ss (prev_nonds st) = true)).
  { split; [|split; [|split; [|apply (follows_tds _ _ F2 Tt)]]].
    - destruct F2 as (x & y & (K1 & K2 & K3 & K4) & (J1 & J2 & J3 & J4) & S & _). apply step_bookkeeping in S.
      destruct S as (_ & _ & _ & _ & _ & _ & S & _). congruence.
    - destruct F2 as (x & y & (K1 & K2 & K3 & K4) & (J1 & J2 & J3 & J4) & S & _). apply step_bookkeeping in S.
      destruct S as (_ & _ & _ & S & _). rewrite <- J3, <- K3, S, K1, Tt. reflexivity.
    - destruct F2 as (x & y & (K1 & K2 & K3 & K4) & (J1 & J2 & J3 & J4) & S & _). apply step_bookkeeping in S.
      destruct S as (_ & _ & _ & _ & S & _). rewrite <- J2, <- K2, S, K1, Tt. reflexivity. }
  destruct X as (X1 & X2 & X3 & X4).
  assert (Y : st_type sa = DS /\ prev_nontds st = DS \/ is_ss (st_type sa) = true /\ prev_nontds st = st_type sa /\ prev_nonds st = st_type sa).
  { pose proof (follows_alternate _ _ F1) as Al. rewrite Tt in Al. destruct (st_type sa) eqn:Ta; try discriminate.
    - exfalso. destruct F1 as (x & y & (K1 & _) & _ & S & _). rewrite Ta in K1. unfold shiftStance in S. rewrite K1 in S. discriminate.
    - left. split; [reflexivity|]. eapply follows_ds; eassumption.
    - right. split; [reflexivity|]. rewrite <- Ta. eapply follows_ss; [exact F1|rewrite Ta; reflexivity].
    - right. split; [reflexivity|]. rewrite <- Ta. eapply follows_ss; [exact F1|rewrite Ta; reflexivity]. }
  assert (Z : fd_of sb = Ok (ws_fd b) /\ ws_cop b = cop_of sb).
  { unfold preview_state in Pw. destruct X4 as [Ds|[Op Ss]].
    - rewrite Ds in Pw. destruct (subtype sb); try discriminate Pw; [congruence|].
      apply bind_ok in Pw. destruct Pw as (fd & Pf & Pw). inversion Pw as [[E1 E2]]. rewrite Pf. split; reflexivity.
    - destruct (prev_nonds st); try discriminate; simpl in Op; rewrite Op in Pw;
        apply bind_ok in Pw; destruct Pw as (fd & Pf & Pw); inversion Pw as [[E1 E2]]; rewrite Pf; split; reflexivity. }
  destruct Z as [Z1 Z2]. rewrite Z2. split; [|unfold cop_of; destruct (st_type sb); reflexivity].
  unfold fd_of in Z1. rewrite X2 in Z1. destruct (subtype sb) eqn:Su; try (exfalso; apply X1; reflexivity);
  (destruct X4 as [Ds|[Op Ss]];
   [ rewrite Ds in *; destruct Y as [[Y1 Y2]|(Y1 & Y2 & Y3)];
     [ rewrite Y2 in Z1; discriminate
     | rewrite Y2 in Z1; destruct (st_type sa); try discriminate; inversion Z1; reflexivity ]
   | destruct Y as [[Y1 Y2]|(Y1 & Y2 & Y3)];
     [ rewrite Y1; rewrite Y2 in Z1; destruct (prev_nonds st); try discriminate; simpl in Op; rewrite Op in *; inversion Z1; reflexivity
     | rewrite Y3 in Op; rewrite Y2 in Z1; destruct (st_type sa); try discriminate; simpl in Op; rewrite Op in *; inversion Z1; reflexivity ] ]).
Qed.
