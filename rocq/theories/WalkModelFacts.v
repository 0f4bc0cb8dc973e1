(** * Model of the walking robot: proofs *)
From Coq Require Import List Arith Bool Reals Lra Lia.
From Verif Require Import Base BaseFacts LeftRight Mat2 Mat3 FootParameters FootTrajectory PointMass6z StanceFSM StanceSpec StanceFSMFacts StanceFSMFacts2 StanceTimeFacts
  WalkPreview WalkPreviewSpec WalkPreviewFacts WalkPreviewFacts2 WalkHeadingFacts WalkPreviewFacts3 WalkMpc WalkMpcFacts WalkModel WalkModelSpec.
Import ListNotations.
Open Scope R_scope.

(** ** updates *)
Lemma support_ok s o : determineSupportPosition s = Ok o -> defined (ms_feet s) -> exists p, o = Some p /\ support_position s p.
Proof.
  unfold determineSupportPosition, support_position, support_foot. intros H D.
  destruct (ms_feet s) as [l r] eqn:F. simpl in *.
  pose proof (D LEFT) as DL. pose proof (D RIGHT) as DR. simpl in DL, DR. destruct l as [l|]; [|congruence]. destruct r as [r|]; [|congruence].
  assert (Hm : exists p, midpoint (Some (xy r)) (Some (xy l)) = Some p /\ exists l0 r0, Some l = Some l0 /\ Some r = Some r0 /\
    ux p = (vx (b_position l0) + vx (b_position r0)) / 2 /\ uy p = (vy (b_position l0) + vy (b_position r0)) / 2).
  { eexists. split; [reflexivity|]. exists l, r. do 2 (split; [reflexivity|]). cbn. split; field. }
  simpl in H. destruct (ms_stance s); try (destruct (ms_next s)); inversion H; subst o; simpl foot_of;
    try exact Hm; (eexists; split; [reflexivity|]); eexists; (split; [reflexivity|]); reflexivity.
Qed.
Ltac upd H := unfold updateState in H; cbv zeta in H;
  repeat match type of H with
  | context [match ms_stance ?s with _ => _ end] => destruct (ms_stance s) eqn:?
  | context [match determineSupportPosition ?s with _ => _ end] => destruct (determineSupportPosition s) eqn:?
  end.
Lemma update_support m s m' : updateState m s = (m', Ok tt) -> defined (ms_feet (md_state m')) ->
  exists p, md_support m' = Some p /\ support_position (md_state m') p.
Proof.
  intros H D. upd H; try discriminate; inversion H; subst m'; simpl in *; eapply support_ok; eassumption.
Qed.
Lemma update_feet m s m' o : updateState m s = (m', o) ->
  ms_com (md_state m') = ms_com s /\ ms_stance (md_state m') = ms_stance s /\ ms_next (md_state m') = ms_next s /\
  forall x, x <> LR_UNDEFINED -> foot_of (ms_feet (md_state m')) x =
    if commanded (ms_stance (md_state m)) (ms_stance s) x then foot_of (ms_feet s) x else foot_of (ms_feet (md_state m)) x.
Proof.
  intros H. upd H; inversion H; subst m'; simpl; (split; [reflexivity|]; split; [congruence|]; split; [reflexivity|]);
    intros [| |] X; try congruence; simpl; reflexivity.
Qed.
Lemma update_accepts m s : snd (updateState m s) = Ok tt <->
  match ms_stance s with
  | ST_UNDEFINED => False
  | TDS => (ms_stance (md_state m) = LSS \/ ms_stance (md_state m) = RSS \/ ms_stance (md_state m) = DS) /\
           (ms_next s = LSS \/ ms_next s = RSS \/ ms_next s = DS)
  | _ => True
  end.
Proof.
  unfold updateState. cbv zeta. unfold determineSupportPosition. simpl.
  destruct (ms_stance s); simpl; try (split; [discriminate|tauto]); try (split; auto; fail).
  destruct (ms_stance (md_state m)); simpl; try (split; [discriminate|intros ([X|[X|X]] & _); discriminate X]);
    (destruct (ms_next s); simpl; [split; [discriminate|intros (_ & [X|[X|X]]); discriminate X] | split; auto | split; auto | split; auto
      | split; [discriminate|intros (_ & [X|[X|X]]); discriminate X]]).
Qed.

(** any sequence of updates *)
Fixpoint updates (m : wpg_model) (l : list wpg_state) : outcome wpg_model :=
  match l with
  | [] => Ok m
  | s :: r => match updateState m s with (m1, Ok _) => updates m1 r | (_, Throw) => Throw | (_, UB) => UB end
  end.
(** stance of the [i]-th state of the sequence of states whose first one is that of the model *)
Definition stance_before (m : wpg_model) (l : list wpg_state) (i : nat) : stance_type :=
  match i with O => ms_stance (md_state m) | S k => match nth_error l k with Some s => ms_stance s | None => ST_UNDEFINED end end.
Lemma updates_app m l1 l2 : updates m (l1 ++ l2) = bind (updates m l1) (fun m1 => updates m1 l2).
Proof.
  revert m. induction l1 as [|s r IH]; intros m; [reflexivity|]. simpl. destruct (updateState m s) as [m1 [[]| |]]; auto.
Qed.
Lemma updates_stance m l m' : updates m l = Ok m' -> ms_stance (md_state m') = stance_before m l (length l).
Proof.
  destruct l as [|s r] using rev_ind; intros H; [inversion H; reflexivity|]. clear IHr.
  rewrite updates_app in H. apply bind_ok in H. destruct H as (m1 & H1 & H2). simpl in H2.
  destruct (updateState m1 s) as [m2 o] eqn:E. destruct o as [[]| |]; try discriminate. inversion H2; subst m2.
  destruct (update_feet _ _ _ _ E) as (_ & A & _). rewrite A, app_length, Nat.add_1_r. simpl.
  rewrite nth_error_app2, Nat.sub_diag by lia. reflexivity.
Qed.
Lemma stance_before_app m l1 l2 i : (i <= length l1)%nat -> stance_before m (l1 ++ l2) i = stance_before m l1 i.
Proof. intros H. destruct i as [|i]; [reflexivity|]. simpl. rewrite nth_error_app1 by lia. reflexivity. Qed.
(** a foot is where the last update that commanded it has put it *)
Lemma updates_foot m l m' x : updates m l = Ok m' -> x <> LR_UNDEFINED ->
  (foot_of (ms_feet (md_state m')) x = foot_of (ms_feet (md_state m)) x /\
     forall i s, nth_error l i = Some s -> commanded (stance_before m l i) (ms_stance s) x = false) \/
  (exists k s, nth_error l k = Some s /\ commanded (stance_before m l k) (ms_stance s) x = true /\
     foot_of (ms_feet (md_state m')) x = foot_of (ms_feet s) x /\
     forall i s', (k < i)%nat -> nth_error l i = Some s' -> commanded (stance_before m l i) (ms_stance s') x = false).
Proof.
  revert m'. induction l as [|s l IH] using rev_ind; intros m' H X.
  - inversion H; subst. left. split; [reflexivity|]. intros [|i] s E; discriminate.
  - rewrite updates_app in H. apply bind_ok in H. destruct H as (m1 & H1 & H2). simpl in H2.
    destruct (updateState m1 s) as [m2 o] eqn:E. destruct o as [[]| |]; try discriminate. inversion H2; subst m2. clear H2.
    destruct (update_feet _ _ _ _ E) as (_ & _ & _ & F). specialize (F x X). rewrite (updates_stance _ _ _ H1) in F.
    assert (N : nth_error (l ++ [s]) (length l) = Some s) by (rewrite nth_error_app2, Nat.sub_diag by lia; reflexivity).
    assert (B : forall i s', nth_error (l ++ [s]) i = Some s' -> (i = length l /\ s' = s) \/ ((i < length l)%nat /\ nth_error l i = Some s')).
    { intros i s' Hi. assert ((i < length (l ++ [s]))%nat) by (apply nth_error_Some; congruence). rewrite app_length in H. simpl in H.
      destruct (Nat.eq_dec i (length l)) as [->|]; [left; split; congruence|]. right. rewrite nth_error_app1 in Hi by lia. split; [lia|exact Hi]. }
    destruct (commanded (stance_before m l (length l)) (ms_stance s) x) eqn:C.
    + right. exists (length l), s. split; [exact N|]. rewrite stance_before_app by lia. split; [exact C|]. split; [exact F|].
      intros i s' Hi Hn. destruct (B i s' Hn) as [[-> _]|[L _]]; lia.
    + destruct (IH m1 H1 X) as [[A1 A2]|(k & sk & K1 & K2 & K3 & K4)].
      * left. split; [congruence|]. intros i s' Hn. destruct (B i s' Hn) as [[-> ->]|[L Hi]]; rewrite stance_before_app by lia; [exact C|eauto].
      * assert (Lk : (k < length l)%nat) by (apply nth_error_Some; congruence).
        right. exists k, sk. rewrite nth_error_app1 by exact Lk. rewrite stance_before_app by lia.
        do 2 (split; [assumption|]). split; [congruence|].
        intros i s' Hi Hn. destruct (B i s' Hn) as [[-> ->]|[L Hi']]; rewrite stance_before_app by lia; [exact C|eauto].
Qed.

(** malformed sequences which are accepted, and a well-formed one which is not *)
Definition some_body : body_state := mkBody (V3 0 0 0) (V3 0 0 0) (V3 0 0 0) (V3 0 0 0) (V3 0 0 0) (V3 0 0 0).
Lemma ss_without_landing m s : ms_stance (md_state m) = LSS -> ms_stance s = RSS -> snd (updateState m s) = Ok tt.
Proof. intros _ H. apply update_accepts. rewrite H. exact I. Qed.
Lemma longer_tds m s : ms_stance (md_state m) = TDS -> ms_stance s = TDS -> snd (updateState m s) = Throw.
Proof. intros H1 H2. unfold updateState. cbv zeta. rewrite H2, H1. reflexivity. Qed.

(** ** the control loop *)
Lemma initialize_stances fp h footpos com s m x : initializeNextModelState fp h footpos com s m = Ok x ->
  ms_stance x = st_type (cur s) /\ ms_com x = com /\ exists n, getNextStance s = Ok n /\ ms_next x = st_type n.
Proof.
  unfold initializeNextModelState. intros H. apply bind_ok in H. destruct H as (n & N & H). cbv zeta in H.
  assert (K : forall f, Ok (mkWpgState com f (st_type (cur s)) (st_type n)) = Ok x -> ms_stance x = st_type (cur s) /\ ms_com x = com /\
    exists n0, getNextStance s = Ok n0 /\ ms_next x = st_type n0).
  { intros f E. inversion E; subst x. simpl. eauto. }
  assert (K2 : forall l, bind (lr_invert l) (fun support => bind (getFootLandingState fp h footpos m l) (fun b =>
        Ok (mkWpgState com (set_foot (set_foot (ms_feet (md_state m)) l b) support (foot_of (ms_feet (md_state m)) support)) (st_type (cur s)) (st_type n)))) = Ok x ->
    ms_stance x = st_type (cur s) /\ ms_com x = com /\ exists n0, getNextStance s = Ok n0 /\ ms_next x = st_type n0).
  { intros l E. apply bind_ok in E. destruct E as (u & _ & E). apply bind_ok in E. destruct E as (b & _ & E). eapply K. exact E. }
  destruct (st_type (cur s)) eqn:T; try discriminate; try (eapply K; rewrite ?T; exact H).
  destruct (is_tds_started s); [|eapply K; exact H].
  destruct (ms_stance (md_state m)); try discriminate; first [eapply K2; exact H | eapply K; exact H].
Qed.
(** no foot moves unless a transitional double support has just begun after a single support *)
Lemma feet_rest fp h footpos com s m m' : control_step fp h footpos com m s m' ->
  is_tds_started s && is_tds (st_type (cur s)) && is_ss (ms_stance (md_state m)) = false ->
  forall x, x <> LR_UNDEFINED -> foot_of (ms_feet (md_state m')) x = foot_of (ms_feet (md_state m)) x.
Proof.
  intros (x & H1 & H2) C y Y. destruct (update_feet _ _ _ _ H2) as (_ & _ & _ & F). rewrite (F y Y). clear F.
  destruct (initialize_stances _ _ _ _ _ _ _ H1) as (E & _ & _). rewrite E.
  unfold initializeNextModelState in H1. apply bind_ok in H1. destruct H1 as (n & _ & H1). cbv zeta in H1.
  destruct (st_type (cur s)) eqn:T; try discriminate.
  - inversion H1; subst x. simpl ms_feet. match goal with |- (if ?c then _ else _) = _ => destruct c end; reflexivity.
  - inversion H1; subst x. simpl. destruct y; try congruence; reflexivity.
  - inversion H1; subst x. simpl. destruct y; try congruence; reflexivity.
  - destruct (is_tds_started s); simpl in C.
    + destruct (ms_stance (md_state m)) eqn:M; try discriminate. inversion H1; subst x. simpl. destruct y; reflexivity.
    + inversion H1; subst x. simpl ms_feet. match goal with |- (if ?c then _ else _) = _ => destruct c end; reflexivity.
Qed.
Lemma feet_stay_defined fp h footpos com s m m' : control_step fp h footpos com m s m' -> defined (ms_feet (md_state m)) ->
  defined (ms_feet (md_state m')).
Proof.
  intros St D. destruct (is_tds_started s && is_tds (st_type (cur s)) && is_ss (ms_stance (md_state m))) eqn:C.
  - destruct St as (x & H1 & H2). apply andb_true_iff in C. destruct C as [C C3]. apply andb_true_iff in C. destruct C as [C1 C2].
    destruct (initialize_stances _ _ _ _ _ _ _ H1) as (E & _ & _).
    destruct (update_feet _ _ _ _ H2) as (_ & _ & _ & F). rewrite E in F.
    unfold initializeNextModelState in H1. apply bind_ok in H1. destruct H1 as (n & _ & H1). cbv zeta in H1. rewrite C1 in H1.
    destruct (st_type (cur s)); try discriminate.
    assert (G : forall l u, lr_invert l = Ok u -> forall b, getFootLandingState fp h footpos m l = Ok b -> b <> None).
    { intros l u U b G. unfold getFootLandingState in G. destruct (h_steps h); [discriminate|].
      apply bind_ok in G. destruct G as (w & _ & G). rewrite U in G. simpl in G. apply bind_ok in G. destruct G as (p & _ & G).
      inversion G as [G1]. pose proof (D u) as Du. destruct (foot_of (ms_feet (md_state m)) u); [discriminate|congruence]. }
    intros y. destruct y.
    + simpl. change (rf (ms_feet (md_state m'))) with (foot_of (ms_feet (md_state m')) RIGHT). rewrite F by discriminate.
      destruct (ms_stance (md_state m)); try discriminate C3; simpl.
      * apply bind_ok in H1. destruct H1 as (u & U & H1). apply bind_ok in H1. destruct H1 as (b & B & H1). inversion H1; subst x. simpl in U. inversion U; subst u.
        simpl. eapply G; [|exact B]; reflexivity.
      * apply (D RIGHT).
    + rewrite F by discriminate. destruct (ms_stance (md_state m)); try discriminate C3; simpl.
      * apply (D LEFT).
      * apply bind_ok in H1. destruct H1 as (u & U & H1). apply bind_ok in H1. destruct H1 as (b & B & H1). inversion H1; subst x. simpl in U. inversion U; subst u.
        simpl. eapply G; [|exact B]; reflexivity.
    + rewrite F by discriminate. destruct (ms_stance (md_state m)); try discriminate C3; simpl.
      * apply bind_ok in H1. destruct H1 as (u & U & H1). apply bind_ok in H1. destruct H1 as (b & B & H1). inversion H1; subst x. simpl in U. inversion U; subst u.
        simpl. eapply G; [|exact B]; reflexivity.
      * apply (D RIGHT).
  - intros y. pose proof (feet_rest _ _ _ _ _ _ _ St C) as F. destruct y.
    + change (rf (ms_feet (md_state m')) <> None). change (rf (ms_feet (md_state m'))) with (foot_of (ms_feet (md_state m')) RIGHT).
      rewrite F by discriminate. apply D.
    + rewrite F by discriminate. apply D.
    + rewrite F by discriminate. apply D.
Qed.

Local Open Scope nat_scope.
Lemma form_loop_prefix N T tds : forall n rest wi idx ivs steps ivs' steps', length rest <= n ->
  form_loop N T tds wi rest idx ivs steps = Ok (ivs', steps') -> exists more, steps' = steps ++ more.
Proof.
  induction n as [|n IH]; intros rest wi idx ivs steps ivs' steps' Ln H.
  - destruct rest; [|simpl in Ln; lia]. simpl in H. destruct (N <=? idx); [|discriminate]. inversion H; subst. exists []. rewrite app_nil_r. reflexivity.
  - destruct rest as [|s r]; simpl in H.
    + destruct (N <=? idx); [|discriminate]. inversion H; subst. exists []. rewrite app_nil_r. reflexivity.
    + destruct (N <=? idx); [inversion H; subst; exists []; rewrite app_nil_r; reflexivity|].
      simpl in Ln. destruct (wi =? 0).
      * destruct (is_tds (st_type s)).
        { destruct r as [|s2 r2]; [discriminate|]. eapply IH in H; [exact H|simpl in Ln; lia]. }
        { eapply IH in H; [exact H|lia]. }
      * destruct (is_tds (st_type s)); [|discriminate]. destruct r as [|s2 r2]; [discriminate|].
        eapply IH in H; [|simpl in Ln; lia]. destruct H as [more H]. exists (idx :: more). rewrite H, <- app_assoc. reflexivity.
Qed.
Lemma shiftTime_exact g s s' : is_ss (st_type (cur s)) = true -> cur_time s < duration (cur s) ->
  shiftTime g s (duration (cur s) - cur_time s) = Finished (Ok s') -> shiftStance s = Ok s'.
Proof.
  intros T CT H. destruct g as [|g]; cbn [shiftTime] in H.
  - destruct (Nat.eqb_spec (duration (cur s) - cur_time s) 0); [lia|discriminate].
  - destruct (Nat.eqb_spec (duration (cur s) - cur_time s) 0); [lia|].
    cbn [set_tds_started cur_time cur] in H. destruct (Nat.ltb_spec (cur_time s + (duration (cur s) - cur_time s)) (duration (cur s))); [lia|].
    destruct (Nat.leb_spec (cur_time s) (duration (cur s))); [|lia]. rewrite Nat.sub_diag in H.
    assert (E : shiftStance (set_tds_started s false) = shiftStance s) by (unfold shiftStance; reflexivity).
    rewrite E in H. destruct (shiftStance s) as [s2| |]; try discriminate. destruct g; inversion H; reflexivity.
Qed.
Lemma preview_first f s T e r : T > 0 -> cur_time s <= duration (cur s) -> ~ terminal s ->
  previewStances f s T = Finished (Ok (e :: r)) -> e = preview_entry s T.
Proof.
  intros TP CT NT H. unfold previewStances in H. destruct (preview_loop f s T []) as [[x| |]|] eqn:E; try discriminate.
  destruct x as [[s' ne] l]. assert (X : exists l1, l = preview_entry s T :: l1).
  { destruct f as [|f]; cbn [preview_loop] in E.
    - destruct (Nat.eqb_spec T 0); [lia|discriminate].
    - destruct (Nat.eqb_spec T 0); [lia|]. destruct (Nat.leb_spec (cur_time s) (duration (cur s))); [|lia]. cbn [negb] in E. cbv zeta in E.
      destruct (cur_time s + T <=? duration (cur s)).
      + rewrite preview_loop_0 in E. inversion E. simpl. eauto.
      + match type of E with (if ?c then _ else _) = _ => destruct c eqn:C end.
        * exfalso. apply NT. apply andb_true_iff in C. destruct C as [C1 C2]. apply Nat.eqb_eq in C1.
          split; [|exact C1]. destruct (st_type (cur s)); try discriminate; reflexivity.
        * destruct (shiftStance s); try discriminate. apply preview_loop_chain in E. destruct E as (l1 & -> & _). simpl. eauto. }
  destruct X as [l1 ->]. destruct ne; [inversion H; reflexivity|].
  destruct (last (map Some (preview_entry s T :: l1)) None) as [b|]; [|discriminate].
  destruct (is_tds (st_type b)); [|inversion H; reflexivity].
  destruct (if is_tds (st_type (cur s')) then shiftStance s' else Ok s'); try discriminate. inversion H. reflexivity.
Qed.
(** the horizon formed in a single support which ends inside of it *)
Lemma form_first_step p s0 s mp ly ry inc f h s1 s2 : init p = Ok s0 -> walkable p -> reach s0 s -> pos_durations p ->
  is_ss (st_type (cur s)) = true -> cur_time s < duration (cur s) ->
  duration (cur s) - cur_time s <= (horizon_length mp - 1) * sampling_ms mp ->
  form f mp ly ry inc s = Finished (Ok (Some h)) -> shiftStance s = Ok s1 -> shiftStance s1 = Ok s2 ->
  exists i rest w, h_steps h = i :: rest /\ getWalkState h i = Ok w /\ nth_error (h_states h) 2 = Some w /\
    st_type (ws_stance w) = st_type (cur s2).
Proof.
  intros H0 Wk Rc HP SS CT LE HF S1 S2.
  destruct (reached p s0 s H0 Wk Rc) as (W & Hs & FP & Td & Cfg). inversion FP as [[FP1 FP2 FP3]]. clear FP.
  assert (HP' : pos_durations (fparams s)). { unfold pos_durations in *. rewrite FP1, FP2, FP3. exact HP. }
  pose proof (form_inv _ _ _ _ _ _ _ HF) as (l & b & P & HS & NE & A & TP & Fl).
  assert (NT : horizon_length mp * sampling_ms mp > 0) by nia.
  assert (NP : sampling_ms mp > 0) by nia. assert (N2 : horizon_length mp > 1) by nia.
  destruct (preview_correct _ _ _ _ W HP' CT NT P) as (Kind & _ & Alt).
  pose proof (preview_full _ _ _ _ NT W HP' CT P) as Dur.
  pose proof (preview_states_stances _ _ _ _ HS) as El.
  assert (L : forall l' e, l = l' ++ [e] -> st_type e <> TDS).
  { intros l' e E T. rewrite E in HS. rewrite preview_states_tds_last in HS by exact T. discriminate. }
  destruct l as [|e0 l]; [contradiction|].
  destruct (Dur 0 e0 eq_refl) as (si & D1 & (D2 & _) & D3 & D4). simpl in D1. inversion D1; subst si.
  assert (Te : is_tds (st_type e0) = false) by (rewrite <- D2; destruct (st_type (cur s)); try discriminate; reflexivity).
  rewrite Te in D4. destruct A as [A1 A2]. rewrite Te in A1. subst b. simpl in A2.
  assert (Sum : psum (e0 :: l) (length (e0 :: l)) = horizon_length mp * sampling_ms mp).
  { destruct Alt as [[Sum _]|[Sh _]]; [exact Sum|]. exfalso.
    assert (NTm : ~ terminal s) by (intros [X _]; rewrite X in SS; discriminate).
    pose proof (form_walk_too_short mp s ly ry inc f _ _ f W HP' CT NT P Sh NTm HF). discriminate. }
  destruct l as [|e1 l].
  { exfalso. rewrite psum_all_cons in Sum. simpl in Sum. destruct (Dur 0 e0 eq_refl) as (sj & E1 & _ & _ & _).
    assert (duration e0 <= duration (cur s) - cur_time s).
    { assert (NTm : ~ terminal s) by (intros [X _]; rewrite X in SS; discriminate). rewrite (preview_first f s _ _ _ NT ltac:(lia) NTm P). simpl. lia. }
    nia. }
  destruct l as [|e2 l].
  { exfalso. destruct A2 as [A2 _]. apply (L [e0] e1); [reflexivity|]. destruct (st_type e1); try discriminate; reflexivity. }
  specialize (D4 ltac:(simpl; lia)).
  assert (FL := Fl). cbn [form_loop] in Fl. destruct (Nat.leb_spec (horizon_length mp) 0); [lia|]. simpl (0 =? 0) in Fl. cbv iota in Fl. rewrite Te in Fl.
  assert (Ix : (if duration e0 mod sampling_ms mp =? 0 then 0 + 1 + duration e0 / sampling_ms mp - 1 else 0 + 1 + duration e0 / sampling_ms mp) < horizon_length mp).
  { rewrite D4. set (d := duration (cur s) - cur_time s) in *. pose proof (Nat.div_mod d (sampling_ms mp) ltac:(lia)) as DM.
    pose proof (Nat.mod_upper_bound d (sampling_ms mp) ltac:(lia)).
    destruct (Nat.eqb_spec (d mod sampling_ms mp) 0) as [M|M].
    - assert (d / sampling_ms mp <= horizon_length mp - 1) by (apply Nat.div_le_upper_bound; [lia|]; rewrite Nat.mul_comm; exact LE). lia.
    - assert (d / sampling_ms mp < horizon_length mp - 1).
      { apply Nat.div_lt_upper_bound; [lia|]. assert (d <> (horizon_length mp - 1) * sampling_ms mp).
        { intros E. apply M. rewrite E. apply Nat.mod_mul. lia. } lia. }
      lia. }
  set (idx := if duration e0 mod sampling_ms mp =? 0 then _ else _) in *. cbv zeta in Fl. fold idx in Fl.
  destruct A2 as [A2 A3]. cbn [form_loop] in Fl. destruct (Nat.leb_spec (horizon_length mp) idx); [lia|].
  simpl (1 =? 0) in Fl. cbv iota in Fl. rewrite A2 in Fl.
  destruct (form_loop_prefix _ _ _ (length l) _ _ _ _ _ _ _ (le_n _) Fl) as (more & Em). simpl app in Em.
  destruct (form_loop_states _ _ _ (e0 :: e1 :: e2 :: l) false _ _ (conj Te (conj A2 A3)) FL 0 idx) as (iv & V1 & V2).
  { rewrite Em. reflexivity. }
  simpl in V2.
  destruct (states_nth h (e0 :: e1 :: e2 :: l) 2 e2 El eq_refl) as (w & Hw & Ew).
  exists idx, more, w. split; [exact Em|]. split.
  - unfold getWalkState. rewrite V1, V2, Hw. reflexivity.
  - split; [exact Hw|]. rewrite Ew. destruct (Dur 2 e2 eq_refl) as (s3 & E1 & (E2 & _) & _).
    simpl in E1. rewrite S1 in E1. simpl in E1. rewrite S2 in E1. inversion E1; subst s3. congruence.
Qed.

Local Open Scope R_scope.
Lemma landing_position fp h footpos m i rest w x b : h_steps h = i :: rest -> getWalkState h i = Ok w ->
  (x = LEFT \/ x = RIGHT) -> is_ss (ms_stance (md_state m)) = true -> length (feet fp) = 2%nat ->
  is_ss (st_type (ws_stance w)) = true \/ st_type (ws_stance w) = DS ->
  foot_of (ms_feet (md_state m)) (match x with LEFT => RIGHT | _ => LEFT end) = Some b ->
  exists b', getFootLandingState fp h footpos m x = Ok (Some b') /\
    (is_ss (st_type (ws_stance w)) = true -> xy b' = footpos) /\
    (st_type (ws_stance w) = DS -> getFootPositionFromADS fp x (rot2 (ws_theta w)) footpos = Ok (xy b')) /\
    vz (b_position b') = vz (b_position b) /\ b_velocity b' = V3 0 0 0 /\ b_rpy b' = V3 0 0 (ws_theta w).
Proof.
  intros Hi Hw X SS FL Tw Hb. unfold getFootLandingState. rewrite Hi, Hw. simpl bind.
  assert (Iv : lr_invert x = Ok (match x with LEFT => RIGHT | _ => LEFT end)) by (destruct X; subst; reflexivity). rewrite Iv. simpl bind. rewrite Hb.
  destruct Tw as [Tw|Tw].
  - assert (E : (match st_type (ws_stance w) with LSS | RSS => Ok footpos | DS => match ms_stance (md_state m) with
          | LSS | RSS => getFootPositionFromADS fp x (rot2 (ws_theta w)) footpos | _ => Throw end | _ => Throw end) = Ok footpos)
      by (destruct (st_type (ws_stance w)); try discriminate; reflexivity).
    rewrite E. simpl. eexists. split; [reflexivity|]. simpl. split; [destruct footpos; reflexivity|].
    split; [intros Y; rewrite Y in Tw; discriminate|]. auto.
  - rewrite Tw. replace (match ms_stance (md_state m) with LSS | RSS => getFootPositionFromADS fp x (rot2 (ws_theta w)) footpos | _ => Throw end)
      with (getFootPositionFromADS fp x (rot2 (ws_theta w)) footpos) by (destruct (ms_stance (md_state m)); try discriminate; reflexivity).
    assert (G : exists q, getFootPositionFromADS fp x (rot2 (ws_theta w)) footpos = Ok q).
    { unfold getFootPositionFromADS, lr_get, array_read. destruct (feet fp) as [|f1 [|f2 [|]]]; try discriminate FL.
      destruct X; subst x; simpl; eauto. }
    destruct G as [q G]. rewrite G. simpl. eexists. split; [reflexivity|]. simpl. split; [discriminate|].
    split; [intros _; destruct q; reflexivity|]. auto.
Qed.
Lemma planned_landing p s0 s mp ly ry inc f g h s' fp footpos com m b :
  init p = Ok s0 -> walkable p -> reach s0 s -> pos_durations p ->
  is_ss (st_type (cur s)) = true -> (cur_time s < duration (cur s))%nat ->
  (duration (cur s) - cur_time s <= (horizon_length mp - 1) * sampling_ms mp)%nat ->
  form f mp ly ry inc s = Finished (Ok (Some h)) ->
  shiftTime g s (duration (cur s) - cur_time s) = Finished (Ok s') ->
  ms_stance (md_state m) = st_type (cur s) -> length (feet fp) = 2%nat ->
  foot_of (ms_feet (md_state m)) (stance_foot (st_type (cur s))) = Some b ->
  exists m' w b', control_step fp h footpos com m s' m' /\ nth_error (h_states h) 2 = Some w /\
    ms_stance (md_state m') = TDS /\ ms_next (md_state m') = st_type (ws_stance w) /\
    foot_of (ms_feet (md_state m')) (stance_foot (st_type (cur s))) = Some b /\
    foot_of (ms_feet (md_state m')) (swing (st_type (cur s))) = Some b' /\
    (is_ss (st_type (ws_stance w)) = true -> xy b' = footpos /\ md_support m' = Some footpos) /\
    (st_type (ws_stance w) = DS -> getFootPositionFromADS fp (swing (st_type (cur s))) (rot2 (ws_theta w)) footpos = Ok (xy b')) /\
    vz (b_position b') = vz (b_position b) /\ b_velocity b' = V3 0 0 0 /\ b_rpy b' = V3 0 0 (ws_theta w).
Proof.
  intros H0 Wk Rc HP SS CT LE HF Sh Sy FL Hb.
  apply shiftTime_exact in Sh; [|exact SS|exact CT].
  destruct (reached p s0 s H0 Wk Rc) as (W & Hs & _).
  destruct (wf_shiftStance s W) as (sx & Sx & W' & _). rewrite Sh in Sx. inversion Sx; subst sx. clear Sx.
  destruct (wf_shiftStance s' W') as (s2 & S2 & _).
  destruct (form_first_step p s0 s mp ly ry inc f h s' s2 H0 Wk Rc HP SS CT LE HF Sh S2) as (i & rest & w & Hi & Hw & Hn & Tw).
  assert (Ts : st_type (cur s') = TDS /\ is_tds_started s' = true).
  { unfold shiftStance in Sh. destruct (st_type (cur s)); try discriminate SS; simpl in Sh; inversion Sh; split; reflexivity. }
  destruct Ts as [Ts Fs].
  assert (T2 : is_ss (st_type (ws_stance w)) = true \/ st_type (ws_stance w) = DS).
  { rewrite Tw. unfold shiftStance in S2. rewrite Ts in S2. destruct (ss_left s').
    - simpl in S2. inversion S2. right. reflexivity.
    - destruct (prev_nonds (cur s')); try discriminate; simpl in S2; inversion S2; left; reflexivity. }
  assert (Ss : is_ss (ms_stance (md_state m)) = true) by congruence.
  destruct (landing_position fp h footpos m i rest w (swing (st_type (cur s))) b Hi Hw) as (b' & G1 & G2 & G3 & G4 & G5 & G6);
    [destruct (st_type (cur s)); auto|exact Ss|exact FL|exact T2|
     rewrite <- Hb; destruct (st_type (cur s)); try discriminate SS; reflexivity|].
  assert (St : exists x, initializeNextModelState fp h footpos com s' m = Ok x /\ ms_stance x = TDS /\ ms_next x = st_type (cur s2) /\
    foot_of (ms_feet x) (swing (st_type (cur s))) = Some b').
  { unfold initializeNextModelState, getNextStance. rewrite S2. simpl bind. rewrite Ts, Fs, Sy.
    destruct (st_type (cur s)); try discriminate SS; simpl lr_invert; simpl bind; simpl swing in *; rewrite G1; simpl; eexists;
      (split; [reflexivity|]; repeat split). }
  destruct St as (x & X1 & X2 & X3 & X4).
  destruct (updateState m x) as [m' o] eqn:U.
  assert (o = Ok tt).
  { assert (E : snd (updateState m x) = Ok tt).
    { apply update_accepts. rewrite X2, Sy, X3, <- Tw. split; [destruct (st_type (cur s)); try discriminate SS; auto|].
      destruct T2 as [T2|T2]; [|auto]. destruct (st_type (ws_stance w)); try discriminate T2; auto. }
    rewrite U in E. exact E. }
  subst o. destruct (update_feet _ _ _ _ U) as (_ & U2 & U3 & U4).
  exists m', w, b'. split; [exists x; split; assumption|]. split; [exact Hn|]. split; [congruence|]. split; [congruence|].
  assert (F1 : foot_of (ms_feet (md_state m')) (stance_foot (st_type (cur s))) = Some b).
  { rewrite U4 by (destruct (st_type (cur s)); discriminate). rewrite X2, Sy. destruct (st_type (cur s)); try discriminate SS; exact Hb. }
  assert (F2 : foot_of (ms_feet (md_state m')) (swing (st_type (cur s))) = Some b').
  { rewrite U4 by (destruct (st_type (cur s)); discriminate). rewrite X2, Sy. destruct (st_type (cur s)); try discriminate SS; exact X4. }
  split; [exact F1|]. split; [exact F2|]. split; [|auto].
  intros T3. split; [apply G2; exact T3|].
  assert (D : defined (ms_feet (md_state m'))).
  { intros y. destruct (st_type (cur s)); try discriminate SS; simpl in F1, F2; destruct y; simpl; congruence. }
  destruct (update_support _ _ _ U D) as (q & Q1 & Q2). rewrite Q1. f_equal.
  unfold support_position in Q2. rewrite U2, X2, U3, X3, <- Tw in Q2. simpl in Q2.
  assert (Al : st_type (ws_stance w) = opp (st_type (cur s))).
  { rewrite Tw. unfold shiftStance in Sh. destruct (st_type (cur s)) eqn:Tc; try discriminate SS; simpl in Sh; inversion Sh; subst s';
      unfold shiftStance in S2; simpl in S2; destruct (ss_left s); simpl in S2; inversion S2; subst s2; try reflexivity;
      rewrite Tw in T3; discriminate T3. }
  rewrite Al in Q2. destruct (st_type (cur s)); try discriminate SS; simpl in Q2, F2; destruct Q2 as (y & Y1 & Y2); rewrite F2 in Y1; inversion Y1; subst y;
    rewrite Y2; apply G2; exact T3.
Qed.

(** next to a final double support: the support is where planned if the plan is aligned with the support foot *)
Lemma aligned_support pr theta (x : lr) (planned a c : v2) : (x = LEFT \/ x = RIGHT) ->
  getADSPositionFromFoot (finalize pr) (match x with LEFT => RIGHT | _ => LEFT end) (rot2 theta) a = Ok planned ->
  getFootPositionFromADS (finalize pr) x (rot2 theta) planned = Ok c ->
  v2scale (/ 2) (v2add a c) = planned.
Proof.
  intros [->| ->] H1 H2; unfold getADSPositionFromFoot, getFootPositionFromADS in *; cbn in H1, H2; inversion H1; subst planned; inversion H2; subst c;
    apply v2_eq; cbn; field.
Qed.

(** a control step that jumps over the beginning of the transitional double support: the foot stays where it was *)
Definition odd_walk : params := mkParams DS RSS DS 750 150 300 2900 7.
Lemma missed_landing fp footpos com m : forall s0 s, init odd_walk = Ok s0 -> shiftTime 9 s0 1150 = Finished (Ok s) ->
  forall s', shiftTime 9 s 100 = Finished (Ok s') ->
  st_type (cur s) = RSS /\ st_type (cur s') = TDS /\
  (ms_stance (md_state m) = RSS -> defined (ms_feet (md_state m)) ->
   forall h, exists m', control_step fp h footpos com m s' m' /\ forall x, x <> LR_UNDEFINED -> foot_of (ms_feet (md_state m')) x = foot_of (ms_feet (md_state m)) x).
Proof.
  intros s0 s H0 H1 s' H2. vm_compute in H0. inversion H0; subst s0. vm_compute in H1. inversion H1; subst s. vm_compute in H2. inversion H2; subst s'.
  split; [reflexivity|]. split; [reflexivity|]. intros Sm D h.
  destruct (updateState m (mkWpgState com (ms_feet (md_state m)) TDS LSS)) as [m' o] eqn:U.
  assert (o = Ok tt).
  { assert (E : snd (updateState m (mkWpgState com (ms_feet (md_state m)) TDS LSS)) = Ok tt) by (apply update_accepts; simpl; rewrite Sm; auto).
    rewrite U in E. exact E. }
  subst o. exists m'. assert (C : control_step fp h footpos com m
     (mkFsm false 6 50 (mkStance TDS RSS RSS INTERMEDIATE 150 0) (mkParams DS RSS DS 750 150 300 2900 7)) m').
  { exists (mkWpgState com (ms_feet (md_state m)) TDS LSS). split; [reflexivity|exact U]. }
  split; [exact C|]. apply (feet_rest _ _ _ _ _ _ _ C). reflexivity.
Qed.

(** the default state: both feet are placed symmetrically, the support is at the origin *)
Lemma default_support pr z : exists s, defaultState (finalize pr) z = Ok s /\ defined (ms_feet s) /\ ms_stance s = DS /\
  determineSupportPosition s = Ok (Some (V2 0 0)).
Proof.
  unfold defaultState, initializeFoot, getFootPositionFromADS. cbn. eexists. split; [reflexivity|]. split; [intros [| |]; discriminate|].
  split; [reflexivity|]. cbn. f_equal. f_equal. apply v2_eq; cbn; rewrite ?cos_0, ?sin_0; field.
Qed.
Lemma set_state_types t com l r : (exists s, setState t com l r = Ok s) <-> t = LSS \/ t = RSS \/ t = DS.
Proof. unfold setState. destruct t; split; intros H; try (destruct H as [? H]; discriminate); try (destruct H as [H|[H|H]]; discriminate); eauto. Qed.
