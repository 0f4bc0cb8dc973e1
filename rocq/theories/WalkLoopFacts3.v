(** * The walking loop: the horizon, and one step of the invariant *)
From Coq Require Import String List Reals Arith Bool Lra Lia Sorting.Sorted.
From Verif Require Import Base BaseFacts Matrix Mat2 Mat3 LeftRight FootParameters FootTrajectory PointMass6z PointMass6zSpec PointMass6zFacts Solution Constraints ConstraintsSpec Condense MpcGuess
  PepperTasksSpec StanceFSM StanceSpec StanceFSMFacts StanceFSMFacts2 StanceTimeFacts WalkPreview WalkPreviewSpec WalkPreviewFacts WalkPreviewFacts2 WalkHeadingFacts WalkPreviewFacts3
  WalkMpc WalkMpcFacts WalkProfiles WalkProfilesSpec WalkProfilesFacts WalkProfilesFacts2 WalkTasks WalkTasksSpec WalkModel WalkModelSpec WalkModelFacts WalkLoop WalkLoopSpec WalkLoopFacts WalkLoopFacts2.
Import ListNotations.
Local Open Scope nat_scope.

Lemma yaw_defined nan m x b : foot_of (ms_feet (md_state m)) x = Some b -> yaw nan m x = heading b.
Proof. unfold yaw, yaw_of, heading. intros ->. reflexivity. Qed.
Lemma yaw_foot nan m t : foot_yaw (yaw nan m LEFT) (yaw nan m RIGHT) t = yaw nan m (stance_foot t).
Proof. destruct t; reflexivity. Qed.
Lemma two_feet f : defined f -> exists l r, foot_of f LEFT = Some l /\ foot_of f RIGHT = Some r.
Proof.
  intros D. pose proof (D LEFT) as A. pose proof (D RIGHT) as B. destruct (foot_of f LEFT) as [l|]; [|contradiction]. destruct (foot_of f RIGHT) as [r|]; [|contradiction]. eauto.
Qed.
(** the state following a transitional double support in the horizon *)
Lemma second_type f m ly ry inc s h w : form f m ly ry inc s = Finished (Ok (Some h)) -> 0 < horizon_length m * sampling_ms m ->
  nth_error (h_states h) 1 = Some w -> exists s1, shiftStance s = Ok s1 /\ st_type (ws_stance w) = st_type (cur s1).
Proof.
  intros H NT Hw. apply form_inv in H. destruct H as (l & b & P & HS & _). pose proof (preview_states_stances _ _ _ _ HS) as E.
  assert (Hl : nth_error l 1 = Some (ws_stance w)) by (rewrite <- E; apply map_nth_error; exact Hw).
  destruct (preview_durations _ _ _ _ NT P 1 _ Hl) as (si & S & (K & _) & _). exists si. split; [|congruence].
  cbn [shifts] in S. apply bind_ok in S. destruct S as (x & S & Q). cbn in Q. congruence.
Qed.

Section Step.
Variables (p : params) (mp : mpc_params) (f0 : fsm) (nan inc H theta : R) (pr : primary) (s : wloop).
Hypothesis Reg : regular mp p.
Hypothesis Ini : init p = Ok f0.
Hypothesis HH : (0 < H)%R.
Hypothesis I : inv mp f0 nan inc H theta s.
Let m := wl_model s.
Let f := wl_fsm s.

Lemma st_reached : wf f /\ history_ok f /\ (st_type (cur f) = TDS -> duration (cur f) - cur_time f = sampling_ms mp /\ duration (cur f) = sampling_ms mp).
Proof.
  destruct Reg as (Wk & HP & N2 & TP & DP & Gs & Gt & FP & Gf & Gl). destruct (reached p f0 f Ini Wk (i_reach _ _ _ _ _ _ _ I)) as (W & Hi & _ & Td & _).
  split; [exact W|]. split; [exact Hi|]. intros T. specialize (Td T). rewrite Td, Gt. pose proof (i_time _ _ _ _ _ _ _ I) as CT. fold f in CT. rewrite Td, Gt in CT.
  destruct (i_grid _ _ _ _ _ _ _ I) as [[G _]|[k G]]; fold f in G; [congruence|]. rewrite Td, Gt in G. split; [|reflexivity].
  destruct k as [|k]; [lia|]. nia.
Qed.
(** the heading and the position of the support are those of the state of the first interval *)
Lemma st_support fuel h : form fuel mp (yaw nan m LEFT) (yaw nan m RIGHT) inc f = Finished (Ok (Some h)) ->
  exists iv w c, interval_at h 0 iv /\ iv_T_ms iv = sampling_ms mp /\ nth_error (h_states h) (iv_state iv) = Some w /\
    ws_cop w = (match support_foot (ms_stance (md_state m)) (ms_next (md_state m)) with Some None => CopADS | _ => CopSS end) /\
    (forall i, In i (h_steps h) -> 0 < i) /\ md_support m = Some c /\ support_pose (md_state m) c (ws_theta w).
Proof.
  intros F. destruct Reg as (Wk & HP & N2 & TP & DP & Gs & Gt & FP & Gf & Gl). destruct st_reached as (W & Hi & Td).
  pose proof (i_time _ _ _ _ _ _ _ I) as CT. pose proof (i_grid _ _ _ _ _ _ _ I) as G. pose proof (i_stance _ _ _ _ _ _ _ I) as St. pose proof (i_next _ _ _ _ _ _ _ I) as Nx.
  pose proof (i_heading _ _ _ _ _ _ _ I) as Hg. pose proof (i_turn _ _ _ _ _ _ _ I) as Tu. destruct (i_support _ _ _ _ _ _ _ I) as (c & C1 & C2). destruct (two_feet _ (i_feet _ _ _ _ _ _ _ I)) as (l & r & Fl & Fr).
  fold f m in CT, G, St, Nx, Hg, Tu, C1, C2, Fl, Fr.
  destruct (regular_first _ _ _ _ _ _ _ F N2 TP CT (fun X => proj1 (Td X)) G) as (iv & w & I1 & I2 & I3 & I4 & I5 & I6 & I7).
  exists iv, w, c. split; [exact I1|]. split; [exact I2|]. split; [exact I4|].
  destruct (form_first_heading _ _ _ _ _ _ _ F) as (A1 & A2 & A3).
  assert (Yl : yaw nan m LEFT = heading l) by (apply yaw_defined; exact Fl). assert (Yr : yaw nan m RIGHT = heading r) by (apply yaw_defined; exact Fr).
  assert (NT : 0 < horizon_length mp * sampling_ms mp) by nia.
  assert (Foot : forall t, is_ss t = true -> exists b, foot_of (ms_feet (md_state m)) (stance_foot t) = Some b /\ yaw nan m (stance_foot t) = heading b).
  { intros t T. destruct t; try discriminate T; cbn [stance_foot]; eauto. }
  assert (K : exists t, support_foot (ms_stance (md_state m)) (ms_next (md_state m)) = support_foot t t /\ (is_ss t = true \/ t = DS) /\ st_type (ws_stance w) = t /\
    (is_ss t = true -> ws_theta w = yaw nan m (stance_foot t)) /\ (t = DS -> ws_theta w = ((yaw nan m LEFT + yaw nan m RIGHT) / 2)%R)).
  { rewrite St. destruct (st_type (cur f)) eqn:Ty; cbn [is_tds] in I3; try (destruct W as [_ W]; rewrite Ty in W; contradiction).
    - specialize (A2 eq_refl). destruct A2 as (w0 & B1 & B2 & B3). rewrite I3 in I4. assert (w0 = w) by congruence. subst w0.
      exists DS. split; [reflexivity|]. split; [auto|]. split; [exact B2|]. split; [discriminate|]. intros _. exact B3.
    - specialize (A1 eq_refl). destruct A1 as (w0 & B1 & B2 & B3). rewrite I3 in I4. assert (w0 = w) by congruence. subst w0.
      exists LSS. split; [reflexivity|]. split; [auto|]. split; [exact B2|]. split; [|discriminate]. intros _. rewrite B3. apply yaw_foot.
    - specialize (A1 eq_refl). destruct A1 as (w0 & B1 & B2 & B3). rewrite I3 in I4. assert (w0 = w) by congruence. subst w0.
      exists RSS. split; [reflexivity|]. split; [auto|]. split; [exact B2|]. split; [|discriminate]. intros _. rewrite B3. apply yaw_foot.
    - destruct (A3 eq_refl Hi) as (tht & tb & thb & _ & (w0 & B1 & B2 & B3) & Q1 & Q2 & Q3). rewrite I3 in I4. assert (w0 = w) by congruence. subst w0.
      destruct (second_type _ _ _ _ _ _ _ w F NT I4) as (s1 & S1 & S2). destruct (Nx eq_refl) as (n & N1 & N2'). unfold getNextStance in N1. rewrite S1 in N1. cbn in N1. injection N1 as <-.
      assert (Et : ms_next (md_state m) = tb) by congruence. rewrite Et. exists tb.
      unfold to_go in Hg. rewrite Ty in Hg. destruct Hg as [Hg1 Hg2]. specialize (Tu eq_refl).
      unfold history_ok in Hi. rewrite Ty in Hi. rewrite <- B2, S2 in *. unfold shiftStance in S1. rewrite Ty in S1.
      assert (T1 : st_type (cur s1) = match ss_left f with 0 => DS | _ => opp (prev_nonds (cur f)) end /\ (ss_left f > 0 -> is_ss (prev_nonds (cur f)) = true)).
      { destruct (ss_left f); cbn in S1; [inversion S1; split; [reflexivity|lia]|]. destruct (prev_nonds (cur f)); try discriminate S1; inversion S1; auto. }
      destruct T1 as [T1 T2]. destruct (ss_left f) as [|k] eqn:Es.
      + rewrite T1 in *. split; [reflexivity|]. split; [auto|]. split; [reflexivity|]. split; [discriminate|]. intros _. rewrite B3. destruct Hi as [[_ Hi]|[Hi1 Hi2]]; [lia|].
        rewrite (proj1 (Q3 eq_refl Hi1)), yaw_foot. destruct (Hg1 eq_refl) as [X Y]. destruct (prev_nontds (cur f)); try discriminate Hi1; cbn [stance_foot]; lra.
      + specialize (T2 ltac:(lia)). assert (Is : is_ss (opp (prev_nonds (cur f))) = true) by (destruct (prev_nonds (cur f)); try discriminate T2; reflexivity).
        rewrite T1 in *. split; [destruct (prev_nonds (cur f)); try discriminate T2; reflexivity|]. split; [auto|]. split; [reflexivity|].
        split; [|intros X; rewrite X in Is; discriminate Is]. intros _. rewrite B3. destruct Hi as [[Hi1 _]|[Hi1 Hi2]].
        * rewrite (proj1 (Q2 Is Hi1)). apply yaw_foot.
        * destruct (Q1 Is Hi1) as (E1 & E2 & _). rewrite E2, yaw_foot. rewrite <- (Tu Hi1 ltac:(lia)). rewrite Hi2. reflexivity. }
  destruct K as (t & K1 & K2 & K3 & K4 & K5). split; [|split; [exact I7|split; [exact C1|]]].
  - rewrite K1, I6, K3. destruct K2 as [K2| ->]; [|reflexivity]. destruct t; try discriminate K2; reflexivity.
  - unfold support_pose. unfold support_position in C2. rewrite K1 in *. destruct K2 as [K2|K2].
    + destruct (Foot t K2) as (b & Fb & Yb). destruct t; try discriminate K2; cbn [support_foot stance_foot] in *; exists b; (split; [exact Fb|]);
        (split; [destruct C2 as (b' & X & ->); assert (b' = b) by congruence; subst b'; reflexivity|rewrite (K4 eq_refl); exact Yb]).
    + subst t. cbn [support_foot] in *. destruct C2 as (l' & r' & X1 & X2 & X3 & X4). assert (l' = l) by congruence. assert (r' = r) by congruence. subst l' r'.
      exists l, r. do 4 (split; [assumption|]). rewrite (K5 eq_refl), Yl, Yr. reflexivity.
Qed.

Lemma st_over fuel : stances_left f0 + 1 <= fuel -> exists r, form fuel mp (yaw nan m LEFT) (yaw nan m RIGHT) inc f = Finished r /\
  (terminal f /\ duration (cur f) - cur_time f < horizon_length mp * sampling_ms mp -> r = Ok None) /\
  (~ (terminal f /\ duration (cur f) - cur_time f < horizon_length mp * sampling_ms mp) -> exists h, r = Ok (Some h)).
Proof.
  intros FL. destruct Reg as (Wk & HP & N2 & TP & DP & Gs & Gt & FP & Gf & Gl). destruct st_reached as (W & Hi & Td).
  pose proof (i_fuel _ _ _ _ _ _ _ I) as Fu. fold f in Fu.
  destruct (form_fuel mp (yaw nan m LEFT) (yaw nan m RIGHT) inc f fuel W ltac:(lia)) as [r E]. exists r. split; [exact E|].
  eapply form_defined; [exact Ini|exact Wk|exact (i_reach _ _ _ _ _ _ _ I)|exact HP| |exact (i_time _ _ _ _ _ _ _ I)| |exact E].
  - split; [lia|]. split; [exact TP|]. split; [exact Gs|]. split; [lia|exact Gl].
  - intros T X. destruct (i_sub _ _ _ _ _ _ _ I T) as [Y|[Y _]]; unfold f in X; rewrite Y in X; discriminate X.
Qed.
(** the problem of an iteration *)
Lemma st_problem fuel junk h : form fuel mp (yaw nan m LEFT) (yaw nan m RIGHT) inc f = Finished (Ok (Some h)) ->
  exists rs, form_rotations h = Ok rs /\
    (~ terminal f -> length rs = length (h_steps h) /\
      forall j k i iv, nth_error rs j = Some k -> nth_error (h_steps h) j = Some i -> interval_at h i iv -> k + 2 = iv_state iv) /\
    forall sol, sol_structure sol = structure_wpg (horizon_length mp) (length (h_steps h)) -> length (sol_x sol) = 2 * horizon_length mp + 2 * length (h_steps h) ->
    exists M pf, walk_solved junk (horizon_length mp) (intervals_of h H) (interval_rotations h) (h_steps h) (step_rotations h rs) (support_of nan m) (cstate_of m) sol M pf.
Proof.
  intros F. destruct Reg as (Wk & HP & N2 & TP & DP & Gs & Gt & FP & Gf & Gl).
  destruct (regular_rotations p f0 f fuel mp _ _ _ h Ini Wk (i_reach _ _ _ _ _ _ _ I) HP Gs Gt TP ltac:(lia) (i_time _ _ _ _ _ _ _ I) (i_grid _ _ _ _ _ _ _ I) F) as (rs & R1 & R2).
  exists rs. split; [exact R1|]. split; [exact R2|]. intros sol S1 S2.
  destruct (st_support fuel h F) as (iv & w & c & I1 & I2 & _).
  assert (FW := regular_formed _ _ _ _ _ _ _ nan m rs H F N2 TP DP ltac:(intros iv' X; unfold interval_at in *; congruence) HH).
  destruct (walk_total junk _ _ _ _ _ _ _ sol FW S1 S2) as (M & pf & K & _). eauto.
Qed.
(** the motion of the CoM *)
Lemma st_motion fuel junk h rs sol M pf : form fuel mp (yaw nan m LEFT) (yaw nan m RIGHT) inc f = Finished (Ok (Some h)) ->
  walk_solved junk (horizon_length mp) (intervals_of h H) (interval_rotations h) (h_steps h) (step_rotations h rs) (support_of nan m) (cstate_of m) sol M pf ->
  exists u c th, support_pose (md_state m) c th /\
    (forall a, vget u (axis_index a) = (coordinate c a + from_frame (rot2 th) (cop_local sol 0 AxisX) (cop_local sol 0 AxisY) a)%R) /\
    forall Ts, next_com_state (intervals_of h H) pf (cstate_of m) Ts = Ok (evaluate Ts (INR (sampling_ms mp) / 1000) H (cstate_of m) u).
Proof.
  intros F S. destruct Reg as (Wk & HP & N2 & TP & DP & Gs & Gt & FP & Gf & Gl). destruct (st_support fuel h F) as (iv & w & c & I1 & I2 & I3 & _ & I5 & I6 & I7).
  pose proof S as (FW & S1 & S2 & _). destruct (walk_total junk _ _ _ _ _ _ _ sol FW S1 S2) as (M' & pf' & S' & L1 & _).
  assert (pf' = pf). { destruct S as (_ & _ & _ & X1 & X2). destruct S' as (_ & _ & _ & Y1 & Y2). congruence. } subst pf'.
  exists (mkVec 2 (fun i => vget (wp_cop pf) (0 + i))), c, (ws_theta w). split; [exact I7|].
  assert (V : nth_error (intervals_of h H) 0 = Some (mkWI (sampling_ms mp) H)).
  { unfold intervals_of. rewrite nth_error_map. unfold interval_at in I1. rewrite I1. cbn [option_map]. rewrite I2. reflexivity. }
  split.
  - intros a. cbn [vget]. pose proof (walk_cop _ _ _ _ _ _ _ _ _ _ _ 0 a S ltac:(lia)) as E. change (2 * 0 + axis_index a) with (axis_index a) in E. change (0 + axis_index a) with (axis_index a). rewrite E. unfold commanded_cop.
    assert (Z : steps_made (h_steps h) 0 = 0).
    { unfold steps_made. clear - I5. induction (h_steps h) as [|x l IH]; [reflexivity|]. cbn [filter]. pose proof (I5 x (or_introl eq_refl)). destruct (Nat.leb_spec x 0); [lia|]. apply IH. intros i X. apply I5. right. exact X. }
    rewrite Z. cbn [support_after]. f_equal.
    + unfold support_of. cbn [vget]. rewrite I6. destruct a; reflexivity.
    + f_equal. unfold interval_rotations. apply nth_error_nth. rewrite nth_error_map. unfold interval_at in I1. rewrite I1. cbn [option_map]. unfold rotation_of. rewrite I3. reflexivity.
  - intros Ts. unfold next_com_state, vec_at. rewrite V. cbn [bind]. unfold PepperMpc.vsegment. rewrite assert_true by (apply Nat.leb_le; rewrite L1; lia). cbn [bind]. reflexivity.
Qed.

Lemma st_remaining fuel h : form fuel mp (yaw nan m LEFT) (yaw nan m RIGHT) inc f = Finished (Ok (Some h)) ->
  sampling_ms mp <= duration (cur f) - cur_time f /\ (terminal f -> sampling_ms mp < duration (cur f) - cur_time f).
Proof.
  intros F. destruct Reg as (Wk & HP & N2 & TP & DP & Gs & Gt & FP & Gf & Gl). pose proof (i_time _ _ _ _ _ _ _ I) as CT. fold f in CT.
  assert (Tm : terminal f -> horizon_length mp * sampling_ms mp <= duration (cur f) - cur_time f).
  { intros Tm. destruct (Nat.le_gt_cases (horizon_length mp * sampling_ms mp) (duration (cur f) - cur_time f)) as [L|L]; [exact L|].
    apply form_inv in F. destruct F as (l & b & P & _ & NE & _). exfalso. apply NE. eapply preview_terminal; [exact Tm| |exact L|exact P]. lia. }
  split.
  - destruct (i_grid _ _ _ _ _ _ _ I) as [G|[k G]]; [specialize (Tm G); nia|]. fold f in G. destruct k as [|k]; [lia|]. nia.
  - intros G. specialize (Tm G). nia.
Qed.
Definition landed (h : horizon) (footpos : v2) (f' : fsm) (m' : wpg_model) : Prop :=
  let t := st_type (cur f) in
  is_ss t = true /\ st_type (cur f') = TDS /\ shiftStance f = Ok f' /\ exists i rest iv w w0 b b',
    h_steps h = i :: rest /\ interval_at h i iv /\ iv_state iv = 2 /\ nth_error (h_states h) 0 = Some w0 /\ ws_theta w0 = heading b /\ nth_error (h_states h) 2 = Some w /\
    foot_of (ms_feet (md_state m)) (stance_foot t) = Some b /\ foot_of (ms_feet (md_state m')) (stance_foot t) = Some b /\ foot_of (ms_feet (md_state m')) (swing t) = Some b' /\
    vz (b_position b') = vz (b_position b) /\ b_velocity b' = V3 0 0 0 /\
    (0 < ss_left f -> xy b' = footpos /\ heading b' = (heading b + inc)%R /\ ws_fd w = FdBounds (match t with LSS => false | _ => true end) WithRespectToSS) /\
    (ss_left f = 0 -> getFootPositionFromADS (finalize pr) (swing t) (rot2 (heading b)) footpos = Ok (xy b') /\ heading b' = heading b /\
       ws_fd w = FdBounds (match t with LSS => false | _ => true end) AlignedToSS).
Lemma st_landing fuel h footpos com f' : form fuel mp (yaw nan m LEFT) (yaw nan m RIGHT) inc f = Finished (Ok (Some h)) ->
  shiftTime fuel f (sampling_ms mp) = Finished (Ok f') -> is_ss (st_type (cur f)) = true -> duration (cur f) - cur_time f = sampling_ms mp -> shiftStance f = Ok f' ->
  exists m', control_step (finalize pr) h footpos com m f' m' /\ landed h footpos f' m'.
Proof.
  intros F Sh SS E1 E2. destruct Reg as (Wk & HP & N2 & TP & DP & Gs & Gt & FP & Gf & Gl). destruct st_reached as (W & Hi & Td).
  pose proof (i_time _ _ _ _ _ _ _ I) as CT. pose proof (i_stance _ _ _ _ _ _ _ I) as St. pose proof (i_feet _ _ _ _ _ _ _ I) as D. pose proof (i_reach _ _ _ _ _ _ _ I) as Rc. fold f m in CT, St, D, Rc.
  assert (Hb : exists b, foot_of (ms_feet (md_state m)) (stance_foot (st_type (cur f))) = Some b).
  { specialize (D (stance_foot (st_type (cur f)))). destruct (foot_of _ _) as [b|]; [eauto|contradiction]. }
  destruct Hb as [b Hb].
  assert (LE : duration (cur f) - cur_time f <= (horizon_length mp - 1) * sampling_ms mp) by nia.
  assert (W' : wf f') by (destruct (wf_shiftTime _ _ _ _ W Sh) as (x & X & W' & _); injection X as <-; exact W').
  destruct (wf_shiftStance f' W') as (n & Sn & _).
  destruct (form_first_step p f0 f mp _ _ _ fuel h f' n Ini Wk Rc HP SS CT LE F E2 Sn) as (i & rest & w & Q1 & Q2 & Q3 & Q4).
  rewrite <- E1 in Sh.
  destruct (planned_landing p f0 f mp _ _ _ fuel fuel h f' (finalize pr) footpos com m b Ini Wk Rc HP SS CT LE F Sh St eq_refl Hb) as (m' & w' & b' & P1 & P2 & P3 & P4 & P5 & P6 & P7 & P8 & P9 & P10 & P11).
  assert (w' = w) by congruence. subst w'. exists m'. split; [exact P1|].
  assert (Tf : st_type (cur f') = TDS /\ prev_nonds (cur f') = st_type (cur f) /\ ss_left f' = ss_left f).
  { unfold shiftStance in E2. destruct (st_type (cur f)); try discriminate SS; inversion E2; auto. }
  destruct Tf as (Tf & Pf & Lf).
  assert (Tw : st_type (ws_stance w) = match ss_left f with 0 => DS | _ => opp (st_type (cur f)) end).
  { rewrite Q4. unfold shiftStance in Sn. rewrite Tf, Pf, Lf in Sn. destruct (ss_left f); [inversion Sn; reflexivity|]. destruct (st_type (cur f)); try discriminate SS; inversion Sn; reflexivity. }
  (* the states of the horizon *)
  pose proof (proj1 (form_first_heading _ _ _ _ _ _ _ F) SS) as H0. rewrite yaw_foot, (yaw_defined nan m _ b Hb) in H0.
  pose proof (form_inv _ _ _ _ _ _ _ F) as (l & bb & P & HS & NE & A & _ & Fl). pose proof (preview_states_stances _ _ _ _ HS) as ES.
  pose proof H0 as (w0 & W1 & W2 & W3).
  assert (L0 : nth_error l 0 = Some (ws_stance w0)) by (rewrite <- ES; apply map_nth_error; exact W1).
  assert (Bb : bb = false). { destruct l as [|e r]; [discriminate L0|]. injection L0 as ->. destruct A as [A _]. rewrite W2 in A. destruct (st_type (cur f)); try discriminate SS; symmetry; exact A. }
  destruct (nth_error (h_states h) 1) as [w1|] eqn:H1.
  2:{ exfalso. apply nth_error_None in H1. assert (2 < length (h_states h)) by (apply nth_error_Some; congruence). lia. }
  assert (L1 : nth_error l 1 = Some (ws_stance w1)) by (rewrite <- ES; apply map_nth_error; exact H1).
  assert (T1 : st_type (ws_stance w1) = TDS).
  { pose proof (altern_nth _ _ A 0 _ _ L0 L1) as X. rewrite W2 in X. destruct (st_type (cur f)); try discriminate SS; destruct (st_type (ws_stance w1)); try discriminate X; reflexivity. }
  destruct (form_headings _ _ _ _ _ _ _ F 0 _ _ (ws_theta w1) (st_type (ws_stance w)) (ws_theta w) H0) as (G1 & G2 & _); [exists w1; auto|exists w; auto|].
  destruct (form_bounds _ _ _ _ _ _ _ F 0 _ _ _ W1 H1 Q3 T1) as (B1 & _). rewrite W2 in B1.
  destruct (form_loop_states _ _ _ l bb _ _ A Fl 0 i ltac:(rewrite Q1; reflexivity)) as (iv & V1 & V2). subst bb.
  split; [exact SS|]. split; [exact Tf|]. split; [exact E2|]. exists i, rest, iv, w, w0, b, b'. do 3 (split; [assumption|]). split; [exact W1|]. split; [exact W3|]. do 6 (split; [assumption|]).
  assert (Hd : heading b' = ws_theta w) by (unfold heading; rewrite P11; reflexivity). rewrite Hd.
  destruct (ss_left f) as [|k].
  - split; [lia|]. intros _. destruct (G2 SS Tw) as [X _]. rewrite X in *. split; [apply P8; exact Tw|]. split; [reflexivity|]. rewrite B1, Tw. destruct (st_type (cur f)); try discriminate SS; reflexivity.
  - split; [|discriminate]. intros _. assert (Is : is_ss (st_type (ws_stance w)) = true) by (rewrite Tw; destruct (st_type (cur f)); try discriminate SS; reflexivity).
    destruct (G1 SS Is) as (_ & X & _). split; [apply P7; exact Is|]. split; [exact X|]. rewrite B1, Tw. destruct (st_type (cur f)); try discriminate SS; reflexivity.
Qed.
Lemma st_model fuel h footpos com f' : form fuel mp (yaw nan m LEFT) (yaw nan m RIGHT) inc f = Finished (Ok (Some h)) ->
  shiftTime fuel f (sampling_ms mp) = Finished (Ok f') -> 1 <= fuel ->
  exists m', control_step (finalize pr) h footpos com m f' m' /\
    (is_ss (st_type (cur f)) && is_tds (st_type (cur f')) = false /\ (forall x, foot_of (ms_feet (md_state m')) x = foot_of (ms_feet (md_state m)) x) \/
     landed h footpos f' m').
Proof.
  intros F Sh FU. destruct Reg as (Wk & HP & N2 & TP & DP & Gs & Gt & FP & Gf & Gl). destruct st_reached as (W & Hi & Td).
  pose proof (i_time _ _ _ _ _ _ _ I) as CT. pose proof (i_stance _ _ _ _ _ _ _ I) as St. pose proof (i_feet _ _ _ _ _ _ _ I) as D. pose proof (i_reach _ _ _ _ _ _ _ I) as Rc. fold f m in CT, St, D, Rc.
  destruct (st_remaining fuel h F) as [R1 R2].
  assert (W' : wf f') by (destruct (wf_shiftTime _ _ _ _ W Sh) as (x & X & W' & _); injection X as <-; exact W').
  destruct (machine_step fuel f (sampling_ms mp) TP FU W CT R1) as (f1 & Sh1 & C). rewrite Sh in Sh1. injection Sh1 as <-.
  assert (Flat : st_type (cur f') <> TDS -> exists m', control_step (finalize pr) h footpos com m f' m' /\
    (is_ss (st_type (cur f)) && is_tds (st_type (cur f')) = false /\ (forall x, foot_of (ms_feet (md_state m')) x = foot_of (ms_feet (md_state m)) x) \/ landed h footpos f' m')).
  { intros NT. destruct (step_flat (finalize pr) h footpos com f' m W' NT D) as (m' & C1 & C2 & _). exists m'. split; [exact C1|]. left. split; [|exact C2].
    destruct (st_type (cur f')); try contradiction; apply andb_false_r. }
  destruct C as [(E1 & _ & E3 & E4 & _)|(E1 & E2)].
  - apply Flat. rewrite E1. intros X. destruct (Td X) as [Y1 Y2]. lia.
  - assert (Land : is_ss (st_type (cur f)) = true -> exists m', control_step (finalize pr) h footpos com m f' m' /\
      (is_ss (st_type (cur f)) && is_tds (st_type (cur f')) = false /\ (forall x, foot_of (ms_feet (md_state m')) x = foot_of (ms_feet (md_state m)) x) \/ landed h footpos f' m')).
    { intros SS. destruct (st_landing fuel h footpos com f' F Sh SS E1 E2) as (m' & C1 & C2). exists m'. auto. }
    destruct (st_type (cur f)) eqn:Ty; try (destruct W as [_ W]; rewrite Ty in W; contradiction).
    + (* DS *)
      destruct (wf_shiftStance f' W') as (n & Sn & _).
      assert (K : ss_left f > 0). { destruct (ss_left f) eqn:Es; [|lia]. exfalso. assert (terminal f) by (split; assumption). specialize (R2 H0). lia. }
      assert (T' : st_type (cur f') = TDS). { unfold shiftStance in E2. rewrite Ty in E2. destruct (ss_left f); [lia|]. inversion E2. reflexivity. }
      destruct (step_leave (finalize pr) h footpos com f' m n Sn) as (m' & C1 & C2 & _); [|exact T'|exact St|exact D|].
      * unfold shiftStance in Sn. rewrite T' in Sn. destruct (ss_left f'); cbn in Sn; [inversion Sn; auto|]. destruct (prev_nonds (cur f')); try discriminate Sn; inversion Sn; auto.
      * exists m'. split; [exact C1|]. left. split; [reflexivity|exact C2].
    + apply Land; reflexivity.
    + apply Land; reflexivity.
    + (* TDS *)
      apply Flat. eapply shiftStance_from_tds; eassumption.
Qed.
End Step.
