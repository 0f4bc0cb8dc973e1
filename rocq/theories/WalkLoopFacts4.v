(** * The walking loop: the invariant is kept *)
From Coq Require Import String List Reals Arith Bool Lra Lia Sorting.Sorted.
From Verif Require Import Base BaseFacts Matrix Mat2 Mat3 LeftRight FootParameters FootTrajectory PointMass6z PointMass6zSpec PointMass6zFacts Solution Constraints ConstraintsSpec Condense MpcGuess
  PepperTasksSpec StanceFSM StanceSpec StanceFSMFacts StanceFSMFacts2 StanceTimeFacts WalkPreview WalkPreviewSpec WalkPreviewFacts WalkPreviewFacts2 WalkHeadingFacts WalkPreviewFacts3
  WalkMpc WalkMpcFacts WalkProfiles WalkProfilesSpec WalkProfilesFacts WalkProfilesFacts2 WalkTasks WalkTasksSpec WalkModel WalkModelSpec WalkModelFacts WalkLoop WalkLoopSpec WalkLoopFacts WalkLoopFacts2 WalkLoopFacts3.
Import ListNotations.
Local Open Scope nat_scope.

Lemma reach_shift a b f t c : reach a b -> shiftTime f b t = Finished (Ok c) -> reach a c.
Proof.
  intros R1 S. induction R1 as [x|x y z E _ IH|x u g y z E _ IH].
  - eapply reach_time; [exact S|constructor].
  - eapply reach_stance; [exact E|auto].
  - eapply reach_time; [exact E|auto].
Qed.
(** the number of feet which are still to land *)
Definition landings_left (f : fsm) : nat := match st_type (cur f) with LSS | RSS => ss_left f + 1 | _ => ss_left f end.

(** how the machine moves in an iteration *)
Lemma machine_moves fuel p f0 mp f f' : regular mp p -> init p = Ok f0 -> reach f0 f -> 1 <= fuel -> cur_time f < duration (cur f) ->
  sampling_ms mp <= duration (cur f) - cur_time f -> (terminal f -> sampling_ms mp < duration (cur f) - cur_time f) ->
  (terminal f \/ exists k, duration (cur f) - cur_time f = k * sampling_ms mp) ->
  shiftTime fuel f (sampling_ms mp) = Finished (Ok f') ->
  cur_time f' < duration (cur f') /\ (terminal f' \/ exists k, duration (cur f') - cur_time f' = k * sampling_ms mp) /\
  left_ms f' + sampling_ms mp = left_ms f /\ stances_left f' <= stances_left f /\
  landings_left f' + (if is_ss (st_type (cur f)) && is_tds (st_type (cur f')) then 1 else 0) = landings_left f /\
  (cur f' = cur f /\ ss_left f' = ss_left f /\ st_type (cur f) <> TDS \/
   shiftStance f = Ok f' /\ ~ terminal f).
Proof.
  intros (Wk & HP & N2 & TP & DP & Gs & Gt & FP & Gf & Gl) Ini Rc FU CT R1 R2 G Sh.
  destruct (reached p f0 f Ini Wk Rc) as (W & Hi & Fp & Td & Cfg). inversion Fp as [[FP1 FP2 FP3]]. clear Fp.
  assert (HP' : pos_durations (fparams f)) by (unfold pos_durations in *; rewrite FP1, FP2, FP3; exact HP).
  destruct (machine_step fuel f (sampling_ms mp) TP FU W CT R1) as (f1 & Sh1 & C). rewrite Sh in Sh1. injection Sh1 as <-.
  destruct C as [(E1 & E2 & E3 & E4 & _ & E5)|(E1 & E2)].
  - rewrite E1. split; [exact E4|]. split; [|split; [|split; [|split]]].
    + destruct G as [G|[k G]]; [left; destruct G; split; congruence|]. right. exists (k - 1). rewrite E3. rewrite Nat.mul_sub_distr_r. lia.
    + unfold left_ms, rest_ms. rewrite E1, E2, E3, E5. lia.
    + unfold stances_left. rewrite E1, E2. lia.
    + unfold landings_left. rewrite E1, E2. destruct (st_type (cur f)); cbn; lia.
    + left. split; [reflexivity|]. split; [exact E2|]. intros X. specialize (Td X). lia.
  - assert (NT : ~ terminal f) by (intros X; specialize (R2 X); lia).
    pose proof (shiftStance_measure f f' E2) as (M1 & M2 & M3). pose proof (shiftStance_pos f f' HP' E2) as Pos.
    assert (Du : duration (cur f') = match st_type (cur f') with DS => last_duration p | TDS => tds_duration p | _ => ss_duration p end).
    { destruct (Cfg 0 f') as (_ & _ & _ & X); [cbn; rewrite E2; reflexivity|exact X]. }
    rewrite M2. split; [lia|]. split; [|split; [|split; [|split]]].
    + assert (Te : st_type (cur f') = DS -> terminal f').
      { intros T'. split; [exact T'|]. unfold shiftStance in E2. destruct (st_type (cur f)) eqn:Tf; try discriminate E2; cbn in E2.
        - destruct (ss_left f) eqn:L; [exfalso; apply NT; split; assumption|inversion E2; subst f'; discriminate T'].
        - inversion E2; subst f'; discriminate T'.
        - inversion E2; subst f'; discriminate T'.
        - destruct (ss_left f); [inversion E2; reflexivity|destruct (prev_nonds (cur f)); try discriminate E2; inversion E2; subst f'; discriminate T']. }
      destruct (st_type (cur f')) eqn:T'; try (left; apply Te; reflexivity); right; rewrite Du, Nat.sub_0_r; try exact Gs. exists 1. lia.
    + rewrite (left_shift f f' E2 NT). unfold left_ms. lia.
    + destruct M3 as [(X1 & X2 & _)|M3]; [exfalso; apply NT; split; assumption|lia].
    + unfold landings_left. unfold shiftStance in E2. destruct (st_type (cur f)) eqn:Tf; try discriminate E2; cbn in E2.
      * destruct (ss_left f) eqn:L; [exfalso; apply NT; split; assumption|inversion E2; subst f'; cbn; lia].
      * inversion E2; subst f'; cbn; lia.
      * inversion E2; subst f'; cbn; lia.
      * destruct (ss_left f); [inversion E2; subst f'; cbn; lia|destruct (prev_nonds (cur f)); try discriminate E2; inversion E2; subst f'; cbn; lia].
    + right. split; assumption.
Qed.
(** headings which remain to be passed *)
Lemma to_go_ext inc nan f f' m m' theta : to_go inc nan f m theta -> cur f' = cur f -> ss_left f' = ss_left f -> (forall x, yaw nan m' x = yaw nan m x) -> to_go inc nan f' m' theta.
Proof. unfold to_go. intros T E1 E2 Y. rewrite E1, E2. destruct (st_type (cur f)); rewrite ?Y; exact T. Qed.

Theorem inv_step fuel junk p mp f0 nan inc H theta pr sol s s' h rs M pf com :
  regular mp p -> init p = Ok f0 -> (0 < H)%R -> 1 <= fuel -> inv mp f0 nan inc H theta s ->
  sol_structure sol = structure_wpg (horizon_length mp) (length (h_steps h)) -> length (sol_x sol) = 2 * horizon_length mp + 2 * length (h_steps h) ->
  iterated fuel junk nan inc (finalize pr) sol s s' h rs M pf com ->
  inv mp f0 nan inc H theta s' /\ left_ms (wl_fsm s') + sampling_ms mp = left_ms (wl_fsm s) /\
  landings_left (wl_fsm s') + (if lands (md_state (wl_model s)) (md_state (wl_model s')) then 1 else 0) = landings_left (wl_fsm s) /\
  walk_solved junk (horizon_length mp) (intervals_of h H) (interval_rotations h) (h_steps h) (step_rotations h rs) (support_of nan (wl_model s)) (cstate_of (wl_model s)) sol M pf /\
  (exists u c th, support_pose (md_state (wl_model s)) c th /\
    (forall a, vget u (axis_index a) = (coordinate c a + from_frame (rot2 th) (cop_local sol 0 AxisX) (cop_local sol 0 AxisY) a)%R) /\
    com = evaluate (INR (subsampling_ms mp) / 1000) (INR (sampling_ms mp) / 1000) H (cstate_of (wl_model s)) u) /\ ms_com (md_state (wl_model s')) = com /\
  (lands (md_state (wl_model s)) (md_state (wl_model s')) = false /\ (forall x, foot_of (ms_feet (md_state (wl_model s'))) x = foot_of (ms_feet (md_state (wl_model s))) x) \/
   lands (md_state (wl_model s)) (md_state (wl_model s')) = true /\ landed inc pr s h (V2 (vget (wp_footpos pf) 0) (vget (wp_footpos pf) 1)) (wl_fsm s') (wl_model s')).
Proof.
  intros Reg Ini HH FU I S1 S2 (F & Ro & Up & Pa & Cm & Sh & Cs & Gw). pose proof Reg as (Wk & HP & N2 & TP & DP & Gs & Gt & FP & Gf & Gl).
  rewrite (i_par _ _ _ _ _ _ _ I) in F, Up, Cm, Sh, Gw. rewrite (i_height _ _ _ _ _ _ _ I) in Up, Cm, Gw.
  destruct (st_problem p mp f0 nan inc H theta s Reg Ini HH I fuel junk h F) as (rs' & Ro' & _ & K). rewrite Ro in Ro'. injection Ro' as <-.
  destruct (K sol S1 S2) as (M' & pf' & So). assert (M' = M) by (destruct So as (_ & _ & _ & X & _); congruence). subst M'.
  assert (pf' = pf) by (destruct So as (_ & _ & _ & _ & X); congruence). subst pf'. clear K.
  destruct (st_motion p mp f0 nan inc H theta s Reg Ini I fuel junk h rs sol M pf F So) as (u & c & th & U1 & U2 & U3). rewrite U3 in Cm. injection Cm as Cm.
  destruct (st_model p mp f0 nan inc H theta pr s Reg Ini I fuel h (V2 (vget (wp_footpos pf) 0) (vget (wp_footpos pf) 1)) com (wl_fsm s') F Sh FU) as (m' & C1 & C2).
  assert (m' = wl_model s') by (eapply control_step_det; eassumption). subst m'.
  destruct (step_common _ _ _ _ _ _ _ C1 (i_feet _ _ _ _ _ _ _ I)) as (Q1 & Q2 & Q3 & Q4 & Q5).
  destruct (st_remaining p mp f0 nan inc H theta s Reg I fuel h F) as [R1 R2].
  destruct (machine_moves fuel p f0 mp (wl_fsm s) (wl_fsm s') Reg Ini (i_reach _ _ _ _ _ _ _ I) FU (i_time _ _ _ _ _ _ _ I) R1 R2 (i_grid _ _ _ _ _ _ _ I) Sh) as (A1 & A2 & A3 & A4 & A5 & A6).
  assert (La : lands (md_state (wl_model s)) (md_state (wl_model s')) = is_ss (st_type (cur (wl_fsm s))) && is_tds (st_type (cur (wl_fsm s')))).
  { unfold lands. rewrite Q1, (i_stance _ _ _ _ _ _ _ I). reflexivity. }
  assert (C3 : lands (md_state (wl_model s)) (md_state (wl_model s')) = false /\ (forall x, foot_of (ms_feet (md_state (wl_model s'))) x = foot_of (ms_feet (md_state (wl_model s))) x) \/
   lands (md_state (wl_model s)) (md_state (wl_model s')) = true /\ landed inc pr s h (V2 (vget (wp_footpos pf) 0) (vget (wp_footpos pf) 1)) (wl_fsm s') (wl_model s')).
  { rewrite La. destruct C2 as [C2|C2]; [left; exact C2|right]. split; [|exact C2]. destruct C2 as (X & Y & _). rewrite X, Y. reflexivity. }
  clear C2. split; [|split; [exact A3|split; [rewrite La; exact A5|split; [exact So|split; [exists u, c, th; auto|split; [exact Q2|exact C3]]]]]].
  assert (Yl : forall x b, foot_of (ms_feet (md_state (wl_model s'))) x = Some b -> yaw nan (wl_model s') x = heading b) by (intros; apply yaw_defined; assumption).
  pose proof (i_heading _ _ _ _ _ _ _ I) as Hg. pose proof (i_sub _ _ _ _ _ _ _ I) as Su.
  constructor.
  - rewrite Gw. reflexivity.
  - eapply reach_shift; [exact (i_reach _ _ _ _ _ _ _ I)|exact Sh].
  - exact A1.
  - destruct A6 as [(E1 & E2 & _)|(E1 & E2)]; [rewrite E1, E2; exact Su|]. intros T. left. unfold shiftStance in E1. destruct (st_type (cur (wl_fsm s))) eqn:Tf; try discriminate E1; cbn in E1.
    + destruct (ss_left (wl_fsm s)) eqn:L; [exfalso; apply E2; split; assumption|]. inversion E1 as [X]. rewrite <- X in T. discriminate T.
    + inversion E1 as [X]. rewrite <- X in T. discriminate T.
    + inversion E1 as [X]. rewrite <- X in T. discriminate T.
    + destruct (ss_left (wl_fsm s)); [inversion E1; reflexivity|]. destruct (prev_nonds (cur (wl_fsm s))); try discriminate E1; inversion E1 as [X]; rewrite <- X in T; discriminate T.
  - exact A2.
  - pose proof (i_fuel _ _ _ _ _ _ _ I). lia.
  - exact Q1.
  - intros _. exact Q3.
  - exact Q4.
  - exact Q5.
  - unfold height_of. rewrite Q2, <- Cm. reflexivity.
  - intros T1 T2 T3. destruct C3 as [(X1 & X2)|(_ & L)].
    + rewrite La, T1 in X1. rewrite andb_comm in X1. cbn in X1. destruct A6 as [(E1 & _ & E3)|(E1 & _)]; [congruence|].
      unfold shiftStance in E1. destruct (st_type (cur (wl_fsm s))) eqn:Tf; try discriminate E1; try discriminate X1; cbn in E1.
      * destruct (ss_left (wl_fsm s)); inversion E1 as [X]; rewrite <- X in T1, T2; [discriminate T1|discriminate T2].
      * destruct (ss_left (wl_fsm s)); [inversion E1 as [X]; rewrite <- X in T1; discriminate T1|]. destruct (prev_nonds (cur (wl_fsm s))); try discriminate E1; inversion E1 as [X]; rewrite <- X in T1; discriminate T1.
    + destruct L as (L1 & L2 & L3 & i & rest & iv & w & w0 & b & b' & _ & _ & _ & _ & _ & _ & B1 & B2 & B3 & _ & _ & B4 & _).
      assert (E : prev_nontds (cur (wl_fsm s')) = st_type (cur (wl_fsm s)) /\ ss_left (wl_fsm s') = ss_left (wl_fsm s)).
      { unfold shiftStance in L3. destruct (st_type (cur (wl_fsm s))); try discriminate L1; inversion L3; auto. }
      destruct E as [E1 E2]. rewrite E1. rewrite E2 in T3. destruct (B4 T3) as (_ & B5 & _). rewrite (Yl _ _ B2).
      replace (stance_foot (opp (st_type (cur (wl_fsm s))))) with (swing (st_type (cur (wl_fsm s)))) by (destruct (st_type (cur (wl_fsm s))); try discriminate L1; reflexivity).
      rewrite (Yl _ _ B3). exact B5.
  - destruct C3 as [(X1 & X2)|(_ & L)].
    + assert (Ys : forall x, yaw nan (wl_model s') x = yaw nan (wl_model s) x) by (intros x; unfold yaw; rewrite X2; reflexivity).
      destruct A6 as [(E1 & E2 & _)|(E1 & E2)]; [eapply to_go_ext; eassumption|].
      unfold to_go in Hg |- *. rewrite La in X1. unfold shiftStance in E1. destruct (st_type (cur (wl_fsm s))) eqn:Tf; try discriminate E1; cbn in E1.
      * destruct (ss_left (wl_fsm s)) as [|k] eqn:L; [exfalso; apply E2; split; assumption|]. inversion E1 as [X]. rewrite <- X in *. cbn [cur ss_left st_type prev_nonds subtype].
        split; [discriminate|]. intros j J. injection J as <-. rewrite Ys. apply Hg. reflexivity.
      * inversion E1 as [X]. rewrite <- X in X1. discriminate X1.
      * inversion E1 as [X]. rewrite <- X in X1. discriminate X1.
      * destruct Hg as [Hg1 Hg2]. destruct (ss_left (wl_fsm s)) as [|k].
        -- inversion E1 as [X]. cbn [cur ss_left st_type prev_nonds subtype]. rewrite !Ys. split; [intros _ _; apply Hg1; reflexivity|discriminate].
        -- specialize (Hg2 k eq_refl). destruct (prev_nonds (cur (wl_fsm s))); try discriminate E1; inversion E1 as [X]; cbn [cur ss_left st_type prev_nonds subtype]; rewrite Ys; exact Hg2.
    + destruct L as (L1 & L2 & L3 & i & rest & iv & w & w0 & b & b' & _ & _ & _ & _ & _ & _ & B1 & B2 & B3 & _ & _ & B4 & B5).
      assert (E : prev_nonds (cur (wl_fsm s')) = st_type (cur (wl_fsm s)) /\ ss_left (wl_fsm s') = ss_left (wl_fsm s)).
      { unfold shiftStance in L3. destruct (st_type (cur (wl_fsm s))); try discriminate L1; inversion L3; auto. }
      destruct E as [E1 E2]. unfold to_go in Hg |- *. rewrite L2, E1, E2.
      assert (Hg' : (heading b + INR (ss_left (wl_fsm s)) * inc)%R = theta).
      { rewrite <- (yaw_defined nan (wl_model s) _ b B1). destruct (st_type (cur (wl_fsm s))); try discriminate L1; exact Hg. }
      split.
      * intros Z. destruct (B5 Z) as (_ & B6 & _). rewrite Z in Hg'. cbn [INR] in Hg'. apply Yl in B2. apply Yl in B3.
        destruct (st_type (cur (wl_fsm s))); try discriminate L1; cbn [stance_foot swing] in B2, B3; rewrite B2, B3, ?B6; split; lra.
      * intros k Z. rewrite Z in *. destruct (B4 ltac:(lia)) as (_ & B6 & _).
        replace (stance_foot (opp (st_type (cur (wl_fsm s))))) with (swing (st_type (cur (wl_fsm s)))) by (destruct (st_type (cur (wl_fsm s))); try discriminate L1; reflexivity).
        rewrite (Yl _ _ B3), B6. rewrite S_INR in Hg'. lra.
Qed.
