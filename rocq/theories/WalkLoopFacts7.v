(** * The walking loop: the feet *)
From Coq Require Import String List Reals Arith Bool Lra Lia Sorting.Sorted.
From Verif Require Import Base BaseFacts Matrix Mat2 Mat3 LeftRight FootParameters FootTrajectory PointMass6z PointMass6zSpec PointMass6zFacts Solution Constraints ConstraintsSpec Condense MpcGuess
  PepperTasksSpec StanceFSM StanceSpec StanceFSMFacts StanceFSMFacts2 StanceTimeFacts WalkPreview WalkPreviewSpec WalkPreviewFacts WalkPreviewFacts2 WalkHeadingFacts WalkPreviewFacts3
  WalkMpc WalkMpcFacts WalkProfiles WalkProfilesSpec WalkProfilesFacts WalkProfilesFacts2 WalkTasks WalkTasksSpec WalkTasksFacts2 WalkModel WalkModelSpec WalkModelFacts WalkLoop WalkLoopSpec WalkLoopFacts WalkLoopFacts2 WalkLoopFacts3 WalkLoopFacts4 WalkLoopFacts5 WalkLoopFacts6.
Import ListNotations.
Local Open Scope nat_scope.

(** a landing, in terms of the states *)
Definition landing (nan inc : R) (pr : primary) (sol : solution) (s s' : wloop) : Prop :=
  let t := ms_stance (md_state (wl_model s)) in
  is_ss t = true /\ ms_stance (md_state (wl_model s')) = TDS /\ st_type (cur (wl_fsm s)) = t /\ ss_left (wl_fsm s') = ss_left (wl_fsm s) /\
  exists b b', foot_of (ms_feet (md_state (wl_model s))) (stance_foot t) = Some b /\ foot_of (ms_feet (md_state (wl_model s'))) (stance_foot t) = Some b /\
    foot_of (ms_feet (md_state (wl_model s'))) (swing t) = Some b' /\ vz (b_position b') = vz (b_position b) /\ b_velocity b' = V3 0 0 0 /\
    (ms_next (md_state (wl_model s')) = DS -> ss_left (wl_fsm s) = 0 /\ heading b' = heading b) /\
    (ms_next (md_state (wl_model s')) <> DS -> 0 < ss_left (wl_fsm s) /\ ms_next (md_state (wl_model s')) = opp t /\ heading b' = (heading b + inc)%R) /\
    (obeys_steps nan (finalize pr) s' sol ->
       (ms_next (md_state (wl_model s')) = DS -> side_by_side pr (swing t) b b') /\ (ms_next (md_state (wl_model s')) <> DS -> reachable pr (swing t) b b')).
Lemma landing_made fuel junk nan inc pr sol p s0 s s' h rs M pf com : regular (wg_par (wl_wpg s0)) p -> started p s0 ->
  loop_inv nan inc p s0 s -> loop_inv nan inc p s0 s' -> made fuel junk nan inc pr sol (wg_par (wl_wpg s0)) (height_of (wl_model s0)) s s' h rs M pf com ->
  lands (md_state (wl_model s)) (md_state (wl_model s')) = true -> landing nan inc pr sol s s'.
Proof.
  intros Reg Sta I I' (It & F & Sh & So & _ & _ & Fe & G) La.
  destruct Fe as [[X _]|[_ L]]; [congruence|]. pose proof Sta as (Ini & _ & _ & _ & HH).
  pose proof (i_stance _ _ _ _ _ _ _ I) as St. pose proof (i_stance _ _ _ _ _ _ _ I') as St'.
  destruct L as (L1 & L2 & L3 & i & rest & iv & w & w0 & b & b' & K1 & K2 & K3 & K4 & K5 & K6 & B1 & B2 & B3 & B4 & B5 & B6 & B7).
  destruct (i_next _ _ _ _ _ _ _ I' L2) as (nx & Nx1 & Nx2).
  assert (E : ss_left (wl_fsm s') = ss_left (wl_fsm s) /\ st_type nx = match ss_left (wl_fsm s) with 0 => DS | _ => opp (st_type (cur (wl_fsm s))) end).
  { unfold getNextStance in Nx1. unfold shiftStance in L3. destruct (st_type (cur (wl_fsm s))); try discriminate L1; injection L3 as X; rewrite <- X in Nx1 |- *; (split; [reflexivity|]);
    cbn in Nx1; destruct (ss_left (wl_fsm s)); cbn in Nx1; inversion Nx1; reflexivity. }
  destruct E as [E1 E2]. unfold landing. rewrite Nx2, St. split; [exact L1|]. split; [congruence|]. split; [reflexivity|]. split; [exact E1|].
  exists b, b'. split; [exact B1|]. split; [exact B2|]. split; [exact B3|]. split; [exact B4|]. split; [exact B5|].
  assert (N0 : st_type nx = DS -> ss_left (wl_fsm s) = 0). { rewrite E2. destruct (ss_left (wl_fsm s)); [auto|]. destruct (st_type (cur (wl_fsm s))); try discriminate L1; discriminate. }
  assert (N1 : st_type nx <> DS -> 0 < ss_left (wl_fsm s)). { rewrite E2. destruct (ss_left (wl_fsm s)); [congruence|lia]. }
  split; [intros X; split; [auto|apply (B7 (N0 X))]|]. split.
  { intros X. split; [auto|]. split; [|apply (B6 (N1 X))]. rewrite E2. specialize (N1 X). destruct (ss_left (wl_fsm s)); [lia|reflexivity]. }
  intros O.
  (* the footprint *)
  assert (Ob : forall a, within (fd_matrix nan (finalize pr) (ws_fd w)) a (step_local (horizon_length (wg_par (wl_wpg s0))) sol 0 a)).
  { intros a. eapply steps_obeyed; [exact F|exact (i_par _ _ _ _ _ _ _ I')|rewrite G; reflexivity|exact O|exact K1|exact K2|rewrite K3; exact K6]. }
  destruct (st_support p _ _ nan inc _ _ s Reg Ini I fuel h F) as (iv0 & wk & c & _ & _ & _ & _ & _ & Mc & Sp).
  assert (Cb : c = xy b).
  { unfold support_pose in Sp. rewrite St in Sp. destruct (st_type (cur (wl_fsm s))); try discriminate L1; cbn in Sp, B1; destruct Sp as (x & X1 & X2 & _); congruence. }
  destruct (st_problem p _ _ nan inc _ _ s Reg Ini HH I fuel junk h F) as (rs' & Ro' & Rt & _). destruct It as (_ & Ro & _). rewrite Ro in Ro'. injection Ro' as <-.
  destruct Rt as [Rl Rk]. { intros [X _]. rewrite X in L1. discriminate L1. }
  assert (R0 : nth 0 (step_rotations h rs) m2id = rot2 (heading b)).
  { unfold step_rotations. rewrite K1. cbn [length seq map nth]. destruct rs as [|k rs]; [rewrite K1 in Rl; discriminate Rl|]. cbn [nth_error].
    assert (k + 2 = iv_state iv) by (apply (Rk 0 k i iv); [reflexivity|rewrite K1; reflexivity|exact K2]). assert (k = 0) by lia. subst k. unfold rotation_of. rewrite K4, K5. reflexivity. }
  set (N := horizon_length (wg_par (wl_wpg s0))) in *.
  assert (Fp : forall a, vget (wp_footpos pf) (axis_index a) = (coordinate (xy b) a + from_frame (rot2 (heading b)) (step_local N sol 0 AxisX) (step_local N sol 0 AxisY) a)%R).
  { intros a. pose proof (walk_footpos _ _ _ _ _ _ _ _ _ _ _ 0 a So ltac:(rewrite K1; cbn; lia)) as E. change (2 * 0 + axis_index a) with (axis_index a) in E. rewrite E. cbn [Nat.add support_after]. rewrite R0. f_equal.
    unfold support_of. cbn [vget]. rewrite Mc, Cb. destruct a; reflexivity. }
  set (FP := V2 (vget (wp_footpos pf) 0) (vget (wp_footpos pf) 1)) in *.
  assert (Fq : forall a, coordinate FP a = (coordinate (xy b) a + from_frame (rot2 (heading b)) (step_local N sol 0 AxisX) (step_local N sol 0 AxisY) a)%R).
  { intros a. rewrite <- Fp. destruct a; reflexivity. }
  split.
  - intros X. specialize (N0 X). destruct (B7 N0) as (P1 & P2 & P3). rewrite P3 in Ob. unfold side_by_side.
    assert (Lc : step_local N sol 0 AxisX = 0%R /\ step_local N sol 0 AxisY = (side (swing (st_type (cur (wl_fsm s)))) * (feet_dist_default pr / 2))%R).
    { pose proof (Ob AxisX) as Ox. pose proof (Ob AxisY) as Oy. revert Ox Oy. generalize (step_local N sol 0 AxisX) (step_local N sol 0 AxisY). intros lx ly. destruct (st_type (cur (wl_fsm s))); try discriminate L1; unfold within; cbn; lra. }
    assert (Of : forall a, offset b b' a = match a with AxisX => 0%R | AxisY => (side (swing (st_type (cur (wl_fsm s)))) * feet_dist_default pr)%R end).
    { intros a. unfold offset. apply frame_id. intros a0.
      assert (Xy : xy b' = v2add (m2app (rot2 (heading b)) (V2 0 (side (swing (st_type (cur (wl_fsm s)))) * (feet_dist_default pr / 2)))) FP).
      { assert (Q : getFootPositionFromADS (finalize pr) (swing (st_type (cur (wl_fsm s)))) (rot2 (heading b)) FP = Ok (transform2 (V2 0 (side (swing (st_type (cur (wl_fsm s)))) * (feet_dist_default pr / 2))) (rot2 (heading b)) FP)).
        { destruct (st_type (cur (wl_fsm s))); try discriminate L1; cbn; do 2 f_equal; f_equal; lra. }
        rewrite Q in P1. unfold transform2 in P1. congruence. }
      assert (Ca : coordinate (xy b') a0 = (coordinate FP a0 + from_frame (rot2 (heading b)) 0 (side (swing (st_type (cur (wl_fsm s)))) * (feet_dist_default pr / 2)) a0)%R).
      { rewrite Xy. destruct a0; cbn; ring. }
      rewrite Ca, Fq. destruct Lc as [-> ->]. destruct a0; cbn; field. }
    split; [apply Of|]. split; [|exact P2]. rewrite Of. destruct (st_type (cur (wl_fsm s))); try discriminate L1; cbn; ring.
  - intros X. specialize (N1 X). destruct (B6 N1) as (P1 & P2 & P3). rewrite P3 in Ob. unfold reachable.
    assert (Of : forall a, offset b b' a = match a with AxisX => step_local N sol 0 AxisX | AxisY => step_local N sol 0 AxisY end).
    { intros a. unfold offset. apply frame_id. intros a0. rewrite P1, Fq. ring. }
    rewrite !Of. pose proof (Ob AxisX) as Ox. pose proof (Ob AxisY) as Oy. revert Ox Oy. generalize (step_local N sol 0 AxisX) (step_local N sol 0 AxisY). intros lx ly. destruct (st_type (cur (wl_fsm s))); try discriminate L1; unfold within; cbn; intros Ox Oy; (split; [apply Rabs_le; lra|lra]).
Qed.

Theorem feet : forall p s0, exists F, forall fuel junk nan inc pr sols, F <= fuel -> walking p s0 fuel junk nan inc pr sols -> forall n s s',
  consecutive fuel junk nan inc (finalize pr) sols s0 n s s' ->
  let x := md_state (wl_model s) in let x' := md_state (wl_model s') in
  (lands x x' = false -> forall side, foot_of (ms_feet x') side = foot_of (ms_feet x) side) /\
  (lands x x' = true -> exists b b', foot_of (ms_feet x) (stance_foot (ms_stance x)) = Some b /\ foot_of (ms_feet x') (stance_foot (ms_stance x)) = Some b /\
     foot_of (ms_feet x') (swing (ms_stance x)) = Some b' /\ vz (b_position b') = vz (b_position b) /\ b_velocity b' = V3 0 0 0 /\
     (ms_next x' = DS -> heading b' = heading b) /\ (ms_next x' <> DS -> ms_next x' = opp (ms_stance x) /\ heading b' = (heading b + inc)%R) /\
     (obeys_steps nan (finalize pr) s' (sols n) ->
       (ms_next x' = DS -> side_by_side pr (swing (ms_stance x)) b b') /\ (ms_next x' <> DS -> reachable pr (swing (ms_stance x)) b b'))).
Proof.
  intros p s0. exists (stances_left (wl_fsm s0) + 1). intros fuel junk nan inc pr sols FU W n s s' C x x'. pose proof W as (Reg & Sta & Ans).
  destruct (iteration p s0 fuel junk nan inc pr sols n s s' FU W C) as (I & I' & h & rs & M & pf & com & Ma). split.
  - intros L. destruct Ma as (_ & _ & _ & _ & _ & _ & Fe & _). destruct Fe as [[_ Fe]|[Fe _]]; [exact Fe|]. unfold x, x' in L. congruence.
  - intros L. destruct (landing_made _ _ _ _ _ _ _ _ _ _ _ _ _ _ _ Reg Sta I I' Ma L) as (_ & _ & _ & _ & b & b' & B1 & B2 & B3 & B4 & B5 & B6 & B7 & B8).
    exists b, b'. repeat (split; [assumption|]). split; [intros X; apply (B6 X)|]. split; [intros X; apply (B7 X)|exact B8].
Qed.

Lemma landings_start p f : init p = Ok f -> walkable p -> landings_left f = num_steps p + match first_stance p with DS => 0 | _ => 1 end.
Proof.
  unfold init. intros I _. apply assert_ok in I. destruct I as [_ I]. cbv zeta in I. unfold landings_left.
  destruct (first_stance p) eqn:E1; try discriminate I.
  - destruct (first_ss_type p); try discriminate I; inversion I; cbn [cur st_type ss_left]; rewrite ?E1; cbn; lia.
  - inversion I; cbn [cur st_type ss_left]; lia.
  - inversion I; cbn [cur st_type ss_left]; lia.
Qed.
Theorem steps : forall p s0, exists F, forall fuel junk nan inc pr sols, F <= fuel -> walking p s0 fuel junk nan inc pr sols -> forall n s,
  ended fuel junk nan inc (finalize pr) sols s0 n s ->
  landings fuel junk nan inc (finalize pr) sols s0 n = num_steps p + match first_stance p with DS => 0 | _ => 1 end.
Proof.
  intros p s0. exists (stances_left (wl_fsm s0) + 1). intros fuel junk nan inc pr sols FU (Reg & Sta & Ans) n s E.
  destruct (loop_ended fuel junk nan inc pr sols p s0 Reg Sta FU Ans n s E) as (_ & _ & L). rewrite L. apply landings_start; [apply Sta|apply Reg].
Qed.

(** ** the end *)
Lemma side_sym pr l r : side_by_side pr RIGHT l r -> side_by_side pr LEFT r l.
Proof.
  unfold side_by_side. intros (A & B & C). rewrite C. split; [|split; [|reflexivity]].
  - unfold offset in *. rewrite C. unfold in_frame in *. cbn [a00 a01 a10 a11 rot2] in *. lra.
  - unfold offset in *. rewrite C. unfold in_frame in *. cbn [a00 a01 a10 a11 rot2 side] in *. lra.
Qed.
Definition aligned (pr : primary) (m : wpg_model) : Prop :=
  exists l r, foot_of (ms_feet (md_state m)) LEFT = Some l /\ foot_of (ms_feet (md_state m)) RIGHT = Some r /\ side_by_side pr LEFT r l.
Lemma align fuel junk nan inc pr sols p s0 : stances_left (wl_fsm s0) + 1 <= fuel -> walking p s0 fuel junk nan inc pr sols -> forall n s,
  after fuel junk nan inc (finalize pr) sols s0 n = Finished (Ok (Some s)) -> obeyed (obeys_steps nan (finalize pr)) fuel junk nan inc (finalize pr) sols s0 n ->
  st_type (cur (wl_fsm s)) = TDS /\ ss_left (wl_fsm s) = 0 \/ st_type (cur (wl_fsm s)) = DS /\ subtype (cur (wl_fsm s)) = LAST -> aligned pr (wl_model s).
Proof.
  intros FU W. pose proof W as (Reg & Sta & Ans). pose proof Sta as (Ini & _). induction n as [|n IH]; intros s A O P.
  - injection A as <-. exfalso. unfold init in Ini. apply assert_ok in Ini. destruct Ini as [_ Ini]. cbv zeta in Ini.
    destruct (first_stance p) eqn:E1; try discriminate Ini.
    + destruct (first_ss_type p); try discriminate Ini; injection Ini as X; rewrite <- X in P; cbn in P; rewrite ?E1 in P; destruct P as [[P _]|[_ P]]; discriminate P.
    + injection Ini as X; rewrite <- X in P; cbn in P; destruct P as [[P _]|[_ P]]; discriminate P.
    + injection Ini as X; rewrite <- X in P; cbn in P; destruct P as [[P _]|[_ P]]; discriminate P.
  - destruct (loop_at fuel junk nan inc pr sols p s0 Reg Sta FU Ans n) as ([x|] & Ax & _); [|exfalso; cbn [after] in A; rewrite Ax in A; discriminate A].
    specialize (IH x Ax ltac:(intros k s' Hk; apply O; lia)).
    destruct (iteration p s0 fuel junk nan inc pr sols n x s FU W (conj Ax A)) as (I & I' & h & rs & M & pf & com & Ma).
    pose proof Ma as (_ & F & Sh & _ & _ & _ & Fe & _).
    destruct (st_remaining p _ _ nan inc _ _ x Reg I fuel h F) as [R1 R2].
    destruct (machine_moves fuel p _ _ (wl_fsm x) (wl_fsm s) Reg Ini (i_reach _ _ _ _ _ _ _ I) ltac:(lia) (i_time _ _ _ _ _ _ _ I) R1 R2 (i_grid _ _ _ _ _ _ _ I) Sh) as (_ & _ & _ & _ & _ & A6).
    assert (La : lands (md_state (wl_model x)) (md_state (wl_model s)) = is_ss (st_type (cur (wl_fsm x))) && is_tds (st_type (cur (wl_fsm s)))).
    { unfold lands. rewrite (i_stance _ _ _ _ _ _ _ I), (i_stance _ _ _ _ _ _ _ I'). reflexivity. }
    assert (Keep : (st_type (cur (wl_fsm x)) = TDS /\ ss_left (wl_fsm x) = 0 \/ st_type (cur (wl_fsm x)) = DS /\ subtype (cur (wl_fsm x)) = LAST) -> aligned pr (wl_model s)).
    { intros Px. destruct (IH Px) as (l & r & L1 & L2 & L3). destruct Fe as [[_ Fe]|[Fe _]]; [exists l, r; rewrite !Fe; auto|].
      rewrite La in Fe. destruct Px as [[Px _]|[Px _]]; rewrite Px in Fe; discriminate Fe. }
    destruct A6 as [(E1 & E2 & _)|(E1 & E2)]; [rewrite E1, E2 in P; exact (Keep P)|].
    destruct (st_type (cur (wl_fsm x))) eqn:Tx; try (unfold shiftStance in E1; rewrite Tx in E1; discriminate E1).
    + exfalso. unfold shiftStance in E1. rewrite Tx in E1. cbn in E1. destruct (ss_left (wl_fsm x)) eqn:Lx; [apply E2; split; assumption|].
      injection E1 as X. rewrite <- X in P. cbn in P. destruct P as [[_ P]|[P _]]; discriminate P.
    + assert (T : st_type (cur (wl_fsm s)) = TDS) by (unfold shiftStance in E1; rewrite Tx in E1; injection E1 as X; rewrite <- X; reflexivity).
      destruct P as [[_ P]|[P _]]; [|congruence]. rewrite T in La.
      destruct (landing_made _ _ _ _ _ _ _ _ _ _ _ _ _ _ _ Reg Sta I I' Ma La) as (_ & _ & Q1 & Q2 & b & b' & B1 & B2 & B3 & B4 & B5 & B6 & B7 & B8).
      assert (Nx : ms_next (md_state (wl_model s)) = DS). { destruct (ms_next (md_state (wl_model s))) eqn:E; try reflexivity; exfalso; destruct B7 as [B7 _]; try discriminate; lia. }
      destruct (B8 (O n s ltac:(lia) A)) as [B9 _]. specialize (B9 Nx). rewrite <- Q1, Tx in B2, B3, B9. exists b, b'. split; [exact B2|]. split; [exact B3|]. apply side_sym. exact B9.
    + assert (T : st_type (cur (wl_fsm s)) = TDS) by (unfold shiftStance in E1; rewrite Tx in E1; injection E1 as X; rewrite <- X; reflexivity).
      destruct P as [[_ P]|[P _]]; [|congruence]. rewrite T in La.
      destruct (landing_made _ _ _ _ _ _ _ _ _ _ _ _ _ _ _ Reg Sta I I' Ma La) as (_ & _ & Q1 & Q2 & b & b' & B1 & B2 & B3 & B4 & B5 & B6 & B7 & B8).
      assert (Nx : ms_next (md_state (wl_model s)) = DS). { destruct (ms_next (md_state (wl_model s))) eqn:E; try reflexivity; exfalso; destruct B7 as [B7 _]; try discriminate; lia. }
      destruct (B8 (O n s ltac:(lia) A)) as [B9 _]. specialize (B9 Nx). rewrite <- Q1, Tx in B2, B3, B9. exists b', b. split; [exact B3|]. split; [exact B2|]. exact B9.
    + apply Keep. left. split; [reflexivity|]. unfold shiftStance in E1. rewrite Tx in E1. cbn in E1. destruct (ss_left (wl_fsm x)); [reflexivity|exfalso].
      destruct (prev_nonds (cur (wl_fsm x))); try discriminate E1; injection E1 as X; rewrite <- X in P; cbn in P; destruct P as [[P _]|[P _]]; discriminate P.
Qed.
Theorem finish : forall p s0, first_stance p <> DS \/ 0 < num_steps p -> exists F, forall fuel junk nan inc pr sols, F <= fuel -> walking p s0 fuel junk nan inc pr sols -> forall n s,
  ended fuel junk nan inc (finalize pr) sols s0 n s ->
  exists b0 l r, foot_of (ms_feet (md_state (wl_model s0))) (first_foot p) = Some b0 /\ foot_of (ms_feet (md_state (wl_model s))) LEFT = Some l /\ foot_of (ms_feet (md_state (wl_model s))) RIGHT = Some r /\
    heading l = (heading b0 + INR (turns p) * inc)%R /\ heading r = (heading b0 + INR (turns p) * inc)%R /\
    (obeyed (obeys_steps nan (finalize pr)) fuel junk nan inc (finalize pr) sols s0 n -> side_by_side pr LEFT r l).
Proof.
  intros p s0 Mv. exists (stances_left (wl_fsm s0) + 1). intros fuel junk nan inc pr sols FU W n s E. pose proof W as (Reg & Sta & Ans). pose proof Sta as (Ini & _ & D0 & _).
  destruct (loop_ended fuel junk nan inc pr sols p s0 Reg Sta FU Ans n s E) as (I & (T1 & T2) & _).
  destruct (two_feet _ (i_feet _ _ _ _ _ _ _ I)) as (l & r & L & Rr).
  assert (B0 : exists b0, foot_of (ms_feet (md_state (wl_model s0))) (first_foot p) = Some b0).
  { specialize (D0 (first_foot p)). destruct (foot_of _ (first_foot p)) as [b0|]; [eauto|congruence]. }
  destruct B0 as [b0 B0]. exists b0, l, r. split; [exact B0|]. split; [exact L|]. split; [exact Rr|].
  assert (Su : subtype (cur (wl_fsm s)) = LAST).
  { destruct (i_sub _ _ _ _ _ _ _ I T1) as [X|(X1 & X2 & X3)]; [exact X|exfalso]. rewrite X2 in T1. rewrite X3 in T2. unfold init in Ini. apply assert_ok in Ini. destruct Ini as [_ Ini]. cbv zeta in Ini.
    destruct (first_stance p) eqn:E1; try discriminate Ini.
    - destruct (first_ss_type p); try discriminate Ini; injection Ini as X; rewrite <- X in T2; cbn in T2; (destruct Mv; [congruence|lia]).
    - injection Ini as X; rewrite <- X in T1; cbn in T1; discriminate T1.
    - injection Ini as X; rewrite <- X in T1; cbn in T1; discriminate T1. }
  pose proof (i_heading _ _ _ _ _ _ _ I) as Hg. unfold to_go in Hg. rewrite T1 in Hg. destruct Hg as [Hg _]. destruct (Hg T2 Su) as [H1 H2].
  rewrite (yaw_defined nan _ _ _ B0) in H1, H2. rewrite (yaw_defined nan _ _ _ L) in H1. rewrite (yaw_defined nan _ _ _ Rr) in H2. split; [exact H1|]. split; [exact H2|].
  intros O. destruct (align fuel junk nan inc pr sols p s0 FU W n s (proj1 E) O (or_intror (conj T1 Su))) as (l' & r' & L' & R' & S). rewrite L in L'. rewrite Rr in R'. injection L' as <-. injection R' as <-. exact S.
Qed.
