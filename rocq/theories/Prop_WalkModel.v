(** * Properties C56 (support position, updates of the model) and C68 (planned steps are realised) *)
From Coq Require Import List Arith Bool Reals Lra Lia.
From Verif Require Import Base LeftRight Mat2 Mat3 FootParameters FootTrajectory PointMass6z StanceFSM StanceSpec
  WalkPreview WalkPreviewSpec WalkModel WalkModelSpec WalkModelFacts.
Import ListNotations.
Local Open Scope R_scope.

(** ** C56 *)
Theorem C56_support_position : forall m s m',
  updateState m s = (m', Ok tt) -> defined (ms_feet (md_state m')) ->
  exists p, md_support m' = Some p /\ support_position (md_state m') p.
Proof. exact update_support. Qed.
Theorem C56_one_update : forall m s m' o,
  updateState m s = (m', o) ->
  ms_com (md_state m') = ms_com s /\ ms_stance (md_state m') = ms_stance s /\ ms_next (md_state m') = ms_next s /\
  forall x, x <> LR_UNDEFINED -> foot_of (ms_feet (md_state m')) x =
    if commanded (ms_stance (md_state m)) (ms_stance s) x then foot_of (ms_feet s) x else foot_of (ms_feet (md_state m)) x.
Proof. exact update_feet. Qed.
Theorem C56_foot_history : forall m l m' x,
  updates m l = Ok m' -> x <> LR_UNDEFINED ->
  (foot_of (ms_feet (md_state m')) x = foot_of (ms_feet (md_state m)) x /\
     forall i s, nth_error l i = Some s -> commanded (stance_before m l i) (ms_stance s) x = false) \/
  (exists k s, nth_error l k = Some s /\ commanded (stance_before m l k) (ms_stance s) x = true /\
     foot_of (ms_feet (md_state m')) x = foot_of (ms_feet s) x /\
     forall i s', (k < i)%nat -> nth_error l i = Some s' -> commanded (stance_before m l i) (ms_stance s') x = false).
Proof. exact updates_foot. Qed.
Theorem C56_accepted_iff : forall m s,
  snd (updateState m s) = Ok tt <->
  match ms_stance s with
  | ST_UNDEFINED => False
  | TDS => (ms_stance (md_state m) = LSS \/ ms_stance (md_state m) = RSS \/ ms_stance (md_state m) = DS) /\
           (ms_next s = LSS \/ ms_next s = RSS \/ ms_next s = DS)
  | _ => True
  end.
Proof. exact update_accepts. Qed.
Theorem C56_default_state : forall pr z,
  exists s, defaultState (finalize pr) z = Ok s /\ defined (ms_feet s) /\ ms_stance s = DS /\
  determineSupportPosition s = Ok (Some (V2 0 0)).
Proof. exact default_support. Qed.
Theorem C56_set_state : forall t com l r,
  (exists s, setState t com l r = Ok s) <-> t = LSS \/ t = RSS \/ t = DS.
Proof. exact set_state_types. Qed.
(** not rejected: the other foot becomes the support without having landed *)
Theorem C56_change_of_support_refuted : forall m s,
  ms_stance (md_state m) = LSS -> ms_stance s = RSS -> snd (updateState m s) = Ok tt.
Proof. exact ss_without_landing. Qed.
(** rejected: a transitional double support which lasts longer than one control step *)
Theorem C56_longer_tds_refuted : forall m s,
  ms_stance (md_state m) = TDS -> ms_stance s = TDS -> snd (updateState m s) = Throw.
Proof. exact longer_tds. Qed.

(** left support, landing of the right foot at (1, -1), right support *)
Definition foot_at (x y : R) : body_state := mkBody (V3 x y 0) (V3 0 0 0) (V3 0 0 0) (V3 0 0 0) (V3 0 0 0) (V3 0 0 0).
Definition com0 : point_mass_state := mkPM (V3 0 0 1) (V3 0 0 0) (V3 0 0 0).
Definition model0 : wpg_model := mkWpgModel (mkWpgState com0 (mkFeetStates (Some (foot_at 0 1)) (Some (foot_at 0 (-1)))) DS ST_UNDEFINED) (Some (V2 0 0)).
Definition updates0 : list wpg_state :=
  [mkWpgState com0 (mkFeetStates (Some (foot_at 0 1)) None) LSS TDS;
   mkWpgState com0 (mkFeetStates None (Some (foot_at 1 (-1)))) TDS RSS;
   mkWpgState com0 (mkFeetStates None (Some (foot_at 1 (-1)))) RSS TDS].
Example C56_example : exists m', updates model0 updates0 = Ok m' /\
  foot_of (ms_feet (md_state m')) LEFT = Some (foot_at 0 1) /\ foot_of (ms_feet (md_state m')) RIGHT = Some (foot_at 1 (-1)) /\
  md_support m' = Some (V2 1 (-1)).
Proof. eexists. split; [reflexivity|]. repeat split. Qed.
Example C56_refuted_examples : exists m s, ms_stance (md_state m) = TDS /\ ms_stance s = TDS /\ snd (updateState m s) = Throw.
Proof.
  exists (mkWpgModel (mkWpgState com0 (mkFeetStates (Some (foot_at 0 1)) (Some (foot_at 0 (-1)))) TDS LSS) (Some (V2 0 1))),
    (mkWpgState com0 (mkFeetStates (Some (foot_at 0 1)) (Some (foot_at 0 (-1)))) TDS LSS). repeat split.
Qed.

(** ** C68 *)
Theorem C68_landing_partial : forall p s0 s mp ly ry inc f g h s' fp footpos com m b,
  init p = Ok s0 -> walkable p -> reach s0 s -> pos_durations p ->
  is_ss (st_type (cur s)) = true -> (cur_time s < duration (cur s))%nat ->
  (duration (cur s) - cur_time s <= (horizon_length mp - 1) * sampling_ms mp)%nat ->
  form f mp ly ry inc s = Finished (Ok (Some h)) ->
  shiftTime g s (duration (cur s) - cur_time s) = Finished (Ok s') ->
  ms_stance (md_state m) = st_type (cur s) -> length (feet fp) = 2%nat ->
  foot_of (ms_feet (md_state m)) (stance_foot (st_type (cur s))) = Some b ->
  exists m' w b', control_step fp h footpos com m s' m' /\ nth_error (h_states h) 2 = Some w /\
    ms_stance (md_state m') = TDS /\ ms_next (md_state m') = st_type (ws_stance w) /\
    foot_of (ms_feet (md_state m')) (stance_foot (st_type (cur s))) = Some b /\
    foot_of (ms_feet (md_state m')) (swing (st_type (cur s))) = Some b' /\
    (is_ss (st_type (ws_stance w)) = true -> xy b' = footpos /\ md_support m' = Some footpos) /\
    (st_type (ws_stance w) = DS -> getFootPositionFromADS fp (swing (st_type (cur s))) (rot2 (ws_theta w)) footpos = Ok (xy b')) /\
    vz (b_position b') = vz (b_position b) /\ b_velocity b' = V3 0 0 0 /\ b_rpy b' = V3 0 0 (ws_theta w).
Proof. exact planned_landing. Qed.
Theorem C68_aligned_double_support : forall pr theta (x : lr) (planned a c : v2),
  (x = LEFT \/ x = RIGHT) ->
  getADSPositionFromFoot (finalize pr) (match x with LEFT => RIGHT | _ => LEFT end) (rot2 theta) a = Ok planned ->
  getFootPositionFromADS (finalize pr) x (rot2 theta) planned = Ok c ->
  v2scale (/ 2) (v2add a c) = planned.
Proof. exact aligned_support. Qed.
Theorem C68_feet_rest : forall fp h footpos com s m m',
  control_step fp h footpos com m s m' ->
  is_tds_started s && is_tds (st_type (cur s)) && is_ss (ms_stance (md_state m)) = false ->
  forall x, x <> LR_UNDEFINED -> foot_of (ms_feet (md_state m')) x = foot_of (ms_feet (md_state m)) x.
Proof. exact feet_rest. Qed.
Theorem C68_feet_defined : forall fp h footpos com s m m',
  control_step fp h footpos com m s m' -> defined (ms_feet (md_state m)) ->
  defined (ms_feet (md_state m')).
Proof. exact feet_stay_defined. Qed.
Theorem C68_missed_landing_refuted : forall fp footpos com m,
  forall s0 s, init odd_walk = Ok s0 -> shiftTime 9 s0 1150 = Finished (Ok s) ->
  forall s', shiftTime 9 s 100 = Finished (Ok s') ->
  st_type (cur s) = RSS /\ st_type (cur s') = TDS /\
  (ms_stance (md_state m) = RSS -> defined (ms_feet (md_state m)) ->
   forall h, exists m', control_step fp h footpos com m s' m' /\ forall x, x <> LR_UNDEFINED -> foot_of (ms_feet (md_state m')) x = foot_of (ms_feet (md_state m)) x).
Proof. exact missed_landing. Qed.

(** the default walk, in the first right support *)
Lemma walk_example : exists s0 s h s', init default_params = Ok s0 /\ shiftTime 9 s0 1000 = Finished (Ok s) /\ st_type (cur s) = RSS /\ cur_time s = 600%nat /\ duration (cur s) = 700%nat /\
  form 20 default_mpc 0 0 0 s = Finished (Ok (Some h)) /\ shiftTime 5 s 100 = Finished (Ok s') /\
  exists w, nth_error (h_states h) 2 = Some w /\ st_type (ws_stance w) = LSS.
Proof.
  do 4 eexists. split; [reflexivity|]. split; [vm_compute; reflexivity|]. do 3 (split; [reflexivity|]). split; [vm_compute; reflexivity|].
  split; [vm_compute; reflexivity|]. eexists. split; reflexivity.
Qed.
(** the left foot, which was at (0, 1), is at the planned position (3, 1) after the step; the model is then updated *)
Example C68_example : exists s0 s h s' m m' b, init default_params = Ok s0 /\ reach s0 s /\ form 20 default_mpc 0 0 0 s = Finished (Ok (Some h)) /\
  shiftTime 5 s 100 = Finished (Ok s') /\ control_step default_feet h (V2 3 1) com0 m s' m' /\
  foot_of (ms_feet (md_state m')) RIGHT = Some (foot_at 0 (-1)) /\ foot_of (ms_feet (md_state m')) LEFT = Some b /\ xy b = V2 3 1 /\ md_support m' = Some (V2 3 1).
Proof.
  destruct walk_example as (s0 & s & h & s' & A & B0 & C & D & E & F & G & w & W1 & W2).
  assert (B : reach s0 s) by (eapply reach_time; [exact B0|apply reach_refl]).
  set (m := mkWpgModel (mkWpgState com0 (mkFeetStates (Some (foot_at 0 1)) (Some (foot_at 0 (-1)))) RSS TDS) (Some (V2 0 (-1)))).
  destruct (C68_landing_partial default_params s0 s default_mpc 0 0 0 20%nat 5%nat h s' default_feet (V2 3 1) com0 m (foot_at 0 (-1))) as (m' & w' & b' & R1 & R2 & _ & _ & R3 & R4 & R5 & _).
  - exact A.
  - intros _. right. discriminate.
  - exact B.
  - vm_compute. lia.
  - rewrite C. reflexivity.
  - rewrite D, E. lia.
  - rewrite D, E. vm_compute. lia.
  - exact F.
  - rewrite D, E. exact G.
  - rewrite C. reflexivity.
  - reflexivity.
  - rewrite C. reflexivity.
  - rewrite W1 in R2. inversion R2; subst w'. rewrite C in *. rewrite W2 in R5. destruct (R5 eq_refl) as [P1 P2].
    exists s0, s, h, s', m, m', b'. auto 10.
Qed.
(** the hypotheses of [C68_missed_landing_refuted] are met *)
Example C68_missed_landing_example : exists s0 s s', init odd_walk = Ok s0 /\ shiftTime 9 s0 1150 = Finished (Ok s) /\ shiftTime 9 s 100 = Finished (Ok s').
Proof. do 3 eexists. split; [reflexivity|]. split; vm_compute; reflexivity. Qed.

Print Assumptions C56_support_position. Print Assumptions C56_one_update. Print Assumptions C56_foot_history. Print Assumptions C56_accepted_iff. Print Assumptions C56_default_state. Print Assumptions C56_set_state. Print Assumptions C56_change_of_support_refuted. Print Assumptions C56_longer_tds_refuted. Print Assumptions C68_landing_partial. Print Assumptions C68_aligned_double_support. Print Assumptions C68_feet_rest. Print Assumptions C68_feet_defined. Print Assumptions C68_missed_landing_refuted.
