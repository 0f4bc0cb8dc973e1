(** * The walking loop: invariant *)
From Coq Require Import String List Reals Arith Bool Lra Lia Sorting.Sorted.
From Verif Require Import Base BaseFacts Matrix Mat2 Mat3 LeftRight FootParameters FootTrajectory PointMass6z PointMass6zSpec PointMass6zFacts Solution Constraints ConstraintsSpec MpcGuess
  PepperTasksSpec StanceFSM StanceSpec StanceFSMFacts StanceFSMFacts2 StanceTimeFacts WalkPreview WalkPreviewSpec WalkPreviewFacts WalkPreviewFacts2 WalkHeadingFacts WalkPreviewFacts3
  WalkMpc WalkMpcFacts WalkProfiles WalkProfilesSpec WalkProfilesFacts WalkProfilesFacts2 WalkTasks WalkTasksSpec WalkModel WalkModelSpec WalkModelFacts WalkLoop WalkLoopSpec WalkLoopFacts.
Import ListNotations.
Local Open Scope nat_scope.

(** ** the machine *)
Lemma machine_step f s T : 0 < T -> 1 <= f -> wf s -> cur_time s < duration (cur s) -> T <= duration (cur s) - cur_time s ->
  exists s', shiftTime f s T = Finished (Ok s') /\
    (cur s' = cur s /\ ss_left s' = ss_left s /\ cur_time s' = cur_time s + T /\ cur_time s' < duration (cur s) /\ is_tds_started s' = false /\ fparams s' = fparams s \/
     duration (cur s) - cur_time s = T /\ shiftStance s = Ok s').
Proof.
  intros TP FP W CT LE. destruct f as [|f]; [lia|]. rewrite shiftTime_S by lia. cbv zeta. cbn [set_tds_started cur_time cur].
  destruct (Nat.ltb_spec (cur_time s + T) (duration (cur s))) as [L|L].
  - eexists. split; [reflexivity|]. left. repeat split. exact L.
  - destruct (Nat.leb_spec (cur_time s) (duration (cur s))); [|lia]. rewrite shiftStance_flag.
    destruct (wf_shiftStance s W) as (s' & S & _). rewrite S. replace (T - (duration (cur s) - cur_time s)) with 0 by lia. rewrite shiftTime_0.
    exists s'. split; [reflexivity|]. right. split; [lia|reflexivity].
Qed.

(** time to the end of the walk *)
Definition rest_ms (s : fsm) : nat :=
  let p := fparams s in
  match st_type (cur s) with
  | DS => if ss_left s =? 0 then 0 else tds_duration p + ss_left s * (ss_duration p + tds_duration p) + last_duration p
  | TDS => ss_left s * (ss_duration p + tds_duration p) + last_duration p
  | _ => tds_duration p + ss_left s * (ss_duration p + tds_duration p) + last_duration p
  end.
Definition left_ms (s : fsm) : nat := duration (cur s) - cur_time s + rest_ms s.
Lemma left_shift s s' : shiftStance s = Ok s' -> ~ terminal s -> left_ms s' = rest_ms s.
Proof.
  unfold shiftStance, left_ms, rest_ms, terminal. destruct s as [fl k ct c p]; destruct c as [ty pn pt su d td]; cbn [st_type cur ss_left fparams].
  intros H NT. destruct ty; try discriminate H.
  - destruct k as [|k]; [exfalso; apply NT; auto|]. inversion H; subst s'. cbn. lia.
  - inversion H; subst s'. cbn. lia.
  - inversion H; subst s'. cbn. lia.
  - destruct k as [|k]; [inversion H; subst s'; cbn; lia|]. destruct pn; try discriminate H; inversion H; subst s'; cbn; lia.
Qed.

(** ** the model *)
Lemma step_flat fp h footpos com s m : wf s -> st_type (cur s) <> TDS -> defined (ms_feet (md_state m)) ->
  exists m', control_step fp h footpos com m s m' /\ (forall x, foot_of (ms_feet (md_state m')) x = foot_of (ms_feet (md_state m)) x) /\
    ms_stance (md_state m') = st_type (cur s) /\ ms_com (md_state m') = com.
Proof.
  intros W NT D. destruct (wf_shiftStance s W) as (n & Sn & _).
  assert (X : exists x, initializeNextModelState fp h footpos com s m = Ok x).
  { unfold initializeNextModelState, getNextStance. rewrite Sn. cbn [bind]. destruct W as [_ W]. destruct (st_type (cur s)); try contradiction; eexists; reflexivity. }
  destruct X as [x X]. destruct (initialize_stances _ _ _ _ _ _ _ X) as (E1 & E2 & _).
  destruct (updateState m x) as [m' o] eqn:U. assert (O : o = Ok tt).
  { change o with (snd (m', o)). rewrite <- U. apply update_accepts. rewrite E1. destruct W as [_ W]. destruct (st_type (cur s)); try contradiction; exact I. }
  subst o. destruct (update_feet _ _ _ _ U) as (F1 & F2 & _).
  assert (C : control_step fp h footpos com m s m') by (exists x; auto). exists m'. split; [exact C|]. split.
  - assert (K := feet_rest _ _ _ _ _ _ _ C ltac:(destruct (is_tds_started s), (st_type (cur s)); try contradiction; reflexivity)).
    intros [| |]; [change (foot_of (ms_feet (md_state m')) RIGHT = foot_of (ms_feet (md_state m)) RIGHT)| |]; apply K; discriminate.
  - split; congruence.
Qed.
Lemma step_leave fp h footpos com s m n : shiftStance s = Ok n -> is_ss (st_type (cur n)) = true \/ st_type (cur n) = DS ->
  st_type (cur s) = TDS -> ms_stance (md_state m) = DS -> defined (ms_feet (md_state m)) ->
  exists m', control_step fp h footpos com m s m' /\ (forall x, foot_of (ms_feet (md_state m')) x = foot_of (ms_feet (md_state m)) x) /\
    ms_stance (md_state m') = st_type (cur s) /\ ms_com (md_state m') = com.
Proof.
  intros Sn Tn TS MS D.
  assert (X : exists x, initializeNextModelState fp h footpos com s m = Ok x).
  { unfold initializeNextModelState, getNextStance. rewrite Sn. cbn [bind]. rewrite TS, MS. destruct (is_tds_started s); eexists; reflexivity. }
  destruct X as [x X]. destruct (initialize_stances _ _ _ _ _ _ _ X) as (E1 & E2 & n' & E3 & E4).
  unfold getNextStance in E3. rewrite Sn in E3. cbn in E3. injection E3 as <-.
  destruct (updateState m x) as [m' o] eqn:U. assert (O : o = Ok tt).
  { change o with (snd (m', o)). rewrite <- U. apply update_accepts. rewrite E1, TS, MS, E4. split; [auto|]. destruct Tn as [Tn|Tn]; [|auto]. destruct (st_type (cur n)); try discriminate Tn; auto. }
  subst o. destruct (update_feet _ _ _ _ U) as (F1 & F2 & _).
  assert (C : control_step fp h footpos com m s m') by (exists x; auto). exists m'. split; [exact C|]. split.
  - assert (K := feet_rest _ _ _ _ _ _ _ C ltac:(rewrite MS; apply andb_false_r)).
    intros [| |]; [change (foot_of (ms_feet (md_state m')) RIGHT = foot_of (ms_feet (md_state m)) RIGHT)| |]; apply K; discriminate.
  - split; congruence.
Qed.
Lemma control_step_det fp h footpos com m s m1 m2 : control_step fp h footpos com m s m1 -> control_step fp h footpos com m s m2 -> m1 = m2.
Proof. intros (x & A & B) (y & C & D). assert (x = y) by congruence. subst y. congruence. Qed.
(** the common part: what the model knows after a step *)
Lemma step_common fp h footpos com m s m' : control_step fp h footpos com m s m' -> defined (ms_feet (md_state m)) ->
  ms_stance (md_state m') = st_type (cur s) /\ ms_com (md_state m') = com /\ (exists n, getNextStance s = Ok n /\ ms_next (md_state m') = st_type n) /\
  defined (ms_feet (md_state m')) /\ exists c, md_support m' = Some c /\ support_position (md_state m') c.
Proof.
  intros C D. pose proof (feet_stay_defined _ _ _ _ _ _ _ C D) as D'. destruct C as (x & A & B).
  destruct (initialize_stances _ _ _ _ _ _ _ A) as (E1 & E2 & n & E3 & E4). destruct (update_feet _ _ _ _ B) as (F1 & F2 & F3 & _).
  split; [congruence|]. split; [congruence|]. split; [exists n; split; congruence|]. split; [exact D'|]. exact (update_support _ _ _ B D').
Qed.

(** ** one iteration *)
Definition iterated (fuel : nat) (junk : nat -> nat -> nat -> R) (nan inc : R) (fp : feet_params) (sol : solution) (s s' : wloop)
    (h : horizon) (rs : list nat) (M : walk_matrices) (pr : walk_profiles) (com : point_mass_state) : Prop :=
  let m := wl_model s in
  form fuel (wg_par (wl_wpg s)) (yaw_of nan (lf (ms_feet (md_state m)))) (yaw_of nan (rf (ms_feet (md_state m)))) inc (wl_fsm s) = Finished (Ok (Some h)) /\
  form_rotations h = Ok rs /\
  walk_update junk (horizon_length (wg_par (wl_wpg s))) (intervals_of h (height_of m)) (interval_rotations h) (h_steps h) (step_rotations h rs) (support_of nan m) (cstate_of m) = Ok M /\
  walk_parse (junk 13) M sol = Ok pr /\
  next_com_state (intervals_of h (height_of m)) pr (cstate_of m) (INR (subsampling_ms (wg_par (wl_wpg s))) / 1000) = Ok com /\
  shiftTime fuel (wl_fsm s) (sampling_ms (wg_par (wl_wpg s))) = Finished (Ok (wl_fsm s')) /\
  control_step fp h (V2 (vget (wp_footpos pr) 0) (vget (wp_footpos pr) 1)) com m (wl_fsm s') (wl_model s') /\
  wl_wpg s' = mkWpg (wg_par (wl_wpg s)) true h (height_of m) M pr.
Lemma update_inv fuel junk nan inc m s g u : wg_update fuel junk nan inc m s g = Finished (Ok (true, u)) ->
  exists h rs M, form fuel (wg_par g) (yaw_of nan (lf (ms_feet (md_state m)))) (yaw_of nan (rf (ms_feet (md_state m)))) inc s = Finished (Ok (Some h)) /\
    form_rotations h = Ok rs /\
    walk_update junk (horizon_length (wg_par g)) (intervals_of h (height_of m)) (interval_rotations h) (h_steps h) (step_rotations h rs) (support_of nan m) (cstate_of m) = Ok M /\
    u = mkWpg (wg_par g) false h (height_of m) M (wg_profiles g).
Proof.
  unfold wg_update. intros H. apply rbind_ok in H. destruct H as ([h|] & F & H); [|discriminate].
  injection H as H. apply bind_ok in H. destruct H as (rs & R1 & H). apply bind_ok in H. destruct H as (M & U & H). inversion H; subst. exists h, rs, M. auto.
Qed.
Lemma cycle_inv fuel junk nan inc fp sol s s' : cycle fuel junk nan inc fp sol s = Finished (Ok (Some s')) ->
  exists h rs M pr com, iterated fuel junk nan inc fp sol s s' h rs M pr com.
Proof.
  unfold cycle. intros H. apply rbind_ok in H. destruct H as ([b u] & U & H). cbn [fst snd] in H. destruct b; [|discriminate].
  apply update_inv in U. destruct U as (h & rs & M & F & Ro & Up & ->). apply rbind_ok in H. destruct H as (f & Sh & H). injection H as H.
  apply bind_ok in H. destruct H as ([x g'] & Nx & H). cbn [fst snd] in H. apply bind_ok in H. destruct H as ([] & Ud & H). inversion H; subst s'. clear H.
  unfold wg_next_of in Nx. cbn [wg_parsed negb assert_then] in Nx. apply bind_ok in Nx. destruct Nx as (g1 & P & Nx). apply bind_ok in Nx. destruct Nx as (x1 & I & Nx). inversion Nx; subst x1 g1. clear Nx.
  unfold wg_parse in P. cbn [wg_matrices wg_par wg_horizon wg_height] in P. apply bind_ok in P. destruct P as (pr & P & E). inversion E; subst g'. clear E.
  unfold wg_initialize in I. cbn [wg_horizon wg_height wg_profiles wg_par] in I. apply bind_ok in I. destruct I as (com & C & I).
  exists h, rs, M, pr, com. unfold iterated. cbn [wl_model wl_fsm wl_wpg]. do 6 (split; [assumption|]). split; [|reflexivity].
  exists x. split; [exact I|]. destruct (updateState (wl_model s) x) as [m' o] eqn:E. cbn [fst snd] in *. subst o. reflexivity.
Qed.
Lemma cycle_intro fuel junk nan inc fp sol s s' h rs M pr com : iterated fuel junk nan inc fp sol s s' h rs M pr com -> cycle fuel junk nan inc fp sol s = Finished (Ok (Some s')).
Proof.
  intros (F & Ro & Up & Pa & C & Sh & (x & I & U) & G). unfold cycle, wg_update. rewrite F. cbn [rbind]. rewrite Ro. cbn [bind]. rewrite Up. cbn [bind rbind fst snd]. rewrite Sh. cbn [rbind].
  unfold wg_next_of. cbn [wg_parsed negb assert_then]. unfold wg_parse. cbn [wg_matrices]. rewrite Pa. cbn [bind wg_par wg_horizon wg_height]. unfold wg_initialize. cbn [wg_horizon wg_height wg_profiles wg_par].
  rewrite C. cbn [bind]. unfold first_footprint. cbn [wg_profiles]. rewrite I. cbn [bind fst snd]. rewrite U. cbn [fst snd bind]. destruct s' as [m' f' g']. cbn in G. subst g'. reflexivity.
Qed.

(** ** the invariant *)
Definition yaw (nan : R) (m : wpg_model) (x : lr) : R := yaw_of nan (foot_of (ms_feet (md_state m)) x).
Definition to_go (inc nan : R) (f : fsm) (m : wpg_model) (theta : R) : Prop :=
  match st_type (cur f) with
  | LSS | RSS => (yaw nan m (stance_foot (st_type (cur f))) + INR (ss_left f) * inc)%R = theta
  | TDS => (ss_left f = 0 -> yaw nan m LEFT = theta /\ yaw nan m RIGHT = theta) /\
           (forall k, ss_left f = S k -> (yaw nan m (stance_foot (opp (prev_nonds (cur f)))) + INR k * inc)%R = theta)
  | DS => (ss_left f = 0 -> subtype (cur f) = LAST -> yaw nan m LEFT = theta /\ yaw nan m RIGHT = theta) /\
          (forall k, ss_left f = S k -> (yaw nan m (stance_foot (opp (prev_nonds (cur f)))) + INR k * inc)%R = theta)
  | ST_UNDEFINED => False
  end.
Record inv (mp : mpc_params) (f0 : fsm) (nan inc H theta : R) (s : wloop) : Prop := mkInv {
  i_par : wg_par (wl_wpg s) = mp;
  i_reach : reach f0 (wl_fsm s);
  i_time : cur_time (wl_fsm s) < duration (cur (wl_fsm s));
  i_sub : st_type (cur (wl_fsm s)) = DS -> subtype (cur (wl_fsm s)) = LAST \/ subtype (cur (wl_fsm s)) = FIRST /\ cur (wl_fsm s) = cur f0 /\ ss_left (wl_fsm s) = ss_left f0;
  i_grid : terminal (wl_fsm s) \/ exists k, duration (cur (wl_fsm s)) - cur_time (wl_fsm s) = k * sampling_ms mp;
  i_fuel : stances_left (wl_fsm s) <= stances_left f0;
  i_stance : ms_stance (md_state (wl_model s)) = st_type (cur (wl_fsm s));
  i_next : st_type (cur (wl_fsm s)) = TDS -> exists n, getNextStance (wl_fsm s) = Ok n /\ ms_next (md_state (wl_model s)) = st_type n;
  i_feet : defined (ms_feet (md_state (wl_model s)));
  i_support : exists c, md_support (wl_model s) = Some c /\ support_position (md_state (wl_model s)) c;
  i_height : height_of (wl_model s) = H;
  i_turn : st_type (cur (wl_fsm s)) = TDS -> is_ss (prev_nontds (cur (wl_fsm s))) = true -> ss_left (wl_fsm s) > 0 ->
    yaw nan (wl_model s) (stance_foot (opp (prev_nontds (cur (wl_fsm s))))) = (yaw nan (wl_model s) (stance_foot (prev_nontds (cur (wl_fsm s)))) + inc)%R;
  i_heading : to_go inc nan (wl_fsm s) (wl_model s) theta }.

Lemma inv_start p nan inc s : regular (wg_par (wl_wpg s)) p -> started p s ->
  inv (wg_par (wl_wpg s)) (wl_fsm s) nan inc (height_of (wl_model s)) (yaw nan (wl_model s) (first_foot p) + INR (turns p) * inc)%R s.
Proof.
  intros (Wk & HP & N2 & TP & DP & Gs & Gt & FP & Gf & Gl) (H0 & St & D & Su & _). pose proof (wf_init p _ H0 Wk) as W.
  unfold walkable, init in *. apply assert_ok in H0. destruct H0 as [N1 H0]. cbv zeta in H0.
  assert (E : exists prev p', wl_fsm s = mkFsm false (num_steps p) 0 (mkStance (first_stance p) prev ST_UNDEFINED FIRST (first_duration p) 0) p' /\
    match first_stance p with LSS => prev = LSS | RSS => prev = RSS | DS => prev = opp (first_ss_type p) /\ is_tds (first_ss_type p) = false /\ first_ss_type p <> DS | _ => False end).
  { destruct (first_stance p); try discriminate H0; try (inversion H0; eauto; fail).
    destruct (first_ss_type p); try discriminate H0; inversion H0; do 2 eexists; (split; [reflexivity|]; split; [reflexivity|]; split; [reflexivity|]; discriminate). }
  destruct E as (prev & p' & E & EP). constructor; rewrite ?E; cbn [cur cur_time ss_left st_type subtype duration prev_nonds prev_nontds]; auto.
  - constructor.
  - destruct Gf as [k Gf]. right. exists k. lia.
  - intros X. rewrite X in EP. contradiction.
  - intros _ X. discriminate X.
  - unfold to_go. cbn [cur ss_left st_type subtype prev_nonds]. unfold first_foot, turns. destruct (first_stance p) eqn:F1; try contradiction; try reflexivity.
    split; [intros _ X; discriminate X|]. intros k K. rewrite K. destruct EP as (-> & _). cbn [Nat.sub]. rewrite Nat.sub_0_r.
    destruct (first_ss_type p); reflexivity.
Qed.
