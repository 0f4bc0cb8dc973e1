(** * Bounds in the loop of the Pepper motion generator *)
From Coq Require Import String List Reals Arith ZArith Lra Lia Bool.
From Verif Require Import Base BaseFacts RSum Matrix Mat2 Mat3 PointMass6z PointMass6zSpec TripleIntegratorSpec Solution Constraints ConstraintsSpec PepperPreview PepperPreviewSpec PepperPreviewFacts PepperFormFacts
  MpcGuess PepperModel PepperMpc PepperMpcSpec PepperMpcFacts PepperMpcFacts2 PepperTasks PepperTasksSpec PepperTasksFacts PepperTasksFacts2 PepperLoop PepperLoopSpec PepperLoopFacts.
Import ListNotations.
Local Open Scope R_scope.

(** ** motion with a constant jerk *)
Lemma interpolate x y l u c : l <= x <= u -> l <= y <= u -> 0 <= c <= 1 -> l <= (1 - c) * x + c * y <= u.
Proof. intros. split; nra. Qed.
Lemma moved_acceleration x y z j t T : 0 < T -> 0 <= t <= T -> moved3 x y j t -> moved3 x z j T -> vz y = (1 - t / T) * vz x + t / T * vz z.
Proof. intros HT Ht (_ & _ & E1) (_ & _ & E2). rewrite E1, E2. unfold motion_acceleration. field. lra. Qed.
Lemma moved_velocity' x y z j t T : 0 < T -> 0 <= t <= T -> moved3 x y j t -> moved3 x z j T ->
  vy y = (1 - t / T) * vy x + t / T * vy z + (vz x - vz z) / 2 * (t / T * (T - t)).
Proof. intros HT Ht (_ & F1 & E1) (_ & F2 & E2). rewrite F1, F2, E2. unfold motion_acceleration, motion_velocity. field. lra. Qed.
Lemma fraction t T : 0 < T -> 0 <= t <= T -> 0 <= t / T <= 1.
Proof. intros HT (H1 & H2). split; [apply Rmult_le_pos; [exact H1|left; apply Rinv_0_lt_compat; exact HT]|apply (Rmult_le_reg_r T); [exact HT|]; unfold Rdiv; rewrite Rmult_assoc, Rinv_l by lra; lra]. Qed.

Lemma acceleration_between x y z j t T l u : 0 < T -> 0 <= t <= T -> moved3 x y j t -> moved3 x z j T -> l <= vz x <= u -> l <= vz z <= u -> l <= vz y <= u.
Proof. intros HT Ht M1 M2 H1 H2. rewrite (moved_acceleration x y z j t T HT Ht M1 M2). apply interpolate; [exact H1|exact H2|apply fraction; assumption]. Qed.
Lemma velocity_between x y z j t T l u al au e : 0 < T -> 0 <= t <= T -> moved3 x y j t -> moved3 x z j T ->
  al <= vz x <= au -> al <= vz z <= au -> (au - al) / 2 * (T - t) <= e -> l - e <= vy x <= u + e -> l <= vy z <= u -> l - e <= vy y <= u + e.
Proof.
  intros HT Ht M1 M2 H1 H2 He H3 H4. rewrite (moved_velocity' x y z j t T HT Ht M1 M2). pose proof (fraction t T HT Ht) as Hc.
  set (c := t / T) in *. set (d := (vz x - vz z) / 2). assert (Hd : - ((au - al) / 2) <= d <= (au - al) / 2) by (unfold d; lra).
  assert (HD : - e <= d * (T - t) <= e) by (split; nra). replace (d * (c * (T - t))) with (c * (d * (T - t))) by ring.
  set (D := d * (T - t)) in *. split; nra.
Qed.
Lemma velocity_between' x y z j t T l u al au : 0 < T -> 0 <= t <= T -> moved3 x y j t -> moved3 x z j T ->
  al <= vz x <= au -> al <= vz z <= au -> l <= vy x <= u -> l <= vy z <= u -> l - (au - al) / 2 * T / 4 <= vy y <= u + (au - al) / 2 * T / 4.
Proof.
  intros HT Ht M1 M2 H1 H2 H3 H4. rewrite (moved_velocity' x y z j t T HT Ht M1 M2). pose proof (fraction t T HT Ht) as Hc.
  assert (Hq : 0 <= t / T * (T - t) <= T / 4).
  { split; [apply Rmult_le_pos; lra|]. assert (Ec : t = t / T * T) by (field; lra). set (c := t / T) in *. rewrite Ec. clear Ec. replace (c * (T - c * T)) with (T * (c * (1 - c))) by ring.
    assert (c * (1 - c) <= 1 / 4) by (pose proof (Rle_0_sqr (2 * c - 1)) as X; unfold Rsqr in X; lra).
    replace (T / 4) with (T * (1 / 4)) by field. apply Rmult_le_compat_l; lra. }
  set (c := t / T) in *. set (q := c * (T - t)) in *. set (d := (vz x - vz z) / 2). assert (Hd : - ((au - al) / 2) <= d <= (au - al) / 2) by (unfold d; lra).
  assert (HD : - ((au - al) / 2 * (T / 4)) <= d * q <= (au - al) / 2 * (T / 4)) by (split; nra).
  pose proof (interpolate (vy x) (vy z) l u c H3 H4 Hc). lra.
Qed.

(** ** constraints of the first interval *)
Section Cycle.
Variables (junk : nat -> nat -> nat -> R) (r : robot_bounds) (a : advance) (shift : Z) (sol : solution) (s s' : loop).
Hypothesis HA : advanced junk r a shift sol s s'.
Hypothesis PP : proper (mg_par (lp_mg s)).
Let N := horizon_length (mg_par (lp_mg s)).
Let T := seconds (sampling_ms (mg_par (lp_mg s))).

Lemma profile : exists v m p, solved junk N (mg_horizon (lp_mg s')) (lp_model s) sol (mg_matrices (lp_mg s')) p /\ nth_error (mg_horizon (lp_mg s')) 0 = Some v /\
  mg_profiles (lp_mg s') = p /\ follows (mg_par (lp_mg s)) (view_of r (lp_model s)) v m (heading_of s) /\
  (forall x, moved3 (base_of s x) (base_at (lp_model s) p 1 x) (vel_jerk (base_of s x) (base_command sol 0 x) T) T) /\
  (obeys_velocity s' sol -> forall x, within (rb_velocity r) x (vy (base_at (lp_model s) p 1 x))) /\
  (obeys_acceleration s' sol -> forall x, within (rb_acceleration r) x (vz (base_at (lp_model s) p 1 x))) /\
  (obeys_cop s' sol -> forall x, within (rb_cop r) x (vget (pp_cop p) (axis_index x))) /\
  (obeys_body s' sol -> forall x, within (rb_body r) x (in_frame (rot2 (in_theta v))
     (vx (base_at (lp_model s) p 1 AxisX) - vx (body_at N (lp_model s) p 1 AxisX)) (vx (base_at (lp_model s) p 1 AxisY) - vx (body_at N (lp_model s) p 1 AxisY)) x)).
Proof.
  destruct HA as (_ & ES & _ & v & m & M & p & S & EM & Hv & Ep & Em & FO & A). fold N in S, ES. exists v, m, p. rewrite EM.
  pose proof FO as (G1 & G2 & G3 & G4 & G5 & G6 & G7 & G8). change (IZR (sampling_ms (mg_par (lp_mg s))) / 1000) with T in G2. pose proof (T_positive _ PP) as HT. fold T in HT.
  split; [exact S|]. split; [exact Hv|]. split; [exact Ep|]. split; [exact FO|]. split.
  { intros x. destruct (profile_motion junk _ _ (lp_model s) sol M p 0 v x S Hv) as (Q1 & Q2 & _). cbn [Nat.add] in Q1, Q2.
    rewrite G2 in Q1. change (base_of s x) with (base_at (lp_model s) p 0 x). rewrite <- (jerk_unique _ _ _ _ _ (Rgt_not_eq _ _ HT) Q1 Q2). exact Q1. }
  unfold obeys_velocity, obeys_acceleration, obeys_cop, obeys_body. rewrite ES, EM. split; [|split; [|split]].
  all: intros (jk & C) x.
  1: destruct C as (old & c & Ec & Sc); destruct (task_base_velocity_bounds _ _ _ _ _ _ _ jk old S) as (c' & Ec' & _ & K);
    rewrite Ec in Ec'; injection Ec' as <-; apply K in Sc; specialize (Sc 0%nat v (rb_velocity r) x Hv); unfold velocity_bounds in Sc; rewrite G8 in Sc; cbn in Sc; apply (Sc eq_refl).
  1: destruct C as (c & Ec & Sc); destruct (task_base_acceleration_bounds _ _ _ _ _ _ _ jk S) as (c' & Ec' & _ & K);
    rewrite Ec in Ec'; injection Ec' as <-; apply K in Sc; specialize (Sc 0%nat v (rb_acceleration r) x Hv); unfold acceleration_bounds in Sc; rewrite G8 in Sc; cbn in Sc; apply (Sc eq_refl).
  1: destruct C as (c & Ec & Sc); destruct (task_cop_bounds _ _ _ _ _ _ _ jk S) as (c' & Ec' & _ & K);
    rewrite Ec in Ec'; injection Ec' as <-; apply K in Sc; specialize (Sc 0%nat v (rb_cop r) x Hv); unfold cop_bounds in Sc; rewrite G8 in Sc; cbn in Sc; apply (Sc eq_refl).
  1: destruct C as (c & Ec & Sc); destruct (task_body_bounds _ _ _ _ _ _ _ jk S) as (c' & Ec' & _ & K);
    rewrite Ec in Ec'; injection Ec' as <-; apply K in Sc; specialize (Sc 0%nat v (rb_body r) x Hv); unfold body_bounds, base_from_body, frame in Sc; rewrite Hv, G8 in Sc;
    cbn [option_map fst snd Nat.add] in Sc; apply (Sc eq_refl).
Qed.

Lemma whole_bounds junk' : a = Whole ->
  (obeys_velocity s' sol -> forall x, within (rb_velocity r) x (vy (base_of s' x))) /\
  (obeys_acceleration s' sol -> forall x, within (rb_acceleration r) x (vz (base_of s' x))) /\
  (obeys_body s' sol -> forall x, within (rb_body r) x (base_offset s' x)) /\
  (obeys_cop s' sol -> default_masses s -> exists c, getCoP junk' (lp_model s') = Ok c /\ forall x, within (rb_cop r) x (vget c (axis_index x))).
Proof.
  intros W. destruct profile as (v & m & p & S & Hv & Ep & FO & _ & P1 & P2 & P3 & P4). pose proof FO as (_ & _ & _ & _ & _ & G6 & G7 & _).
  destruct HA as (_ & ES & _ & v' & m' & M & p' & S' & EM & Hv' & Ep' & Em' & FO' & _ & _ & _ & HH & _ & A). destruct (A W) as (A1 & A2). clear A.
  rewrite Ep' in Ep. subst p'. fold N in A2.
  assert (V : forall x, base_of s' x = base_at (lp_model s) p 1 x) by apply A2.
  assert (B : forall x, body_of s' x = body_at N (lp_model s) p 1 x) by apply A2.
  rewrite Hv in Hv'. injection Hv' as <-.
  assert (HTH : in_theta v = heading_of s').
  { destruct FO as (_ & _ & _ & _). destruct FO' as (_ & F2 & F3 & _). rewrite HH, F3, F2, W. reflexivity. }
  split; [intros O x; rewrite V; apply P1; exact O|]. split; [intros O x; rewrite V; apply P2; exact O|]. split.
  - intros O x. unfold base_offset. rewrite !V, !B, <- HTH. apply P4. exact O.
  - intros O (D1 & D2). destruct (state_cop junk' (lp_model s')) as (c & Ec & _). exists c. split; [exact Ec|]. intros x.
    cbn [view_of view_base_mass view_body_mass] in G6, G7. rewrite (next_state_cop junk junk' N _ (lp_model s) sol _ p _ v c x S Hv A1 Ec); [apply P3; exact O|congruence|congruence].
Qed.

Hypothesis HT : (0 <= step_ms (sampling_ms (mg_par (lp_mg s))) a <= sampling_ms (mg_par (lp_mg s)))%Z.
Let t := seconds (step_ms (sampling_ms (mg_par (lp_mg s))) a).
Lemma times : 0 < T /\ 0 <= t <= T.
Proof.
  split; [apply T_positive; exact PP|]. unfold t, T, seconds. destruct HT as (H1 & H2). apply IZR_le in H1, H2. lra.
Qed.
Lemma base_moved x : moved3 (base_of s x) (base_of s' x) (vel_jerk (base_of s x) (base_command sol 0 x) T) t.
Proof. destruct HA as (_ & _ & _ & v & m & M & p & A). apply A. Qed.
Lemma stays_gentle : gentle r s -> obeys_acceleration s' sol -> gentle r s'.
Proof.
  intros G O x. destruct profile as (v & m & p & _ & _ & _ & _ & MV & _ & P2 & _). destruct times as (T1 & T2). unfold within.
  apply (acceleration_between (base_of s x) (base_of s' x) (base_at (lp_model s) p 1 x) (vel_jerk (base_of s x) (base_command sol 0 x) T) t T); [exact T1|exact T2|apply base_moved|apply MV|apply G|apply P2; exact O].
Qed.
Lemma stays_slow : let e := fun x => acceleration_range r x * (T - t) in gentle r s -> slow r e s -> obeys_acceleration s' sol -> obeys_velocity s' sol -> slow r e s'.
Proof.
  cbn zeta. intros G SL O1 O2 x. destruct profile as (v & m & p & _ & _ & _ & _ & MV & P1 & P2 & _). destruct times as (T1 & T2).
  apply (velocity_between (base_of s x) (base_of s' x) (base_at (lp_model s) p 1 x) (vel_jerk (base_of s x) (base_command sol 0 x) T) t T
    _ _ (lower_bound (rb_acceleration r) x) (upper_bound (rb_acceleration r) x)); [exact T1|exact T2|apply base_moved|apply MV|apply G|apply P2; exact O1|apply Rle_refl|apply SL|apply P1; exact O2].
Qed.
Lemma between tau y x : 0 <= tau <= T -> moved3 (base_of s x) y (vel_jerk (base_of s x) (base_command sol 0 x) T) tau -> gentle r s -> obeys_acceleration s' sol ->
  within (rb_acceleration r) x (vz y) /\
  (slow r (fun _ => 0) s -> obeys_velocity s' sol ->
   lower_bound (rb_velocity r) x - acceleration_range r x * T / 4 <= vy y <= upper_bound (rb_velocity r) x + acceleration_range r x * T / 4).
Proof.
  intros Ht M G O. destruct profile as (v & m & p & _ & _ & _ & _ & MV & P1 & P2 & _). destruct times as (T1 & _). split.
  - apply (acceleration_between (base_of s x) y (base_at (lp_model s) p 1 x) (vel_jerk (base_of s x) (base_command sol 0 x) T) tau T); [exact T1|exact Ht|exact M|apply MV|apply G|apply P2; exact O].
  - intros SL O2. specialize (SL x). cbv beta in SL. rewrite Rminus_0_r, Rplus_0_r in SL.
    apply (velocity_between' (base_of s x) y (base_at (lp_model s) p 1 x) (vel_jerk (base_of s x) (base_command sol 0 x) T) tau T); [exact T1|exact Ht|exact M|apply MV|apply G|apply P2; exact O|exact SL|apply P1; exact O2].
Qed.
End Cycle.

(** ** over the iterations of the loop *)
Lemma well_posed_in a shift sols s0 n s : well_posed a shift sols s0 -> in_progress shift s0 n s -> proper (mg_par (lp_mg s)) /\ (0 <= step_ms (sampling_ms (mg_par (lp_mg s))) a <= sampling_ms (mg_par (lp_mg s)))%Z.
Proof. intros (H1 & _ & _ & H4 & _) (I & _). rewrite I. auto. Qed.

Theorem loop_defined (junk : nat -> nat -> nat -> R) (r : robot_bounds) (a : advance) (shift : Z) (sols : nat -> solution) (s0 : loop) (n : nat) : well_posed a shift sols s0 ->
  let p := mg_par (lp_mg s0) in let q := as_queue (lp_motions s0) in
  exists o, after junk r a shift sols s0 n = Ok o /\
    (o <> None <-> n = 0%nat \/ endless q \/ (Z.of_nat (horizon_length p) * sampling_ms p + Z.of_nat (n - 1) * shift <= total q)%Z).
Proof. intros WP. exact (loop_duration junk r a shift sols s0 WP n). Qed.
Theorem loop_moves (junk : nat -> nat -> nat -> R) (r : robot_bounds) (a : advance) (shift : Z) (sols : nat -> solution) (s0 : loop) (n : nat) (s s' : loop) : well_posed a shift sols s0 ->
  consecutive junk r a shift sols s0 n s s' ->
  let p := mg_par (lp_mg s0) in let T := seconds (sampling_ms p) in let t := seconds (step_ms (sampling_ms p) a) in
  exists velocity position w, commanded (as_queue (lp_motions s0)) (Z.of_nat n * shift + sampling_ms p - 1) = Some (velocity, position, w) /\
  (forall x, moved3 (base_of s x) (base_of s' x) (vel_jerk (base_of s x) (base_command (sols n) 0 x) T) t /\
             moved3 (body_of s x) (body_of s' x) (body_command (horizon_length p) (sols n) 0 x) t) /\
  heading_of s' = heading_of s + w * t /\ base_height_of s' = base_height_of s /\ body_height_of s' = body_height_of s.
Proof. intros WP C. exact (loop_motion junk r a shift sols s0 WP n s s' C). Qed.

Theorem loop_heights (junk : nat -> nat -> nat -> R) (r : robot_bounds) (a : advance) (shift : Z) (sols : nat -> solution) (s0 : loop) (n : nat) (s : loop) : well_posed a shift sols s0 ->
  after junk r a shift sols s0 n = Ok (Some s) -> base_height_of s = base_height_of s0 /\ body_height_of s = body_height_of s0 /\ ((0 < n)%nat -> default_masses s).
Proof.
  intros WP. revert s. induction n as [|n IH]; intros s E.
  - cbn in E. injection E as <-. split; [reflexivity|]. split; [reflexivity|lia].
  - destruct (progress junk r a shift sols s0 WP n) as [(s1 & E1 & I)|E1]; [|rewrite after_S, E1 in E; discriminate].
    destruct (IH s1 E1) as (H1 & H2 & _). destruct (loop_moves junk r a shift sols s0 n s1 s WP (conj E1 E)) as (v & p & w & _ & _ & _ & H3 & H4). rewrite H3, H4. split; [exact H1|]. split; [exact H2|].
    intros _. exact (loop_masses junk r a shift sols s0 WP n s E).
Qed.
Theorem loop_heading (junk : nat -> nat -> nat -> R) (r : robot_bounds) (a : advance) (shift : Z) (sols : nat -> solution) (s0 : loop) (n : nat) (s : loop) : well_posed a shift sols s0 ->
  after junk r a shift sols s0 n = Ok (Some s) ->
  let p := mg_par (lp_mg s0) in
  heading_of s = heading_of s0 + turned (fun k => angular_at (as_queue (lp_motions s0)) (Z.of_nat k * shift + sampling_ms p - 1)) (seconds (step_ms (sampling_ms p) a)) n.
Proof.
  intros WP. cbn zeta. revert s. induction n as [|n IH]; intros s E.
  - cbn in E. injection E as <-. cbn. lra.
  - destruct (progress junk r a shift sols s0 WP n) as [(s1 & E1 & I)|E1]; [|rewrite after_S, E1 in E; discriminate].
    destruct (loop_moves junk r a shift sols s0 n s1 s WP (conj E1 E)) as (v & p & w & C & _ & H & _). rewrite H, (IH s1 E1). cbn [turned].
    assert (EW : angular_at (as_queue (lp_motions s0)) (Z.of_nat n * shift + sampling_ms (mg_par (lp_mg s0)) - 1) = w) by (unfold angular_at; rewrite C; reflexivity). rewrite EW. lra.
Qed.

Theorem loop_bounds (junk junk' : nat -> nat -> nat -> R) (r : robot_bounds) (shift : Z) (sols : nat -> solution) (s0 : loop) (n : nat) (s s' : loop) : well_posed Whole shift sols s0 ->
  consecutive junk r Whole shift sols s0 n s s' ->
  (obeys_velocity s' (sols n) -> forall x, within (rb_velocity r) x (vy (base_of s' x))) /\
  (obeys_acceleration s' (sols n) -> forall x, within (rb_acceleration r) x (vz (base_of s' x))) /\
  (obeys_body s' (sols n) -> forall x, within (rb_body r) x (base_offset s' x)) /\
  (obeys_cop s' (sols n) -> (0 < n)%nat \/ default_masses s0 -> exists c, getCoP junk' (lp_model s') = Ok c /\ forall x, within (rb_cop r) x (vget c (axis_index x))).
Proof.
  intros WP C. destruct (consecutive_advanced junk r Whole shift sols s0 WP n s s' C) as (I & A). destruct (well_posed_in _ _ _ _ _ _ WP I) as (PP & _).
  destruct (whole_bounds junk r Whole shift (sols n) s s' A PP junk' eq_refl) as (B1 & B2 & B3 & B4). split; [exact B1|]. split; [exact B2|]. split; [exact B3|].
  intros O M. apply B4; [exact O|]. destruct M as [M|M].
  - destruct C as (E & _). apply (loop_heights junk r Whole shift sols s0 n s WP E). exact M.
  - destruct n; [destruct C as (E & _); cbn in E; injection E as <-; exact M|]. destruct C as (E & _). apply (loop_heights junk r Whole shift sols s0 (S n) s WP E). lia.
Qed.
Theorem loop_gentle (junk : nat -> nat -> nat -> R) (r : robot_bounds) (a : advance) (shift : Z) (sols : nat -> solution) (s0 : loop) (n : nat) (s : loop) : well_posed a shift sols s0 ->
  after junk r a shift sols s0 n = Ok (Some s) -> gentle r s0 -> obeyed obeys_acceleration junk r a shift sols s0 n -> gentle r s.
Proof.
  intros WP. revert s. induction n as [|n IH]; intros s E G O.
  - cbn in E. injection E as <-. exact G.
  - destruct (progress junk r a shift sols s0 WP n) as [(s1 & E1 & I)|E1]; [|rewrite after_S, E1 in E; discriminate].
    destruct (consecutive_advanced junk r a shift sols s0 WP n s1 s (conj E1 E)) as (_ & A). destruct (well_posed_in _ _ _ _ _ _ WP I) as (PP & HT).
    apply (stays_gentle junk r a shift (sols n) s1 s A PP HT).
    + apply IH; [exact E1|exact G|]. intros k s2 Hk. apply O. lia.
    + apply (O n); [lia|exact E].
Qed.
Theorem loop_slow (junk : nat -> nat -> nat -> R) (r : robot_bounds) (a : advance) (shift : Z) (sols : nat -> solution) (s0 : loop) (n : nat) (s : loop) : well_posed a shift sols s0 ->
  after junk r a shift sols s0 n = Ok (Some s) -> gentle r s0 -> obeyed obeys_acceleration junk r a shift sols s0 n -> obeyed obeys_velocity junk r a shift sols s0 n ->
  let p := mg_par (lp_mg s0) in let e := fun x => acceleration_range r x * (seconds (sampling_ms p) - seconds (step_ms (sampling_ms p) a)) in
  slow r e s0 -> slow r e s.
Proof.
  intros WP. cbn zeta. revert s. induction n as [|n IH]; intros s E G O1 O2 SL.
  - cbn in E. injection E as <-. exact SL.
  - destruct (progress junk r a shift sols s0 WP n) as [(s1 & E1 & I)|E1]; [|rewrite after_S, E1 in E; discriminate].
    destruct (consecutive_advanced junk r a shift sols s0 WP n s1 s (conj E1 E)) as (_ & A). destruct (well_posed_in _ _ _ _ _ _ WP I) as (PP & HT).
    pose proof (stays_slow junk r a shift (sols n) s1 s A PP HT) as K. destruct I as (I & _). rewrite I in K. cbn zeta in K. apply K.
    + apply (loop_gentle junk r a shift sols s0 n s1 WP E1 G). intros k s2 Hk. apply O1. lia.
    + apply IH; [exact E1|exact G| |  |exact SL]; intros k s2 Hk; [apply O1|apply O2]; lia.
    + apply (O1 n); [lia|exact E].
    + apply (O2 n); [lia|exact E].
Qed.
Theorem loop_between (junk : nat -> nat -> nat -> R) (r : robot_bounds) (a : advance) (shift : Z) (sols : nat -> solution) (s0 : loop) (n : nat) (s s' : loop) : well_posed a shift sols s0 ->
  consecutive junk r a shift sols s0 n s s' -> gentle r s -> obeys_acceleration s' (sols n) ->
  let T := seconds (sampling_ms (mg_par (lp_mg s0))) in
  forall x tau y, 0 <= tau <= T -> moved3 (base_of s x) y (vel_jerk (base_of s x) (base_command (sols n) 0 x) T) tau ->
  within (rb_acceleration r) x (vz y) /\
  (slow r (fun _ => 0) s -> obeys_velocity s' (sols n) ->
   lower_bound (rb_velocity r) x - acceleration_range r x * T / 4 <= vy y <= upper_bound (rb_velocity r) x + acceleration_range r x * T / 4).
Proof.
  intros WP C G O. cbn zeta. intros x tau y. destruct (consecutive_advanced junk r a shift sols s0 WP n s s' C) as (I & A). destruct (well_posed_in _ _ _ _ _ _ WP I) as (PP & HT).
  pose proof (between junk r a shift (sols n) s s' A PP HT tau y x) as B. destruct I as (I & _). rewrite I in B. intros H1 H2. apply B; assumption.
Qed.
