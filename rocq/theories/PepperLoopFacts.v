(** * The Pepper motion generator in a loop *)
From Coq Require Import String List Reals Arith ZArith Lra Lia Bool.
From Verif Require Import Base BaseFacts RSum Matrix Mat2 Mat3 PointMass6z PointMass6zSpec TripleIntegratorSpec Solution Constraints ConstraintsSpec PepperPreview PepperPreviewSpec PepperPreviewFacts PepperFormFacts
  MpcGuess PepperModel PepperMpc PepperMpcSpec PepperMpcFacts PepperMpcFacts2 PepperTasks PepperTasksSpec PepperTasksFacts PepperTasksFacts2 PepperLoop PepperLoopSpec.
Import ListNotations.
Local Open Scope R_scope.

(** ** motions *)
Lemma endless_cases q : endless q \/ ~ endless q.
Proof.
  induction q as [|m q [H|H]].
  - right. intros (x & [] & _).
  - left. destruct H as (x & Hx & Hd). exists x. split; [right; exact Hx|exact Hd].
  - destruct (Z.eq_dec (mo_duration m) (-1)) as [D|D]; [left; exists m; split; [left; reflexivity|exact D]|right].
    intros (x & [<-|Hx] & Hd); [contradiction|]. apply H. exists x. split; assumption.
Qed.
Definition lasts (p : mpc_parameters) (q : list motion) : Prop := endless q \/ (Z.of_nat (horizon_length p) * sampling_ms p <= total q)%Z.

Lemma form_motions_defined p view x l : proper p -> valid_queue (as_queue x) ->
  exists b l', form_motions p view x l = Ok (b, l') /\ (b = true <-> lasts p (as_queue x)).
Proof.
  intros P V. destruct x as [m|q]; cbn [as_queue form_motions] in *.
  - assert (Vm : valid_duration m) by (inversion V; assumption).
    destruct (form_queue_defined p view [m] l P V) as (b & l' & E & _ & Hb). destruct (form_single_agrees p view m l l P Vm) as (A & B).
    destruct b.
    + exists true, l'. split; [apply A; exact E|exact Hb].
    + exists false, l. split; [apply B; exists l'; exact E|exact Hb].
  - destruct (form_queue_defined p view q l P V) as (b & l' & E & _ & Hb). exists b, l'. split; [exact E|exact Hb].
Qed.
Lemma form_motions_queue p view x l l' : proper p -> valid_queue (as_queue x) -> form_motions p view x l = Ok (true, l') ->
  form_queue p view (as_queue x) l = Ok (true, l').
Proof.
  intros P V E. destruct x as [m|q]; cbn [as_queue form_motions] in *; [|exact E].
  assert (Vm : valid_duration m) by (inversion V; assumption). destruct (form_single_agrees p view m l l P Vm) as (A & _). apply A. exact E.
Qed.
Lemma T_positive p : proper p -> 0 < seconds (sampling_ms p).
Proof. intros (_ & H & _). unfold seconds. apply IZR_lt in H. lra. Qed.
Lemma form_motions_horizon p view x l l' : proper p -> valid_queue (as_queue x) -> form_motions p view x l = Ok (true, l') ->
  formed_horizon (horizon_length p) l' /\ exists v m, nth_error l' 0 = Some v /\ executed (as_queue x) (sampling_ms p - 1) = Some m /\ follows p view v m (view_theta view).
Proof.
  intros P V E. apply form_motions_queue in E; [|assumption..]. destruct (form_queue_intervals p view (as_queue x) l l' P V E) as (theta & Z & L & I).
  pose proof (T_positive p P) as HT. split.
  - split; [exact L|]. intros v Hv. apply In_nth_error in Hv. destruct Hv as (i & Hi). assert (Hl : (i < length l')%nat) by (apply nth_error_Some; congruence).
    destruct (I i) as (v' & m & E1 & _ & F & _); [lia|]. rewrite Hi in E1. injection E1 as <-. destruct F as (_ & F1 & _ & _ & _ & _ & _ & F2).
    rewrite F1, F2. unfold seconds in HT. split; [lra|discriminate].
  - destruct P as (HN & _). destruct (I 0%nat HN) as (v & m & E1 & E2 & F & _). rewrite Z in F. exists v, m. split; [exact E1|]. split; [|exact F].
    replace (sampling_ms p - 1)%Z with (Z.of_nat (0 + 1) * sampling_ms p - 1)%Z by lia. exact E2.
Qed.

Section Shift.
Variables (T shift : Z) (x : motions).
Hypotheses (V : valid_queue (as_queue x)) (Hs : (0 <= shift)%Z).
Lemma shift_motions_commanded u : (0 <= u)%Z -> commanded (as_queue (shift_motions T shift x)) u = commanded (as_queue x) (shift + u).
Proof.
  intros Hu. destruct x as [m|q]; cbn [as_queue shift_motions] in *; [apply shift_single_timeline; [inversion V|..]; assumption|apply shift_timeline; assumption].
Qed.
Lemma shift_motions_valid : valid_queue (as_queue (shift_motions T shift x)).
Proof.
  destruct x as [m|q]; cbn [as_queue shift_motions] in *; [|apply shift_valid; assumption].
  assert (Vm : valid_duration m) by (inversion V; assumption). constructor; [|constructor]. unfold valid_duration. rewrite shift_single_duration by assumption.
  destruct (Z.eq_dec (mo_duration m) (-1)); [left; reflexivity|right]. destruct Vm; [contradiction|]. lia.
Qed.
Lemma shift_motions_endless : endless (as_queue x) <-> endless (as_queue (shift_motions T shift x)).
Proof.
  destruct x as [m|q]; cbn [as_queue shift_motions] in *; [|apply shift_endless; assumption].
  assert (Vm : valid_duration m) by (inversion V; assumption). pose proof (shift_single_duration T shift m Vm Hs) as D.
  split; intros (y & [<-|[]] & Hd); eexists; (split; [left; reflexivity|]).
  - rewrite D. destruct (Z.eq_dec (mo_duration m) (-1)); [reflexivity|contradiction].
  - rewrite D in Hd. destruct (Z.eq_dec (mo_duration m) (-1)); [assumption|lia].
Qed.
Lemma shift_motions_total : ~ endless (as_queue x) -> total (as_queue (shift_motions T shift x)) = Z.max 0 (total (as_queue x) - shift).
Proof.
  intros E. destruct x as [m|q]; cbn [as_queue shift_motions] in *; [|apply shift_total; assumption].
  assert (Vm : valid_duration m) by (inversion V; assumption). pose proof (shift_single_duration T shift m Vm Hs) as D. cbn [total]. rewrite D.
  destruct (Z.eq_dec (mo_duration m) (-1)); [exfalso; apply E; exists m; split; [left; reflexivity|assumption]|lia].
Qed.
End Shift.

(** ** one iteration *)
(** what is known about an iteration that is executed *)
Definition advanced (junk : nat -> nat -> nat -> R) (r : robot_bounds) (a : advance) (shift : Z) (sol : solution) (s s' : loop) : Prop :=
  let P := mg_par (lp_mg s) in let N := horizon_length P in let T := seconds (sampling_ms P) in let t := seconds (step_ms (sampling_ms P) a) in
  mg_par (lp_mg s') = P /\ mg_size (lp_mg s') = N /\ lp_motions s' = shift_motions (sampling_ms P) shift (lp_motions s) /\
  exists v m M p, solved junk N (mg_horizon (lp_mg s')) (lp_model s) sol M p /\ mg_matrices (lp_mg s') = M /\ nth_error (mg_horizon (lp_mg s')) 0 = Some v /\
    mg_profiles (lp_mg s') = p /\
    executed (as_queue (lp_motions s)) (sampling_ms P - 1) = Some m /\ follows P (view_of r (lp_model s)) v m (heading_of s) /\
    (forall x, moved3 (base_of s x) (base_of s' x) (vel_jerk (base_of s x) (base_command sol 0 x) T) t /\ moved3 (body_of s x) (body_of s' x) (body_command N sol 0 x) t) /\
    base_height_of s' = base_height_of s /\ body_height_of s' = body_height_of s /\ heading_of s' = heading_of s + mo_angular m * t /\ default_masses s' /\
    (a = Whole -> initializeNextModelState (mg_horizon (lp_mg s')) p (lp_model s) = Ok (lp_model s') /\
      forall x, base_of s' x = base_at (lp_model s) p 1 x /\ body_of s' x = body_at N (lp_model s) p 1 x).

Lemma lookup_first d ds t : (t <= d)%nat -> getIntervalIndexByTimeOffset_ms (d :: ds) t = Ok (0%nat, t).
Proof. intros H. unfold getIntervalIndexByTimeOffset_ms. cbn [lookup_ms]. destruct (Nat.ltb_spec d t); [lia|reflexivity]. Qed.

Lemma cycle_cases junk r a shift sol s : let P := mg_par (lp_mg s) in
  proper P -> valid_queue (as_queue (lp_motions s)) -> (0 <= step_ms (sampling_ms P) a <= sampling_ms P)%Z -> fits_problem (horizon_length P) sol ->
  (lasts P (as_queue (lp_motions s)) /\ exists s', cycle junk r a shift sol s = Ok (Some s') /\ advanced junk r a shift sol s s') \/
  (~ lasts P (as_queue (lp_motions s)) /\ cycle junk r a shift sol s = Ok None).
Proof.
  cbn zeta. intros PP V Hst (F1 & F2). set (P := mg_par (lp_mg s)) in *. unfold cycle, mg_updateAndShift, mg_update. fold P.
  destruct (form_motions_defined P (view_of r (lp_model s)) (lp_motions s) (mg_horizon (lp_mg s)) PP V) as (b & l & E & Hb). rewrite E. cbn [bind fst snd].
  destruct b; [left|right; split; [intros C; apply Hb in C; discriminate|reflexivity]]. split; [apply Hb; reflexivity|].
  destruct (form_motions_horizon _ _ _ _ _ PP V E) as (FH & v & m & Hv & Hm & FO).
  destruct (solved_exists junk (horizon_length P) l (lp_model s) sol (proj1 PP) FH F1 F2) as (M & p & S & _).
  pose proof S as (_ & _ & _ & _ & EM & EP). rewrite EM. cbn [bind fst snd].
  pose proof (T_positive P PP) as HT. pose proof FO as (G1 & G2 & G3 & G4 & G5 & G6 & G7 & G8). cbn [view_of view_theta view_base_height view_body_height] in G3, G4, G5.
  change (IZR (sampling_ms P) / 1000) with (seconds (sampling_ms P)) in G2.
  destruct a as [|ms].
  - unfold mg_next_of. cbn [mg_parsed negb assert_then mg_parse mg_size mg_matrices]. unfold mg_parse. cbn [mg_size mg_matrices mg_par mg_horizon]. rewrite EP. cbn [bind mg_horizon mg_profiles].
    destruct (solved_next_state _ _ _ _ _ _ _ v S Hv) as (s1 & E1 & K & H1 & H2 & H3 & H4 & H5). rewrite E1. cbn [bind fst snd].
    eexists. split; [reflexivity|]. unfold advanced. cbn zeta. fold P. cbn [lp_mg lp_motions lp_model mg_par mg_size mg_horizon mg_matrices mg_profiles step_ms]. split; [reflexivity|]. split; [reflexivity|]. split; [reflexivity|].
    exists v, m, M, p. split; [exact S|]. split; [reflexivity|]. split; [exact Hv|]. split; [reflexivity|]. split; [exact Hm|]. split; [exact FO|].
    unfold base_of, body_of, heading_of, base_height_of, body_height_of, default_masses. cbn [lp_model].
    split; [|repeat split; try assumption].
    + intros x. destruct (K x) as (K1 & K2). rewrite K1, K2. destruct (profile_motion junk _ l (lp_model s) sol M p 0 v x S Hv) as (Q1 & Q2 & Q3). cbn [Nat.add] in Q1, Q2, Q3.
      rewrite G2 in Q1, Q3. split; [|exact Q3]. change (along_axis (ps_base (lp_model s)) x) with (base_at (lp_model s) p 0 x). rewrite <- (jerk_unique _ _ _ _ _ (Rgt_not_eq _ _ HT) Q1 Q2). exact Q1.
    + rewrite H1. exact G4.
    + rewrite H2. exact G5.
    + rewrite H3, G3, G2. reflexivity.
    + apply K.
    + apply K.
  - unfold mg_parse. cbn [mg_size mg_matrices mg_par mg_horizon]. rewrite EP. cbn [bind]. unfold mg_state_ms. cbn [mg_parsed mg_horizon mg_par mg_profiles assert_then].
    cbn [step_ms] in Hst.
    assert (EL : getIntervalIndexByTimeOffset_ms (map (fun w => Z.to_nat (in_T_ms w)) l) ms = Ok (0%nat, ms)).
    { destruct l as [|w l']; [discriminate Hv|]. cbn in Hv. injection Hv as ->. cbn [map]. apply lookup_first. rewrite G1. lia. }
    rewrite EL. cbn [bind fst snd].
    destruct (solved_model_state junk _ l (lp_model s) sol M p 0 v (INR ms / 1000) S Hv) as (s1 & E1 & K & H1 & H2 & H3 & H4 & H5). rewrite E1. cbn [bind fst snd].
    assert (ET : INR ms / 1000 = seconds (Z.of_nat ms)) by (unfold seconds; rewrite INR_IZR_INZ; reflexivity). rewrite ET in *.
    eexists. split; [reflexivity|]. unfold advanced. cbn zeta. fold P. cbn [lp_mg lp_motions lp_model mg_par mg_size mg_horizon mg_matrices mg_profiles step_ms]. split; [reflexivity|]. split; [reflexivity|]. split; [reflexivity|].
    exists v, m, M, p. split; [exact S|]. split; [reflexivity|]. split; [exact Hv|]. split; [reflexivity|]. split; [exact Hm|]. split; [exact FO|].
    unfold base_of, body_of, heading_of, base_height_of, body_height_of, default_masses. cbn [lp_model].
    split; [|repeat split; try assumption; try discriminate].
    + intros x. destruct (K x) as (K1 & K2). cbn [base_at body_at] in K1, K2. rewrite G2 in K1. split; assumption.
    + rewrite H1. exact G4.
    + rewrite H2. exact G5.
    + rewrite H3. cbn [heading_before]. rewrite G3, G2. unfold heading_of. field. lra.
Qed.

(** ** the loop *)
Section Loop.
Variables (junk : nat -> nat -> nat -> R) (r : robot_bounds) (a : advance) (shift : Z) (sols : nat -> solution) (s0 : loop).
Hypothesis WP : well_posed a shift sols s0.
Let P := mg_par (lp_mg s0).
Let Q := as_queue (lp_motions s0).

Lemma after_S n : after junk r a shift sols s0 (S n) = bind (after junk r a shift sols s0 n) (fun o => match o with None => Ok None | Some x => cycle junk r a shift (sols n) x end).
Proof. reflexivity. Qed.

(** the loop is in the iteration [n] *)
Definition in_progress (n : nat) (s : loop) : Prop :=
  mg_par (lp_mg s) = P /\ valid_queue (as_queue (lp_motions s)) /\
  (forall u, (0 <= u)%Z -> commanded (as_queue (lp_motions s)) u = commanded Q (Z.of_nat n * shift + u)) /\
  (endless (as_queue (lp_motions s)) <-> endless Q) /\
  (~ endless Q -> total (as_queue (lp_motions s)) = Z.max 0 (total Q - Z.of_nat n * shift)).

Lemma started : in_progress 0 s0.
Proof.
  destruct WP as (H1 & H2 & H3 & H4 & H5). split; [reflexivity|]. split; [exact H2|]. split; [|split].
  - intros u Hu. reflexivity.
  - tauto.
  - intros E. unfold Q. pose proof (total_nonneg _ H2 E). lia.
Qed.
Lemma lasts_iff n s : in_progress n s -> lasts P (as_queue (lp_motions s)) <-> endless Q \/ (Z.of_nat (horizon_length P) * sampling_ms P + Z.of_nat n * shift <= total Q)%Z.
Proof.
  intros (_ & _ & _ & E & T). destruct WP as ((HN & HT & _) & _). fold P in HN, HT. unfold lasts. rewrite E. split; intros [H|H]; try tauto.
  - destruct (endless_cases Q) as [D|D]; [tauto|]. right. rewrite (T D) in H. nia.
  - destruct (endless_cases Q) as [D|D]; [tauto|]. right. rewrite (T D). lia.
Qed.
Lemma step n s : in_progress n s -> after junk r a shift sols s0 n = Ok (Some s) ->
  (lasts P (as_queue (lp_motions s)) /\ exists s', after junk r a shift sols s0 (S n) = Ok (Some s') /\ advanced junk r a shift (sols n) s s' /\ in_progress (S n) s') \/
  (~ lasts P (as_queue (lp_motions s)) /\ after junk r a shift sols s0 (S n) = Ok None).
Proof.
  intros (I1 & I2 & I3 & I4 & I5) E. destruct WP as (H1 & H2 & H3 & H4 & H5). fold P in H1, H4, H5. rewrite after_S, E. cbn [bind].
  destruct (cycle_cases junk r a shift (sols n) s) as [(C1 & s' & C2 & C3)|(C1 & C2)]; try (rewrite I1); try assumption; [apply H5| |]; rewrite I1 in C1.
  - left. split; [exact C1|]. exists s'. split; [exact C2|]. split; [exact C3|]. destruct C3 as (A1 & _ & A3 & _). rewrite I1 in A1, A3.
    split; [exact A1|]. rewrite A3. split; [apply shift_motions_valid; assumption|]. split; [|split].
    + intros u Hu. rewrite shift_motions_commanded by assumption. rewrite I3 by lia. f_equal. lia.
    + rewrite <- (shift_motions_endless (sampling_ms P) shift (lp_motions s) I2 H3). exact I4.
    + intros D. rewrite shift_motions_total; [|assumption|assumption|rewrite I4; exact D]. rewrite (I5 D). pose proof (total_nonneg Q H2 D). nia.
  - right. split; [exact C1|exact C2].
Qed.
Lemma progress n : (exists s, after junk r a shift sols s0 n = Ok (Some s) /\ in_progress n s) \/ after junk r a shift sols s0 n = Ok None.
Proof.
  induction n as [|n [(s & E & I)|E]].
  - left. exists s0. split; [reflexivity|exact started].
  - destruct (step n s I E) as [(_ & s' & E' & _ & I')|(_ & E')]; [left; eauto|right; exact E'].
  - right. rewrite after_S, E. reflexivity.
Qed.
Lemma in_progress_of n s : after junk r a shift sols s0 n = Ok (Some s) -> in_progress n s.
Proof. intros E. destruct (progress n) as [(s' & E' & I)|E']; rewrite E in E'; [injection E' as <-; exact I|discriminate]. Qed.
Lemma consecutive_advanced n s s' : consecutive junk r a shift sols s0 n s s' -> in_progress n s /\ advanced junk r a shift (sols n) s s'.
Proof.
  intros (E & E'). pose proof (in_progress_of n s E) as I. split; [exact I|]. destruct (step n s I E) as [(_ & s1 & E1 & A & _)|(_ & E1)]; rewrite E' in E1; [injection E1 as <-; exact A|discriminate].
Qed.
Lemma loop_duration n : exists o, after junk r a shift sols s0 n = Ok o /\
  (o <> None <-> n = 0%nat \/ endless Q \/ (Z.of_nat (horizon_length P) * sampling_ms P + Z.of_nat (n - 1) * shift <= total Q)%Z).
Proof.
  assert (H3 : (0 <= shift)%Z) by (destruct WP as (_ & _ & H3 & _); exact H3).
  induction n as [|n (o & E & Ho)].
  - exists (Some s0). split; [reflexivity|]. split; [auto|discriminate].
  - destruct o as [s|].
    + destruct (step n s (in_progress_of n s E) E) as [(L & s' & E' & _)|(L & E')]; rewrite (lasts_iff n s (in_progress_of n s E)) in L; replace (S n - 1)%nat with n by lia.
      * exists (Some s'). split; [exact E'|]. split; [auto|discriminate].
      * exists None. split; [exact E'|]. split; [congruence|]. intros [C|C]; [discriminate|contradiction].
    + exists None. split; [rewrite after_S, E; reflexivity|]. split; [congruence|]. intros [C|C]; [discriminate|]. exfalso. replace (S n - 1)%nat with n in C by lia.
      apply Ho; [|reflexivity]. right. destruct C as [C|C]; [left; exact C|right]. nia.
Qed.
Lemma loop_motion n s s' : consecutive junk r a shift sols s0 n s s' -> let T := seconds (sampling_ms P) in let t := seconds (step_ms (sampling_ms P) a) in
  exists v p w, commanded Q (Z.of_nat n * shift + sampling_ms P - 1) = Some (v, p, w) /\
  (forall x, moved3 (base_of s x) (base_of s' x) (vel_jerk (base_of s x) (base_command (sols n) 0 x) T) t /\ moved3 (body_of s x) (body_of s' x) (body_command (horizon_length P) (sols n) 0 x) t) /\
  heading_of s' = heading_of s + w * t /\ base_height_of s' = base_height_of s /\ body_height_of s' = body_height_of s.
Proof.
  intros C T t. destruct (consecutive_advanced n s s' C) as ((I1 & I2 & I3 & _) & _ & _ & _ & v & m & M & p & A). rewrite I1 in A.
  destruct A as (_ & _ & _ & _ & A1 & _ & A2 & A3 & A4 & A5 & _). exists (mo_velocity m), (mo_position m), (mo_angular m). split; [|tauto].
  assert (HT : (0 < sampling_ms P)%Z) by apply WP.
  replace (Z.of_nat n * shift + sampling_ms P - 1)%Z with (Z.of_nat n * shift + (sampling_ms P - 1))%Z by lia. rewrite <- I3 by lia. unfold commanded. rewrite A1. reflexivity.
Qed.
Lemma loop_masses n s : after junk r a shift sols s0 (S n) = Ok (Some s) -> default_masses s.
Proof.
  intros E. destruct (progress n) as [(s1 & E1 & I)|E1]; [|rewrite after_S, E1 in E; discriminate].
  destruct (consecutive_advanced n s1 s (conj E1 E)) as (_ & _ & _ & _ & v & m & M & p & A). tauto.
Qed.
End Loop.
