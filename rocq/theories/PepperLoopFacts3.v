(** * Calls of the Pepper motion generator in any order; examples of loops *)
From Coq Require Import String List Reals Arith ZArith Lra Lia Bool.
From Verif Require Import Base BaseFacts RSum Matrix Kronecker Condense Mat2 Mat3 PointMass6z PointMass6zSpec TripleIntegratorSpec Solution Constraints ConstraintsSpec PepperPreview PepperPreviewSpec PepperPreviewFacts PepperFormFacts
  MpcGuess PepperModel PepperMpc PepperMpcSpec PepperMpcFacts PepperMpcFacts2 PepperTasks PepperTasksSpec PepperTasksFacts PepperTasksFacts2 PepperLoop PepperLoopSpec PepperLoopFacts PepperLoopFacts2.
Import ListNotations.
Local Open Scope R_scope.

(** ** histories *)
Lemma snoc_split {A} (h1 h2 h : list A) e d : h1 ++ e :: h2 = h ++ [d] -> (h2 = [] /\ e = d /\ h1 = h) \/ (exists h3, h2 = h3 ++ [d] /\ h = h1 ++ e :: h3).
Proof.
  destruct h2 as [|y h2] using rev_ind; intros E.
  - apply app_inj_tail in E. destruct E as [-> ->]. left. auto.
  - right. replace (h1 ++ e :: h2 ++ [y]) with ((h1 ++ e :: h2) ++ [y]) in E by (rewrite <- app_assoc; reflexivity). apply app_inj_tail in E. destruct E as [<- <-]. exists h2. auto.
Qed.
Lemma parsed_snoc h c x : parsed_since (h ++ [(c, x)]) -> (parses c /\ x <> Failed) \/ (~ is_update c /\ parsed_since h).
Proof.
  intros (h1 & c' & x' & h2 & E & P & X & U). symmetry in E. apply snoc_split in E. destruct E as [(-> & Ee & _)|(h3 & -> & ->)].
  - injection Ee as -> ->. left. auto.
  - right. split; [apply (U c x); apply in_or_app; right; left; reflexivity|]. exists h1, c', x', h3. split; [reflexivity|]. split; [exact P|]. split; [exact X|].
    intros c1 x1 H1. apply (U c1 x1). apply in_or_app. left. exact H1.
Qed.
Lemma given_here h c x : (match c with CallParse _ => x <> Failed | CallNextOf _ _ => True | _ => False end) -> given_since (h ++ [(c, x)]).
Proof. intros H. exists h, c, x, []. split; [reflexivity|]. split; [exact H|]. intros c' x' []. Qed.
Lemma given_kept h c x : ~ is_update c -> given_since h -> given_since (h ++ [(c, x)]).
Proof.
  intros U (h1 & c' & x' & h2 & -> & P & N). exists h1, c', x', (h2 ++ [(c, x)]). split; [rewrite <- app_assoc; reflexivity|]. split; [exact P|].
  intros c1 x1 H. apply in_app_or in H. destruct H as [H|[H|[]]]; [apply (N c1 x1 H)|]. injection H as <- <-. exact U.
Qed.

Definition tracks (h : list (mg_call * mg_answer)) (g : mg) : Prop := (parsed_since h -> mg_parsed g = true) /\ (mg_parsed g = true -> given_since h).

Lemma do_update junk r w x model g : mg_do junk r w (CallUpdate x model) g =
  reply (mg_update junk r x model g) (fun u => (Status (fst u), snd u)) (failed_update (un_horizon w) (un_size w) (un_matrices w) g).
Proof. reflexivity. Qed.
Lemma do_next_of junk r w sol model g : mg_do junk r w (CallNextOf sol model) g =
  if mg_parsed g then (Failed, g)
  else match mg_parse sol g with
    | Ok g' => reply (initializeNextModelState (mg_horizon g') (mg_profiles g') model) (fun s => (State s, g')) g'
    | _ => (Failed, set_profiles (un_profiles w) g)
    end.
Proof.
  cbn [mg_do]. unfold mg_next_of. destruct (mg_parsed g); cbn [negb assert_then reply]; [reflexivity|].
  destruct (mg_parse sol g) as [g'| |]; cbn [bind reply]; [|reflexivity|reflexivity]. destruct (initializeNextModelState _ _ _); reflexivity.
Qed.
Lemma tracks_step junk r w c g h : tracks h g -> let (x, g') := mg_do junk r w c g in
  tracks (h ++ [(c, x)]) g' /\ (needs_parsed c -> forall s, x = State s -> given_since h) /\ ((exists sol m, c = CallNextOf sol m) -> forall s, x = State s -> ~ parsed_since h).
Proof.
  intros (T1 & T2). destruct c as [p|x model|x model shift|sol|sol model|model|model t|model t]; [| | | |rewrite do_next_of| | |]; cbn [mg_do].
  - split; [|split; [intros []|intros (? & ? & D); discriminate]]. split; cbn [mg_setParameters mg_parsed].
    + intros H. apply parsed_snoc in H. destruct H as [([] & _)|(_ & H)]. exact (T1 H).
    + intros H. apply given_kept; [intros []|exact (T2 H)].
  - unfold mg_update. destruct (form_motions _ _ _ _) as [[b l]| |]; cbn [bind fst snd reply]; [destruct b; [destruct (updateMatrices _ _ _ _) as [M| |]|]|..]; cbn [bind fst snd reply].
    all: split; [|split; [intros []|intros (? & ? & D); discriminate]]; split; cbn [mg_parsed failed_update]; try discriminate.
    all: intros H; apply parsed_snoc in H; destruct H as [([] & _)|(H & _)]; exfalso; apply H; exact I.
  - unfold mg_updateAndShift, mg_update. destruct (form_motions _ _ _ _) as [[b l]| |]; cbn [bind fst snd reply]; [destruct b; [destruct (updateMatrices _ _ _ _) as [M| |]|]|..]; cbn [bind fst snd reply].
    all: split; [|split; [intros []|intros (? & ? & D); discriminate]]; split; cbn [mg_parsed failed_update]; try discriminate.
    all: intros H; apply parsed_snoc in H; destruct H as [([] & _)|(H & _)]; exfalso; apply H; exact I.
  - unfold mg_parse. destruct (parseSolution _ _ _) as [q| |]; cbn [bind reply]; (split; [|split; [intros []|intros (? & ? & D); discriminate]]); split; cbn [mg_parsed set_profiles].
    + reflexivity.
    + intros _. apply given_here. discriminate.
    + intros H. apply parsed_snoc in H. destruct H as [(_ & H)|(_ & H)]; [congruence|exact (T1 H)].
    + intros H. apply given_kept; [intros []|exact (T2 H)].
    + intros H. apply parsed_snoc in H. destruct H as [(_ & H)|(_ & H)]; [congruence|exact (T1 H)].
    + intros H. apply given_kept; [intros []|exact (T2 H)].
  - destruct (mg_parsed g) eqn:EP.
    + split; [|split; [intros []|intros _ s; discriminate]]. split; [intros _; exact EP|]. intros _. apply given_here. exact I.
    + assert (NP : ~ parsed_since h) by (intros H; apply T1 in H; congruence).
      unfold mg_parse. destruct (parseSolution _ _ _) as [q| |]; cbn [bind].
      * destruct (initializeNextModelState _ _ _) as [s| |]; cbn [reply]; (split; [|split; [intros []|intros _ ? _; exact NP]]); split; cbn [mg_parsed]; try reflexivity; intros _; apply given_here; exact I.
      * split; [|split; [intros []|intros _ s; discriminate]]. split; [intros H; apply parsed_snoc in H; destruct H as [(_ & H)|(_ & H)]; [congruence|contradiction]|intros _; apply given_here; exact I].
      * split; [|split; [intros []|intros _ s; discriminate]]. split; [intros H; apply parsed_snoc in H; destruct H as [(_ & H)|(_ & H)]; [congruence|contradiction]|intros _; apply given_here; exact I].
  - unfold mg_next. destruct (mg_parsed g) eqn:EP; cbn [assert_then].
    + destruct (initializeNextModelState _ _ _) as [s| |]; cbn [reply]; (split; [|split; [intros _ ? _; exact (T2 eq_refl)|intros (? & ? & D); discriminate]]);
      (split; [intros _; exact EP|intros _; apply given_kept; [intros []|exact (T2 eq_refl)]]).
    + cbn [reply]. split; [|split; [intros _ s; discriminate|intros (? & ? & D); discriminate]]. rewrite <- EP in *. split; [intros H; apply parsed_snoc in H; destruct H as [([] & _)|(_ & H)]; exact (T1 H)|congruence].
  - unfold mg_state_ms. destruct (mg_parsed g) eqn:EP; cbn [assert_then].
    + match goal with |- context [reply ?o] => destruct o as [s| |] end; cbn [reply]; (split; [|split; [intros _ ? _; exact (T2 eq_refl)|intros (? & ? & D); discriminate]]);
      (split; [intros _; exact EP|intros _; apply given_kept; [intros []|exact (T2 eq_refl)]]).
    + cbn [reply]. split; [|split; [intros _ s; discriminate|intros (? & ? & D); discriminate]]. rewrite <- EP in *. split; [intros H; apply parsed_snoc in H; destruct H as [([] & _)|(_ & H)]; exact (T1 H)|congruence].
  - unfold mg_state_s. destruct (mg_parsed g) eqn:EP; cbn [assert_then].
    + match goal with |- context [reply ?o] => destruct o as [s| |] end; cbn [reply]; (split; [|split; [intros _ ? _; exact (T2 eq_refl)|intros (? & ? & D); discriminate]]);
      (split; [intros _; exact EP|intros _; apply given_kept; [intros []|exact (T2 eq_refl)]]).
    + cbn [reply]. split; [|split; [intros _ s; discriminate|intros (? & ? & D); discriminate]]. rewrite <- EP in *. split; [intros H; apply parsed_snoc in H; destruct H as [([] & _)|(_ & H)]; exact (T1 H)|congruence].
Qed.
Lemma tracks_run junk r W : forall cs k g h0 h g', tracks h0 g -> mg_run junk r W k cs g = (h, g') ->
  forall h1 c s h2, h = h1 ++ (c, State s) :: h2 -> (needs_parsed c -> given_since (h0 ++ h1)) /\ ((exists sol m, c = CallNextOf sol m) -> ~ parsed_since (h0 ++ h1)).
Proof.
  induction cs as [|c cs IH]; intros k g h0 h g' T E h1 c' s h2 EH; cbn [mg_run] in E.
  - injection E as <- <-. destruct h1; discriminate.
  - pose proof (tracks_step junk r (W k) c g h0 T) as ST. destruct (mg_do junk r (W k) c g) as [x g1] eqn:E1. destruct ST as (T' & S1 & S2).
    destruct (mg_run junk r W (S k) cs g1) as [l g2] eqn:E2. injection E as <- <-. destruct h1 as [|e h1].
    + cbn in EH. injection EH as -> -> ->. rewrite app_nil_r. split; [intros H; exact (S1 H s eq_refl)|intros H; exact (S2 H s eq_refl)].
    + cbn in EH. injection EH as <- EH. destruct (IH (S k) g1 (h0 ++ [(c, x)]) l g2 T' E2 h1 c' s h2 EH) as (R1 & R2). rewrite <- app_assoc in R1, R2. split; assumption.
Qed.
Theorem guarded (junk : nat -> nat -> nat -> R) (r : robot_bounds) (W : nat -> undetermined) (p : mpc_parameters) (calls : list mg_call) (h : list (mg_call * mg_answer)) (g : mg) :
  mg_run junk r W 0 calls (mg_new p) = (h, g) ->
  forall h1 c s h2, h = h1 ++ (c, State s) :: h2 -> (needs_parsed c -> given_since h1) /\ ((exists sol m, c = CallNextOf sol m) -> ~ parsed_since h1).
Proof.
  intros E h1 c s h2 EH. apply (tracks_run junk r W calls 0 (mg_new p) [] h g) with (s := s) (h2 := h2); [|exact E|exact EH].
  split; [|discriminate]. intros (h3 & c' & x & h4 & D & _). destruct h3; discriminate.
Qed.

(** after an update that returned OK: a solution of the right size is parsed, both ways to get the next state agree; solutions of other sizes are refused *)
Theorem same_answer (junk : nat -> nat -> nat -> R) (r : robot_bounds) (x : motions) (model : pepper_state) (g g1 : mg) (sol : solution) :
  proper (mg_par g) -> valid_queue (as_queue x) -> mg_update junk r x model g = Ok (true, g1) ->
  (fits_problem (horizon_length (mg_par g)) sol -> exists g2 s, mg_parse sol g1 = Ok g2 /\ mg_next_of sol model g1 = Ok (s, g2) /\ mg_next model g2 = Ok s /\
     mg_next_of sol model g2 = Throw /\ mg_next model g1 = Throw /\ (forall t, mg_state_ms model t g1 = Throw) /\ (forall t, mg_state_s model t g1 = Throw)) /\
  (length (sol_x sol) <> (4 * horizon_length (mg_par g))%nat -> mg_parse sol g1 = Throw /\ mg_next_of sol model g1 = Throw).
Proof.
  intros PP V E. unfold mg_update in E. destruct (form_motions_defined (mg_par g) (view_of r model) x (mg_horizon g) PP V) as (b & l & EF & _). rewrite EF in E. cbn [bind fst snd] in E.
  destruct b; [|discriminate]. destruct (form_motions_horizon _ _ _ _ _ PP V EF) as (FH & v & m & Hv & _).
  destruct (updateMatrices junk (horizon_length (mg_par g)) l model) as [M| |] eqn:EM; try discriminate. cbn [bind] in E. injection E as <-. split.
  - intros (F1 & F2). destruct (solved_exists junk _ l model sol (proj1 PP) FH F1 F2) as (M' & p & S & _). pose proof S as (_ & _ & _ & _ & EM' & EP). rewrite EM in EM'. injection EM' as <-.
    destruct (solved_next_state _ _ _ _ _ _ _ v S Hv) as (s & ES & _). exists (mkMg (mg_par g) true l (horizon_length (mg_par g)) M p), s.
    unfold mg_next_of, mg_parse, mg_next, mg_state_ms, mg_state_s. cbn [mg_parsed mg_size mg_matrices mg_par mg_horizon negb assert_then]. rewrite EP. cbn [bind mg_horizon mg_profiles]. rewrite ES. cbn [bind].
    repeat split.
  - intros HL. unfold mg_next_of, mg_parse. cbn [mg_parsed mg_size mg_matrices mg_par mg_horizon negb assert_then].
    rewrite (wrong_size_rejected junk _ l model sol M (proj1 PP) FH EM HL). split; reflexivity.
Qed.

(** ** a loop: one interval of 100 ms, the base moves with the largest velocity and accelerates *)
Definition ex_bounds : robot_bounds := mkBounds (M2 (-10) 10 (-10) 10) (M2 (-1) 1 (-1) 1) (M2 (-1) 1 (-1) 1) (M2 (-10) 10 (-10) 10).
Definition ex_state : pepper_state :=
  mkPS (mkPM (V3 0 0 (1 / 10)) (V3 1 0 0) (V3 (1 / 2) 0 0)) (V3 0 0 0) (mkPM (V3 0 0 (7 / 10)) (V3 1 0 0) (V3 0 0 0)) default_base_mass default_body_mass.
Definition ex_motions : list motion := [mkMotion (V2 1 0) (V2 0 0) 0 150; mkMotion (V2 1 0) (V2 0 0) 0 150].
Definition ex_par : mpc_parameters := mkParams 1 100.
Definition ex_loop : loop := mkLoop ex_state (Queue ex_motions) (mg_new ex_par).
Definition ex_sol : solution := mkSolution (structure_pepper 1) [1; 0; 0; 0].
Lemma ex_well_posed : well_posed Whole 100 (fun _ => ex_sol) ex_loop.
Proof.
  split; [split; cbn; lia|]. split; [|split; [lia|split; [cbn; lia|]]].
  - cbn. apply Forall_forall. intros m [<-|[<-|[]]]; right; cbn; lia.
  - intros k. split; reflexivity.
Qed.
Lemma ex_first : exists s', consecutive ex_junk ex_bounds Whole 100 (fun _ => ex_sol) ex_loop 0 ex_loop s'.
Proof.
  destruct (loop_defined ex_junk ex_bounds Whole 100 (fun _ => ex_sol) ex_loop 1 ex_well_posed) as (o & E & H). cbn zeta in H.
  destruct o as [s'|]; [exists s'; split; [reflexivity|exact E]|]. exfalso. apply H; [|reflexivity]. right. right. cbn. lia.
Qed.
Lemma ex_obeys s' : consecutive ex_junk ex_bounds Whole 100 (fun _ => ex_sol) ex_loop 0 ex_loop s' ->
  obeys_velocity s' ex_sol /\ obeys_acceleration s' ex_sol /\ obeys_cop s' ex_sol /\ obeys_body s' ex_sol.
Proof.
  intros C. destruct (consecutive_advanced _ _ _ _ _ _ ex_well_posed _ _ _ C) as (_ & _ & ES & _ & v & m & M & p & S & EM & Hv & Ep & Em & FO & MV & _ & _ & HH & _ & A).
  destruct (A eq_refl) as (_ & A2). cbn in Em. injection Em as <-. pose proof FO as (G1 & G2 & G3 & G4 & G5 & G6 & G7 & G8).
  cbn [ex_loop lp_mg mg_new mg_par ex_par horizon_length sampling_ms step_ms] in *. cbn [lp_model] in *.
  assert (LL : mg_horizon (lp_mg s') = [v]).
  { destruct S as (_ & (L & _) & _). destruct (mg_horizon (lp_mg s')) as [|w [|w' l']]; try discriminate L. cbn in Hv. injection Hv as ->. reflexivity. }
  unfold seconds in *. replace (IZR 100 / 1000) with (1 / 10) in * by lra.
  assert (TH : in_theta v = 0) by (rewrite G3; cbn; lra).
  destruct (MV AxisX) as ((X1 & X2 & X3) & (Y1 & Y2 & Y3)). destruct (MV AxisY) as ((U1 & U2 & U3) & (W1 & W2 & W3)).
  assert (Ab : forall x, base_of s' x = base_at ex_state p 1 x) by apply A2. assert (Ad : forall x, body_of s' x = body_at 1 ex_state p 1 x) by apply A2. rewrite Ab in *. rewrite Ad in *. clear A A2 Ab Ad.
  unfold base_of, body_of, vel_jerk, base_command, body_command, ex_sol, along_axis, motion_position, motion_velocity, motion_acceleration in X1, X2, X3, Y1, Y2, Y3, U1, U2, U3, W1, W2, W3.
  cbn [ex_loop lp_model ex_state ps_base ps_body pm_position pm_velocity pm_acceleration along vx vy vz axis_index Nat.mul Nat.add nth sol_x] in X1, X2, X3, Y1, Y2, Y3, U1, U2, U3, W1, W2, W3.
  set (bx := base_at ex_state p 1 AxisX) in *. set (by_ := base_at ex_state p 1 AxisY) in *. set (dx := body_at 1 ex_state p 1 AxisX) in *. set (dy := body_at 1 ex_state p 1 AxisY) in *.
  assert (EX1 : vx bx = 121 / 1200) by lra. assert (EX2 : vy bx = 1) by lra. assert (EX3 : vz bx = - (1 / 2)) by lra.
  assert (EU1 : vx by_ = 0) by lra. assert (EU2 : vy by_ = 0) by lra. assert (EU3 : vz by_ = 0) by lra.
  assert (EY1 : vx dx = 1 / 10) by lra. assert (EY3 : vz dx = 0) by lra. assert (EW1 : vx dy = 0) by lra. assert (EW3 : vz dy = 0) by lra.
  clear X1 X2 X3 Y1 Y2 Y3 U1 U2 U3 W1 W2 W3.
  unfold obeys_velocity, obeys_acceleration, obeys_cop, obeys_body. rewrite ES, EM.
  split; [|split; [|split]].
  - destruct (task_base_velocity_bounds _ _ _ _ _ _ _ (fun _ _ => 0) [] S) as (c & Ec & _ & K). exists (fun _ _ => 0), [], c. split; [exact Ec|]. apply K. rewrite LL.
    intros k w b x Hk Hb. destruct k as [|k]; [|destruct k; discriminate Hk]. cbn in Hk. injection Hk as <-. unfold velocity_bounds in Hb. rewrite G8 in Hb. cbn in Hb. injection Hb as <-.
    cbn [Nat.add]. change (lp_model ex_loop) with ex_state. destruct x; [fold bx; rewrite EX2|fold by_; rewrite EU2]; unfold within; cbn; lra.
  - destruct (task_base_acceleration_bounds _ _ _ _ _ _ _ (fun _ _ => 0) S) as (c & Ec & _ & K). exists (fun _ _ => 0), c. split; [exact Ec|]. apply K. rewrite LL.
    intros k w b x Hk Hb. destruct k as [|k]; [|destruct k; discriminate Hk]. cbn in Hk. injection Hk as <-. unfold acceleration_bounds in Hb. rewrite G8 in Hb. cbn in Hb. injection Hb as <-.
    cbn [Nat.add]. change (lp_model ex_loop) with ex_state. destruct x; [fold bx; rewrite EX3|fold by_; rewrite EU3]; unfold within; cbn; lra.
  - destruct (task_cop_bounds _ _ _ _ _ _ _ (fun _ _ => 0) S) as (c & Ec & _ & K). exists (fun _ _ => 0), c. split; [exact Ec|]. apply K. rewrite LL.
    intros k w b x Hk Hb. destruct k as [|k]; [|destruct k; discriminate Hk]. cbn in Hk. injection Hk as <-. unfold cop_bounds in Hb. rewrite G8 in Hb. cbn in Hb. injection Hb as <-.
    cbn [view_of view_base_mass view_body_mass view_base_height view_body_height ex_loop lp_model ex_state ps_base_mass ps_body_mass ps_base ps_body pm_position vz] in G4, G5, G6, G7.
    pose proof (profile_cop _ _ _ _ _ _ _ 0 v x S Hv) as D. rewrite G4, G5, G6, G7 in D. specialize (D ltac:(unfold default_base_mass, default_body_mass; lra)).
    cbn [Nat.add] in D. change (lp_model ex_loop) with ex_state in D. unfold relative_cop, default_base_mass, default_body_mass, gravity in D. cbn [Nat.mul Nat.add].
    unfold within. destruct x; cbn [axis_index lower_bound upper_bound a00 a01 a10 a11] in *; [fold bx dx in D; rewrite EX1, EX3, EY1, EY3 in D|fold by_ dy in D; rewrite EU1, EU3, EW1, EW3 in D]; cbn [Nat.mul Nat.add] in D; lra.
  - destruct (task_body_bounds _ _ _ _ _ _ _ (fun _ _ => 0) S) as (c & Ec & _ & K). exists (fun _ _ => 0), c. split; [exact Ec|]. apply K. rewrite LL.
    intros k w b x Hk Hb. destruct k as [|k]; [|destruct k; discriminate Hk]. cbn in Hk. injection Hk as <-. unfold body_bounds in Hb. rewrite G8 in Hb. cbn in Hb. injection Hb as <-.
    unfold base_from_body, frame. cbn [nth_error]. rewrite G8. cbn [option_map fst snd Nat.add]. change (lp_model ex_loop) with ex_state. fold bx by_ dx dy. rewrite EX1, EY1, EU1, EW1, TH. unfold within, rot2, in_frame. rewrite cos_0, sin_0.
    destruct x; cbn; lra.
Qed.
Theorem loop_case : well_posed Whole 100 (fun _ => ex_sol) ex_loop /\ default_masses ex_loop /\ gentle ex_bounds ex_loop /\ slow ex_bounds (fun _ => 0) ex_loop /\
  exists s', consecutive ex_junk ex_bounds Whole 100 (fun _ => ex_sol) ex_loop 0 ex_loop s' /\
    obeys_velocity s' ex_sol /\ obeys_acceleration s' ex_sol /\ obeys_cop s' ex_sol /\ obeys_body s' ex_sol.
Proof.
  split; [exact ex_well_posed|]. split; [split; reflexivity|]. split; [|split].
  - intros x. unfold within. destruct x; cbn; lra.
  - intros x. destruct x; cbn; lra.
  - destruct ex_first as (s' & C). exists s'. split; [exact C|exact (ex_obeys s' C)].
Qed.

(** ** between the sampling instants the velocity can leave its bounds *)
Theorem velocity_between_refuted : exists junk r shift sols s0 n s s' x tau y, well_posed Whole shift sols s0 /\ consecutive junk r Whole shift sols s0 n s s' /\
  gentle r s /\ slow r (fun _ => 0) s /\ obeys_velocity s' (sols n) /\ obeys_acceleration s' (sols n) /\
  0 <= tau <= seconds (sampling_ms (mg_par (lp_mg s0))) /\
  moved3 (base_of s x) y (vel_jerk (base_of s x) (base_command (sols n) 0 x) (seconds (sampling_ms (mg_par (lp_mg s0))))) tau /\
  upper_bound (rb_velocity r) x < vy y.
Proof.
  destruct loop_case as (W & _ & G & S & s' & C & O1 & O2 & _).
  exists ex_junk, ex_bounds, 100%Z, (fun _ => ex_sol), ex_loop, 0%nat, ex_loop, s', AxisX, (1 / 20), (V3 (motion_position 0 1 (1 / 2) (-10) (1 / 20)) (motion_velocity 1 (1 / 2) (-10) (1 / 20)) (motion_acceleration (1 / 2) (-10) (1 / 20))).
  split; [exact W|]. split; [exact C|]. split; [exact G|]. split; [exact S|]. split; [exact O1|]. split; [exact O2|].
  unfold seconds. cbn [ex_loop lp_mg mg_new mg_par ex_par sampling_ms]. split; [lra|]. split.
  - assert (J : vel_jerk (base_of ex_loop AxisX) (base_command ex_sol 0 AxisX) (IZR 100 / 1000) = -10) by (unfold vel_jerk, base_of, along_axis, base_command; cbn; lra).
    rewrite J. repeat split.
  - unfold motion_velocity. cbn. lra.
Qed.

(** ** an update that returned STOPPED leaves the matrices of an older problem, and a solution is accepted *)
Theorem stopped_refuted : exists junk r p model x y sol, proper p /\ valid_queue (as_queue x) /\ valid_queue (as_queue y) /\
  forall W, exists g s s', mg_run junk r W 0 [CallUpdate x model; CallNextOf sol model; CallUpdate y model; CallNextOf sol model] (mg_new p) =
    ([(CallUpdate x model, Status true); (CallNextOf sol model, State s); (CallUpdate y model, Status false); (CallNextOf sol model, State s')], g).
Proof.
  exists ex_junk, ex_bounds, ex_par, ex_state, (Queue ex_motions), (Queue []), ex_sol.
  assert (PP : proper ex_par) by (split; cbn; lia). assert (V : valid_queue (as_queue (Queue ex_motions))) by apply ex_well_posed.
  split; [exact PP|]. split; [exact V|]. split; [constructor|]. intros W.
  destruct (form_motions_defined ex_par (view_of ex_bounds ex_state) (Queue ex_motions) [] PP V) as (b & l & EF & Hb).
  assert (b = true) by (apply Hb; right; cbn; lia). subst b. destruct (form_motions_horizon _ _ _ _ _ PP V EF) as (FH & v & m & Hv & _).
  destruct (solved_exists ex_junk 1 l ex_state ex_sol ltac:(lia) FH eq_refl eq_refl) as (M & p & S & _). pose proof S as (_ & _ & _ & _ & EM & EP).
  destruct (solved_next_state _ _ _ _ _ _ _ v S Hv) as (s & ES & _).
  assert (EL : vector_resize default_interval l 1 = l).
  { destruct FH as (L & _). cbn in L. destruct l as [|w [|w' l']]; try discriminate L. reflexivity. }
  do 3 eexists. cbn [mg_run]. rewrite do_update. unfold mg_update at 1. cbn [mg_par mg_new mg_horizon]. rewrite EF. cbn [bind fst snd]. change (horizon_length ex_par) with 1%nat. rewrite EM. cbn [bind reply fst snd].
  rewrite do_next_of. cbn [mg_parsed]. unfold mg_parse at 1. cbn [mg_size mg_matrices mg_par mg_horizon]. rewrite EP. cbn [bind mg_horizon mg_profiles]. rewrite ES. cbn [reply].
  rewrite do_update. unfold mg_update at 1. cbn [form_motions mg_par mg_horizon]. unfold form_queue. change (horizon_length ex_par) with 1%nat. rewrite EL. cbn [form_loop bind fst snd reply].
  rewrite do_next_of. cbn [mg_parsed mg_size mg_matrices mg_par mg_horizon]. unfold mg_parse at 1. cbn [mg_size mg_matrices mg_par mg_horizon]. rewrite EP. cbn [bind mg_horizon mg_profiles]. rewrite ES. cbn [reply]. reflexivity.
Qed.

(** ** parameters changed between the update and a query: the state of the base is taken for the state of the body *)
Definition far_state : pepper_state :=
  mkPS (mkPM (V3 0 0 (1 / 10)) (V3 0 0 0) (V3 0 0 0)) (V3 0 0 0) (mkPM (V3 5 0 (7 / 10)) (V3 0 0 0) (V3 0 0 0)) default_base_mass default_body_mass.
Definition far_sol : solution := mkSolution (structure_pepper 2) [0; 0; 0; 0; 0; 0; 0; 0].
Definition far_par : mpc_parameters := mkParams 2 100.
Lemma still x y j T : x = V3 (vx x) 0 0 -> j = 0 -> moved3 x y j T -> y = x.
Proof. intros E -> (A & B & C). rewrite E in *. destruct y as [y1 y2 y3]. unfold motion_position, motion_velocity, motion_acceleration in *. cbn in *. f_equal; lra. Qed.
Theorem settings_refuted : exists junk r p p' model x sol, proper p /\ proper p' /\ valid_queue (as_queue x) /\ fits_problem (horizon_length p) sol /\
  forall W, exists g s s', mg_run junk r W 0 [CallUpdate x model; CallParse sol; CallStateMs model 150; CallSet p'; CallStateMs model 150] (mg_new p) =
    ([(CallUpdate x model, Status true); (CallParse sol, Done); (CallStateMs model 150, State s); (CallSet p', Done); (CallStateMs model 150, State s')], g) /\
  vx (pm_position (ps_body s)) <> vx (pm_position (ps_body s')).
Proof.
  exists ex_junk, ex_bounds, far_par, ex_par, far_state, (Queue ex_motions), far_sol.
  assert (PP : proper far_par) by (split; cbn; lia). assert (V : valid_queue (as_queue (Queue ex_motions))) by apply ex_well_posed.
  split; [exact PP|]. split; [split; cbn; lia|]. split; [exact V|]. split; [split; reflexivity|]. intros W.
  destruct (form_motions_defined far_par (view_of ex_bounds far_state) (Queue ex_motions) [] PP V) as (b & l & EF & Hb).
  assert (b = true) by (apply Hb; right; cbn; lia). subst b. destruct (form_motions_horizon _ _ _ _ _ PP V EF) as (FH & _).
  pose proof EF as EF'. cbn [form_motions] in EF'. destruct (form_queue_intervals _ _ _ _ _ PP V EF') as (theta & _ & L & I). cbn [far_par horizon_length] in L, I.
  destruct (I 0%nat ltac:(lia)) as (v0 & m0 & Hv0 & _ & (F0 & F0' & _) & _). destruct (I 1%nat ltac:(lia)) as (v & m & Hv & _ & (F1 & F2 & _) & _). cbn [far_par sampling_ms] in F0, F0', F1, F2. clear I.
  destruct l as [|w0 [|w1 [|w2 l]]]; try discriminate L. cbn in Hv0, Hv. injection Hv0 as ->. injection Hv as ->. clear L.
  destruct (solved_exists ex_junk 2 [v0; v] far_state far_sol ltac:(lia) FH eq_refl eq_refl) as (M & p & S & SZ). pose proof S as (_ & _ & _ & _ & EM & EP).
  destruct (solved_sizes _ _ _ _ _ _ _ S) as (Z1 & _ & _ & Z4 & Z5).
  assert (B1 : forall a, base_at far_state p 1 a = along_axis (ps_base far_state) a /\ body_at 2 far_state p 1 a = along_axis (ps_body far_state) a).
  { intros a. destruct (profile_motion _ _ _ _ _ _ _ 0 v0 a S eq_refl) as (Q1 & Q2 & Q3). cbn [Nat.add] in Q1, Q2, Q3.
    assert (HT : in_T v0 <> 0) by (rewrite F0'; lra). pose proof (jerk_unique _ _ _ _ _ HT Q1 Q2) as J. split.
    - apply (still _ _ _ _) in Q1; [exact Q1|destruct a; reflexivity|]. rewrite J. unfold vel_jerk, base_command. destruct a; cbn; lra.
    - apply (still _ _ _ _) in Q3; [exact Q3|destruct a; reflexivity|]. unfold body_command. destruct a; reflexivity. }
  assert (B2 : forall a, base_at far_state p 2 a = along_axis (ps_base far_state) a).
  { intros a. destruct (profile_motion _ _ _ _ _ _ _ 1 v a S eq_refl) as (Q1 & Q2 & Q3). cbn [Nat.add] in Q1, Q2, Q3.
    assert (HT : in_T v <> 0) by (rewrite F2; lra). pose proof (jerk_unique _ _ _ _ _ HT Q1 Q2) as J. rewrite (proj1 (B1 a)) in Q1, J.
    apply (still _ _ _ _) in Q1; [exact Q1|destruct a; reflexivity|]. rewrite J. unfold vel_jerk, base_command. destruct a; cbn; lra. }
  destruct (solved_model_state _ _ _ _ _ _ _ 1 v (INR 50 / 1000) S eq_refl) as (s & ES & K & _). destruct (K AxisX) as (_ & KX). rewrite (proj2 (B1 AxisX)) in KX.
  apply (still _ _ _ _) in KX; [|reflexivity|reflexivity].
  assert (E' : exists s', getModelState 1 [v0; v] p far_state 1 (INR 50 / 1000) = Ok s' /\ vx (pm_position (ps_body s')) = 0).
  { unfold getModelState, interval_at, vec_at. cbn [nth_error bind Nat.eqb Nat.sub]. rewrite (segment_ok (pp_cstate p)) by (rewrite Z1; cbn; lia). cbn [bind]. rewrite (segment_ok (pp_cstate p)) by (rewrite Z1; cbn; lia). cbn [bind].
    rewrite !(segment_ok (pp_base_controls p)) by (rewrite Z4; cbn; lia). rewrite !(segment_ok (pp_body_controls p)) by (rewrite Z5; cbn; lia). cbn [bind].
    change ((1 * 12 / 2 + 0 * 12 / 2)%nat) with (0 + 6 * 1)%nat. change ((0 * 12 / 2)%nat) with (0 + 6 * 0)%nat. change (12 / 2)%nat with 6%nat. unfold getNextState.
    set (X := vcat _ _). set (cu := mkVec 2 (fun i => vget (pp_base_controls p) (0 + i))). set (cw := mkVec 2 (fun i => vget (pp_body_controls p) (0 + i))).
    destruct (evaluate_moves (in_T v) (INR 50 / 1000) X cu cw) as (y & EY & _ & Y); [rewrite F2; lra|reflexivity|reflexivity|reflexivity|]. rewrite EY. cbn [bind]. eexists. split; [reflexivity|]. cbn [ps_body].
    destruct (Y AxisX) as (_ & YX). unfold X in YX. rewrite (proj2 (entry_app (mkVec 6 (fun i => vget (pp_cstate p) (0 + 6 * 0 + i))) (mkVec 6 (fun i => vget (pp_cstate p) (0 + 6 * 1 + i))) AxisX eq_refl)) in YX. rewrite segment_entry in YX.
    change (profile_entry (pp_cstate p) 0 1 AxisX) with (base_at far_state p 2 AxisX) in YX. rewrite B2 in YX.
    destruct (solved_steps _ _ _ _ _ _ _ S 0 v0 AxisX eq_refl) as (_ & _ & _ & _ & _ & C2). cbn [Nat.mul Nat.add axis_index] in C2.
    apply (still _ _ _ _) in YX; [|reflexivity|unfold cw; cbn [vget axis_index Nat.add]; rewrite C2; reflexivity].
    change (vx (pm_position (rb_state y 6 (in_body_height v)))) with (vx (vec_entry y 6 AxisX)). rewrite YX. reflexivity. }
  destruct E' as (s' & ES' & HX').
  do 3 eexists. split; [|]; [|].
  { cbn [mg_run mg_do]. unfold mg_update at 1. cbn [mg_par mg_new mg_horizon]. rewrite EF. cbn [bind fst snd]. change (horizon_length far_par) with 2%nat. rewrite EM. cbn [bind reply fst snd].
  cbn [mg_do]. unfold mg_parse at 1. cbn [mg_size mg_matrices mg_par mg_horizon]. rewrite EP. cbn [bind reply].
  assert (EI : getIntervalIndexByTimeOffset_ms (map (fun w => Z.to_nat (in_T_ms w)) [v0; v]) 150 = Ok (1%nat, 50%nat)) by (cbn [map]; rewrite F0, F1; reflexivity).
  cbn [mg_do]. unfold mg_state_ms at 1. cbn [mg_parsed mg_horizon mg_par mg_profiles assert_then]. rewrite EI. cbn [bind fst snd]. change (horizon_length far_par) with 2%nat. rewrite ES. cbn [reply].
  cbn [mg_do mg_setParameters]. unfold mg_state_ms at 1. cbn [mg_parsed mg_horizon mg_par mg_profiles assert_then mg_setParameters]. rewrite EI. cbn [bind fst snd]. change (horizon_length ex_par) with 1%nat. rewrite ES'. cbn [reply]. reflexivity. }
  rewrite HX'. change (vx (pm_position (ps_body s))) with (vx (along_axis (ps_body s) AxisX)). rewrite KX. cbn. lra.
Qed.
