(** * Property C98: the Pepper motion generator in a loop. Vocabulary in PepperLoopSpec.v, PepperPreviewSpec.v, PepperMpcSpec.v, PepperTasksSpec.v. *)
From Coq Require Import String List Reals Arith ZArith.
From Verif Require Import Base Matrix Mat2 Mat3 PointMass6z PointMass6zSpec TripleIntegratorSpec Solution Constraints ConstraintsSpec PepperPreview PepperPreviewSpec
  MpcGuess PepperModel PepperMpc PepperMpcSpec PepperMpcFacts2 PepperTasks PepperTasksSpec PepperLoop PepperLoopSpec PepperLoopFacts PepperLoopFacts2 PepperLoopFacts3.
Import ListNotations.
Local Open Scope R_scope.

(** The loop does not fail, and the number of its iterations is determined by the motions *)
Theorem C98_iterations : forall (junk : nat -> nat -> nat -> R) (r : robot_bounds) (a : advance) (shift : Z) (sols : nat -> solution) (s0 : loop) (n : nat),
  well_posed a shift sols s0 ->
  let p := mg_par (lp_mg s0) in let q := as_queue (lp_motions s0) in
  exists o, after junk r a shift sols s0 n = Ok o /\
    (o <> None <-> n = 0%nat \/ endless q \/ (Z.of_nat (horizon_length p) * sampling_ms p + Z.of_nat (n - 1) * shift <= total q)%Z).
Proof. exact loop_defined. Qed.
(** Each iteration moves the robot as commanded *)
Theorem C98_motion : forall (junk : nat -> nat -> nat -> R) (r : robot_bounds) (a : advance) (shift : Z) (sols : nat -> solution) (s0 : loop) (n : nat) (s s' : loop),
  well_posed a shift sols s0 ->
  consecutive junk r a shift sols s0 n s s' ->
  let p := mg_par (lp_mg s0) in let T := seconds (sampling_ms p) in let t := seconds (step_ms (sampling_ms p) a) in
  exists velocity position w, commanded (as_queue (lp_motions s0)) (Z.of_nat n * shift + sampling_ms p - 1) = Some (velocity, position, w) /\
  (forall x, moved3 (base_of s x) (base_of s' x) (vel_jerk (base_of s x) (base_command (sols n) 0 x) T) t /\
             moved3 (body_of s x) (body_of s' x) (body_command (horizon_length p) (sols n) 0 x) t) /\
  heading_of s' = heading_of s + w * t /\ base_height_of s' = base_height_of s /\ body_height_of s' = body_height_of s.
Proof. exact loop_moves. Qed.
Theorem C98_heading : forall (junk : nat -> nat -> nat -> R) (r : robot_bounds) (a : advance) (shift : Z) (sols : nat -> solution) (s0 : loop) (n : nat) (s : loop),
  well_posed a shift sols s0 ->
  after junk r a shift sols s0 n = Ok (Some s) ->
  let p := mg_par (lp_mg s0) in
  heading_of s = heading_of s0 + turned (fun k => angular_at (as_queue (lp_motions s0)) (Z.of_nat k * shift + sampling_ms p - 1)) (seconds (step_ms (sampling_ms p) a)) n.
Proof. exact loop_heading. Qed.
Theorem C98_heights : forall (junk : nat -> nat -> nat -> R) (r : robot_bounds) (a : advance) (shift : Z) (sols : nat -> solution) (s0 : loop) (n : nat) (s : loop),
  well_posed a shift sols s0 ->
  after junk r a shift sols s0 n = Ok (Some s) -> base_height_of s = base_height_of s0 /\ body_height_of s = body_height_of s0 /\ ((0 < n)%nat -> default_masses s).
Proof. exact loop_heights. Qed.
(** The states at the ends of iterations respect the bounds *)
Theorem C98_bounds : forall (junk junk' : nat -> nat -> nat -> R) (r : robot_bounds) (shift : Z) (sols : nat -> solution) (s0 : loop) (n : nat) (s s' : loop),
  well_posed Whole shift sols s0 ->
  consecutive junk r Whole shift sols s0 n s s' ->
  (obeys_velocity s' (sols n) -> forall x, within (rb_velocity r) x (vy (base_of s' x))) /\
  (obeys_acceleration s' (sols n) -> forall x, within (rb_acceleration r) x (vz (base_of s' x))) /\
  (obeys_body s' (sols n) -> forall x, within (rb_body r) x (base_offset s' x)) /\
  (obeys_cop s' (sols n) -> (0 < n)%nat \/ default_masses s0 -> exists c, getCoP junk' (lp_model s') = Ok c /\ forall x, within (rb_cop r) x (vget c (axis_index x))).
Proof. exact loop_bounds. Qed.
(** With subsampling: the acceleration stays within its bounds, the velocity exceeds them at most by a constant *)
Theorem C98_subsampled_acceleration : forall (junk : nat -> nat -> nat -> R) (r : robot_bounds) (a : advance) (shift : Z) (sols : nat -> solution) (s0 : loop) (n : nat) (s : loop),
  well_posed a shift sols s0 ->
  after junk r a shift sols s0 n = Ok (Some s) -> gentle r s0 -> obeyed obeys_acceleration junk r a shift sols s0 n -> gentle r s.
Proof. exact loop_gentle. Qed.
Theorem C98_subsampled_velocity : forall (junk : nat -> nat -> nat -> R) (r : robot_bounds) (a : advance) (shift : Z) (sols : nat -> solution) (s0 : loop) (n : nat) (s : loop),
  well_posed a shift sols s0 ->
  after junk r a shift sols s0 n = Ok (Some s) -> gentle r s0 -> obeyed obeys_acceleration junk r a shift sols s0 n -> obeyed obeys_velocity junk r a shift sols s0 n ->
  let p := mg_par (lp_mg s0) in let e := fun x => acceleration_range r x * (seconds (sampling_ms p) - seconds (step_ms (sampling_ms p) a)) in
  slow r e s0 -> slow r e s.
Proof. exact loop_slow. Qed.
(** Between the sampling instants *)
Theorem C98_between : forall (junk : nat -> nat -> nat -> R) (r : robot_bounds) (a : advance) (shift : Z) (sols : nat -> solution) (s0 : loop) (n : nat) (s s' : loop),
  well_posed a shift sols s0 ->
  consecutive junk r a shift sols s0 n s s' -> gentle r s -> obeys_acceleration s' (sols n) ->
  let T := seconds (sampling_ms (mg_par (lp_mg s0))) in
  forall x tau y, 0 <= tau <= T -> moved3 (base_of s x) y (vel_jerk (base_of s x) (base_command (sols n) 0 x) T) tau ->
  within (rb_acceleration r) x (vz y) /\
  (slow r (fun _ => 0) s -> obeys_velocity s' (sols n) ->
   lower_bound (rb_velocity r) x - acceleration_range r x * T / 4 <= vy y <= upper_bound (rb_velocity r) x + acceleration_range r x * T / 4).
Proof. exact loop_between. Qed.
(** The order of calls *)
Theorem C98_guarded : forall (junk : nat -> nat -> nat -> R) (r : robot_bounds) (W : nat -> undetermined) (p : mpc_parameters) (calls : list mg_call) (h : list (mg_call * mg_answer)) (g : mg),
  mg_run junk r W 0 calls (mg_new p) = (h, g) ->
  forall h1 c s h2, h = h1 ++ (c, State s) :: h2 -> (needs_parsed c -> given_since h1) /\ ((exists sol m, c = CallNextOf sol m) -> ~ parsed_since h1).
Proof. exact guarded. Qed.
Theorem C98_same_answer : forall (junk : nat -> nat -> nat -> R) (r : robot_bounds) (x : motions) (model : pepper_state) (g g1 : mg) (sol : solution),
  proper (mg_par g) -> valid_queue (as_queue x) -> mg_update junk r x model g = Ok (true, g1) ->
  (fits_problem (horizon_length (mg_par g)) sol -> exists g2 s, mg_parse sol g1 = Ok g2 /\ mg_next_of sol model g1 = Ok (s, g2) /\ mg_next model g2 = Ok s /\
     mg_next_of sol model g2 = Throw /\ mg_next model g1 = Throw /\ (forall t, mg_state_ms model t g1 = Throw) /\ (forall t, mg_state_s model t g1 = Throw)) /\
  (length (sol_x sol) <> (4 * horizon_length (mg_par g))%nat -> mg_parse sol g1 = Throw /\ mg_next_of sol model g1 = Throw).
Proof. exact same_answer. Qed.

(** a loop which meets the hypotheses: the base moves with the largest velocity and accelerates *)
Example C98_case : well_posed Whole 100 (fun _ => ex_sol) ex_loop /\ default_masses ex_loop /\ gentle ex_bounds ex_loop /\ slow ex_bounds (fun _ => 0) ex_loop /\
  exists s', consecutive ex_junk ex_bounds Whole 100 (fun _ => ex_sol) ex_loop 0 ex_loop s' /\
    obeys_velocity s' ex_sol /\ obeys_acceleration s' ex_sol /\ obeys_cop s' ex_sol /\ obeys_body s' ex_sol.
Proof. exact loop_case. Qed.

(** Between the sampling instants the velocity can leave its bounds *)
Theorem C98_between_refuted : exists junk r shift sols s0 n s s' x tau y, well_posed Whole shift sols s0 /\ consecutive junk r Whole shift sols s0 n s s' /\
  gentle r s /\ slow r (fun _ => 0) s /\ obeys_velocity s' (sols n) /\ obeys_acceleration s' (sols n) /\
  0 <= tau <= seconds (sampling_ms (mg_par (lp_mg s0))) /\
  moved3 (base_of s x) y (vel_jerk (base_of s x) (base_command (sols n) 0 x) (seconds (sampling_ms (mg_par (lp_mg s0))))) tau /\
  upper_bound (rb_velocity r) x < vy y.
Proof. exact velocity_between_refuted. Qed.
(** After an update which returned STOPPED a solution of an older problem is accepted *)
Theorem C98_stopped_refuted : exists junk r p model x y sol, proper p /\ valid_queue (as_queue x) /\ valid_queue (as_queue y) /\
  forall W, exists g s s', mg_run junk r W 0 [CallUpdate x model; CallNextOf sol model; CallUpdate y model; CallNextOf sol model] (mg_new p) =
    ([(CallUpdate x model, Status true); (CallNextOf sol model, State s); (CallUpdate y model, Status false); (CallNextOf sol model, State s')], g).
Proof. exact stopped_refuted. Qed.
(** Parameters which are changed after the update change the answers *)
Theorem C98_settings_refuted : exists junk r p p' model x sol, proper p /\ proper p' /\ valid_queue (as_queue x) /\ fits_problem (horizon_length p) sol /\
  forall W, exists g s s', mg_run junk r W 0 [CallUpdate x model; CallParse sol; CallStateMs model 150; CallSet p'; CallStateMs model 150] (mg_new p) =
    ([(CallUpdate x model, Status true); (CallParse sol, Done); (CallStateMs model 150, State s); (CallSet p', Done); (CallStateMs model 150, State s')], g) /\
  vx (pm_position (ps_body s)) <> vx (pm_position (ps_body s')).
Proof. exact settings_refuted. Qed.

Print Assumptions C98_iterations. Print Assumptions C98_motion. Print Assumptions C98_heading. Print Assumptions C98_heights. Print Assumptions C98_bounds. Print Assumptions C98_subsampled_acceleration. Print Assumptions C98_subsampled_velocity. Print Assumptions C98_between. Print Assumptions C98_guarded. Print Assumptions C98_same_answer. Print Assumptions C98_between_refuted. Print Assumptions C98_stopped_refuted. Print Assumptions C98_settings_refuted.
