(** * The Pepper motion generator as an object, and the control loop around it
    (/repo/modules/pepper_mpc/include/pepper_mpc/mpc_mg.h, model.h, preview_horizon.h;
     the loops are those of /repo/modules/pepper_mpc/tests/test_000.cpp and test_001_body.h) *)
From Coq Require Import String List Reals Arith Bool ZArith.
From Verif Require Import Base RSum Matrix Mat2 Mat3 Solution PepperPreview MpcGuess PointMass6z PepperModel PepperMpc.
Import ListNotations.
Local Open Scope R_scope.

(** the bounds of RobotParameters which are copied to intervals: CoP, nominal velocity and acceleration of the base, body;
    common.h:40-48 and 103, preview_horizon.h:94-97 *)
Record robot_bounds := mkBounds { rb_cop : m2; rb_velocity : m2; rb_acceleration : m2; rb_body : m2 }.

(** model.h:277-348 and preview_horizon.h:86-111: what an interval reads from a Model with the given state *)
Definition view_of (r : robot_bounds) (s : pepper_state) : pepper_view :=
  mkView (rb_cop r) (rb_velocity r) (rb_acceleration r) (rb_body r) (vz (pm_position (ps_base s))) (vz (pm_position (ps_body s)))
    (ps_base_mass s) (ps_body_mass s) (vz (ps_rpy s)).

(** the template parameter of update, shift and updateAndShift: MotionParameters or a deque of them (mpc_mg.h:379-470) *)
Inductive motions := One (m : motion) | Queue (q : list motion).
(** the overloads preview_horizon.h:165-190 and 202-253 *)
Definition form_motions (p : mpc_parameters) (model : pepper_view) (x : motions) (l : list interval) : outcome (bool * list interval) :=
  match x with One m => form_single p model m l | Queue q => form_queue p model q l end.
(** the overloads mpc_mg.h:450-470 and 478-523 *)
Definition shift_motions (sampling shift : Z) (x : motions) : motions :=
  match x with One m => One (shift_single sampling shift m) | Queue q => Queue (shift_queue sampling shift q) end.

(** mpc_mg.h:22-23, 334-372, control_problem.h:43: mpc_parameters_, solution_is_parsed_, preview_horizon_, sol_structure_ (represented
    by the number of intervals it was built for; an empty structure and [structure_pepper 0] both have no variables), the matrices and
    the profiles *)
Record mg := mkMg { mg_par : mpc_parameters; mg_parsed : bool; mg_horizon : list interval; mg_size : nat;
  mg_matrices : pepper_matrices; mg_profiles : pepper_profiles }.

(** a new Eigen::MatrixXd, mpc_mg.h:22-23, 334-372 *)
Definition mat00 : mat := mzero 0 0.
(** a new Eigen::VectorXd, mpc_mg.h:22-23, 334-372 *)
Definition vec0 : vec := mkVec 0 (fun _ => 0).
(** mpc_mg.h:379-395: the constructors; Eigen objects are empty *)
Definition mg_new (p : mpc_parameters) : mg :=
  mkMg p false [] 0 (mkPM2 mat00 (mzero 0 1) mat00 (mzero 0 1) mat00 (mzero 0 1) mat00 (mzero 0 1) mat00 (mzero 0 1) mat00 (mzero 0 1))
    (mkPP vec0 vec0 vec0 vec0 vec0).
(** mpc_mg.h:402-406 *)
Definition mg_setParameters (p : mpc_parameters) (g : mg) : mg :=
  mkMg p (mg_parsed g) (mg_horizon g) (mg_size g) (mg_matrices g) (mg_profiles g).

(** mpc_mg.h:418-440 *)
Definition mg_update (junk : nat -> nat -> nat -> R) (r : robot_bounds) (x : motions) (model : pepper_state) (g : mg) : outcome (bool * mg) :=
  bind (form_motions (mg_par g) (view_of r model) x (mg_horizon g)) (fun f =>
    if fst f
    then bind (updateMatrices junk (horizon_length (mg_par g)) (snd f) model) (fun M =>
      Ok (true, mkMg (mg_par g) false (snd f) (horizon_length (mg_par g)) M (mg_profiles g)))
    else Ok (false, mkMg (mg_par g) false (snd f) (mg_size g) (mg_matrices g) (mg_profiles g))).
(** mpc_mg.h:537-551: the status, the object, the motions *)
Definition mg_updateAndShift (junk : nat -> nat -> nat -> R) (r : robot_bounds) (x : motions) (model : pepper_state) (shift : Z) (g : mg)
  : outcome (bool * mg * motions) :=
  bind (mg_update junk r x model g) (fun u =>
    Ok (fst u, snd u, if fst u then shift_motions (sampling_ms (mg_par g)) shift x else x)).

(** mpc_mg.h:559-570 *)
Definition mg_parse (sol : solution) (g : mg) : outcome mg :=
  bind (parseSolution (mg_size g) (mg_matrices g) sol) (fun p =>
    Ok (mkMg (mg_par g) true (mg_horizon g) (mg_size g) (mg_matrices g) p)).
(** mpc_mg.h:581-588 *)
Definition mg_next_of (sol : solution) (model : pepper_state) (g : mg) : outcome (pepper_state * mg) :=
  assert_then (negb (mg_parsed g))
    (bind (mg_parse sol g) (fun g' => bind (initializeNextModelState (mg_horizon g') (mg_profiles g') model) (fun s => Ok (s, g')))).
(** mpc_mg.h:598-603 *)
Definition mg_next (model : pepper_state) (g : mg) : outcome pepper_state :=
  assert_then (mg_parsed g) (initializeNextModelState (mg_horizon g) (mg_profiles g) model).
(** mpc_mg.h:658-668; milliseconds *)
Definition mg_state_ms (model : pepper_state) (t : nat) (g : mg) : outcome pepper_state :=
  assert_then (mg_parsed g)
    (bind (getIntervalIndexByTimeOffset_ms (map (fun v => Z.to_nat (in_T_ms v)) (mg_horizon g)) t) (fun io =>
      getModelState (horizon_length (mg_par g)) (mg_horizon g) (mg_profiles g) model (fst io) (INR (snd io) / 1000))).
(** mpc_mg.h:679-689; seconds *)
Definition mg_state_s (model : pepper_state) (t : R) (g : mg) : outcome pepper_state :=
  assert_then (mg_parsed g)
    (bind (getIntervalIndexByTimeOffset_s (map in_T (mg_horizon g)) t) (fun io =>
      getModelState (horizon_length (mg_par g)) (mg_horizon g) (mg_profiles g) model (fst io) (snd io))).

(** ** the loop *)
(** how the next state is obtained: test_000.cpp:143, or test_001_body.h:87-88 for the given subsampling time *)
Inductive advance := Whole | Part (ms : nat).
(** the state of Model, the motions that are left, the controller (the variables of test_001_body.h:64-89) *)
Record loop := mkLoop { lp_model : pepper_state; lp_motions : motions; lp_mg : mg }.

(** test_000.cpp:115-144 and test_001_body.h:69-89: one iteration; [sol] is what the solver returned, [None] is the break.
    model.h:356-361: updateState assigns the state *)
Definition cycle (junk : nat -> nat -> nat -> R) (r : robot_bounds) (a : advance) (shift : Z) (sol : solution) (s : loop) : outcome (option loop) :=
  bind (mg_updateAndShift junk r (lp_motions s) (lp_model s) shift (lp_mg s)) (fun u =>
    if fst (fst u)
    then match a with
      | Whole => bind (mg_next_of sol (lp_model s) (snd (fst u))) (fun n => Ok (Some (mkLoop (fst n) (snd u) (snd n))))
      | Part ms => bind (mg_parse sol (snd (fst u))) (fun g =>
                   bind (mg_state_ms (lp_model s) ms g) (fun n => Ok (Some (mkLoop n (snd u) g))))
      end
    else Ok None).

(** [n] iterations; [sols k] is the answer of the solver in the iteration [k]; [None]: the loop has been left before (test_001_body.h:64-89) *)
Fixpoint after (junk : nat -> nat -> nat -> R) (r : robot_bounds) (a : advance) (shift : Z) (sols : nat -> solution) (s : loop) (n : nat)
  : outcome (option loop) :=
  match n with
  | O => Ok (Some s)
  | S k => bind (after junk r a shift sols s k) (fun o => match o with None => Ok None | Some x => cycle junk r a shift (sols k) x end)
  end.

(** ** calls of the object in any order (mpc_mg.h:379-689) *)
Inductive mg_call :=
| CallSet (p : mpc_parameters)
| CallUpdate (x : motions) (model : pepper_state)
| CallUpdateAndShift (x : motions) (model : pepper_state) (shift : Z)
| CallParse (sol : solution)
| CallNextOf (sol : solution) (model : pepper_state)
| CallNext (model : pepper_state)
| CallStateMs (model : pepper_state) (t : nat)
| CallStateS (model : pepper_state) (t : R).
(** what a call returns, mpc_mg.h:379-689 *)
Inductive mg_answer := Done | Status (ok : bool) | State (s : pepper_state) | Failed.

(** an exception leaves [parseSolution] with some of the profiles assigned: [broken] is whatever they are then (mpc_mg.h:537-551) *)
Definition set_profiles (p : pepper_profiles) (g : mg) : mg := mkMg (mg_par g) (mg_parsed g) (mg_horizon g) (mg_size g) (mg_matrices g) p.
(** an exception in update: solution_is_parsed_ has been reset, [h], [n] and [M] are whatever the horizon, the structure and the matrices are then (mpc_mg.h:418-470) *)
Definition failed_update (h : list interval) (n : nat) (M : pepper_matrices) (g : mg) : mg := mkMg (mg_par g) false h n M (mg_profiles g).
(** the values left by exceptions in mpc_mg.h:418-470, 537-551 *)
Record undetermined := mkUndetermined { un_profiles : pepper_profiles; un_horizon : list interval; un_size : nat; un_matrices : pepper_matrices }.
(** an exception is caught by the caller, humoto_helpers.h:70-87 *)
Definition reply {A} (o : outcome A) (f : A -> mg_answer * mg) (g : mg) : mg_answer * mg := match o with Ok x => f x | _ => (Failed, g) end.
(** the call and its effect, mpc_mg.h:379-689 *)
Definition mg_do (junk : nat -> nat -> nat -> R) (r : robot_bounds) (w : undetermined) (c : mg_call) (g : mg)
  : mg_answer * mg :=
  match c with
  | CallSet p => (Done, mg_setParameters p g)
  | CallUpdate x model => reply (mg_update junk r x model g) (fun u => (Status (fst u), snd u)) (failed_update (un_horizon w) (un_size w) (un_matrices w) g)
  | CallUpdateAndShift x model shift => reply (mg_updateAndShift junk r x model shift g) (fun u => (Status (fst (fst u)), snd (fst u))) (failed_update (un_horizon w) (un_size w) (un_matrices w) g)
  | CallParse sol => reply (mg_parse sol g) (fun g' => (Done, g')) (set_profiles (un_profiles w) g)
  | CallNextOf sol model =>
      reply (mg_next_of sol model g) (fun n => (State (fst n), snd n))
        (if mg_parsed g then g else match mg_parse sol g with Ok g' => g' | _ => set_profiles (un_profiles w) g end)
  | CallNext model => reply (mg_next model g) (fun s => (State s, g)) g
  | CallStateMs model t => reply (mg_state_ms model t g) (fun s => (State s, g)) g
  | CallStateS model t => reply (mg_state_s model t g) (fun s => (State s, g)) g
  end.

(** the object after a sequence of calls, and the answers, in the order of calls; [W k] are the undetermined values in the k-th call (mpc_mg.h:379-689) *)
Fixpoint mg_run (junk : nat -> nat -> nat -> R) (r : robot_bounds) (W : nat -> undetermined) (k : nat)
  (cs : list mg_call) (g : mg) : list (mg_call * mg_answer) * mg :=
  match cs with
  | [] => ([], g)
  | c :: rest =>
      let (a, g') := mg_do junk r (W k) c g in
      let (l, g'') := mg_run junk r W (S k) rest g' in ((c, a) :: l, g'')
  end.
