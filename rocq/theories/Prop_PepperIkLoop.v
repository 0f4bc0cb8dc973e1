(** * Property C100: inverse kinematics of Pepper in a loop. Vocabulary in PepperIkLoopSpec.v, PepperIkSpec.v, PepperIkTasksSpec.v, RbdlSpec.v. *)
From Coq Require Import String List Reals Arith ZArith Lra Lia.
From Verif Require Import Base RSum Matrix Mat3 Constraints ConstraintsSpec ConstraintType Solution Condense SpatialTransform PepperMpc PepperTasksSpec RotarySpec Rotary Euler EulerSpec Rbdl RbdlSpec PepperIk PepperIkSpec PepperIkFacts
  PepperIkExample PepperIkTasks PepperIkTasksSpec PepperIkTasksExample PepperIkLoop PepperIkLoopSpec PepperIkLoopFacts PepperIkLoopRun PepperIkLoopConverge PepperIkLoopWitness PepperIkLoopWitness2.
Import ListNotations.
Local Open Scope R_scope.

(** The loop stops after the first small step, and fails exactly if there is none among the allowed ones *)
Theorem C100_iterations : forall (eig : m3 -> euler_type -> v3) (f : features) (fk : list R -> rb) (tolerance : R) (mp : motion_parameters) (sols : nat -> solution) (maximum : nat) (s : ikloop),
  kinematics f fk -> reachable eig f fk (lk_model s) -> (forall k, answers f (sols k)) ->
  exists st, states f fk mp sols s st /\
    (forall k, reachable eig f fk (lk_model (st k)) /\
       forall i, (i < DOF_NUMBER f)%nat -> nth i (configuration (st k)) 0 = nth i (configuration s) 0 + Rsum k (fun j => nth i (sol_x (sols j)) 0)) /\
    ((exists n, (n < maximum)%nat /\ first_small tolerance sols n /\ ik_iterations f fk tolerance mp sols maximum 0 s = Ok (S n, st (S n))) \/
     ((forall k, (k < maximum)%nat -> ~ small tolerance (sols k)) /\ ik_iterations f fk tolerance mp sols maximum 0 s = Throw)).
Proof. exact loop_iterations. Qed.
(** Limits of joints: the bounds hold exactly if the next state is within the limits *)
Theorem C100_limits : forall (eig : m3 -> euler_type -> v3) (f : features) (fk : list R -> rb) (mp : motion_parameters) (sols : nat -> solution) (s : ikloop) (st : nat -> ikloop) (k : nat),
  kinematics f fk -> reachable eig f fk (lk_model s) -> (forall k, answers f (sols k)) -> states f fk mp sols s st ->
  (obeys_bounds f mp (st k) (sols k) <-> within_limits f (ik_gc (lk_model (st (S k))))) /\
  (obeys_bounds f mp (st k) (sols k) -> checkCurrentState (lk_model (st (S k))) = Ok tt).
Proof. exact loop_limits. Qed.
(** The error with respect to the reference configuration *)
Theorem C100_reference : forall (eig : m3 -> euler_type -> v3) (f : features) (fk : list R -> rb) (mp : motion_parameters) (sols : nat -> solution) (s : ikloop) (st : nat -> ikloop)
  (gain kp : R) (reference : list R) (n : nat),
  kinematics f fk -> reachable eig f fk (lk_model s) -> (forall k, answers f (sols k)) -> states f fk mp sols s st ->
  length reference = JOINTS_DOF_NUMBER -> gain <> 0 -> (forall k, (k < n)%nat -> obeys_reference f gain kp reference mp (st k) (sols k)) ->
  forall j, angle f (ik_gc (lk_model (st n))) j - angle_in f reference j = (1 - kp) ^ n * (angle f (ik_gc (lk_model s)) j - angle_in f reference j).
Proof. exact loop_reference. Qed.
Theorem C100_compatible : forall (eig : m3 -> euler_type -> v3) (f : features) (fk : list R -> rb) (mp : motion_parameters) (sols : nat -> solution) (s : ikloop) (st : nat -> ikloop)
  (gain kp : R) (reference : list R) (k : nat),
  kinematics f fk -> reachable eig f fk (lk_model s) -> (forall k, answers f (sols k)) -> states f fk mp sols s st ->
  length reference = JOINTS_DOF_NUMBER -> gain <> 0 -> 0 <= kp <= 1 -> (forall j, lower_limit j <= angle_in f reference j <= upper_limit j) ->
  within_limits f (ik_gc (lk_model (st k))) -> obeys_reference f gain kp reference mp (st k) (sols k) -> obeys_bounds f mp (st k) (sols k).
Proof. exact loop_compatible. Qed.
(** If only the reference configuration has to be reached, the loop stops close to it *)
Theorem C100_converges : forall (eig : m3 -> euler_type -> v3) (f : features) (fk : list R -> rb) (mp : motion_parameters) (sols : nat -> solution) (s : ikloop) (st : nat -> ikloop)
  (gain kp tolerance : R) (reference : list R),
  kinematics f fk -> reachable eig f fk (lk_model s) -> (forall k, answers f (sols k)) -> states f fk mp sols s st ->
  length reference = JOINTS_DOF_NUMBER -> gain <> 0 -> 0 < kp < 2 -> 0 < tolerance ->
  (forall k, obeys_reference f gain kp reference mp (st k) (sols k)) -> (forall k i, (i < ROOT_DOF_NUMBER f)%nat -> nth i (sol_x (sols k)) 0 = 0) ->
  exists n, first_small tolerance sols n /\
    (forall j, Rabs (angle f (ik_gc (lk_model (st (S n)))) j - angle_in f reference j) <= Rabs (1 - kp) / kp * tolerance) /\
    forall maximum, (n < maximum)%nat -> ik_iterations f fk tolerance mp sols maximum 0 s = Ok (S n, st (S n)).
Proof. exact loop_converges. Qed.
(** When the loop stops, the errors of the tasks are small *)
Theorem C100_stopped_base_com : forall (eig : m3 -> euler_type -> v3) (f : features) (fk : list R -> rb) (gain k tolerance : R) (old : mat) (m : ikmodel) (w : wbc) (c : constr) (sol : solution),
  kinematics f fk -> reachable eig f fk m -> prepared f w -> answers f sol -> small tolerance sol -> gain <> 0 ->
  form_baseCoM f gain k old (w_structure w) m w = Ok c -> satisfies c (point sol) ->
  exists J P, getBaseCoMJacobian old m = Ok J /\ getBaseCoM m = Ok P /\
    forall i, (i < match f with ROOT_PLANAR => 2 | _ => 3 end)%nat ->
      Rabs (k * (component i (mp_base_com (w_motion w)) - component i P)) <= tolerance * row_norm J i.
Proof. exact stopped_base_com. Qed.
Theorem C100_stopped_base_orientation : forall (eig : m3 -> euler_type -> v3) (f : features) (fk : list R -> rb) (gain k tolerance : R) (m : ikmodel) (w : wbc) (c : constr) (sol : solution),
  kinematics f fk -> reachable eig f fk m -> prepared f w -> answers f sol -> small tolerance sol -> gain <> 0 ->
  form_baseOrientation f gain k (w_structure w) m w = Ok c -> satisfies c (point sol) ->
  exists J O e, getBaseOrientationJacobian m = Ok J /\ getBaseOrientation m = Ok O /\ orientation_error O (rotation_zyx (mp_base_rpy (w_motion w))) e /\
    forall i, (i < 3)%nat -> f <> ROOT_PLANAR \/ i = 2%nat -> Rabs (k * component i e) <= tolerance * row_norm J i.
Proof. exact stopped_base_orientation. Qed.
Theorem C100_stopped_body_com : forall (eig : m3 -> euler_type -> v3) (f : features) (fk : list R -> rb) (gain k tolerance : R) (flag : Z) (old : mat) (m : ikmodel) (w : wbc) (c : constr) (sol : solution),
  kinematics f fk -> reachable eig f fk m -> prepared f w -> answers f sol -> small tolerance sol -> gain <> 0 ->
  form_bodyCoM gain k flag old (w_structure w) m w = Ok c -> satisfies c (point sol) ->
  exists o J P, getBodyCoMJacobian o m = Ok J /\ getBodyCoM m = Ok P /\
    forall i, In i (selected_axes flag) -> Rabs (k * (component i (mp_body_com (w_motion w)) - component i P)) <= tolerance * row_norm J i.
Proof. exact stopped_body_com. Qed.
(** A control interval, and any number of them *)
Theorem C100_interval : forall (eig : m3 -> euler_type -> v3) (f : features) (fk : list R -> rb) (p : wbc_parameters) (mp : motion_parameters) (sols : nat -> solution) (s : ikloop),
  kinematics f fk -> reachable eig f fk (lk_model s) -> (forall k, answers f (sols k)) -> wp_interval p <> 0 ->
  exists m1 st, saveCurrentState (lk_model s) = Ok m1 /\ states f fk mp sols (mkIkloop m1 (lk_wbc s)) st /\
    (forall k, reachable eig f fk (lk_model (st k))) /\ ik_gc m1 = ik_gc (lk_model s) /\
    ((exists n c, (n < wp_iterations p)%nat /\ first_small (wp_tolerance p) sols n /\ getRobotCommand (wp_interval p) (lk_model (st (S n))) = Ok c /\
        ik_interval f fk p mp sols s = Ok (c, st (S n))) \/
     (ik_interval f fk p mp sols s = Throw /\
      ((forall k, (k < wp_iterations p)%nat -> ~ small (wp_tolerance p) (sols k)) \/
       exists n, (n < wp_iterations p)%nat /\ first_small (wp_tolerance p) sols n /\ getRobotCommand (wp_interval p) (lk_model (st (S n))) = Throw))).
Proof. exact loop_interval. Qed.
Theorem C100_intervals : forall (eig : m3 -> euler_type -> v3) (f : features) (fk : list R -> rb) (p : wbc_parameters) (mps : nat -> motion_parameters) (sols : nat -> nat -> solution)
  (n : nat) (s s' : ikloop) (cs : list command),
  kinematics f fk -> reachable eig f fk (lk_model s) -> (forall i k, answers f (sols i k)) -> wp_interval p <> 0 ->
  ik_intervals f fk p mps sols n s = Ok (cs, s') ->
  length cs = n /\ exists st P, st 0%nat = s /\ st n = s' /\
    (forall i, (i <= n)%nat -> reachable eig f fk (lk_model (st i)) /\ getBasePosition (lk_model (st i)) = Ok (P i)) /\
    (forall i c, nth_error cs i = Some c -> executes f fk (wp_interval p) c (st i) (st (S i)) (P i) (P (S i))) /\
    forall c0, vx (P n) = vx (P 0%nat) + wp_interval p * Rsum n (fun i => vx (cmd_base (nth i cs c0))) /\
               vy (P n) = vy (P 0%nat) + wp_interval p * Rsum n (fun i => vy (cmd_base (nth i cs c0))).
Proof. exact loop_intervals. Qed.
(** Calls in any order *)
Theorem C100_once : forall (f : features) (l : list wbc_call) (w : wbc) (sol : solution) (m : ikmodel),
  w_parsed w = false -> sized f (ik_gc m) -> answers f sol ->
  exists a, snd (wbc_calls f (l ++ [WCNext sol m]) w) = snd (wbc_calls f l w) ++ [(WCNext sol m, a)] /\
    (given_since l -> a = Throw) /\
    (~ given_since l -> exists g, a = Ok (Some g) /\ sized f g /\ forall i, (i < DOF_NUMBER f)%nat -> nth i (asVector g) 0 = nth i (asVector (ik_gc m)) 0 + nth i (sol_x sol) 0).
Proof. exact calls_once. Qed.

(** a case which meets the hypotheses: the head turns by 0.05 in the first iteration, the command is given after the second one *)
Example C100_case : exists m w mp m1 st c, reachable (fun _ _ => v3zero) ROOT_PLANAR ex_pepper m /\ kinematics ROOT_PLANAR ex_pepper /\ (forall k, answers ROOT_PLANAR (ex_sols 0.05 k)) /\
  saveCurrentState m = Ok m1 /\ states ROOT_PLANAR ex_pepper mp (ex_sols 0.05) (mkIkloop m1 w) st /\
  (forall k, obeys_bounds ROOT_PLANAR mp (st k) (ex_sols 0.05 k)) /\ first_small 1e-2 (ex_sols 0.05) 1 /\
  ik_interval ROOT_PLANAR ex_pepper wbc_parameters_default mp (ex_sols 0.05) (mkIkloop m w) = Ok (c, st 2%nat).
Proof.
  destruct (ex_rest (fun _ _ => v3zero)) as (m & RC & REST). set (mp := mkMP v3zero v3zero v3zero). set (w := mkWbc false 0 mp [] [] structure_reset).
  assert (A : Rabs 0.05 = 0.05) by (apply Rabs_pos_eq; lra).
  destruct (turn_interval _ m w mp 0.05 RC REST ltac:(lra)) as (m1 & st & ES & ST & OB & (c & E) & _); [lra|].
  exists m, w, mp, m1, st, c. split; [exact RC|]. split; [exact pepper_kinematics|]. split; [apply ex_sols_answers|]. split; [exact ES|]. split; [exact ST|].
  split; [exact OB|]. split; [apply ex_first; lra|exact E].
Qed.
(** another case: in each iteration the head makes half of the way to its reference; the loop stops after four iterations *)
Example C100_reference_case : exists m w mp st, reachable (fun _ _ => v3zero) ROOT_PLANAR ex_pepper m /\ states ROOT_PLANAR ex_pepper mp (ex_halves 0.1) (mkIkloop m w) st /\
  (forall k, answers ROOT_PLANAR (ex_halves 0.1 k)) /\ length (ex_reference 0.1) = JOINTS_DOF_NUMBER /\
  (forall k, obeys_reference ROOT_PLANAR 1 (1 / 2) (ex_reference 0.1) mp (st k) (ex_halves 0.1 k)) /\
  (forall k i, (i < ROOT_DOF_NUMBER ROOT_PLANAR)%nat -> nth i (sol_x (ex_halves 0.1 k)) 0 = 0) /\
  ik_iterations ROOT_PLANAR ex_pepper 1e-2 mp (ex_halves 0.1) 10 0 (mkIkloop m w) = Ok (4%nat, st 4%nat).
Proof.
  destruct (ex_rest (fun _ _ => v3zero)) as (m & RC & REST). set (mp := mkMP v3zero v3zero v3zero). set (w := mkWbc false 0 mp [] [] structure_reset).
  destruct (states_exist (fun _ _ => v3zero) ROOT_PLANAR ex_pepper mp (ex_halves 0.1) (mkIkloop m w) pepper_kinematics RC (fun k => ex_turn_answers _)) as (ST & _).
  destruct (halves_obey _ m w mp 0.1 _ RC REST ST) as (A & B & C & D & E).
  exists m, w, mp, (st_of ROOT_PLANAR ex_pepper mp (ex_halves 0.1) (mkIkloop m w)). split; [exact RC|]. split; [exact ST|]. split; [exact A|]. split; [exact B|]. split; [exact C|]. split; [exact D|].
  apply E; [reflexivity|lia].
Qed.

(** The bounds do not limit the speeds of joints: they hold in all iterations, the loop stops, but there is no command *)
Theorem C100_speed_refuted : ~ forall eig f fk p mp sols s m1 st n,
  kinematics f fk -> reachable eig f fk (lk_model s) -> within_limits f (ik_gc (lk_model s)) -> (forall k, answers f (sols k)) -> 0 < wp_interval p ->
  saveCurrentState (lk_model s) = Ok m1 -> states f fk mp sols (mkIkloop m1 (lk_wbc s)) st ->
  (forall k, obeys_bounds f mp (st k) (sols k)) -> (n < wp_iterations p)%nat -> first_small (wp_tolerance p) sols n ->
  exists c s', ik_interval f fk p mp sols s = Ok (c, s').
Proof. exact speed_not_bounded. Qed.
Print Assumptions C100_speed_refuted.

Print Assumptions C100_iterations. Print Assumptions C100_limits. Print Assumptions C100_reference. Print Assumptions C100_compatible. Print Assumptions C100_converges. Print Assumptions C100_stopped_base_com. Print Assumptions C100_stopped_base_orientation. Print Assumptions C100_stopped_body_com. Print Assumptions C100_interval. Print Assumptions C100_intervals. Print Assumptions C100_once. Print Assumptions C100_speed_refuted.
