(** * Properties C73 (predicted motion, footsteps and CoP of a walk), C74 (state at a time instant) *)
From Coq Require Import String List Reals Arith Lra Lia.
From Verif Require Import Base Matrix Mat2 Mat3 PointMass6z PointMass6zSpec Solution MpcGuess WalkProfiles WalkProfilesSpec WalkProfilesFacts WalkProfilesFacts2.
Import ListNotations.
Local Open Scope R_scope.

(** ** C73 *)
Theorem C73_computed : forall junk N iv Rhs steps Rs support cstate sol, formed_walk N iv Rhs steps Rs support cstate ->
  sol_structure sol = structure_wpg N (length steps) -> length (sol_x sol) = (2 * N + 2 * length steps)%nat ->
  exists M p, walk_solved junk N iv Rhs steps Rs support cstate sol M p /\
  (vlen (wp_cop p) = 2 * N /\ vlen (wp_dcop p) = 2 * N /\ vlen (wp_cstate p) = 6 * N /\ vlen (wp_footpos p) = 2 * length steps)%nat.
Proof. exact walk_total. Qed.
(** the footsteps: each one is the preceding one displaced by the step of the solution *)
Theorem C73_footsteps : forall junk N iv Rhs steps Rs support cstate sol M p j a, walk_solved junk N iv Rhs steps Rs support cstate sol M p -> (j < length steps)%nat ->
  vget (wp_footpos p) (2 * j + axis_index a) = support_after N Rs support sol (j + 1) a.
Proof. exact walk_footpos. Qed.
(** the CoP of an interval: relative to the support at that time *)
Theorem C73_cop : forall junk N iv Rhs steps Rs support cstate sol M p k a, walk_solved junk N iv Rhs steps Rs support cstate sol M p -> (k < N)%nat ->
  vget (wp_cop p) (2 * k + axis_index a) = commanded_cop N steps Rs Rhs support sol k a.
Proof. exact walk_cop. Qed.
(** the states: each interval is the motion of the point mass (C29) with the CoP of the interval *)
Theorem C73_motion : forall junk N iv Rhs steps Rs support cstate sol M p k v, walk_solved junk N iv Rhs steps Rs support cstate sol M p -> nth_error iv k = Some v ->
  same_motion (state_of (cstate_at cstate p (k + 1)) (wi_height v))
    (evaluate (wi_T v) (wi_T v) (wi_height v) (cstate_at cstate p k) (mkVec 2 (fun q => vget (wp_cop p) (2 * k + q)))).
Proof. exact walk_motion. Qed.
Theorem C73_predicted_cop : forall junk N iv Rhs steps Rs support cstate sol M p k v a, walk_solved junk N iv Rhs steps Rs support cstate sol M p -> nth_error iv k = Some v ->
  is_cop (wi_height v) (state_of (cstate_at cstate p (k + 1)) (wi_height v)) a (commanded_cop N steps Rs Rhs support sol k a).
Proof. exact walk_is_cop. Qed.
(** the rate of the CoP *)
Theorem C73_cop_rate : forall junk N iv Rhs steps Rs support cstate sol M p k v a k0, walk_solved junk N iv Rhs steps Rs support cstate sol M p -> nth_error iv k = Some v ->
  is_cop (wi_height v) (state_of (cstate_at cstate p k) (wi_height v)) a k0 ->
  vget (wp_dcop p) (2 * k + axis_index a) = (commanded_cop N steps Rs Rhs support sol k a - k0) / wi_T v.
Proof. exact walk_rate. Qed.
(** two intervals, a step at the beginning of the second one *)
Example C73_example : formed_walk 2 walk_example_iv [m2id; m2id] [1%nat] [m2id] (mkVec 2 (fun i => INR i)) (mkVec 6 (fun i => INR i)) /\
  sol_structure walk_example_sol = structure_wpg 2 1 /\ length (sol_x walk_example_sol) = 6%nat /\
  commanded_cop 2 [1%nat] [m2id] [m2id; m2id] (mkVec 2 (fun i => INR i)) walk_example_sol 0 AxisY = 3 /\
  commanded_cop 2 [1%nat] [m2id] [m2id; m2id] (mkVec 2 (fun i => INR i)) walk_example_sol 1 AxisY = 25 /\
  support_after 2 [m2id] (mkVec 2 (fun i => INR i)) walk_example_sol 1 AxisX = 10.
Proof. exact walk_example. Qed.

(** ** C74 *)
Theorem C74_inside : forall junk N iv Rhs steps Rs support cstate sol M p t, walk_solved junk N iv Rhs steps Rs support cstate sol M p ->
  (t <= list_sum (map wi_T_ms iv))%nat ->
  exists k v offset, nth_error iv k = Some v /\ t = (list_sum (map wi_T_ms (firstn k iv)) + offset)%nat /\ (offset <= wi_T_ms v)%nat /\ (k = 0 \/ 0 < offset)%nat /\
    getCoMState iv p cstate t =
      Ok (evaluate (INR offset / 1000) (wi_T v) (wi_height v) (cstate_at cstate p k) (mkVec 2 (fun q => commanded_cop N steps Rs Rhs support sol k (if (q =? 0)%nat then AxisX else AxisY)))).
Proof. exact com_state_inside. Qed.
Theorem C74_outside : forall iv p cstate t, (list_sum (map wi_T_ms iv) < t)%nat -> getCoMState iv p cstate t = Throw.
Proof. exact com_state_outside. Qed.
Theorem C74_start : forall junk N iv Rhs steps Rs support cstate sol M p v, walk_solved junk N iv Rhs steps Rs support cstate sol M p -> nth_error iv 0 = Some v ->
  exists s, getCoMState iv p cstate 0 = Ok s /\ same_motion s (state_of cstate (wi_height v)).
Proof. exact com_state_start. Qed.
Theorem C74_ends : forall junk N iv Rhs steps Rs support cstate sol M p k v, walk_solved junk N iv Rhs steps Rs support cstate sol M p -> nth_error iv k = Some v ->
  exists s, getCoMState iv p cstate (list_sum (map wi_T_ms (firstn (k + 1) iv))) = Ok s /\ same_motion s (state_of (cstate_at cstate p (k + 1)) (wi_height v)).
Proof. exact com_state_ends. Qed.
Theorem C74_next_state : forall junk N iv Rhs steps Rs support cstate sol M p t v, walk_solved junk N iv Rhs steps Rs support cstate sol M p ->
  nth_error iv 0 = Some v -> (t <= wi_T_ms v)%nat -> getCoMState iv p cstate t = next_com_state iv p cstate (INR t / 1000).
Proof. exact next_state_is_com_state. Qed.
Example C74_example : exists p s, (exists M, walk_solved (fun _ _ _ => 0) 2 walk_example_iv [m2id; m2id] [1%nat] [m2id] (mkVec 2 (fun i => INR i)) (mkVec 6 (fun i => INR i)) walk_example_sol M p) /\
  getCoMState walk_example_iv p (mkVec 6 (fun i => INR i)) 150 = Ok s /\ is_cop 1 s AxisY 25.
Proof.
  destruct walk_example as (F & S & L & _ & C & _).
  destruct (walk_total (fun _ _ _ => 0) _ _ _ _ _ _ _ walk_example_sol F S L) as (M & p & H & _). exists p.
  destruct (com_state_ends _ _ _ _ _ _ _ _ _ _ _ 1%nat (mkWI 50 1) H eq_refl) as (s & E & SM). exists s. split; [exists M; exact H|]. split; [exact E|].
  pose proof (walk_is_cop _ _ _ _ _ _ _ _ _ _ _ 1%nat (mkWI 50 1) AxisY H eq_refl) as K. rewrite C in K. unfold is_cop in *. destruct (SM AxisY) as (A & _ & B). rewrite A, B. exact K.
Qed.

Print Assumptions C73_computed. Print Assumptions C73_footsteps. Print Assumptions C73_cop. Print Assumptions C73_motion. Print Assumptions C73_predicted_cop. Print Assumptions C73_cop_rate. Print Assumptions C74_inside. Print Assumptions C74_outside. Print Assumptions C74_start. Print Assumptions C74_ends. Print Assumptions C74_next_state.
