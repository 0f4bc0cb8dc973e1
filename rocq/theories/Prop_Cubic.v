(** * C24, C25, C26: cubic polynomials and the swing foot trajectory *)
From Coq Require Import List Reals Lra.
From Verif Require Import Base Mat3 CubicPolynomial CubicSpec CubicFacts FootTrajectory FootTrajectoryFacts.
Import ListNotations.
Open Scope R_scope.

(** ** C24 *)
Theorem C24_end_conditions : forall a b,
  eval (cubic_rest a b) 0 POSITION = Ok a /\ eval (cubic_rest a b) 1 POSITION = Ok b /\
  eval (cubic_rest a b) 0 VELOCITY = Ok 0 /\ eval (cubic_rest a b) 1 VELOCITY = Ok 0.
Proof. exact rest_ends. Qed.

Theorem C24_monotone : forall a b s t x y, 0 <= s -> s <= t -> t <= 1 ->
  eval (cubic_rest a b) s POSITION = Ok x -> eval (cubic_rest a b) t POSITION = Ok y ->
  (a <= b -> x <= y) /\ (b <= a -> y <= x).
Proof. exact rest_monotone. Qed.

Theorem C24_inside : forall a b t x, eval (cubic_rest a b) t POSITION = Ok x -> between a b x.
Proof. exact rest_between. Qed.

(** every polynomial (whatever the initialisation) reports derivatives, on [0, 1] and nowhere else *)
Theorem C24_derivatives : forall p, exists x v a,
  reported (fun t => eval p t POSITION) x /\ reported (fun t => eval p t VELOCITY) v /\ reported (fun t => eval p t ACCELERATION) a /\
  derivative x v /\ derivative v a /\ derivative a (fun _ => getJerk p).
Proof. exact cubic_derivatives. Qed.

(** sampling at several times reports the value at each of them, or fails as a whole *)
Theorem C24_sampling : forall p k ts vs, eval_all p ts k = Ok vs <-> Forall2 (fun t v => eval p t k = Ok v) ts vs.
Proof. exact eval_all_spec. Qed.

(** scaled time points are legal evaluation times that start at 0, end at 1 and keep their order *)
Theorem C24_scale : forall ts ss, scale ts = Ok ss -> (exists a b, In a ts /\ In b ts /\ a <> b) ->
  Forall (fun s => 0 <= s <= 1) ss /\ In 0 ss /\ In 1 ss /\ length ss = length ts /\
  forall i j, (i < length ts)%nat -> (j < length ts)%nat -> nth i ts 0 <= nth j ts 0 <-> nth i ss 0 <= nth j ss 0.
Proof. exact scale_range. Qed.

Example C24_example : eval (cubic_rest 2 4) (1 / 2) POSITION = Ok 3 /\ eval (cubic_rest 2 4) (1 / 2) VELOCITY = Ok 3 /\
  eval (cubic_rest 2 4) 2 POSITION = Throw.
Proof.
  split; [|split].
  - rewrite (proj1 (reported_pos _)) by lra. unfold pos; simpl; f_equal; field.
  - rewrite (proj1 (reported_vel _)) by lra. unfold vel; simpl; f_equal; field.
  - apply (proj2 (reported_pos _)). lra.
Qed.

(** ** C25 *)
Theorem C25_boundary_velocities_refuted : exists a adot b bdot,
  let p := cubic_velocities a adot b bdot in ~ (eval p 1 POSITION = Ok b /\ eval p 1 VELOCITY = Ok bdot).
Proof. exists 0, 1, 0, 0. cbv zeta. rewrite (velocities_exact_iff 0 1 0 0). lra. Qed.

(** exactly which conditions are attained: the initial ones always, the final ones only with zero velocities *)
Theorem C25_attained : forall a adot b bdot, let p := cubic_velocities a adot b bdot in
  eval p 0 POSITION = Ok a /\ eval p 0 VELOCITY = Ok adot /\
  eval p 1 POSITION = Ok (b - 2 * adot + 3 * bdot) /\ eval p 1 VELOCITY = Ok (7 * bdot - 6 * adot).
Proof. exact velocities_attained. Qed.

Theorem C25_exact_iff : forall a adot b bdot, let p := cubic_velocities a adot b bdot in
  (eval p 1 POSITION = Ok b /\ eval p 1 VELOCITY = Ok bdot) <-> adot = 0 /\ bdot = 0.
Proof. exact velocities_exact_iff. Qed.

(** ** C26 *)
(** a trajectory with zero velocities at the ends exists whenever the final height is not above the step height *)
Theorem C26_initialised : forall o a b h, (exists f, ft_initialize_rest o a b h = Ok f) <-> vz b <= vz a + h.
Proof. exact rest_initialises. Qed.

Theorem C26_rejected : forall o a b h, vz a + h < vz b -> ft_initialize_rest o a b h = Throw.
Proof. exact rest_rejected. Qed.

Theorem C26_ends : forall o a b h f, ft_initialize_rest o a b h = Ok f ->
  ft_eval f 0 POSITION = Ok a /\ ft_eval f 1 POSITION = Ok b /\
  ft_eval f 0 VELOCITY = Ok v3zero /\ ft_eval f 1 VELOCITY = Ok v3zero /\
  evalz f (1 / 2) POSITION = Ok (vz a + h).
Proof. exact trajectory_ends. Qed.

Theorem C26_clearance : forall o a b h f t z, ft_initialize_rest o a b h = Ok f -> evalz f t POSITION = Ok z ->
  Rmin (vz a) (vz b) <= z <= Rmax (vz a) (vz a + h).
Proof. exact trajectory_height. Qed.

Theorem C26_horizontal : forall o a b h f t x y, ft_initialize_rest o a b h = Ok f -> evalx f t POSITION = Ok x -> evaly f t POSITION = Ok y ->
  between (vx a) (vx b) x /\ between (vy a) (vy b) y.
Proof. exact trajectory_horizontal. Qed.

Theorem C26_continuous : forall o a b h f, ft_initialize_rest o a b h = Ok f ->
  exists x y z, reported (fun t => evalx f t POSITION) x /\ reported (fun t => evaly f t POSITION) y /\ reported (fun t => evalz f t POSITION) z /\
    continuity x /\ continuity y /\ continuity z.
Proof. exact trajectory_continuous. Qed.

Theorem C26_vertical_velocity_refuted : exists o a b h f, ft_initialize_rest o a b h = Ok f /\
  forall z, reported (fun t => evalz f t POSITION) z ->
  exists t v, 0 < t < 1 /\ evalz f t VELOCITY = Ok v /\ ~ derivable_pt_lim z t v.
Proof. exact vertical_velocity_wrong. Qed.

(** horizontal velocities and accelerations are derivatives; vertical ones are half of the derivatives *)
Theorem C26_velocity_factor : forall f,
  (exists x v a, reported (fun t => evalx f t POSITION) x /\ reported (fun t => evalx f t VELOCITY) v /\ reported (fun t => evalx f t ACCELERATION) a /\ derivative x v /\ derivative v a) /\
  (exists x v a, reported (fun t => evaly f t POSITION) x /\ reported (fun t => evaly f t VELOCITY) v /\ reported (fun t => evaly f t ACCELERATION) a /\ derivative x v /\ derivative v a) /\
  (exists x v a, reported (fun t => evalz f t POSITION) x /\ reported (fun t => evalz f t VELOCITY) v /\ reported (fun t => evalz f t ACCELERATION) a /\
     forall t, t <> 1 / 2 -> derivable_pt_lim x t (2 * v t) /\ derivable_pt_lim v t (2 * a t)).
Proof. exact trajectory_velocity_factor. Qed.

(** non-zero boundary velocities: the final position is missed, and the height jumps half-way *)
Theorem C26_final_position_refuted : exists o a adot b bdot h f, ft_initialize_velocities o a adot b bdot h = Ok f /\ ft_eval f 1 POSITION <> Ok b.
Proof. exact velocities_end_wrong. Qed.

Theorem C26_with_velocities : forall o a adot b bdot h f, ft_initialize_velocities o a adot b bdot h = Ok f ->
  ft_eval f 0 POSITION = Ok a /\ ft_eval f 0 VELOCITY = Ok adot /\
  ft_eval f 1 POSITION = Ok (V3 (vx b - 2 * vx adot + 3 * vx bdot) (vy b - 2 * vy adot + 3 * vy bdot) (vz b + 3 * vz bdot)) /\
  ft_eval f 1 VELOCITY = Ok (V3 (7 * vx bdot - 6 * vx adot) (7 * vy bdot - 6 * vy adot) (7 * vz bdot)) /\
  evalz f (1 / 2) POSITION = Ok (vz a + h - 2 * vz adot).
Proof. exact velocities_trajectory. Qed.

Theorem C26_discontinuous : forall o a adot b bdot h f, ft_initialize_velocities o a adot b bdot h = Ok f -> vz adot <> 0 ->
  forall z, reported (fun t => evalz f t POSITION) z -> ~ continuity_pt z (1 / 2).
Proof. exact velocities_jump. Qed.

(** initialisation from two states: what is attained, including the yaw; exact if both states are at rest *)
Theorem C26_states_initialised : forall a b h, (exists f, ft_initialize_states a b h = Ok f) <-> vz (b_position b) <= vz (b_position a) + h.
Proof. exact states_initialises. Qed.
Theorem C26_with_states : forall a b h f, ft_initialize_states a b h = Ok f ->
  (ft_eval f 0 POSITION = Ok (b_position a) /\ ft_eval f 0 VELOCITY = Ok (b_velocity a) /\
   evalTheta f 0 POSITION = Ok (vz (b_rpy a)) /\ evalTheta f 0 VELOCITY = Ok (vz (b_angular_velocity a))) /\
  (let pb := b_position b in let va := b_velocity a in let vb := b_velocity b in
   ft_eval f 1 POSITION = Ok (V3 (vx pb - 2 * vx va + 3 * vx vb) (vy pb - 2 * vy va + 3 * vy vb) (vz pb + 3 * vz vb)) /\
   ft_eval f 1 VELOCITY = Ok (V3 (7 * vx vb - 6 * vx va) (7 * vy vb - 6 * vy va) (7 * vz vb)) /\
   evalTheta f 1 POSITION = Ok (vz (b_rpy b) - 2 * vz (b_angular_velocity a) + 3 * vz (b_angular_velocity b)) /\
   evalTheta f 1 VELOCITY = Ok (7 * vz (b_angular_velocity b) - 6 * vz (b_angular_velocity a))) /\
  evalz f (1 / 2) POSITION = Ok (vz (b_position a) + h - 2 * vz (b_velocity a)).
Proof. exact states_trajectory. Qed.
Theorem C26_states_at_rest : forall a b h f, ft_initialize_states a b h = Ok f -> b_velocity a = v3zero -> b_velocity b = v3zero ->
  vz (b_angular_velocity a) = 0 -> vz (b_angular_velocity b) = 0 ->
  forall s s', ft_eval_state f s 1 = Ok s' ->
    b_position s' = b_position b /\ b_velocity s' = v3zero /\ vz (b_rpy s') = vz (b_rpy b) /\ vz (b_angular_velocity s') = 0.
Proof. exact states_rest. Qed.
Example C26_states_case : exists f, ft_initialize_states
    (mkBody (V3 0 0 0) v3zero v3zero (V3 0 0 1) v3zero v3zero) (mkBody (V3 1 2 0) v3zero v3zero (V3 0 0 3) v3zero v3zero) 1 = Ok f /\
  evalTheta f 1 POSITION = Ok 3.
Proof. exact states_case. Qed.

(** the foot state returned for a time instant is the evaluated one; only yaw is changed in the rotation *)
Theorem C26_foot_state : forall f s t s', ft_eval_state f s t = Ok s' <->
  0 <= t <= 1 /\ ft_eval f t POSITION = Ok (b_position s') /\ ft_eval f t VELOCITY = Ok (b_velocity s') /\ ft_eval f t ACCELERATION = Ok (b_acceleration s') /\
  evalTheta f t POSITION = Ok (vz (b_rpy s')) /\ evalTheta f t VELOCITY = Ok (vz (b_angular_velocity s')) /\ evalTheta f t ACCELERATION = Ok (vz (b_angular_acceleration s')) /\
  vx (b_rpy s') = vx (b_rpy s) /\ vy (b_rpy s') = vy (b_rpy s) /\
  vx (b_angular_velocity s') = vx (b_angular_velocity s) /\ vy (b_angular_velocity s') = vy (b_angular_velocity s) /\
  vx (b_angular_acceleration s') = vx (b_angular_acceleration s) /\ vy (b_angular_acceleration s') = vy (b_angular_acceleration s).
Proof. exact eval_state_spec. Qed.

Example C26_example : exists f, ft_initialize_rest trajectory_new (V3 0 0 (1 / 10)) (V3 1 0 0) (1 / 20) = Ok f /\
  evalz f (1 / 2) POSITION = Ok (3 / 20).
Proof.
  destruct (proj2 (rest_initialises trajectory_new (V3 0 0 (1 / 10)) (V3 1 0 0) (1 / 20))) as [f E]; [simpl; lra|].
  exists f. split; [exact E|]. destruct (trajectory_ends _ _ _ _ _ E) as (_ & _ & _ & _ & A). rewrite A. simpl. f_equal. field.
Qed.

Print Assumptions C24_end_conditions. Print Assumptions C24_monotone. Print Assumptions C24_inside. Print Assumptions C24_derivatives.
Print Assumptions C24_sampling. Print Assumptions C24_scale. Print Assumptions C25_boundary_velocities_refuted. Print Assumptions C25_attained.
Print Assumptions C25_exact_iff. Print Assumptions C26_initialised. Print Assumptions C26_rejected. Print Assumptions C26_ends. Print Assumptions C26_clearance.
Print Assumptions C26_horizontal. Print Assumptions C26_continuous. Print Assumptions C26_vertical_velocity_refuted. Print Assumptions C26_velocity_factor.
Print Assumptions C26_final_position_refuted. Print Assumptions C26_with_velocities. Print Assumptions C26_discontinuous. Print Assumptions C26_foot_state.
Print Assumptions C26_states_initialised. Print Assumptions C26_with_states. Print Assumptions C26_states_at_rest.
