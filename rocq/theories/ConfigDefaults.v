(** * Default parameters of the models of walking and of Pepper are those of new objects of the configurable classes (C95) *)
From Coq Require Import String List ZArith Arith Reals Bool Lra Lia.
From Verif Require Import Base RSum Matrix Mat2 Config ConfigSpec FootParameters StanceFSM WalkPreview PepperTasks PepperRobot PepperIkLoop ConfigClasses ConfigClassesSpec ConfigMeaningSpec.
Import ListNotations.
Open Scope list_scope.
Local Open Scope R_scope.

(** the numbers of the stances, stance_finite_state_machine.h:20-40 *)
Definition stance_number (t : stance_type) : Z := match t with ST_UNDEFINED => 0 | DS => 1 | LSS => 2 | RSS => 3 | TDS => 4 end%Z.
Definition milliseconds (n : nat) : value := integer (Z.of_nat n).
Theorem same_defaults :
  (let p := default_params in entries_are StanceFSMParameters [milliseconds (ss_duration p); milliseconds (tds_duration p); milliseconds (first_duration p); milliseconds (last_duration p);
     integer (Z.of_nat (num_steps p)); VEnum (stance_number (first_stance p)); VEnum (stance_number (first_ss_type p)); VEnum (stance_number (last_stance p))]) /\
  (let p := default_mpc in made WalkMPCParameters [integer (Z.of_nat (horizon_length p)); milliseconds (sampling_ms p); milliseconds (subsampling_ms p); milliseconds (tds_sampling_ms p)]
     (match mpc_finalize p with Ok d => (Z.of_nat (subsamples_num d), Z.of_nat (tds_subsamples_num d), INR (sampling_ms p) / 1000, INR (subsampling_ms p) / 1000, INR (tds_sampling_ms p) / 1000) | _ => (0%Z, 0%Z, 0, 0, 0) end)) /\
  (let p := prim default_feet in made RobotFootParameters (map number [max_step_len p; min_feet_dist p; max_feet_dist p; feet_dist_default p; foot_length p; foot_width p]) default_feet) /\
  (let p := rp_defaults in exists B, entries_are PepperRobotParameters (map number [rp_base_radius p; rp_max_nominal_base_velocity p; rp_max_nominal_base_acceleration p; rp_max_base_velocity p; rp_max_base_acceleration p] ++ [VMatrix B]) /\
     mrows B = 2%nat /\ mcols B = 2%nat /\ M2 (mget B 0 0) (mget B 0 1) (mget B 1 0) (mget B 1 1) = rp_body_bounds p) /\
  (let p := wbc_parameters_default in exists t, made WBCParameters [integer 10; number (wp_tolerance p); number t; integer (Z.of_nat (wp_iterations p))] (wp_interval p)).
Proof.
  cbv zeta. split; [reflexivity|]. split.
  { split; [reflexivity|]. cbn. unfold integer_at, to_seconds. cbn [nth_error int]. repeat (f_equal; try lra). all: try (rewrite INR_IZR_INZ; cbn; lra). }
  assert (F : map real [0.2; 0.19; 0.3; 0.19; 0.1372; 0.058] = map number [2 / 10; 19 / 100; 3 / 10; 19 / 100; 1372 / 10000; 58 / 1000]) by (cbn; unfold real, number; repeat (f_equal; try lra)).
  split.
  { split; [exact F|]. cbn [RobotFootParameters derived k_new snd]. change [real 0.2; real 0.19; real 0.3; real 0.19; real 0.1372; real 0.058] with (map real [0.2; 0.19; 0.3; 0.19; 0.1372; 0.058]). rewrite F. reflexivity. }
  split.
  { eexists. split; [unfold entries_are; cbn; unfold real, number; repeat (f_equal; try lra)|]. repeat split. cbn. repeat (f_equal; try lra). }
  eexists. split; [unfold entries_are; cbn; unfold real, number, int, integer; repeat (f_equal; try lra)|]. cbn. unfold to_seconds. lra.
Qed.
