(** * Two point mass model of Pepper
    (/repo/modules/pepper_mpc/include/pepper_mpc/two_point_mass_model.h, model.h, model_state.h)

    A horizontal axis of the state of a mass is (position, velocity, acceleration); the state of a mass in the MPC problem is
    the x axis followed by the y axis. *)
From Coq Require Import List Reals Arith Bool.
From Verif Require Import Base RSum Matrix Mat3 SmallMatrix BlockMatrix Kronecker Condense TripleIntegrator PointMass6z.
Import ListNotations.
Local Open Scope R_scope.

(** model_state.h:70-78, rigid_body_state.h, rotary_state.h: the angular velocity and acceleration of the base are not used
    by the functions below and are left out *)
Record pepper_state := mkPS { ps_base : point_mass_state; ps_rpy : v3; ps_body : point_mass_state; ps_base_mass : R; ps_body_mass : R }.

(** PointMassState after setDefaults(), point_mass_state.h:44-54 *)
Definition pm_zero : point_mass_state := mkPM (V3 0 0 0) (V3 0 0 0) (V3 0 0 0).
(** model_state.h:41-62 *)
Definition ps_setParameters (base_height body_height body_x_offset base_mass body_mass : R) : pepper_state :=
  mkPS (mkPM (V3 0 0 base_height) (V3 0 0 0) (V3 0 0 0)) (V3 0 0 0) (mkPM (V3 body_x_offset 0 body_height) (V3 0 0 0) (V3 0 0 0)) base_mass body_mass.
(** the default arguments, model_state.h:41-48 *)
Definition default_base_height : R := 125564931735602 / 1000000000000000.
(** model_state.h:41-48 *)
Definition default_body_height : R := 750001340031501 / 1000000000000000.
(** model_state.h:41-48 *)
Definition default_body_x_offset : R := - (656061094036387 / 100000000000000000).
(** model_state.h:41-48 *)
Definition default_base_mass : R := 1634234 / 100000.
(** model_state.h:41-48 *)
Definition default_body_mass : R := 123389 / 10000.
(** model_state.h:64-67, 85-88 *)
Definition ps_default : pepper_state :=
  ps_setParameters default_base_height default_body_height default_body_x_offset default_base_mass default_body_mass.
(** model_state.h:98-103: the constructor with heights *)
Definition ps_of_heights (base_height body_height body_x_offset : R) : pepper_state :=
  ps_setParameters body_height base_height body_x_offset default_base_mass default_body_mass.
(** model_state.h:114-120, 147-160: the constructor with masses and positions, and set *)
Definition ps_of_positions (base_mass body_mass : R) (base_position body_position : v3) : pepper_state :=
  mkPS (mkPM base_position (V3 0 0 0) (V3 0 0 0)) (V3 0 0 0) (mkPM body_position (V3 0 0 0) (V3 0 0 0)) base_mass body_mass.
(** model_state.h:172-186 *)
Definition ps_update (s : pepper_state) (base_mass body_mass : R) (base_position body_position : v3) (base_orientation : R) : pepper_state :=
  mkPS (mkPM base_position (pm_velocity (ps_base s)) (pm_acceleration (ps_base s)))
       (V3 (vx (ps_rpy s)) (vy (ps_rpy s)) base_orientation)
       (mkPM body_position (pm_velocity (ps_body s)) (pm_acceleration (ps_body s))) base_mass body_mass.

(** two_point_mass_model.h:104-111 *)
Definition Dps3 (base_height base_mass body_mass : R) : v3 :=
  v3scale (1 / (base_mass + body_mass)) (V3 (- body_mass) 0 (- base_mass * (base_height / gravity))).
(** two_point_mass_model.h:123-130 *)
Definition Dpd3 (body_height base_mass body_mass : R) : v3 :=
  v3scale (1 / (base_mass + body_mass)) (V3 body_mass 0 (- body_mass * (body_height / gravity))).

(** two_point_mass_model.h:173-211 convertBaseStateRBtoMPC, convertBodyStateRBtoMPC; model.h:113-161 *)
Definition mpc_state6 (s : point_mass_state) : vec :=
  mkVec 6 (fun i => match i with
    | 0%nat => vx (pm_position s) | 1%nat => vx (pm_velocity s) | 2%nat => vx (pm_acceleration s)
    | 3%nat => vy (pm_position s) | 4%nat => vy (pm_velocity s) | _ => vy (pm_acceleration s)
    end).
(** comma initialiser of a vector, two_point_mass_model.h:173-211 *)
Definition vcat (a b : vec) : vec := mkVec (vlen a + vlen b) (fun i => if (i <? vlen a)%nat then vget a i else vget b (i - vlen a)).
(** two_point_mass_model.h:216-224, model.h:99-106 *)
Definition mpc_state12 (s : pepper_state) : vec := vcat (mpc_state6 (ps_base s)) (mpc_state6 (ps_body s)).
(** two_point_mass_model.h:234-267 *)
Definition rb_state (mpcstate : vec) (first : nat) (height : R) : point_mass_state :=
  mkPM (V3 (vget mpcstate first) (vget mpcstate (first + 3)) height)
       (V3 (vget mpcstate (first + 1)) (vget mpcstate (first + 4)) 0)
       (V3 (vget mpcstate (first + 2)) (vget mpcstate (first + 5)) 0).

(** a diagonal block matrix: setZero(n, n) and assignment of its diagonal blocks (two_point_mass_model.h:234-267, 305-360) *)
Definition bm_diag (r c : nat) (blocks : list mat) : outcome bmat :=
  bind (bm_setZero r c (length blocks) (length blocks)) (fun b =>
    for_up (length blocks) 0 (fun i b => bind (vec_at blocks i) (fun x => bput b i i x)) b).

(** two_point_mass_model.h:305-328; [getAJerk] with one integrator *)
Definition getA12 (T Ts : R) : outcome mat :=
  let a := mat33 (if Req_EM_T Ts T then AVel3 T else AsVel3 T Ts) in
  let d := mat33 (AJerk3 Ts) in
  bind (bm_diag 3 3 [a; a; d; d]) (fun b => Ok (raw b)).
(** two_point_mass_model.h:337-360 *)
Definition getB12 (T Ts : R) : outcome mat :=
  let a := col3 (if Req_EM_T Ts T then BVel3 T else BsVel3 T Ts) in
  let d := col3 (BJerk3 Ts) in
  bind (bm_diag 3 1 [a; a; d; d]) (fun b => Ok (raw b)).
(** a 2d vector as a column *)
Definition vec2 (x y : R) : vec := mkVec 2 (fun i => match i with 0%nat => x | _ => y end).
(** two_point_mass_model.h:278-292 *)
Definition pepper_evaluate (T Ts : R) (preceding base_control body_control : vec) : outcome vec :=
  bind (getA12 T Ts) (fun A => bind (getB12 T Ts) (fun B =>
    assert_then ((vlen preceding =? mcols A)%nat && (vlen base_control + vlen body_control =? mcols B)%nat)
      (Ok (vadd (mulv A preceding) (mulv B (vcat base_control body_control)))))).
(** model.h:249-269: [model_state] is the state passed by the caller; its masses are kept.  The angles other than theta
    are zero, a new base state is assigned. *)
Definition getNextState (model_state : pepper_state) (T Ts : R) (preceding base_control body_control : vec) (base_height body_height theta : R)
  : outcome pepper_state :=
  bind (pepper_evaluate T Ts preceding base_control body_control) (fun x =>
    Ok (mkPS (rb_state x 0 base_height) (V3 0 0 theta) (rb_state x 6 body_height) (ps_base_mass model_state) (ps_body_mass model_state))).

(** a vector as a matrix with one column and back (Eigen: a vector is a matrix, two_point_mass_model.h:278-292) *)
Definition column_of (v : vec) : mat := mkMat (vlen v) 1 (fun i _ => vget v i).
(** a matrix with one column as a vector (Eigen, two_point_mass_model.h:278-292) *)
Definition vec_of (m : mat) : vec := mkVec (mrows m) (fun i => mget m i 0).

(** model.h:181-199 *)
Definition getCoP (junk : nat -> nat -> nat -> R) (s : pepper_state) : outcome vec :=
  bind (kron_make (row3 (Dps3 (vz (pm_position (ps_base s))) (ps_base_mass s) (ps_body_mass s))) 2 1 3) (fun ks =>
  bind (kron_make (row3 (Dpd3 (vz (pm_position (ps_body s))) (ps_base_mass s) (ps_body_mass s))) 2 1 3) (fun kd =>
  bind (kron_multiplyRight_vector (junk 0%nat) (junk 1%nat) ks (column_of (mpc_state6 (ps_base s)))) (fun a =>
  bind (kron_multiplyRight_vector (junk 2%nat) (junk 3%nat) kd (column_of (mpc_state6 (ps_body s)))) (fun b =>
  bind (madd_o a b) (fun c => Ok (vec_of c)))))).
