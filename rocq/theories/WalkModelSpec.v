(** * Specification vocabulary for the model of the walking robot (C56, C68) *)
From Coq Require Import List Arith Bool Reals.
From Verif Require Import Base LeftRight Mat2 Mat3 FootParameters FootTrajectory PointMass6z StanceFSM StanceSpec WalkPreview WalkModel.
Import ListNotations.
Open Scope R_scope.

(** the foot (or the pair of the feet: [None]) which is, or is about to become the support *)
Definition support_foot (t next : stance_type) : option (option lr) :=
  let of t := match t with LSS => Some (Some LEFT) | RSS => Some (Some RIGHT) | DS => Some None | _ => None end in
  match t with TDS => of next | _ => of t end.
(** the position of the support of a state *)
Definition support_position (s : wpg_state) (p : v2) : Prop :=
  match support_foot (ms_stance s) (ms_next s) with
  | Some (Some x) => exists b, foot_of (ms_feet s) x = Some b /\ p = V2 (vx (b_position b)) (vy (b_position b))
  | Some None => exists l r, foot_of (ms_feet s) LEFT = Some l /\ foot_of (ms_feet s) RIGHT = Some r /\
                 ux p = (vx (b_position l) + vx (b_position r)) / 2 /\ uy p = (vy (b_position l) + vy (b_position r)) / 2
  | None => False
  end.
Definition defined (f : feet_states) : Prop := forall x, foot_of f x <> None.

(** the feet whose states are taken from the given state by an update: the support foot in a single support, the foot which
    was in the air in a transitional double support, and both in a double support *)
Definition commanded (prev t : stance_type) (x : lr) : bool :=
  match t, x with
  | LSS, LEFT | RSS, RIGHT | DS, LEFT | DS, RIGHT => true
  | TDS, RIGHT => match prev with LSS => true | _ => false end
  | TDS, LEFT => match prev with RSS => true | _ => false end
  | _, _ => false
  end.

(** swing foot of a single support, and its support foot *)
Definition swing (t : stance_type) : lr := match t with LSS => RIGHT | _ => LEFT end.
Definition stance_foot (t : stance_type) : lr := match t with LSS => LEFT | _ => RIGHT end.

(** one iteration of the control loop: the horizon has been formed and solved for the model [m] and the machine [s]; the
    machine is shifted and the model is updated with the predicted state *)
Definition control_step (fp : feet_params) (h : horizon) (footpos : v2) (com : point_mass_state) (m : wpg_model) (s' : fsm) (m' : wpg_model) : Prop :=
  exists x, initializeNextModelState fp h footpos com s' m = Ok x /\ updateState m x = (m', Ok tt).
