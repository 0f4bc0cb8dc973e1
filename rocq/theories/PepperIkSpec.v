(** * Specification vocabulary for C88, C89: angles of the joints of Pepper *)
From Coq Require Import String List Reals Arith.
From Verif Require Import Base Mat3 RSum Matrix Constraints ConstraintsSpec Solution Rbdl RbdlSpec PepperIk.
Import ListNotations.
Local Open Scope R_scope.

(** limits of the angles (radians) and of the velocities of the joints, and the angles at rest *)
Definition lower_limit (j : joint) : R :=
  match j with
  | HeadYaw => -2.08566999999999991 | HeadPitch => -0.706857999999999990
  | HipRoll | KneePitch => -0.514872 | HipPitch => -1.03847
  | LShoulderPitch | RShoulderPitch | LElbowYaw | RElbowYaw => -2.08566999999999991
  | LShoulderRoll | RElbowRoll => 0.00872665
  | RShoulderRoll | LElbowRoll => -1.56207000000000007
  | LWristYaw | RWristYaw => -1.8238700000000001
  end.
Definition upper_limit (j : joint) : R :=
  match j with
  | HeadYaw => 2.08566999999999991 | HeadPitch => 0.63704499999999997
  | HipRoll | KneePitch => 0.514872 | HipPitch => 1.03847
  | LShoulderPitch | RShoulderPitch | LElbowYaw | RElbowYaw => 2.08566999999999991
  | LShoulderRoll | RElbowRoll => 1.56207000000000007
  | RShoulderRoll | LElbowRoll => -0.00872665
  | LWristYaw | RWristYaw => 1.8238700000000001
  end.
Definition speed_limit (j : joint) : R :=
  match j with
  | HipPitch | KneePitch => 2.93276 | HipRoll => 2.27032
  | HeadYaw | LShoulderPitch | RShoulderPitch | LElbowYaw | RElbowYaw => 7.33998
  | HeadPitch | LShoulderRoll | RShoulderRoll | LElbowRoll | RElbowRoll => 9.22756
  | LWristYaw | RWristYaw => 17.3835
  end.
Definition rest_angle (j : joint) : R :=
  match j with
  | KneePitch => -0.1975011835036236 | HipPitch => 0.4160023626190753 | HeadPitch => 0.06850114982656237
  | LShoulderPitch => 1.639454123287812 | RShoulderPitch => 1.639454123287804 | LShoulderRoll => 0.12 | RShoulderRoll => -0.12
  | LElbowYaw => -1.2217007 | RElbowYaw => 1.2217007 | LElbowRoll => -0.52345699 | RElbowRoll => 0.52345699
  | HipRoll | HeadYaw | LWristYaw | RWristYaw => 0
  end.
Definition arm (j : joint) : Prop := match j with HeadYaw | HeadPitch | HipRoll | HipPitch | KneePitch => False | _ => True end.
Definition head (j : joint) : Prop := match j with HeadYaw | HeadPitch => True | _ => False end.

(** vectors of the sizes given by the model *)
Definition sized (f : features) (g : gcoord) : Prop := length (gc_root g) = ROOT_DOF_NUMBER f /\ length (gc_joints g) = JOINTS_DOF_NUMBER.
(** the angle of a joint in a state, in a vector *)
Definition angle_in (f : features) (v : list R) (j : joint) : R := nth (joint_id f j) v 0.
Definition angle (f : features) (g : gcoord) (j : joint) : R := angle_in f (gc_joints g) j.
Definition within_limits (f : features) (g : gcoord) : Prop := forall j, lower_limit j <= angle f g j <= upper_limit j.
(** the limits may be exceeded by a tolerance *)
Definition almost_within (f : features) (tol : R) (g : gcoord) : Prop := forall j, lower_limit j - tol <= angle f g j <= upper_limit j + tol.

(** a solution of the problem of the controller, any values *)
Definition solution_for (f : features) (w : wbc) (sol : solution) : Prop := sol_structure sol = w_structure w /\ length (sol_x sol) = DOF_NUMBER f.

(** forward kinematics gives a tree of bodies for every configuration of one robot *)
Definition kinematics (f : features) (fk : list R -> rb) : Prop :=
  forall q p, length q = DOF_NUMBER f -> length p = DOF_NUMBER f -> tree (fk q) /\ same_robot (fk q) (fk p) /\ rb_q (fk q) = DOF_NUMBER f.
(** a model which was loaded, and whose kinematics corresponds to its state *)
Definition ready (f : features) (fk : list R -> rb) (m : ikmodel) : Prop :=
  sized f (ik_gc m) /\ updated (fk (asVector (ik_gc m))) (ik_rbdl m) /\ exists junk, ik_constraints m = limits_new junk f.

(** an object of the class before anything is loaded; its members have any values *)
Definition constructed (f : features) (m : ikmodel) : Prop :=
  (exists junk, ik_gc m = gc_default junk f) /\ ik_saved m = None /\ exists junk, ik_constraints m = limits_new junk f.
(** the file read from the disk describes the robot, and has all links of Pepper *)
Definition describes (f : features) (fk : list R -> rb) (file : rb) : Prop :=
  tree file /\ (forall q, length q = DOF_NUMBER f -> same_robot (fk q) file) /\
  Forall (fun s => movable file (getLinkId file s))
    ["Tibia"; "Head"; "Hip"; "LBicep"; "LElbow"; "LForeArm"; "LShoulder"; "Neck"; "Pelvis"; "RBicep"; "RElbow"; "RForeArm"; "RShoulder";
     "l_wrist"; "r_wrist"; "torso"]%string /\
  link file (getLinkId file "base_footprint").

(** one iteration: a problem is formed, solved with some values, and the model is moved to the new configuration *)
Inductive iterates (f : features) (fk : list R -> rb) : ikmodel -> list (motion_parameters * solution) -> ikmodel -> Prop :=
| it_stop m : iterates f fk m [] m
| it_step m mp w sol g w' m1 rest m2 :
    solution_for f (wbc_update f mp w) sol ->
    satisfies (form_jointsBounds (w_structure (wbc_update f mp w)) m) (fun i => nth i (sol_x sol) 0) ->
    getNextGeneralizedCoordinates sol m (wbc_update f mp w) = Ok (g, w') -> updateState fk g m = Ok m1 ->
    iterates f fk m1 rest m2 -> iterates f fk m ((mp, sol) :: rest) m2.
