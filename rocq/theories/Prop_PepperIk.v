(** * Properties C88 and C89: angles of the joints of Pepper (inverse kinematics). Vocabulary in PepperIkSpec.v. *)
From Coq Require Import String List Arith Bool Reals Lra Lia.
From Verif Require Import Base Mat3 RSum Matrix ConstraintType Constraints ConstraintsSpec Solution SpatialTransform Rbdl RbdlSpec
  PepperTasksSpec PepperIk PepperIkSpec PepperIkFacts PepperIkExample.
Import ListNotations.
Local Open Scope R_scope.

(** C88. After loading the robot is at rest, within its limits *)
Theorem C88_loaded : forall (junk : nat -> joint_data) (f : features) (fk : list R -> rb) (file : rb) (m : ikmodel),
  kinematics f fk -> describes f fk file -> constructed f m ->
  exists m', ik_load junk f (Some file) fk m = Ok m' /\ ready f fk m' /\ within_limits f (ik_gc m') /\ checkCurrentState m' = Ok tt /\
    forall j, angle f (ik_gc m') j = rest_angle j.
Proof. exact ik_loaded. Qed.
(** C88. Files of other robots are refused *)
Theorem C88_load_refused : forall (junk : nat -> joint_data) (f : features) (fk : list R -> rb) (file : rb) (m : ikmodel),
  ik_load junk f None fk m = Throw /\ (rb_q file <> DOF_NUMBER f -> ik_load junk f (Some file) fk m = Throw).
Proof. exact ik_load_refused. Qed.
(** C88. The bounds hold if and only if the next configuration is within the limits; then it is accepted *)
Theorem C88_bounds : forall (f : features) (fk : list R -> rb) (m : ikmodel) (mp : motion_parameters) (w : wbc) (sol : solution),
  kinematics f fk -> ready f fk m -> solution_for f (wbc_update f mp w) sol ->
  exists g w' m', getNextGeneralizedCoordinates sol m (wbc_update f mp w) = Ok (g, w') /\ updateState fk g m = Ok m' /\ ready f fk m' /\
    (let c := form_jointsBounds (w_structure (wbc_update f mp w)) m in
     usable (DOF_NUMBER f) c /\ getType c = ILU /\ (satisfies c (point sol) <-> within_limits f g) /\ (satisfies c (point sol) -> checkCurrentState m' = Ok tt)).
Proof. exact ik_bounds. Qed.
(** C88. States are accepted if and only if angles exceed the limits by at most 1e-7 *)
Theorem C88_check : forall (f : features) (fk : list R -> rb) (m : ikmodel),
  ready f fk m ->
  (checkCurrentState m = Ok tt \/ checkCurrentState m = Throw) /\ (checkCurrentState m = Ok tt <-> almost_within f 1e-7 (ik_gc m)).
Proof. exact ik_check. Qed.
(** C88. Any number of iterations *)
Theorem C88_history : forall (f : features) (fk : list R -> rb) (m : ikmodel) (l : list (motion_parameters * solution)) (m' : ikmodel),
  kinematics f fk -> ready f fk m -> within_limits f (ik_gc m) -> iterates f fk m l m' ->
  ready f fk m' /\ within_limits f (ik_gc m') /\ checkCurrentState m' = Ok tt.
Proof. exact ik_history. Qed.
(** C88. The angles at rest *)
Theorem C88_default : forall (junk : nat -> R) (f : features) (j : joint),
  sized f (gc_default junk f) /\ angle f (gc_default junk f) j = rest_angle j /\ lower_limit j < rest_angle j < upper_limit j.
Proof. exact ik_default. Qed.
(** C88. Fixed arms, fixed head *)
Theorem C88_fix : forall (f : features) (m : ikmodel) (mp : motion_parameters) (w : wbc) (sol : solution) (g : gcoord) (w' : wbc),
  sized f (ik_gc m) -> solution_for f (wbc_update f mp w) sol -> getNextGeneralizedCoordinates sol m (wbc_update f mp w) = Ok (g, w') ->
  let arms := form_fixArms f (w_structure (wbc_update f mp w)) in
  let heads := form_fixHead f (w_structure (wbc_update f mp w)) in
  usable (DOF_NUMBER f) arms /\ getType arms = IB0 /\ (satisfies arms (point sol) <-> forall j, arm j -> angle f g j = angle f (ik_gc m) j) /\
  usable (DOF_NUMBER f) heads /\ getType heads = IB0 /\ (satisfies heads (point sol) <-> forall j, head j -> angle f g j = angle f (ik_gc m) j).
Proof. exact ik_fix. Qed.
(** C88. References of joints *)
Theorem C88_reference : forall (f : features) (m : ikmodel) (mp : motion_parameters) (w : wbc) (sol : solution) (g : gcoord) (w' : wbc) (gain k : R) (reference : list R),
  sized f (ik_gc m) -> solution_for f (wbc_update f mp w) sol -> getNextGeneralizedCoordinates sol m (wbc_update f mp w) = Ok (g, w') ->
  length reference = JOINTS_DOF_NUMBER ->
  let c := form_jointsReference gain k reference (w_structure (wbc_update f mp w)) m in
  usable (DOF_NUMBER f) c /\ getType c = GIB /\ getNumberOfConstraints c = JOINTS_DOF_NUMBER /\
  (forall j, residual c (joint_id f j) (point sol) (gain * (angle f g j - (angle f (ik_gc m) j + k * (angle_in f reference j - angle f (ik_gc m) j))))) /\
  (gain <> 0 -> (satisfies c (point sol) <-> forall j, angle f g j = angle f (ik_gc m) j + k * (angle_in f reference j - angle f (ik_gc m) j))).
Proof. exact ik_reference. Qed.

(** C89. Columns follow their joints *)
Theorem C89_columns : forall (nan : R) (fo fi : features) (M : mat),
  mcols M = DOF_NUMBER fi ->
  exists M', reorderJointsColumns nan fo fi M = Ok M' /\ mrows M' = mrows M /\ mcols M' = DOF_NUMBER fo /\
    (forall i j, mget M' i (ROOT_DOF_NUMBER fo + joint_id fo j) = mget M i (ROOT_DOF_NUMBER fi + joint_id fi j)) /\
    (forall i c, (c < ROOT_DOF_NUMBER fo)%nat -> mget M' i c = nan).
Proof. exact reorder_ok. Qed.
(** C89. There and back: columns of joints are restored, columns of the root are lost *)
Theorem C89_back : forall (nan : R) (fo fi : features) (M M1 M2 : mat),
  mcols M = DOF_NUMBER fi ->
  reorderJointsColumns nan fo fi M = Ok M1 -> reorderJointsColumns nan fi fo M1 = Ok M2 ->
  mrows M2 = mrows M /\ mcols M2 = mcols M /\ (forall i c, (ROOT_DOF_NUMBER fi <= c < DOF_NUMBER fi)%nat -> mget M2 i c = mget M i c) /\
  (forall i c, (c < ROOT_DOF_NUMBER fi)%nat -> mget M2 i c = nan).
Proof. exact reorder_back. Qed.

(** a robot is loaded; the head is turned; a solution which turns it too far violates the bounds *)
Definition ex_solution (turn : R) : solution :=
  mkSolution (w_structure (wbc_update ROOT_PLANAR (mkMP v3zero v3zero v3zero) (mkWbc true 0 (mkMP v3zero v3zero v3zero) [] [] structure_reset)))
    ([1; 2; 3] ++ update (repeat 0 15) 3 turn).
Lemma ex_solution_for w mp turn : solution_for ROOT_PLANAR (wbc_update ROOT_PLANAR mp w) (ex_solution turn).
Proof. split; reflexivity. Qed.
Lemma ex_next m mp w turn g w' : sized ROOT_PLANAR (ik_gc m) -> (forall j, angle ROOT_PLANAR (ik_gc m) j = rest_angle j) ->
  getNextGeneralizedCoordinates (ex_solution turn) m (wbc_update ROOT_PLANAR mp w) = Ok (g, w') ->
  forall j, angle ROOT_PLANAR g j = rest_angle j + match j with HeadYaw => turn | _ => 0 end.
Proof.
  intros SZ A E j. pose proof (next_angle ROOT_PLANAR mp w m (ex_solution turn) g w' SZ (ex_solution_for w mp turn) E j) as H. rewrite A in H.
  cut (nth (ROOT_DOF_NUMBER ROOT_PLANAR + joint_id ROOT_PLANAR j) (sol_x (ex_solution turn)) 0 = match j with HeadYaw => turn | _ => 0 end); [lra|destruct j; reflexivity].
Qed.
Example C88_case : exists m m', ik_load ex_junk ROOT_PLANAR (Some (ex_pepper [])) ex_pepper ex_start = Ok m /\
  kinematics ROOT_PLANAR ex_pepper /\ ready ROOT_PLANAR ex_pepper m /\ within_limits ROOT_PLANAR (ik_gc m) /\
  (forall mp, iterates ROOT_PLANAR ex_pepper m [(mp, ex_solution 1)] m') /\ angle ROOT_PLANAR (ik_gc m') HeadYaw = 1 /\
  ~ satisfies (form_jointsBounds (sol_structure (ex_solution 3)) m) (point (ex_solution 3)).
Proof.
  destruct (ik_loaded ex_junk ROOT_PLANAR ex_pepper (ex_pepper []) ex_start pepper_kinematics pepper_describes ex_start_constructed) as (m & E & RD & W & _ & A).
  set (w := mkWbc true 0 (mkMP v3zero v3zero v3zero) [] [] structure_reset). set (mp0 := mkMP v3zero v3zero v3zero).
  destruct (ik_bounds ROOT_PLANAR ex_pepper m mp0 w (ex_solution 1) pepper_kinematics RD (ex_solution_for w mp0 1)) as (g & w' & m' & N & UP & RD' & _ & _ & I & _).
  assert (AG := ex_next m mp0 w 1 g w' (proj1 RD) A N).
  exists m, m'. split; [exact E|]. split; [apply pepper_kinematics|]. split; [exact RD|]. split; [exact W|].
  split; [|split].
  - intros mp. destruct (ik_bounds ROOT_PLANAR ex_pepper m mp w (ex_solution 1) pepper_kinematics RD (ex_solution_for w mp 1)) as (g1 & w1 & m1 & N1 & UP1 & _ & _ & _ & I1 & _).
    assert (G : g1 = g).
    { revert N N1. unfold getNextGeneralizedCoordinates. cbn [wbc_update w_parsed]. cbn [negb assert_then].
      repeat match goal with |- bind ?x _ = _ -> _ => destruct x; cbn [bind]; [|discriminate|discriminate] end. congruence. }
    subst g1. rewrite UP in UP1. injection UP1 as <-.
    apply (it_step ROOT_PLANAR ex_pepper m mp w (ex_solution 1) g w1 m' [] m' (ex_solution_for w mp 1)); [|exact N1|exact UP|apply it_stop].
    apply I1. intros j. rewrite AG. destruct j; cbn; lra.
  - destruct (updateState_ok ROOT_PLANAR ex_pepper m g pepper_kinematics RD) as (m2 & E2 & _ & EG & _).
    + destruct (next_ok ROOT_PLANAR mp0 w (ex_solution 1) m (proj1 RD) (ex_solution_for w mp0 1)) as (g2 & w2 & E3 & SG & _). rewrite N in E3. injection E3 as <- _. exact SG.
    + rewrite UP in E2. injection E2 as <-. rewrite EG, AG. cbn. lra.
  - destruct (ik_bounds ROOT_PLANAR ex_pepper m mp0 w (ex_solution 3) pepper_kinematics RD (ex_solution_for w mp0 3)) as (g3 & w3 & m3 & N3 & _ & _ & _ & _ & I3 & _).
    intros H. apply I3 in H. specialize (H HeadYaw). rewrite (ex_next m mp0 w 3 g3 w3 (proj1 RD) A N3) in H. cbn in H. lra.
Qed.
(** columns of a 1 x 18 matrix (planar root) for a robot whose root is the torso *)
Example C89_case : exists M', reorderJointsColumns 0 ROOT_TORSO ROOT_PLANAR (mkMat 1 18 (fun _ j => INR j)) = Ok M' /\ mcols M' = 21%nat /\
  mget M' 0 (6 + 0) = INR (3 + 3) /\ mget M' 0 (6 + 4) = INR (3 + 0).
Proof.
  destruct (reorder_ok 0 ROOT_TORSO ROOT_PLANAR (mkMat 1 18 (fun _ j => INR j)) eq_refl) as (M' & E & _ & C & J & _). exists M'.
  split; [exact E|]. split; [exact C|]. split; [exact (J 0%nat HeadYaw)|exact (J 0%nat KneePitch)].
Qed.

Print Assumptions C88_loaded. Print Assumptions C88_load_refused. Print Assumptions C88_bounds. Print Assumptions C88_check. Print Assumptions C88_history. Print Assumptions C88_default. Print Assumptions C88_fix. Print Assumptions C88_reference. Print Assumptions C89_columns. Print Assumptions C89_back.
