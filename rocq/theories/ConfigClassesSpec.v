(** * Vocabulary for the configurable classes of the library *)
From Coq Require Import String List ZArith Arith Reals Bool.
From Verif Require Import Base RSum Matrix Mat2 Config ConfigSpec ConfigClasses.
Import ListNotations.
Open Scope list_scope.

(** the entries have their types *)
Definition typed (K : kclass) (o : object K) : Prop := have_types (c_entries (k_cls K)) (fst o).
(** the other members are up to date: finalize() would change nothing *)
Definition up_to_date (K : kclass) (o : object K) : Prop := k_final_hidden K (fst o) (snd o) = snd o.
(** the values are accepted by finalize() *)
Definition valid (K : kclass) (o : object K) : Prop := c_finalize (k_cls K) (fst o) = true.

(** an object saved in a file, among others, and restored in any object of its class is the same object *)
Definition restored_in_full (K : kclass) : Prop := forall objs name (o old : object K) crash,
  NoDup (map section_name objs) -> In (name, k_cls K, fst o) objs -> typed K o -> valid K o -> up_to_date K o -> typed K old ->
  k_read K name crash old (msgpack_file objs) = (msgpack_file objs, Done o).
(** YAML: the same with formatted numbers; the other members correspond to the restored numbers *)
Definition restored_yaml (K : kclass) : Prop := forall fmt objs name (o old : object K) crash,
  NoDup (map section_name objs) -> In (name, k_cls K, fst o) objs -> typed K o ->
  c_finalize (k_cls K) (map (stored fmt) (fst o)) = true -> typed K old ->
  exists h, k_read K name crash old (yaml_file fmt objs) = (yaml_file fmt objs, Done (map (stored fmt) (fst o), h)) /\
            up_to_date K (map (stored fmt) (fst o), h).
(** if the section is missing, a relaxed read gives the object made by the constructor, whatever it was before *)
Definition reset_if_missing (K : kclass) : Prop := forall name (old : object K) r,
  typed K old -> finds_nothing r name -> k_read K name false old r = (r, Done (k_new K)).
(** the values expected from a section in which only the entries with the names [keep] are left: those of the other entries are [dvs] *)
Fixpoint filled_entry (fmt : R -> R) (keep : string -> bool) (e : entry) (v dv : value) {struct e} : value :=
  let go := fix go (es : list entry) (vs dvs : list value) {struct es} : list value :=
    match es, vs, dvs with
    | e :: es', v :: vs', d :: dvs' => filled_entry fmt keep e v d :: go es' vs' dvs'
    | _, _, _ => []
    end in
  match e, v, dv with
  | EParent es, VObject vs, VObject dvs => VObject (go es vs dvs)
  | _, _, _ => if forallb keep (names_of e) then stored fmt v else dv
  end.
Fixpoint filled (fmt : R -> R) (keep : string -> bool) (es : list entry) (vs dvs : list value) {struct es} : list value :=
  match es, vs, dvs with
  | e :: es', v :: vs', d :: dvs' => filled_entry fmt keep e v d :: filled fmt keep es' vs' dvs'
  | _, _, _ => []
  end.
(** a relaxed read of a section from which entries have been removed: the entries which are left are read, the others are those of the
    object made by the constructor, whatever they were before; the other members are up to date *)
Definition others_by_default (K : kclass) : Prop := forall fmt keep name (o old : object K) r,
  let vs := filled fmt keep (c_entries (k_cls K)) (fst o) (fst (k_new K)) in
  typed K o -> c_finalize (k_cls K) (map (stored fmt) (fst o)) = true -> typed K old -> c_finalize (k_cls K) vs = true ->
  finds r name (filter (fun p => keep (fst p)) (section_of fmt (k_cls K) (fst o))) ->
  exists h, k_read K name false old r = (r, Done (vs, h)) /\ up_to_date K (vs, h).

(** the classes whose members are all entries or computed from them *)
Definition complete_classes (nan : R) (root joints : list R) (qpmad qpoases : list value) : list kclass :=
  [PointMassState; RotaryState; RigidBodyState; RigidBodyPose nan; RobotFootParameters; StanceFSMParameters; WalkParameters;
   WalkMPCParameters; WalkModelState nan; PepperMotionParameters; PepperMPCParameters; PepperModelState; WBCParameters; IkMotionParameters;
   GeneralizedCoordinates root joints; SolverParametersBase; QuadProgppSolverParameters; QpmadSolverParameters qpmad;
   QpoasesSolverParameters qpoases].
(** the classes which are reset completely *)
Definition reset_classes (nan : R) (root joints : list R) : list kclass :=
  [PointMassState; RotaryState; RigidBodyState; RigidBodyPose nan; RobotFootParameters; StanceFSMParameters; WalkParameters;
   WalkMPCParameters; WalkModelState nan; PepperRobotParameters; PepperMotionParameters; PepperMPCParameters; PepperModelState; IkMotionParameters;
   GeneralizedCoordinates root joints; SolverParametersBase].
(** those of them without nested objects *)
Definition flat_classes (nan : R) (root joints : list R) : list kclass :=
  [PointMassState; RotaryState; RigidBodyState; RigidBodyPose nan; RobotFootParameters; StanceFSMParameters; WalkParameters;
   WalkMPCParameters; PepperRobotParameters; PepperMotionParameters; PepperMPCParameters; IkMotionParameters;
   GeneralizedCoordinates root joints; SolverParametersBase].
(** default parameters of qpmad and qpOASES are of the declared types *)
Definition qpmad_defaults (d : list value) : Prop := exists h t n, d = [VEnum h; VScalar (SReal t); VScalar (SInt n)].
Definition qpoases_defaults (d : list value) : Prop := have_types qpoases_entries d.
