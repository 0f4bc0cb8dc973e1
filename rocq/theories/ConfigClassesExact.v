(** * Configurable classes which are not restored, or not reset *)
From Coq Require Import String List ZArith Arith Reals Bool Lia Lra FunctionalExtensionality.
From Verif Require Import Base RSum Matrix Mat2 FootParameters PepperTasks Config ConfigSpec ConfigFacts ConfigClasses ConfigClassesSpec ConfigClassesFacts.
Import ListNotations.
Local Open Scope nat_scope.
Local Open Scope list_scope.

Lemma stored_id K (vs : list value) : forallb no_matrix (c_entries (k_cls K)) = true -> have_types (c_entries (k_cls K)) vs ->
  map (stored (fun x => x)) vs = vs.
Proof.
  intros N T. apply stored_fix_list; [|reflexivity]. intros v Iv. revert v Iv. apply (no_matrix_list (c_entries (k_cls K))); [|exact N|exact T].
  intros e _ He. apply no_matrix_free. exact He.
Qed.
Lemma exact_free K objs name (o old : object K) crash : regular K -> forallb no_matrix (c_entries (k_cls K)) = true ->
  (forall l, c_finalize (k_cls K) l = true) ->
  NoDup (map section_name objs) -> In (name, k_cls K, fst o) objs -> typed K o -> typed K old ->
  k_read K name crash old (msgpack_file objs) =
    (msgpack_file objs, Done (fst o, k_final_hidden K (fst o) (k_default_hidden K (c_defaults (k_cls K) (fst old)) (snd old)))).
Proof.
  intros G N F ND I T T2. rewrite (msgpack_exact K objs name o old crash G ND I T (F _) T2), (stored_id K _ N T). reflexivity.
Qed.
Lemma kkt_lost (objs : list (string * cls * list value)) (name : string) (o old : object KktSolverParameters) (crash : bool) :
  NoDup (map section_name objs) -> In (name, k_cls KktSolverParameters, fst o) objs -> typed KktSolverParameters o ->
  typed KktSolverParameters old ->
  k_read KktSolverParameters name crash old (msgpack_file objs) = (msgpack_file objs, Done (fst o, (M_LU, 1e-08%R))).
Proof. intros. apply (exact_free KktSolverParameters); auto. apply regular_KktSolverParameters. Qed.
Lemma solution_kept (objs : list (string * cls * list value)) (name : string) (o old : object SolutionClass) (crash : bool) :
  NoDup (map section_name objs) -> In (name, k_cls SolutionClass, fst o) objs -> typed SolutionClass o -> typed SolutionClass old ->
  k_read SolutionClass name crash old (msgpack_file objs) = (msgpack_file objs, Done (fst o, snd old)).
Proof. intros. apply (exact_free SolutionClass); auto. apply regular_SolutionClass. Qed.
Lemma obstacle_kept (objs : list (string * cls * list value)) (name : string) (o old : object ObstacleBase) (crash : bool) :
  NoDup (map section_name objs) -> In (name, k_cls ObstacleBase, fst o) objs -> typed ObstacleBase o -> typed ObstacleBase old ->
  k_read ObstacleBase name crash old (msgpack_file objs) = (msgpack_file objs, Done (fst o, snd old)).
Proof. intros. apply (exact_free ObstacleBase); auto. apply regular_ObstacleBase. Qed.

Definition one_file (K : kclass) (o : object K) : list (string * cls * list value) := [("s"%string, k_cls K, fst o)].
Lemma one_nodup K o : NoDup (map section_name (one_file K o)).
Proof. constructor; [intros []|constructor]. Qed.
Lemma one_in K o : In ("s"%string, k_cls K, fst o) (one_file K o).
Proof. left. reflexivity. Qed.
Lemma base_types b c : have_types [parent SolverParametersBase] [VObject [bool_ b; bool_ c]].
Proof. cbn. intuition. Qed.
Lemma kkt_not_restored : ~ restored_in_full KktSolverParameters.
Proof.
  intros H. set (o := (fst (k_new KktSolverParameters), (M_QR, 1%R)) : object KktSolverParameters).
  specialize (H (one_file _ o) "s"%string o o true (one_nodup _ _) (one_in _ _) (base_types true true) eq_refl eq_refl (base_types true true)).
  rewrite (kkt_lost (one_file _ o) "s"%string o o true (one_nodup _ _) (one_in _ _) (base_types true true) (base_types true true)) in H.
  injection H. discriminate.
Qed.
Lemma solution_not_restored : ~ restored_in_full SolutionClass.
Proof.
  intros H. set (o := ([VVector []], ([], 0%Z)) : object SolutionClass). set (old := ([VVector []], ([], 1%Z)) : object SolutionClass).
  assert (T : typed SolutionClass o) by (cbn; auto). assert (T2 : typed SolutionClass old) by (cbn; auto).
  specialize (H (one_file _ o) "s"%string o old true (one_nodup _ _) (one_in _ _) T eq_refl eq_refl T2).
  rewrite (solution_kept (one_file _ o) "s"%string o old true (one_nodup _ _) (one_in _ _) T T2) in H. injection H. discriminate.
Qed.
Lemma obstacle_not_restored : ~ restored_in_full ObstacleBase.
Proof.
  intros H. set (o := k_new ObstacleBase : object ObstacleBase).
  set (old := (fst (k_new ObstacleBase), (mzero 0 0, [1%R])) : object ObstacleBase).
  assert (T : typed ObstacleBase o) by (cbn; intuition). assert (T2 : typed ObstacleBase old) by (cbn; intuition).
  specialize (H (one_file _ o) "s"%string o old true (one_nodup _ _) (one_in _ _) T eq_refl eq_refl T2).
  rewrite (obstacle_kept (one_file _ o) "s"%string o old true (one_nodup _ _) (one_in _ _) T T2) in H. injection H. discriminate.
Qed.

(** the matrix of the bounds of a body *)
Lemma columns_transposed f : meq (rows_from 2 2 (columns_of (mkMat 2 2 f))) (mkMat 2 2 (fun i j => f j i)).
Proof.
  repeat split. intros i j Hi Hj. cbn in Hi, Hj. destruct i as [|[|i]]; [| |lia]; (destruct j as [|[|j]]; [| |lia]); reflexivity.
Qed.
Lemma stored_scalar n k v : has_type (EScalar n k) v -> stored (fun x => x) v = v.
Proof. destruct v as [[]| | | | |]; cbn; try contradiction; reflexivity. Qed.
Definition bounds_of (o : object PepperRobotParameters) : mat := match nth_error (fst o) 5 with Some (VMatrix m) => m | _ => mzero 0 0 end.
Lemma robot_parameters_transposed (objs : list (string * cls * list value)) (name : string) (o old : object PepperRobotParameters) (crash : bool) (f : nat -> nat -> R) :
  NoDup (map section_name objs) -> In (name, k_cls PepperRobotParameters, fst o) objs -> typed PepperRobotParameters o ->
  typed PepperRobotParameters old -> bounds_of o = mkMat 2 2 f ->
  exists o2, k_read PepperRobotParameters name crash old (msgpack_file objs) = (msgpack_file objs, Done o2) /\
    meq (bounds_of o2) (mkMat 2 2 (fun i j => f j i)) /\ firstn 5 (fst o2) = firstn 5 (fst o).
Proof.
  intros ND I T T2 B. eexists. split; [exact (msgpack_exact _ objs name o old crash regular_PepperRobotParameters ND I T eq_refl T2)|].
  cbn [k_final_hidden]. unfold bounds_of in B |- *. cbn [fst]. destruct o as [vs h]. cbn [fst] in *. unfold typed in T. cbn [fst] in T.
  destruct vs as [|v0 [|v1 [|v2 [|v3 [|v4 [|v5 [|v6 l]]]]]]]; cbn [have_types k_cls c_entries PepperRobotParameters derived] in T; try tauto.
  destruct T as (T0 & T1 & T3 & T4 & T5 & T6 & _). destruct v5; try contradiction. cbn in B. subst m. cbn [map nth_error stored].
  split.
  - rewrite map_id. apply columns_transposed.
  - cbn [firstn map]. rewrite (stored_scalar _ _ _ T0), (stored_scalar _ _ _ T1), (stored_scalar _ _ _ T3), (stored_scalar _ _ _ T4), (stored_scalar _ _ _ T5). reflexivity.
Qed.
Lemma new_robot_typed : typed PepperRobotParameters (k_new PepperRobotParameters).
Proof. cbn. intuition. Qed.
Lemma robot_parameters_not_restored : ~ restored_in_full PepperRobotParameters.
Proof.
  intros H. set (o := k_new PepperRobotParameters : object PepperRobotParameters).
  specialize (H (one_file _ o) "s"%string o o true (one_nodup _ _) (one_in _ _) new_robot_typed eq_refl eq_refl new_robot_typed).
  destruct (robot_parameters_transposed (one_file _ o) "s"%string o o true _ (one_nodup _ _) (one_in _ _) new_robot_typed new_robot_typed eq_refl)
    as (o2 & E & [_ [_ M]] & _).
  rewrite E in H. injection H as H. subst o2. specialize (M 0 1 ltac:(cbn; lia) ltac:(cbn; lia)). cbn in M. lra.
Qed.

(** ** reset *)
(** what is left of a solver's parameters: the parent's *)
Definition base_of {K : kclass} (o : object K) : option value := hd_error (fst o).
Lemma solver_parameters_kept (d d2 : list value) (K : kclass) (name : string) (old : object K) (r : reader) :
  In K [KktSolverParameters; QuadProgppSolverParameters; QpmadSolverParameters d; QpoasesSolverParameters d2] -> finds_nothing r name ->
  typed K old -> exists o2, k_read K name false old r = (r, Done o2) /\ base_of o2 = base_of old.
Proof.
  intros I N T. eexists. split; [apply missing_exact; exact N|]. unfold base_of. cbn [fst].
  cbn [In] in I. destruct I as [<- | [<- | [<- | [<- | []]]]]; destruct old as [[|b l] h]; cbn in T |- *; try contradiction; reflexivity.
Qed.
Definition nothing : reader := mkReader [] [NMap []].
Lemma nothing_found name : finds_nothing nothing name.
Proof. cbn. auto. Qed.
Lemma not_reset K (old : object K) : typed K old -> base_of old <> base_of (K := K) (k_new K) ->
  (exists o2, k_read K "s" false old nothing = (nothing, Done o2) /\ base_of o2 = base_of old) -> ~ reset_if_missing K.
Proof.
  intros T B [o2 [E F]] H. rewrite (H "s"%string old nothing T (nothing_found _)) in E. injection E as <-. congruence.
Qed.
Definition no_crash : value := VObject [bool_ false; bool_ true].
Lemma solver_parameters_not_reset (d d2 : list value) (K : kclass) : qpmad_defaults d -> qpoases_defaults d2 ->
  In K [KktSolverParameters; QuadProgppSolverParameters; QpmadSolverParameters d; QpoasesSolverParameters d2] -> ~ reset_if_missing K.
Proof.
  intros (a & b & c & ->) D2 I.
  assert (E : exists old : object K, typed K old /\ base_of old <> base_of (K := K) (k_new K)).
  { cbn [In] in I. destruct I as [<- | [<- | [<- | [<- | []]]]].
    - exists ([no_crash], (M_LU, 0%R)). split; [cbn; intuition|discriminate].
    - exists ([no_crash; real 0], tt). split; [cbn; intuition|discriminate].
    - exists ([no_crash; real 0; VObject [VEnum a; VScalar (SReal b); VScalar (SInt c)]], tt). split; [cbn; intuition|discriminate].
    - exists ([no_crash; int 0; real 0; VObject d2], tt). split; [cbn; intuition|discriminate]. }
  destruct E as (old & T & B). apply (not_reset K old T B). apply (solver_parameters_kept _ _ K "s"%string old nothing I (nothing_found _) T).
Qed.
(** the other members of the parameters of whole body control *)
Lemma wbc_stale (name : string) (old : object WBCParameters) (r : reader) : finds_nothing r name ->
  k_read WBCParameters name false old r = (r, Done (fst (k_new WBCParameters), snd old)).
Proof. intros N. apply (missing_exact WBCParameters). exact N. Qed.
Lemma wbc_not_reset : ~ reset_if_missing WBCParameters.
Proof.
  intros H. set (old := ([int 20; real 0; real 0; int 0], to_seconds 20) : object WBCParameters).
  assert (T : typed WBCParameters old) by (cbn; intuition).
  specialize (H "s"%string old nothing T (nothing_found _)). rewrite (wbc_stale _ _ _ (nothing_found _)) in H. injection H. unfold to_seconds. lra.
Qed.
(** solutions *)
Lemma solution_unchanged (name : string) (old : object SolutionClass) (r : reader) : finds_nothing r name ->
  k_read SolutionClass name false old r = (r, Done old).
Proof. intros N. rewrite (missing_exact SolutionClass name old r N). destruct old. reflexivity. Qed.

(** nested objects *)
Definition com_height (o : list value) : option R :=
  match nth_error o 2 with Some (VObject (VVector [_; _; z] :: _)) => Some z | _ => None end.
Definition without (n : string) (x : string) : bool := negb (String.eqb x n).
Lemma relaxed_exact K fmt keep name (o old : object K) r : regular K -> typed K o -> (forall l, c_finalize (k_cls K) l = true) -> typed K old ->
  finds r name (filter (fun p => keep (fst p)) (section_of fmt (k_cls K) (fst o))) ->
  exists h, k_read K name false old r = (r, Done (patched_list fmt keep (c_entries (k_cls K)) (fst o) (c_defaults (k_cls K) (fst old)), h)).
Proof.
  intros G T V T2 F. eexists. unfold k_read.
  rewrite (relaxed_read_at fmt keep (k_cls K) (fst o) (fst old) name r (proj1 G) (regular_readable K _ _ G T (V _)) T2).
  - reflexivity.
  - split; [apply V|intros _; exact V].
  - exact F.
Qed.
Lemma height_forgotten (nan : R) (fmt : R -> R) (name : string) (o old : object (WalkModelState nan)) (r : reader) :
  typed (WalkModelState nan) o -> typed (WalkModelState nan) old ->
  finds r name (filter (fun p => without "com_state" (fst p)) (section_of fmt (k_cls (WalkModelState nan)) (fst o))) ->
  exists o2, k_read (WalkModelState nan) name false old r = (r, Done o2) /\ com_height (fst o2) = Some 0%R /\
             com_height (fst (k_new (WalkModelState nan))) = Some 0.814%R.
Proof.
  intros T T2 F. destruct (relaxed_exact (WalkModelState nan) fmt (without "com_state") name o old r) as [h E];
    [apply regular_WalkModelState|exact T|reflexivity|exact T2|exact F|].
  eexists. split; [exact E|]. split; [|reflexivity]. destruct o as [vs ho]. unfold typed in T. cbn [fst] in *.
  destruct vs as [|v0 [|v1 [|v2 [|v3 [|v4 [|v5 l]]]]]]; cbn in T; tauto.
Qed.
Lemma walk_state_typed nan : typed (WalkModelState nan) (k_new (WalkModelState nan)).
Proof. cbn. intuition. Qed.
Lemma walk_state_not_filled (nan : R) : ~ others_by_default (WalkModelState nan).
Proof.
  intros H. set (o := k_new (WalkModelState nan)). set (fmt := fun x : R => x).
  set (l := filter (fun p => without "com_state" (fst p)) (section_of fmt (k_cls (WalkModelState nan)) (fst o))).
  set (r := mkReader [] [NMap [("s"%string, NMap l)]]).
  assert (F : finds r "s" l) by (exists [], []; split; [reflexivity|intros []]).
  destruct (H fmt (without "com_state") "s"%string o o r (walk_state_typed nan) eq_refl (walk_state_typed nan) eq_refl F) as [h [E _]].
  destruct (height_forgotten nan fmt "s"%string o o r (walk_state_typed nan) (walk_state_typed nan) F) as (o2 & E2 & Z & _).
  rewrite E in E2. injection E2 as <-. cbn in Z. injection Z. lra.
Qed.
