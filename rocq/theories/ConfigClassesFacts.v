(** * Proofs about the configurable classes of the library *)
From Coq Require Import String List ZArith Arith Reals Bool Lia Lra FunctionalExtensionality.
From Verif Require Import Base RSum Matrix Mat2 FootParameters PepperTasks Config ConfigSpec ConfigFacts ConfigClasses ConfigClassesSpec.
Import ListNotations.
Local Open Scope nat_scope.
Local Open Scope list_scope.

(** what is needed of a class *)
Definition regular (K : kclass) : Prop :=
  wf_class (k_cls K) /\
  (forall fmt vs, have_types (c_entries (k_cls K)) vs -> all_accepted fmt (c_entries (k_cls K)) vs) /\
  (has_parent (c_entries (k_cls K)) = true -> forall l, c_finalize (k_cls K) l = true).
Lemma regular_readable K fmt vs : regular K -> have_types (c_entries (k_cls K)) vs -> c_finalize (k_cls K) (map (stored fmt) vs) = true ->
  readable fmt (k_cls K) vs.
Proof. intros [W [A F]] T V. split; [exact T|]. split; [apply A, T|]. split; assumption. Qed.

Lemma found_hidden r name l : finds r name l -> exists r1, descend name r = Some r1.
Proof. intros F. apply finds_descend in F. eexists. exact F. Qed.
Lemma msgpack_has objs name c vs : NoDup (map section_name objs) -> In (name, c, vs) objs -> exists r1, descend name (msgpack_file objs) = Some r1.
Proof. intros ND I. eapply found_hidden. apply msgpack_finds; eassumption. Qed.
Lemma yaml_has fmt objs name c vs : NoDup (map section_name objs) -> In (name, c, vs) objs -> exists r1, descend name (yaml_file fmt objs) = Some r1.
Proof. intros ND I. eapply found_hidden. apply yaml_finds; eassumption. Qed.

(** the exact results *)
Lemma msgpack_exact K objs name (o old : object K) crash : regular K ->
  NoDup (map section_name objs) -> In (name, k_cls K, fst o) objs -> typed K o -> c_finalize (k_cls K) (map (stored (fun x => x)) (fst o)) = true ->
  typed K old ->
  k_read K name crash old (msgpack_file objs) =
    (msgpack_file objs,
     Done (map (stored (fun x => x)) (fst o),
           k_final_hidden K (map (stored (fun x => x)) (fst o)) (k_default_hidden K (c_defaults (k_cls K) (fst old)) (snd old)))).
Proof.
  intros G ND I T V T2. unfold k_read.
  rewrite (msgpack_round_trip_matrices objs name (k_cls K) (fst o) (fst old) crash ND I (proj1 G) (regular_readable K _ _ G T V) T2).
  destruct (msgpack_has _ _ _ _ ND I) as [r1 ->]. reflexivity.
Qed.
Lemma yaml_exact K fmt objs name (o old : object K) crash : regular K ->
  NoDup (map section_name objs) -> In (name, k_cls K, fst o) objs -> typed K o -> c_finalize (k_cls K) (map (stored fmt) (fst o)) = true ->
  typed K old ->
  k_read K name crash old (yaml_file fmt objs) =
    (yaml_file fmt objs,
     Done (map (stored fmt) (fst o),
           k_final_hidden K (map (stored fmt) (fst o)) (k_default_hidden K (c_defaults (k_cls K) (fst old)) (snd old)))).
Proof.
  intros G ND I T V T2. unfold k_read.
  rewrite (yaml_round_trip fmt objs name (k_cls K) (fst o) (fst old) crash ND I (proj1 G) (regular_readable K _ _ G T V) T2).
  destruct (yaml_has fmt _ _ _ _ ND I) as [r1 ->]. reflexivity.
Qed.
Lemma missing_exact K name (old : object K) r : finds_nothing r name ->
  k_read K name false old r = (r, Done (c_defaults (k_cls K) (fst old), k_default_hidden K (c_defaults (k_cls K) (fst old)) (snd old))).
Proof.
  intros N. unfold k_read. rewrite (missing_section _ _ _ _ _ N). apply finds_nothing_descend in N. rewrite N. reflexivity.
Qed.

(** values without matrices are restored exactly *)
Fixpoint no_matrix (e : entry) : bool :=
  match e with EMatrix _ => false | EParent es => forallb no_matrix es | EMember _ es _ _ => forallb no_matrix es | _ => true end.
Lemma no_matrix_list es : (forall e, In e es -> no_matrix e = true -> forall v, has_type e v -> matrix_free v) ->
  forallb no_matrix es = true -> forall vs, have_types es vs -> forall v, In v vs -> matrix_free v.
Proof.
  induction es as [|e es IH]; intros H N [|v vs] T w I; cbn in T; try contradiction.
  cbn in N. apply andb_prop in N. destruct N as [N1 N2], T as [T1 T2]. destruct I as [<-|I].
  - exact (H e (or_introl eq_refl) N1 v T1).
  - apply (IH (fun e' I' => H e' (or_intror I')) N2 vs T2 w I).
Qed.
Lemma fold_free l : (forall v, In v l -> matrix_free v) -> fold_right (fun x P => matrix_free x /\ P) True l.
Proof. induction l as [|a l IH]; intros H; cbn; [exact I|]. split; [apply H; left; reflexivity|apply IH; intros v Hv; apply H; right; exact Hv]. Qed.
Lemma no_matrix_free e : no_matrix e = true -> forall v, has_type e v -> matrix_free v.
Proof.
  induction e as [n k|n|n s|n k|n|es IH|n es f d IH] using entry_rect'; intros N v T; destruct v; cbn in T; try contradiction; try exact I;
    try discriminate; cbn in N; cbn [matrix_free]; apply fold_free; eapply no_matrix_list; eauto.
Qed.

Definition by_values (K : kclass) : Prop := forall vs h h', k_final_hidden K vs h = k_final_hidden K vs h'.
Lemma restored_if K : regular K -> forallb no_matrix (c_entries (k_cls K)) = true -> by_values K -> restored_in_full K.
Proof.
  intros G N D objs name o old crash ND I T V U T2.
  assert (Z : map (stored (fun x => x)) (fst o) = fst o).
  { apply stored_fix_list; [|reflexivity]. intros v Iv. revert v Iv. apply (no_matrix_list (c_entries (k_cls K))); [|exact N|exact T].
    intros e _ He. apply no_matrix_free. exact He. }
  rewrite (msgpack_exact K objs name o old crash G ND I T); [|rewrite Z; exact V|exact T2].
  rewrite Z. do 2 f_equal. destruct o as [vs h]. cbn. f_equal. exact (eq_trans (D _ _ _) U).
Qed.
Lemma yaml_if K : regular K -> by_values K -> restored_yaml K.
Proof.
  intros G D fmt objs name o old crash ND I T V T2. eexists. split; [apply yaml_exact; assumption|]. unfold up_to_date. cbn [fst snd]. apply D.
Qed.
Lemma reset_if K : (forall (old : object K), c_defaults (k_cls K) (fst old) = fst (k_new K)) ->
  (forall h, k_default_hidden K (fst (k_new K)) h = snd (k_new K)) -> reset_if_missing K.
Proof.
  intros D H name old r T N. rewrite (missing_exact K name old r N), D, H. rewrite <- surjective_pairing. reflexivity.
Qed.

(** classes without nested objects *)
Fixpoint flat (e : entry) : bool := match e with EMember _ _ _ _ => false | EParent es => forallb flat es | _ => true end.
Lemma filled_list_patched fmt keep es : (forall e, In e es -> flat e = true -> forall v d, patched fmt keep e v d = filled_entry fmt keep e v d) ->
  forallb flat es = true -> forall vs ds, patched_list fmt keep es vs ds = filled fmt keep es vs ds.
Proof.
  induction es as [|e es IH]; intros H N vs ds; [destruct vs; reflexivity|]. destruct vs as [|v vs], ds as [|d ds]; try reflexivity.
  cbn in N. apply andb_prop in N. destruct N as [N1 N2]. cbn. f_equal; [apply H; [left; reflexivity|exact N1]|].
  apply IH; [|exact N2]. intros e' I. apply H. right. exact I.
Qed.
Lemma patched_go fmt keep es vs ds :
  (fix go (es : list entry) (vs dvs : list value) {struct es} : list value :=
    match es, vs, dvs with
    | e :: es', v :: vs', d :: dvs' => filled_entry fmt keep e v d :: go es' vs' dvs'
    | _, _, _ => []
    end) es vs ds = filled fmt keep es vs ds.
Proof. revert vs ds. induction es as [|e es IH]; intros vs ds; [destruct vs; reflexivity|]. destruct vs, ds; try reflexivity. cbn. f_equal. apply IH. Qed.
Lemma filled_patched fmt keep e : flat e = true -> forall v d, patched fmt keep e v d = filled_entry fmt keep e v d.
Proof.
  induction e as [n k|n|n s|n k|n|es IH|n es f d IH] using entry_rect'; intros N v w; try discriminate; try (destruct v, w; reflexivity).
  destruct v as [| | | | |vs]; try (destruct w; reflexivity). destruct w as [| | | | |ds]; try reflexivity.
  rewrite patched_parent. cbn [filled_entry]. rewrite patched_go. f_equal. apply filled_list_patched; [|exact N].
  intros e I. apply IH. exact I.
Qed.
Lemma others_if K : regular K -> by_values K -> forallb flat (c_entries (k_cls K)) = true ->
  (forall (old : object K), c_defaults (k_cls K) (fst old) = fst (k_new K)) -> others_by_default K.
Proof.
  intros G D N E fmt keep name o old r vs T V T2 V2 F.
  assert (Z : patched_list fmt keep (c_entries (k_cls K)) (fst o) (c_defaults (k_cls K) (fst old)) = vs).
  { rewrite E. apply filled_list_patched; [|exact N]. intros e _ He. apply filled_patched. exact He. }
  eexists. unfold k_read. rewrite (relaxed_read_at fmt keep (k_cls K) (fst o) (fst old) name r (proj1 G) (regular_readable K _ _ G T V) T2).
  - rewrite Z. destruct (found_hidden _ _ _ F) as [r1 ->]. split; [reflexivity|]. unfold up_to_date. cbn [fst snd]. apply D.
  - rewrite Z. split; [exact V2|apply G].
  - exact F.
Qed.


(** nested objects whose finalize() accepts everything *)
Fixpoint lenient (e : entry) : Prop :=
  match e with
  | EParent es => fold_right (fun e P => lenient e /\ P) True es
  | EMember _ es f _ => (forall l, f l = true) /\ fold_right (fun e P => lenient e /\ P) True es
  | _ => True
  end.
Lemma lenient_all fmt es : (forall e, In e es -> lenient e -> forall v, accepted fmt e v) -> fold_right (fun e P => lenient e /\ P) True es ->
  forall vs, all_accepted fmt es vs.
Proof.
  induction es as [|e es IH]; intros H L [|v vs]; cbn in L |- *; try exact I. destruct L as [L1 L2].
  split; [apply H; [left; reflexivity|exact L1]|]. apply IH; [|exact L2]. intros e' J. apply H. right. exact J.
Qed.
Lemma lenient_accepted fmt e : lenient e -> forall v, accepted fmt e v.
Proof.
  induction e as [n k|n|n s|n k|n|es IH|n es f d IH] using entry_rect'; intros L v; try exact I; destruct v as [| | | | |vs]; try exact I; cbn in L.
  - rewrite accepted_parent. apply lenient_all; [|exact L]. intros e J. exact (IH e J).
  - rewrite accepted_member. destruct L as [L1 L2]. split; [split; [apply L1|intros _; exact L1]|].
    apply lenient_all; [|exact L2]. intros e J. exact (IH e J).
Qed.
Lemma regular_if K : wf_class (k_cls K) -> fold_right (fun e P => lenient e /\ P) True (c_entries (k_cls K)) ->
  (has_parent (c_entries (k_cls K)) = true -> forall l, c_finalize (k_cls K) l = true) -> regular K.
Proof. intros W L F. split; [exact W|]. split; [|exact F]. intros fmt vs _. apply lenient_all; [|exact L]. intros e _. apply lenient_accepted. Qed.

(** ** the classes *)
Ltac distinct := repeat (constructor; [cbn; intuition discriminate|]); constructor.
Ltac wf := repeat match goal with
  | |- _ /\ _ => split
  | |- NoDup _ => distinct
  | |- forall l : list value, _ -> _ => let l := fresh "l" in let T := fresh "T" in intros l T; cbn; intuition auto
  | |- True => exact I
  | |- wf_entry _ => cbn
  | |- fold_right _ _ _ => cbn
  end.
Ltac reg := apply regular_if; [unfold wf_class; cbn [wf_entry k_cls c_entries c_finalize c_defaults plain derived]; wf|cbn; intuition auto|cbn; intros; try discriminate; reflexivity].
Lemma regular_PointMassState : regular PointMassState. Proof. reg. Qed.
Lemma regular_RotaryState : regular RotaryState. Proof. reg. Qed.
Lemma regular_RigidBodyState : regular RigidBodyState. Proof. reg. Qed.
Lemma regular_RigidBodyPose nan : regular (RigidBodyPose nan). Proof. reg. Qed.
Lemma regular_ObstacleBase : regular ObstacleBase. Proof. reg. Qed.
Lemma regular_RobotFootParameters : regular RobotFootParameters. Proof. reg. Qed.
Lemma regular_StanceFSMParameters : regular StanceFSMParameters. Proof. reg. Qed.
Lemma regular_WalkParameters : regular WalkParameters. Proof. reg. Qed.
Lemma regular_WalkMPCParameters : regular WalkMPCParameters. Proof. reg. Qed.
Lemma regular_WalkModelState nan : regular (WalkModelState nan). Proof. reg. Qed.
Lemma regular_PepperRobotParameters : regular PepperRobotParameters. Proof. reg. Qed.
Lemma regular_PepperMotionParameters : regular PepperMotionParameters. Proof. reg. Qed.
Lemma regular_PepperMPCParameters : regular PepperMPCParameters. Proof. reg. Qed.
Lemma regular_PepperModelState : regular PepperModelState. Proof. reg. Qed.
Lemma regular_WBCParameters : regular WBCParameters. Proof. reg. Qed.
Lemma regular_IkMotionParameters : regular IkMotionParameters. Proof. reg. Qed.
Lemma regular_GeneralizedCoordinates root joints : regular (GeneralizedCoordinates root joints). Proof. reg. Qed.
Lemma regular_SolverParametersBase : regular SolverParametersBase. Proof. reg. Qed.
Ltac reg2 := apply regular_if; [unfold wf_class; split; [distinct|split; [|wf]]|cbn; intuition auto|cbn; intros; try discriminate; reflexivity].
Lemma regular_KktSolverParameters : regular KktSolverParameters.
Proof. reg2. intros [|b [|c l]]; cbn; intuition auto. Qed.
Lemma regular_QuadProgppSolverParameters : regular QuadProgppSolverParameters.
Proof. reg2. intros [|b [|c [|d l]]]; cbn; intuition auto. Qed.
Lemma regular_QpmadSolverParameters d : regular (QpmadSolverParameters d).
Proof. reg2. intros [|b [|c [|e [|f l]]]]; cbn; intuition auto. Qed.
Lemma regular_QpoasesSolverParameters d : qpoases_defaults d -> regular (QpoasesSolverParameters d).
Proof.
  intros D. apply regular_if; [|cbn; intuition auto|cbn; intros; reflexivity].
  unfold wf_class. split; [distinct|split].
  - intros [|b [|c [|e [|f [|g l]]]]]; cbn; intuition auto.
  - wf.
Qed.
Lemma regular_SolutionClass : regular SolutionClass.
Proof. reg2. intros l T. exact T. Qed.

Ltac each I := cbn [In complete_classes reset_classes flat_classes] in I; repeat match type of I with _ \/ _ => destruct I as [<- | I] end; [..|contradiction].
Lemma all_regular nan root joints qpmad qpoases K : qpoases_defaults qpoases -> In K (complete_classes nan root joints qpmad qpoases) -> regular K.
Proof.
  intros D I. each I; first [apply regular_PointMassState|apply regular_RotaryState|apply regular_RigidBodyState|apply regular_RigidBodyPose|
    apply regular_RobotFootParameters|apply regular_StanceFSMParameters|apply regular_WalkParameters|apply regular_WalkMPCParameters|
    apply regular_WalkModelState|apply regular_PepperMotionParameters|apply regular_PepperMPCParameters|apply regular_PepperModelState|
    apply regular_WBCParameters|apply regular_IkMotionParameters|apply regular_GeneralizedCoordinates|apply regular_SolverParametersBase|
    apply regular_QuadProgppSolverParameters|apply regular_QpmadSolverParameters|apply regular_QpoasesSolverParameters; exact D].
Qed.
Ltac values := intros vs h h'; try reflexivity; destruct h, h'; reflexivity.
Lemma all_by_values nan root joints qpmad qpoases K : In K (complete_classes nan root joints qpmad qpoases) -> by_values K.
Proof. intros I. each I; values. Qed.
Lemma all_no_matrix nan root joints qpmad qpoases K : In K (complete_classes nan root joints qpmad qpoases) ->
  forallb no_matrix (c_entries (k_cls K)) = true.
Proof. intros I. each I; reflexivity. Qed.

Lemma classes_restored (nan : R) (root joints : list R) (qpmad qpoases : list value) (K : kclass) : qpoases_defaults qpoases ->
  In K (complete_classes nan root joints qpmad qpoases) -> restored_in_full K.
Proof.
  intros D I. apply restored_if; [exact (all_regular _ _ _ _ _ _ D I)|exact (all_no_matrix _ _ _ _ _ _ I)|exact (all_by_values _ _ _ _ _ _ I)].
Qed.
Lemma classes_yaml (nan : R) (root joints : list R) (qpmad qpoases : list value) (K : kclass) : qpoases_defaults qpoases ->
  In K (PepperRobotParameters :: complete_classes nan root joints qpmad qpoases) -> restored_yaml K.
Proof.
  intros D [<- | I]; [apply yaml_if; [apply regular_PepperRobotParameters|values]|].
  apply yaml_if; [exact (all_regular _ _ _ _ _ _ D I)|exact (all_by_values _ _ _ _ _ _ I)].
Qed.
Lemma classes_reset (nan : R) (root joints : list R) (K : kclass) : In K (reset_classes nan root joints) -> reset_if_missing K.
Proof. intros I. each I; apply reset_if; try reflexivity; intros []; reflexivity. Qed.
Lemma classes_others (nan : R) (root joints : list R) (K : kclass) : In K (flat_classes nan root joints) -> others_by_default K.
Proof.
  intros I. each I; (apply others_if; [|values|reflexivity|reflexivity]);
  first [apply regular_PointMassState|apply regular_RotaryState|apply regular_RigidBodyState|apply regular_RigidBodyPose|
    apply regular_RobotFootParameters|apply regular_StanceFSMParameters|apply regular_WalkParameters|apply regular_WalkMPCParameters|
    apply regular_PepperRobotParameters|apply regular_PepperMotionParameters|apply regular_PepperMPCParameters|
    apply regular_IkMotionParameters|apply regular_GeneralizedCoordinates|apply regular_SolverParametersBase].
Qed.
