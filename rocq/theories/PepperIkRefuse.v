(** * The program of the inverse kinematics of Pepper with the KKT solver refuses hierarchies with limits of joints (C106) *)
From Coq Require Import String List Reals Arith Bool ZArith Lra Lia Permutation.
From Verif Require Import Base BaseFacts RSum Matrix Mat3 ActiveSet ConstraintType HierarchyLevel HierarchySpec HierarchyFacts Constraints ConstraintsSpec ConstraintsFacts QP QPSpec QPFacts2 Problem ProblemSpec ProblemFacts
  Solution PepperTasksSpec QpoasesBridge Backends SolverLife SolverLifeSpec SolverLifeFacts WalkProgram WalkProgramSpec WalkProgramFacts WalkProgramFacts2 RotarySpec Rotary Euler EulerSpec Rbdl RbdlSpec PepperIk PepperIkSpec PepperIkFacts PepperIkExample PepperIkTasks PepperIkTasksSpec PepperIkTasksFacts PepperIkCommandFacts PepperIkTasksExample PepperIkLoop
  PepperIkLoopSpec PepperIkLoopFacts PepperIkLoopWitness Solver KKT KKTSpec KKTFacts KKTGauss PepperIkProgram PepperIkProgramSpec PepperIkProgramFacts PepperIkProgramFacts2 PepperIkProgramFacts3 PepperIkProgramRun PepperIkProgramExample PepperIkScan PepperIkScanSpec PepperIkScanFacts KKTRefuse.
Import ListNotations.
Local Open Scope nat_scope.

(** a hierarchy with limits of joints: both levels have tasks, whose parameters make sense *)
Definition limiting_hierarchy (h : list ik_task * list ik_task) : Prop :=
  fst h <> [] /\ snd h <> [] /\ Forall (fun t => proper_task t \/ t = JointsBounds) (fst h ++ snd h) /\ In JointsBounds (fst h ++ snd h).
Section Limits.
Variables (eig : m3 -> euler_type -> v3) (se : ik_settings) (mp : motion_parameters) (s : ik_program) (l0 l1 : level).
Hypotheses (K : kinematics (is_features se) (is_kinematics se)) (RC : reachable eig (is_features se) (is_kinematics se) (lk_model (ip_loop s))).
Hypotheses (LH : limiting_hierarchy (is_hierarchy se)) (SH : ishape (is_hierarchy se) (ip_problem s) l0 l1).
Let f := is_features se.
Let fk := is_kinematics se.
Let h := is_hierarchy se.
Let m := lk_model (ip_loop s).
Let w := wbc_update f mp (lk_wbc (ip_loop s)).
Let nv := DOF_NUMBER f.
Lemma limits_task t old : proper_task t \/ t = JointsBounds -> exists c, ik_form_task f t old m w = Ok c /\ usable nv c /\ getType c = ik_class t /\ 0 < getNumberOfConstraints c.
Proof.
  intros [D| ->].
  - exact (task_formed eig f fk m mp (lk_wbc (ip_loop s)) K RC t old D).
  - destruct (any_next eig f fk m mp (lk_wbc (ip_loop s)) K RC (fun _ => 0%R)) as (sol & g & w' & _ & SF & NX).
    destruct (reachable_good eig f fk m K RC) as (file & D & GD). pose proof GD as ((SZ & _ & junk & C) & _).
    destruct (bounds_task f mp (lk_wbc (ip_loop s)) m sol g w' SZ SF NX junk C) as (U & T & _). eexists. split; [reflexivity|]. split; [exact U|]. split; [exact T|].
    unfold w, form_jointsBounds. rewrite next_joints. cbn [len Base.offset]. change (0 < length (consecutive (ROOT_DOF_NUMBER f) JOINTS_DOF_NUMBER)). rewrite consecutive_length. unfold JOINTS_DOF_NUMBER. lia.
Qed.
Lemma limits_tasks ts : forall i old, Forall (fun t => proper_task t \/ t = JointsBounds) ts -> exists cs, ik_form_tasks f ts i old m w = Ok cs /\ Forall2 (meets se mp s) ts cs.
Proof.
  induction ts as [|t r IH]; intros i old P; [exists []; split; [reflexivity|constructor]|]. inversion P; subst.
  destruct (limits_task t (old i)) as (c & E & Q); [assumption|]. destruct (IH (S i) old) as (cs & ES & F); [assumption|].
  exists (c :: cs). cbn [ik_form_tasks]. rewrite E, ES. split; [reflexivity|]. constructor; [split; [exists (old i); exact E|exact Q]|exact F].
Qed.
Lemma limits_nonempty : lv_tasks l0 <> [] /\ lv_tasks l1 <> [].
Proof.
  destruct LH as (A & B & _). pose proof (Permutation_length (ih_first _ _ _ _ SH)) as P. pose proof (Permutation_length (ih_second _ _ _ _ SH)) as Q. unfold task_ids in P, Q. rewrite map_length, kinds_length in P, Q.
  split; intros E; rewrite E in *; cbn in *; [destruct (fst (is_hierarchy se))|destruct (snd (is_hierarchy se))]; try discriminate; contradiction.
Qed.
Lemma kinds_in ts : forall i t, In t ts -> exists k, In (k, ik_class t) (kinds i ts).
Proof.
  induction ts as [|u r IH]; intros i t I; [destruct I|]. destruct I as [->|I]; [exists i; left; reflexivity|]. destruct (IH (S i) t I) as (k & Q). exists k. right. exact Q.
Qed.
Lemma limits_found : exists i, In i (lv_tasks l0 ++ lv_tasks l1) /\ tk_type (ti_task i) = ILU.
Proof.
  destruct LH as (_ & _ & _ & JB). apply in_app_or in JB.
  assert (X : forall l ts i, Permutation (task_ids l) (kinds i ts) -> In JointsBounds ts -> exists i, In i (lv_tasks l) /\ tk_type (ti_task i) = ILU).
  { intros l ts i P I. destruct (kinds_in ts i JointsBounds I) as (k & Q). apply (Permutation_in _ (Permutation_sym P)) in Q. unfold task_ids in Q. apply in_map_iff in Q. destruct Q as (j & E & J). exists j. split; [exact J|]. injection E. auto. }
  destruct JB as [J|J]; [destruct (X _ _ _ (ih_first _ _ _ _ SH) J) as (i & I & T)|destruct (X _ _ _ (ih_second _ _ _ _ SH) J) as (i & I & T)]; exists i; (split; [apply in_or_app; auto|exact T]).
Qed.
Lemma limits_step : ik_step se mp s = Throw.
Proof.
  destruct LH as (_ & _ & PA & _). destruct (limits_tasks (fst h ++ snd h) 0 (ip_matrices s) PA) as (cs & E & F).
  pose proof (ih_reach _ _ _ _ SH) as PR. pose proof (ih_levels _ _ _ _ SH) as EL. destruct (ih_guess _ _ _ _ SH) as (U0 & U1). destruct limits_nonempty as (N0 & N1).
  destruct (proj2 (proj1 (problem_form_accepted (ik_formed cs) false (ip_problem s) PR))) as (p & EP).
  { unfold pb_getNumberOfLevels. rewrite EL. split; [cbn; lia|]. constructor; [|constructor; [|constructor]]; apply (level_formable_of se mp s l0 l1 SH cs); auto. }
  destruct (formed_levels _ _ _ _ PR EP) as (FL & _ & RP). rewrite EL in FL. destruct (Forall2_two _ _ _ _ FL) as (l0' & l1' & E2 & F0 & F1).
  destruct (levels_described se mp s l0 l1 SH cs F) as (D0 & D1). destruct (preach_wf _ PR) as (W & _). rewrite EL in W. inversion W as [|? ? W0 W']; subst. inversion W' as [|? ? W1 _]; subst.
  assert (NI : forall i, In i (lv_tasks l1) -> tk_type (ti_task i) <> IB).
  { intros i I. apply in_ids in I. apply (Permutation_in _ (ih_second _ _ _ _ SH)), kinds_nth in I. destruct I as (n & t & _ & _ & Q). rewrite Q. destruct t; discriminate. }
  destruct limits_found as (i & I & T).
  assert (PO : 0 < getNumberOfConstraints (ik_constraints_of cs (tk_id (ti_task i)))).
  { apply in_app_or in I. destruct (fully_at se mp s cs _ _ F (shape_tasks se s l0 l1 SH i I)) as (t & _ & _ & _ & _ & _ & Q). exact Q. }
  assert (NE : ct_isEquality (tk_type (ti_task i)) = false) by (rewrite T; reflexivity).
  pose proof (inequality_refused (ik_formed cs) false l0 l0' l1 l1' (ik_constraints_of cs) nv W0 F0 D0 W1 F1 D1 NI i I NE PO (is_solver se) (is_llt se) (is_lin se) (ip_qp s)) as Q.
  unfold ik_step. fold f w. unfold ik_form. assert (isNonEmpty (w_structure w) = true) as -> by reflexivity. cbn [assert_then]. fold f h m. rewrite E. cbn [bind]. rewrite EP. cbn [bind fst snd].
  unfold ik_solve. unfold w. rewrite next_nvars. fold nv. rewrite E2. unfold kkt_solve in Q. destruct getQPProblem as [q| |]; cbn [bind] in *; [|reflexivity|discriminate]. rewrite Q. reflexivity.
Qed.
End Limits.

Theorem program_limits (eig : m3 -> euler_type -> v3) (se : ik_settings) (mp : motion_parameters) (s : ik_program) :
  kinematics (is_features se) (is_kinematics se) -> limiting_hierarchy (is_hierarchy se) -> arrives eig se s -> ik_step se mp s = Throw.
Proof.
  intros K LH A. assert (SO : sound eig se s).
  { induction A as [m w a q s RC E|mp' s sol s' A IH E|s m A IH E].
    - destruct (start_sound eig se m w a q RC) as (s0 & E0 & _ & S). rewrite E in E0. injection E0 as <-. exact S.
    - destruct IH as (RC & l0 & l1 & SH). rewrite (limits_step eig se mp' s l0 l1 K RC LH SH) in E. discriminate.
    - exact (save_sound eig se s m IH E). }
  destruct SO as (RC & l0 & l1 & SH). exact (limits_step eig se mp s l0 l1 K RC LH SH).
Qed.
(** one of the hierarchies of the repository *)
Theorem third_hierarchy_limits : limiting_hierarchy hierarchy_01.
Proof.
  split; [discriminate|]. split; [discriminate|]. split; [|cbn; tauto]. apply Forall_forall. intros t [<-|[<-|[<-|[<-|[<-|[<-|[]]]]]]]; cbn [proper_task]; auto. left. lia.
Qed.
Definition third_set (method : kkt_method) : ik_settings := mkIkSet ROOT_PLANAR ex_pepper wbc_parameters_default hierarchy_01 (mkKKTP method 1e-3) gauss_lin gauss_lin.
Theorem third_case (eig : m3 -> euler_type -> v3) (method : kkt_method) : kinematics ROOT_PLANAR ex_pepper /\ exists s, arrives eig (third_set method) s.
Proof.
  split; [exact pepper_kinematics|]. destruct (pepper_at eig (gc_default (fun _ => 0%R) ROOT_PLANAR) (proj1 (ik_default (fun _ => 0%R) ROOT_PLANAR HeadYaw))) as (m & RC & _).
  destruct (program_starts eig (third_set method) m (mkWbc true 0 ex_stay [] [] structure_reset) (fun _ => mzero 0 0)
    (mkObjective (mzero 0 0) (vconst 0 0) HESSIAN_UNDEFINED QP_UNDEFINED, mkAB (mzero 0 0) (vconst 0 0)) RC) as (s & ES & _).
  exists s. exact (ar_start eig (third_set method) m _ _ _ s RC ES).
Qed.
