(** * The program which finds reachable positions of the body of Pepper: one iteration *)
From Coq Require Import String List Reals Arith Bool ZArith Lra Lia Permutation.
From Verif Require Import Base BaseFacts RSum Matrix Mat3 ActiveSet ConstraintType HierarchyLevel HierarchySpec HierarchyFacts Constraints ConstraintsSpec ConstraintsFacts QP QPSpec QPFacts2 Problem ProblemSpec ProblemFacts
  Solution PepperTasksSpec QpoasesBridge QpoasesBridgeSpec Backends BackendsSpec SolverLife SolverLifeSpec SolverLifeFacts WalkProgram WalkProgramSpec WalkProgramFacts WalkProgramFacts2 RotarySpec Rotary Euler EulerSpec Rbdl RbdlSpec PepperIk PepperIkSpec PepperIkFacts PepperIkTasks PepperIkTasksSpec PepperIkTasksFacts PepperIkLoop
  PepperIkLoopSpec PepperIkLoopFacts Solver KKT KKTSpec KKTFacts PepperIkProgram PepperIkProgramSpec PepperIkProgramFacts PepperIkProgramFacts2 PepperIkProgramFacts3 PepperIkProgramRun PepperIkScan PepperIkScanSpec.
Import ListNotations.
Local Open Scope nat_scope.

(** ** the hierarchy is that of the program with the KKT solver *)
Definition emb (se : scan_settings) : ik_settings := mkIkSet (sc_features se) (sc_kinematics se) (sc_wbc se) (sc_hierarchy se) (mkKKTP LU 0%R) (fun _ v => v) (fun _ v => v).
Definition embp (s : scan_program) : ik_program := mkIkp (sp_loop s) (sp_problem s) (sp_matrices s) (empty_objective, mkAB (mkMat 0 0 (fun _ _ => 0%R)) (mkVec 0 (fun _ => 0%R))).

Section Iteration.
Variables (eig : m3 -> euler_type -> v3) (se : scan_settings) (par : qparams) (L : list nat) (mp : motion_parameters) (e : environment) (s : scan_program) (l0 l1 : level).
Let f := sc_features se.
Let h := sc_hierarchy se.
Let fk := sc_kinematics se.
Let m := lk_model (sp_loop s).
Let w := wbc_update f mp (lk_wbc (sp_loop s)).
Let nv := DOF_NUMBER f.
Hypotheses (K : kinematics f fk) (RC : reachable eig f fk m) (PH : scan_hierarchy h) (SH : ishape h (sp_problem s) l0 l1).
Notation Meets := (meets (emb se) mp (embp s)).
Notation Fully := (fully (emb se) mp (embp s)).

Lemma any_formed t old : constraint_task t \/ proper_task t -> exists c, ik_form_task f t old m w = Ok c /\ usable nv c /\ getType c = ik_class t /\ 0 < getNumberOfConstraints c.
Proof.
  intros P. assert (D : proper_task t \/ t = JointsBounds) by (destruct P as [P|P]; destruct t; cbn in *; auto; contradiction). destruct D as [D| ->].
  - exact (task_formed eig f fk m mp (lk_wbc (sp_loop s)) K RC t old D).
  - destruct (any_next eig f fk m mp (lk_wbc (sp_loop s)) K RC (fun _ => 0%R)) as (sol & g & w' & _ & SF & NX).
    destruct (reachable_good eig f fk m K RC) as (file & D & GD). pose proof GD as ((SZ & _ & junk & C) & _).
    destruct (bounds_task f mp (lk_wbc (sp_loop s)) m sol g w' SZ SF NX junk C) as (U & T & _). eexists. split; [reflexivity|]. split; [exact U|]. split; [exact T|].
    unfold w, form_jointsBounds. rewrite next_joints. cbn [len Base.offset]. change (0 < length (consecutive (ROOT_DOF_NUMBER f) JOINTS_DOF_NUMBER)). rewrite consecutive_length. unfold JOINTS_DOF_NUMBER. lia.
Qed.
Lemma all_formed ts : forall i old, Forall (fun t => constraint_task t \/ proper_task t) ts -> exists cs, ik_form_tasks f ts i old m w = Ok cs /\ Forall2 Meets ts cs.
Proof.
  induction ts as [|t r IH]; intros i old P; [exists []; split; [reflexivity|constructor]|]. inversion P; subst.
  destruct (any_formed t (old i)) as (c & E & Q); [assumption|]. destruct (IH (S i) old) as (cs & ES & F); [assumption|].
  exists (c :: cs). cbn [ik_form_tasks]. rewrite E, ES. split; [reflexivity|]. constructor; [split; [exists (old i); exact E|exact Q]|exact F].
Qed.
Lemma scan_nonempty : lv_tasks l0 <> [] /\ lv_tasks l1 <> [].
Proof.
  destruct PH as (A & B & _). pose proof (Permutation_length (ih_first _ _ _ _ SH)) as P. pose proof (Permutation_length (ih_second _ _ _ _ SH)) as Q. unfold task_ids in P, Q. rewrite map_length, kinds_length in P, Q.
  split; intros E; rewrite E in *; cbn in *; [destruct (fst h)|destruct (snd h)]; try discriminate; contradiction.
Qed.
Definition new_solution : qsolution := mkQSol nv (mkVec nv (en_x e)) (so_status (sp_solution s)) (so_details (sp_solution s)).
Lemma sc_formed : exists cs p l0' l1', sc_form se e w s = Ok (cs, p, new_solution) /\ Fully cs /\ ishape h p l0' l1' /\
  pb_formHierarchy (ik_formed cs) false (sp_problem s) = Ok p.
Proof.
  destruct PH as (_ & _ & PA & PB & _). destruct (all_formed (fst h ++ snd h) 0 (sp_matrices s)) as (cs & E & F).
  { apply Forall_app. split; [revert PA|revert PB]; apply Forall_impl; auto. }
  pose proof (ih_reach _ _ _ _ SH) as PR. pose proof (ih_levels _ _ _ _ SH) as EL. destruct (ih_guess _ _ _ _ SH) as (U0 & U1). destruct scan_nonempty as (N0 & N1).
  destruct (proj2 (proj1 (problem_form_accepted (ik_formed cs) false (sp_problem s) PR))) as (p & EP).
  { unfold pb_getNumberOfLevels. rewrite EL. split; [cbn; lia|]. constructor; [|constructor; [|constructor]]; apply (level_formable_of (emb se) mp (embp s) l0 l1 SH cs); auto. }
  destruct (formed_levels _ _ _ _ PR EP) as (FL & _ & RP). rewrite EL in FL. destruct (Forall2_two _ _ _ _ FL) as (l0' & l1' & E2 & F0 & F1).
  exists cs, p, l0', l1'. split; [|split; [exact F|split; [|exact EP]]].
  - unfold sc_form. assert (isNonEmpty (w_structure w) = true) as -> by reflexivity. cbn [assert_then].
    apply (eq_trans (f_equal (fun o => bind o _) E)). cbn [bind]. rewrite EP. unfold w. rewrite next_nvars. reflexivity.
  - destruct (preach_wf _ PR) as (W & _). rewrite EL in W. inversion W as [|? ? W0 W']; subst. inversion W' as [|? ? W1 _]; subst.
    destruct (form_ok _ _ _ _ (lreach_gf _ W0) F0) as (Q0 & _). destruct (form_ok _ _ _ _ (lreach_gf _ W1) F1) as (Q1 & _).
    destruct (formed_same _ _ _ _ Q0) as (I0 & _ & G0). destruct (formed_same _ _ _ _ Q1) as (I1 & _ & G1).
    split; auto; [rewrite I0; apply (ih_first _ _ _ _ SH)|rewrite I1; apply (ih_second _ _ _ _ SH)].
Qed.

(** ** the call of the solver *)
Section Call.
Variables (cs : list constr) (p : problem) (cs0 cs1 : list constr).
Hypotheses (FU : Fully cs) (EP : pb_formHierarchy (ik_formed cs) false (sp_problem s) = Ok p).
Hypotheses (EC : cs = cs0 ++ cs1) (M0 : Forall2 Meets (fst h) cs0) (M1 : Forall2 Meets (snd h) cs1).
Notation call := (sc_call e cs p new_solution).
Lemma class_of i : In i (lv_tasks l0) -> exists t, In t (fst h) /\ tk_type (ti_task i) = ik_class t.
Proof. intros I. apply in_ids in I. apply (Permutation_in _ (ih_first _ _ _ _ SH)), kinds_nth in I. destruct I as (n & t & N & _ & E). exists t. split; [exact (nth_error_In _ _ N)|exact E]. Qed.
Lemma class_of1 i : In i (lv_tasks l1) -> exists t, In t (snd h) /\ tk_type (ti_task i) = ik_class t.
Proof. intros I. apply in_ids in I. apply (Permutation_in _ (ih_second _ _ _ _ SH)), kinds_nth in I. destruct I as (n & t & N & _ & E). exists t. split; [exact (nth_error_In _ _ N)|exact E]. Qed.
Lemma sc_qp : qp_hierarchy (sp_problem s) l0 l1.
Proof.
  split; [exact (ih_levels _ _ _ _ SH)|]. destruct PH as (_ & _ & PA & PB & _). rewrite Forall_forall in PA, PB. split.
  - intros i I. destruct (class_of1 i I) as (t & T & ->). destruct (proper_class t (PB t T)). auto.
  - intros i I. destruct (class_of i I) as (t & T & ->). specialize (PA t T). destruct t; try reflexivity. destruct PA.
Qed.
Lemma sc_described : described_problem (ik_constraints_of cs) (ik_formed cs) nv (sp_problem s).
Proof. unfold described_problem. rewrite (ih_levels _ _ _ _ SH). destruct (levels_described (emb se) mp (embp s) l0 l1 SH cs FU) as (A & B). constructor; [exact A|constructor; [exact B|constructor]]. Qed.
Lemma sc_hierarchy_of : hierarchy_of call (ik_formed cs) false (sp_problem s) l0 l1.
Proof. split; [exact (ih_reach _ _ _ _ SH)|]. split; [exact EP|]. split; [exact sc_described|exact sc_qp]. Qed.
Lemma sc_sized : SolverLifeSpec.sized call.
Proof. split; [intros a A; discriminate A|]. split; [reflexivity|intros a A; discriminate A]. Qed.
Lemma sc_at0 n : n < length (fst h) -> ik_constraints_of cs (0 + n) = nth n cs0 (mkConstr 0 (BodyI []) BoundsB0).
Proof. intros N. unfold ik_constraints_of. rewrite EC. cbn [plus]. apply app_nth1. rewrite <- (Forall2_len _ _ _ M0). exact N. Qed.
Lemma sc_at1 n : n < length (snd h) -> ik_constraints_of cs (length (fst h) + n) = nth n cs1 (mkConstr 0 (BodyI []) BoundsB0).
Proof. intros N. unfold ik_constraints_of. rewrite EC, app_nth2; rewrite <- (Forall2_len _ _ _ M0); [f_equal; lia|lia]. Qed.
Lemma sc_sat0 y : satisfies_level (ik_constraints_of cs) l0 y <-> forall c, In c cs0 -> satisfies c y.
Proof. exact (level_satisfied (fst h) 0 cs cs0 l0 (ih_first _ _ _ _ SH) (eq_sym (Forall2_len _ _ _ M0)) sc_at0 y). Qed.
Lemma sc_cost1 y : level_cost (ik_constraints_of cs) l1 y = sum_list (map (fun c => squared_residuals c y) cs1).
Proof. exact (level_costs (snd h) (length (fst h)) cs cs1 l1 (ih_second _ _ _ _ SH) (eq_sym (Forall2_len _ _ _ M1)) sc_at1 y). Qed.
(** all rows have both bounds *)
Lemma sc_reasonable y : bounded nv y <-> reasonable (ik_constraints_of cs) l0 nv y.
Proof.
  split; [intros B; split; [|exact B]|intros (_ & B); exact B]. intros i I r _ N. exfalso.
  assert (T : exists t, getType (ik_constraints_of cs (tk_id (ti_task i))) = ik_class t).
  { apply in_ids in I. pose proof (Permutation_in _ (ih_first _ _ _ _ SH) I) as J. apply kinds_nth in J. destruct J as (n & t & N' & Q & _). exists t.
    cbn [plus] in Q. rewrite Q. change n with (0 + n). rewrite sc_at0 by (apply nth_error_Some; congruence). destruct (Forall2_nth _ _ _ M0 n t N') as (d & D & _ & _ & M & _). rewrite (nth_error_nth _ _ _ D). exact M. }
  destruct T as (t & T). set (c := ik_constraints_of cs (tk_id (ti_task i))) in *. clearbody c.
  unfold getType in T. unfold lower, upper in N. destruct (c_body c), (c_bounds c); destruct t; cbn in *; try discriminate; destruct N; discriminate.
Qed.
End Call.
End Iteration.
