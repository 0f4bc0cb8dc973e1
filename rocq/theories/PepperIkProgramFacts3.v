(** * The program of the inverse kinematics of Pepper: one step *)
From Coq Require Import String List Reals Arith Bool ZArith Lra Lia Permutation.
From Verif Require Import Base BaseFacts RSum Matrix Mat3 ActiveSet ConstraintType HierarchyLevel HierarchySpec HierarchyFacts Constraints ConstraintsSpec ConstraintsFacts QP QPSpec QPFacts2 Problem ProblemSpec ProblemFacts
  Solution PepperTasksSpec WalkProgram WalkProgramFacts WalkProgramFacts2 RotarySpec Rotary Euler EulerSpec Rbdl RbdlSpec PepperIk PepperIkSpec PepperIkFacts PepperIkTasks PepperIkTasksSpec PepperIkTasksFacts PepperIkLoop
  PepperIkLoopSpec PepperIkLoopFacts Solver KKT KKTSpec KKTFacts KKTPosedSpec KKTPosedFacts PepperIkProgram PepperIkProgramSpec PepperIkProgramFacts PepperIkProgramFacts2.
Import ListNotations.
Local Open Scope nat_scope.

Lemma sum_list_perm a b : Permutation a b -> sum_list a = sum_list b.
Proof. induction 1; cbn; lra. Qed.
Fixpoint idx (a : nat) (l : list nat) : nat := match l with [] => 0 | b :: r => if a =? b then 0 else S (idx a r) end.
Lemma idx_nth l : NoDup l -> forall k a, nth_error l k = Some a -> idx a l = k.
Proof.
  induction 1 as [|b l NI ND IH]; intros [|k] a E; cbn in E |- *; try discriminate.
  - injection E as ->. rewrite Nat.eqb_refl. reflexivity.
  - destruct (Nat.eqb_spec a b) as [-> |N]; [exfalso; apply NI; exact (nth_error_In _ _ E)|]. f_equal. apply IH, E.
Qed.
Lemma Forall2_app_inv {A B} (P : A -> B -> Prop) a : forall b l, Forall2 P (a ++ b) l -> exists c d, l = c ++ d /\ Forall2 P a c /\ Forall2 P b d.
Proof.
  induction a as [|x a IH]; intros b l F; [exists [], l; auto|]. inversion F as [|? y ? l' Y F']; subst. destruct (IH b l' F') as (c & d & -> & C & D). exists (y :: c), d. auto.
Qed.
Lemma Forall2_len {A B} (P : A -> B -> Prop) a b : Forall2 P a b -> length a = length b.
Proof. induction 1; cbn; auto. Qed.

(** ** the constraints of a level *)
Section Level.
Variables (ts : list ik_task) (i : nat) (all cs : list constr) (l : level).
Hypotheses (PM : Permutation (task_ids l) (kinds i ts)) (LN : length cs = length ts) (AT : forall n, n < length ts -> ik_constraints_of all (i + n) = nth n cs (mkConstr 0 (BodyI []) BoundsB0)).
Lemma level_satisfied x : satisfies_level (ik_constraints_of all) l x <-> forall c, In c cs -> satisfies c x.
Proof.
  rewrite satisfies_ids. split.
  - intros H c I. destruct (In_nth _ _ (mkConstr 0 (BodyI []) BoundsB0) I) as (n & N & <-). rewrite LN in N. rewrite <- AT by exact N.
    destruct (nth_error ts n) as [t|] eqn:E; [|apply nth_error_None in E; lia]. apply (H (i + n, ik_class t)). apply (Permutation_in _ (Permutation_sym PM)), kinds_nth. exists n, t. auto.
  - intros H (k & c) I. apply (Permutation_in _ PM), kinds_nth in I. destruct I as (n & t & E & -> & ->). cbn [fst]. assert (N : n < length ts) by (apply nth_error_Some; congruence).
    rewrite AT by exact N. apply H, nth_In. lia.
Qed.
Lemma level_costs x : level_cost (ik_constraints_of all) l x = sum_list (map (fun c => squared_residuals c x) cs).
Proof.
  rewrite cost_ids. transitivity (sum_list (map (fun k => squared_residuals (ik_constraints_of all (fst k)) x) (kinds i ts))); [apply sum_list_perm, Permutation_map, PM|]. f_equal.
  apply (kinds_map (fun k => squared_residuals (ik_constraints_of all k) x) ts i _ (squared_residuals (mkConstr 0 (BodyI []) BoundsB0) x)); [rewrite map_length; exact LN|].
  intros n N. rewrite AT by exact N. symmetry. apply (map_nth (fun c => squared_residuals c x)).
Qed.
Lemma level_attainable : independent cs -> attainable (ik_constraints_of all) l.
Proof.
  intros IN t. set (ids := map (fun i => tk_id (ti_task i)) (lv_tasks l)).
  assert (ND : NoDup ids).
  { unfold ids. replace (map (fun i => tk_id (ti_task i)) (lv_tasks l)) with (map fst (task_ids l)) by (unfold task_ids; rewrite map_map; reflexivity).
    apply (Permutation_NoDup (Permutation_map fst (Permutation_sym PM))), kinds_nodup. }
  destruct (IN (fun n r => t (idx (i + n) ids) r)) as (x & X). exists x. intros k j E r Hr.
  pose proof (in_ids l j (nth_error_In _ _ E)) as I. apply (Permutation_in _ PM), kinds_nth in I. destruct I as (n & u & N & Q & _).
  assert (NL : n < length ts) by (apply nth_error_Some; congruence).
  assert (C : nth_error cs n = Some (ik_constraints_of all (tk_id (ti_task j)))) by (rewrite Q, AT by exact NL; apply nth_error_nth'; lia).
  rewrite (X n _ C r Hr). f_equal. rewrite <- Q. apply (idx_nth ids ND). unfold ids. apply (map_nth_error (fun i => tk_id (ti_task i)) k _ E).
Qed.
Lemma level_rows (P : constr -> Prop) : (forall j, In j (lv_tasks l) -> P (ik_constraints_of all (tk_id (ti_task j)))) -> forall c, In c cs -> P c.
Proof.
  intros H c I. destruct (In_nth _ _ (mkConstr 0 (BodyI []) BoundsB0) I) as (n & N & <-). rewrite LN in N. rewrite <- AT by exact N.
  destruct (nth_error ts n) as [t|] eqn:E; [|apply nth_error_None in E; lia]. assert (K : In (i + n, ik_class t) (task_ids l)) by (apply (Permutation_in _ (Permutation_sym PM)), kinds_nth; exists n, t; auto).
  apply ids_in in K. destruct K as (j & J & Q). injection Q as Q _. rewrite <- Q. apply H, J.
Qed.
End Level.

(** ** forming the hierarchy *)
Section Step.
Variables (eig : m3 -> euler_type -> v3) (se : ik_settings) (mp : motion_parameters) (s : ik_program) (l0 l1 : level).
Let f := is_features se.
Let h := is_hierarchy se.
Let w := wbc_update f mp (lk_wbc (ip_loop s)).
Let nv := DOF_NUMBER f.
Hypotheses (K : kinematics f (is_kinematics se)) (RC : reachable eig f (is_kinematics se) (lk_model (ip_loop s))) (PH : proper_hierarchy h) (SH : ishape h (ip_problem s) l0 l1).

Definition meets (t : ik_task) (c : constr) : Prop :=
  (exists old, ik_form_task f t old (lk_model (ip_loop s)) w = Ok c) /\ usable nv c /\ getType c = ik_class t /\ 0 < getNumberOfConstraints c.
Definition fully (cs : list constr) : Prop := Forall2 meets (fst h ++ snd h) cs.

Lemma fully_at cs k c : fully cs -> In (k, c) (kinds 0 (fst h)) \/ In (k, c) (kinds (length (fst h)) (snd h)) ->
  exists t, In t (fst h ++ snd h) /\ c = ik_class t /\ meets t (ik_constraints_of cs k).
Proof.
  intros F I. assert (E : exists t, nth_error (fst h ++ snd h) k = Some t /\ c = ik_class t).
  { destruct I as [I|I]; apply kinds_nth in I; destruct I as (n & t & N & -> & ->); exists t; split; auto.
    - cbn [plus]. rewrite nth_error_app1; [exact N|]. apply nth_error_Some. congruence.
    - rewrite nth_error_app2 by lia. rewrite Nat.add_comm, Nat.add_sub. exact N. }
  destruct E as (t & E & ->). exists t. split; [exact (nth_error_In _ _ E)|]. split; [reflexivity|].
  unfold ik_constraints_of. destruct (Forall2_nth _ _ _ F k t E) as (d & D & M). rewrite (nth_error_nth _ _ _ D). exact M.
Qed.
Lemma proper_class t : proper_task t -> ct_isEquality (ik_class t) = true /\ ik_class t <> IB.
Proof. destruct t; cbn; intros H; try destruct H; split; try reflexivity; discriminate. Qed.
Lemma all_proper t : In t (fst h ++ snd h) -> proper_task t.
Proof. destruct PH as (_ & _ & A & B). rewrite Forall_forall in A, B. intros I. apply in_app_or in I. destruct I; auto. Qed.
Lemma shape_tasks i : In i (lv_tasks l0) \/ In i (lv_tasks l1) ->
  In (tk_id (ti_task i), tk_type (ti_task i)) (kinds 0 (fst h)) \/ In (tk_id (ti_task i), tk_type (ti_task i)) (kinds (length (fst h)) (snd h)).
Proof.
  intros [I|I]; apply in_ids in I; [left; exact (Permutation_in _ (ih_first _ _ _ _ SH) I)|right; exact (Permutation_in _ (ih_second _ _ _ _ SH) I)].
Qed.
Lemma levels_equality : equality_level l0 /\ equality_level l1.
Proof.
  assert (A : forall i, In i (lv_tasks l0) \/ In i (lv_tasks l1) -> ct_isEquality (tk_type (ti_task i)) = true /\ tk_type (ti_task i) <> IB).
  { intros i I. apply shape_tasks in I. assert (E : exists t, In t (fst h ++ snd h) /\ tk_type (ti_task i) = ik_class t).
    { destruct I as [I|I]; apply kinds_nth in I; destruct I as (n & t & N & _ & E); exists t; split; auto; apply in_or_app; apply nth_error_In in N; auto. }
    destruct E as (t & T & ->). apply proper_class, all_proper, T. }
  split; intros i I; apply A; auto.
Qed.
Lemma levels_described cs : fully cs -> described (ik_constraints_of cs) (ik_formed cs) nv l0 /\ described (ik_constraints_of cs) (ik_formed cs) nv l1.
Proof.
  intros F. assert (A : forall i, In i (lv_tasks l0) \/ In i (lv_tasks l1) -> let c := ik_constraints_of cs (tk_id (ti_task i)) in
    getType c = tk_type (ti_task i) /\ f_n (ik_formed cs (tk_id (ti_task i))) = getNumberOfConstraints c /\ usable nv c).
  { intros i I. destruct (fully_at cs _ _ F (shape_tasks i I)) as (t & _ & E & _ & U & T & _). cbv zeta. rewrite E. auto. }
  split; intros i I; apply A; auto.
Qed.
Lemma usable_consistent c : usable nv c -> checkConsistency c = true.
Proof. intros (_ & H & _). exact H. Qed.
Lemma level_formable_of cs l : fully cs -> l = l0 \/ l = l1 -> unguessed l -> lv_tasks l <> [] -> level_formable (ik_formed cs) false l.
Proof.
  intros F D U NE. assert (A : forall i, In i (lv_tasks l) -> usable nv (ik_constraints_of cs (tk_id (ti_task i))) /\ 0 < getNumberOfConstraints (ik_constraints_of cs (tk_id (ti_task i)))).
  { intros i I. assert (J : In i (lv_tasks l0) \/ In i (lv_tasks l1)) by (destruct D as [<- | <-]; auto). destruct (fully_at cs _ _ F (shape_tasks i J)) as (t & _ & _ & _ & V & _ & P). auto. }
  split.
  - unfold unguessed in U. rewrite Forall_forall in *. intros i I. destruct (A i I) as (V & _). split; [apply usable_consistent, V|]. split; [intros _; left; rewrite (U i I); reflexivity|discriminate].
  - destruct (lv_tasks l) as [|i r]; [contradiction|]. destruct (A i (or_introl eq_refl)) as (_ & P). cbn. cbn in P. lia.
Qed.
Lemma kinds_length i ts : length (kinds i ts) = length ts.
Proof. unfold kinds. rewrite map_length. revert i. induction ts; intros i; cbn; auto. Qed.
Lemma levels_nonempty : lv_tasks l0 <> [] /\ lv_tasks l1 <> [].
Proof.
  destruct PH as (A & B & _). pose proof (Permutation_length (ih_first _ _ _ _ SH)) as P. pose proof (Permutation_length (ih_second _ _ _ _ SH)) as Q. unfold task_ids in P, Q. rewrite map_length, kinds_length in P, Q.
  split; intros E; rewrite E in *; cbn in *; [destruct (fst h)|destruct (snd h)]; try discriminate; contradiction.
Qed.
Lemma w_nvars : Solution.getNumberOfVariables (w_structure w) = nv.
Proof. apply next_nvars. Qed.
Lemma form_step : exists cs p l0' l1', ik_form se w s = Ok (cs, p) /\ fully cs /\ ishape h p l0' l1' /\
  level_form (ik_formed cs) false l0 = Ok l0' /\ level_form (ik_formed cs) false l1 = Ok l1'.
Proof.
  destruct PH as (_ & _ & PA & PB). destruct (tasks_formed eig f (is_kinematics se) (lk_model (ip_loop s)) mp (lk_wbc (ip_loop s)) K RC (fst h ++ snd h) 0 (ip_matrices s)) as (cs & E & F); [apply Forall_app; auto|].
  pose proof (ih_reach _ _ _ _ SH) as PR. pose proof (ih_levels _ _ _ _ SH) as EL. destruct (ih_guess _ _ _ _ SH) as (U0 & U1). destruct levels_nonempty as (N0 & N1).
  destruct (proj2 (proj1 (problem_form_accepted (ik_formed cs) false (ip_problem s) PR))) as (p & EP).
  { unfold pb_getNumberOfLevels. rewrite EL. split; [cbn; lia|]. constructor; [|constructor; [|constructor]]; apply (level_formable_of cs); auto. }
  destruct (formed_levels _ _ _ _ PR EP) as (FL & _ & RP). rewrite EL in FL. destruct (Forall2_two _ _ _ _ FL) as (l0' & l1' & E2 & F0 & F1).
  exists cs, p, l0', l1'. split; [|split; [exact F|split; [|auto]]].
  - unfold ik_form. assert (isNonEmpty (w_structure w) = true) as -> by reflexivity. cbn [assert_then].
    apply (eq_trans (f_equal (fun o => bind o _) E)). cbn [bind]. rewrite EP. reflexivity.
  - destruct (preach_wf _ PR) as (W & _). rewrite EL in W. inversion W as [|? ? W0 W']; subst. inversion W' as [|? ? W1 _]; subst.
    destruct (form_ok _ _ _ _ (lreach_gf _ W0) F0) as (Q0 & _). destruct (form_ok _ _ _ _ (lreach_gf _ W1) F1) as (Q1 & _).
    destruct (formed_same _ _ _ _ Q0) as (I0 & _ & G0). destruct (formed_same _ _ _ _ Q1) as (I1 & _ & G1).
    split; auto; [rewrite I0; apply (ih_first _ _ _ _ SH)|rewrite I1; apply (ih_second _ _ _ _ SH)].
Qed.

Lemma fully_split cs : fully cs -> exists cs0 cs1, cs = cs0 ++ cs1 /\ Forall2 meets (fst h) cs0 /\ Forall2 meets (snd h) cs1.
Proof. intros F. exact (Forall2_app_inv _ _ _ _ F). Qed.
Lemma meets_formed ts cs : Forall2 meets ts cs -> Forall2 (fun t c => exists old, ik_form_task f t old (lk_model (ip_loop s)) w = Ok c) ts cs.
Proof. induction 1 as [|t c ts cs (H & _) F IH]; constructor; auto. Qed.
Lemma meets_usable ts cs : Forall2 meets ts cs -> forall c, In c cs -> c_nvars c = nv.
Proof. induction 1 as [|t c ts cs (_ & (H & _) & _) F IH]; intros d [ ]; subst; auto. Qed.

(** the solver has found the solution *)
Definition cost_of (reg : R) (cs1 : list constr) (y : nat -> R) : R := (sum_list (map (fun c => squared_residuals c y) cs1) + reg * Rsum nv (fun i => y i * y i))%R.
Definition solved (reg : R) (x : vec) (cs0 cs1 : list constr) : Prop :=
  vlen x = nv /\ only_minimiser nv (cost_of reg cs1) (fun y => forall c, In c cs0 -> satisfies c y) (vget x).
Lemma solve_step cs p l0' l1' x : ik_form se w s = Ok (cs, p) -> ishape h p l0' l1' ->
  kkt_solve (is_solver se) (is_llt se) (is_lin se) (ik_constraints_of cs) [l0'; l1'] nv (ip_qp s) = Ok x -> vlen x = nv ->
  exists s', ik_step se mp s = Ok (mkSolution (w_structure w) (map (vget x) (seq 0 nv)), s') /\ answers f (mkSolution (w_structure w) (map (vget x) (seq 0 nv))) /\
    ik_iteration f (is_kinematics se) mp (mkSolution (w_structure w) (map (vget x) (seq 0 nv))) (ip_loop s) = Ok (ip_loop s') /\ ishape h (ip_problem s') l0' l1' /\
    reachable eig f (is_kinematics se) (lk_model (ip_loop s')).
Proof.
  intros E S2 EK L. set (sol := mkSolution (w_structure w) (map (vget x) (seq 0 nv))).
  assert (AN : answers f sol) by (intros mp' w'; split; [reflexivity|cbn; rewrite map_length, seq_length; reflexivity]).
  destruct (iteration_ok eig f (is_kinematics se) mp sol (ip_loop s) K RC AN) as (l & EI & RL & _).
  unfold kkt_solve in EK. apply bind_ok in EK. destruct EK as (q & EQ & EK).
  exists (mkIkp l p (ik_matrices cs (ip_matrices s)) q). split; [|auto].
  unfold ik_step. change (is_features se) with f. fold w. rewrite E. cbn [bind fst snd]. unfold ik_solve. rewrite w_nvars, (ih_levels _ _ _ _ S2), EQ. cbn [bind]. rewrite EK. cbn [bind fst snd]. rewrite L. fold sol. rewrite EI. reflexivity.
Qed.
Lemma best_of reg x cs0 cs1 : Forall2 meets (fst h) cs0 -> Forall2 meets (snd h) cs1 -> solved reg x cs0 cs1 -> best_step se mp reg (ip_loop s) (mkSolution (w_structure w) (map (vget x) (seq 0 nv))).
Proof.
  intros F0 F1 (L & (MP & MM) & UN) M MS MV G. change (is_features se) with f in MV |- *. change (is_hierarchy se) with h in G |- *. destruct PH as (_ & _ & PA & PB).
  set (sol := mkSolution (w_structure w) (map (vget x) (seq 0 nv))) in *. pose proof (meets_formed _ _ F0) as G0. pose proof (meets_formed _ _ F1) as G1.
  assert (PX : forall i, i < nv -> vget x i = point sol i) by (intros i Hi; symmetry; apply (point_of f sol (vget x) i eq_refl Hi)).
  assert (QX : cost_of reg cs1 (vget x) = cost_of reg cs1 (point sol)).
  { unfold cost_of. f_equal; [|f_equal; apply Rsum_ext; intros i Hi; rewrite PX by exact Hi; reflexivity]. f_equal. apply map_ext_in. intros c I. apply squared_ext. rewrite (meets_usable _ _ F1 c I). exact PX. }
  split.
  - apply (asked_level eig f (is_kinematics se) (lk_model (ip_loop s)) mp (lk_wbc (ip_loop s)) K RC (fst h) cs0 M MS (point sol) PA G0 MV G). intros c I.
    apply (satisfies_ext c (vget x)); [rewrite (meets_usable _ _ F0 c I); exact PX|exact (MP c I)].
  - exists (sum_list (map (fun c => squared_residuals c (point sol)) cs1)). split; [apply (costs_level eig f (is_kinematics se) (lk_model (ip_loop s)) mp (lk_wbc (ip_loop s)) K RC (snd h) cs1 M MS (point sol) PB G1 MV); reflexivity|].
    intros N NS y c' NV AS CO. apply (costs_level eig f (is_kinematics se) (lk_model (ip_loop s)) mp (lk_wbc (ip_loop s)) K RC (snd h) cs1 N NS y PB G1 NV) in CO. subst c'.
    pose proof (proj1 (asked_level eig f (is_kinematics se) (lk_model (ip_loop s)) mp (lk_wbc (ip_loop s)) K RC (fst h) cs0 N NS y PA G0 NV G) AS) as AS'. clear AS. rename AS' into AS.
    change (cost_of reg cs1 (point sol) <= cost_of reg cs1 y /\ (cost_of reg cs1 y <= cost_of reg cs1 (point sol) -> forall i, (i < nv)%nat -> y i = point sol i))%R. rewrite <- QX. split; [apply MM, AS|].
    intros LE i Hi. rewrite <- PX by exact Hi. apply UN; [|exact Hi]. split; [exact AS|]. intros z Z. apply (Rle_trans _ (cost_of reg cs1 (vget x))); [exact LE|apply MM, Z].
Qed.
Lemma minimiser_ext (F G : (nat -> R) -> R) (P Q : (nat -> R) -> Prop) n x : (forall y, F y = G y) -> (forall y, P y <-> Q y) -> only_minimiser n F P x -> only_minimiser n G Q x.
Proof.
  intros EF EP ((A & B) & C). split; [split; [apply EP, A|intros y Y; rewrite <- !EF; apply B, EP, Y]|]. intros y (Y1 & Y2). apply C. split; [apply EP, Y1|]. intros z Z. rewrite !EF. apply Y2, EP, Z.
Qed.

(** what a step does; [reg] is zero for the direct methods *)
Definition does (reg : R) : Prop :=
  exists sol s' cs0 cs1, ik_step se mp s = Ok (sol, s') /\ answers f sol /\ ik_iteration f (is_kinematics se) mp sol (ip_loop s) = Ok (ip_loop s') /\
    reachable eig f (is_kinematics se) (lk_model (ip_loop s')) /\ (exists a b, ishape h (ip_problem s') a b) /\
    constraints_of f mp (ip_loop s) (fst h) cs0 /\ constraints_of f mp (ip_loop s) (snd h) cs1 /\
    only_minimiser nv (cost_of reg cs1) (fun y => forall c, In c cs0 -> satisfies c y) (point sol) /\
    best_step se mp reg (ip_loop s) sol.
Lemma does_of reg cs p l0' l1' cs0 cs1 x : ik_form se w s = Ok (cs, p) -> ishape h p l0' l1' ->
  kkt_solve (is_solver se) (is_llt se) (is_lin se) (ik_constraints_of cs) [l0'; l1'] nv (ip_qp s) = Ok x ->
  Forall2 meets (fst h) cs0 -> Forall2 meets (snd h) cs1 -> solved reg x cs0 cs1 -> does reg.
Proof.
  intros E S2 EK F0 F1 SO. destruct (solve_step cs p l0' l1' x E S2 EK (proj1 SO)) as (s' & A & B & C & D & RL).
  eexists _, s', cs0, cs1. split; [exact A|]. split; [exact B|]. split; [exact C|]. split; [exact RL|]. split; [eauto|]. split; [exact (meets_formed _ _ F0)|]. split; [exact (meets_formed _ _ F1)|].
  split; [|exact (best_of reg x cs0 cs1 F0 F1 SO)]. destruct SO as (L & (MP & MM) & UN). set (sol := mkSolution _ _) in *.
  assert (PX : forall i, i < nv -> vget x i = point sol i) by (intros i Hi; symmetry; apply (point_of f sol (vget x) i eq_refl Hi)).
  assert (QX : cost_of reg cs1 (vget x) = cost_of reg cs1 (point sol)).
  { unfold cost_of. f_equal; [|f_equal; apply Rsum_ext; intros i Hi; rewrite PX by exact Hi; reflexivity]. f_equal. apply map_ext_in. intros c I. apply squared_ext. rewrite (meets_usable _ _ F1 c I). exact PX. }
  split; [split|].
  - intros c I. apply (satisfies_ext c (vget x)); [rewrite (meets_usable _ _ F0 c I); exact PX|exact (MP c I)].
  - intros y Y. rewrite <- QX. apply MM, Y.
  - intros y Y i Hi. rewrite <- PX by exact Hi. apply UN; assumption.
Qed.
Section Solve.
Variables (cs : list constr) (p : problem) (l0' l1' : level) (cs0 cs1 : list constr).
Hypotheses (EF : ik_form se w s = Ok (cs, p)) (FU : fully cs) (S2 : ishape h p l0' l1') (E0 : level_form (ik_formed cs) false l0 = Ok l0') (E1 : level_form (ik_formed cs) false l1 = Ok l1').
Hypotheses (EC : cs = cs0 ++ cs1) (M0 : Forall2 meets (fst h) cs0) (M1 : Forall2 meets (snd h) cs1).
Lemma lreaches : lreach l0 /\ lreach l1.
Proof. destruct (preach_wf _ (ih_reach _ _ _ _ SH)) as (W & _). rewrite (ih_levels _ _ _ _ SH) in W. inversion W as [|? ? W0 W']; subst. inversion W'; subst. auto. Qed.
Lemma at0 n : n < length (fst h) -> ik_constraints_of cs (0 + n) = nth n cs0 (mkConstr 0 (BodyI []) BoundsB0).
Proof. intros N. unfold ik_constraints_of. rewrite EC. cbn [plus]. apply app_nth1. rewrite <- (Forall2_len _ _ _ M0). exact N. Qed.
Lemma at1 n : n < length (snd h) -> ik_constraints_of cs (length (fst h) + n) = nth n cs1 (mkConstr 0 (BodyI []) BoundsB0).
Proof. intros N. unfold ik_constraints_of. rewrite EC, app_nth2; rewrite <- (Forall2_len _ _ _ M0); [f_equal; lia|lia]. Qed.
Let len0 : length cs0 = length (fst h) := eq_sym (Forall2_len _ _ _ M0).
Let len1 : length cs1 = length (snd h) := eq_sym (Forall2_len _ _ _ M1).
Lemma sat0 y : satisfies_level (ik_constraints_of cs) l0 y <-> forall c, In c cs0 -> satisfies c y.
Proof. exact (level_satisfied (fst h) 0 cs cs0 l0 (ih_first _ _ _ _ SH) len0 at0 y). Qed.
Lemma cost1 y : level_cost (ik_constraints_of cs) l1 y = sum_list (map (fun c => squared_residuals c y) cs1).
Proof. exact (level_costs (snd h) (length (fst h)) cs cs1 l1 (ih_second _ _ _ _ SH) len1 at1 y). Qed.
Lemma att0 : posed_first se mp (ip_loop s) -> attainable (ik_constraints_of cs) l0.
Proof. intros P. apply (level_attainable (fst h) 0 cs cs0 l0 (ih_first _ _ _ _ SH) len0 at0). apply P. exact (meets_formed _ _ M0). Qed.
Lemma obs01 : posed se mp (ip_loop s) -> observable (ik_constraints_of cs) nv l0 l1.
Proof.
  intros (_ & P) d Z. apply (P cs); [exact (meets_formed _ _ FU)|]. intros c I. rewrite EC in I. apply in_app_or in I.
  destruct I as [I|I]; revert c I.
  - apply (level_rows (fst h) 0 cs cs0 l0 (ih_first _ _ _ _ SH) len0 at0 (fun c => forall r, r < getNumberOfConstraints c -> row_value c r d = 0%R)). intros j J. apply Z. left. exact J.
  - apply (level_rows (snd h) (length (fst h)) cs cs1 l1 (ih_second _ _ _ _ SH) len1 at1 (fun c => forall r, r < getNumberOfConstraints c -> row_value c r d = 0%R)). intros j J. apply Z. right. exact J.
Qed.
Lemma direct_does : solution_method (is_solver se) = LU \/ solution_method (is_solver se) = QR -> solves_nonsingular (is_lin se) -> posed se mp (ip_loop s) -> does 0.
Proof.
  intros ME LI PO. destruct lreaches as (R0 & R1). destruct (levels_described cs FU) as (D0 & D1). destruct levels_equality as (Q0 & Q1).
  destruct (posed_direct _ _ _ _ _ _ _ _ R0 E0 D0 Q0 R1 E1 D1 Q1 (is_solver se) (is_llt se) (is_lin se) (ip_qp s) ME (att0 (proj1 PO)) (obs01 PO) LI) as (x & EX & LX & MX).
  apply (does_of 0 cs p l0' l1' cs0 cs1 x EF S2 EX M0 M1). split; [exact LX|]. revert MX. apply minimiser_ext; [|exact sat0]. intros y. unfold cost_of. rewrite cost1. ring.
Qed.
Lemma simple_types i : Forall simple_class (snd h) -> In i (lv_tasks l1) -> ct_isSimple (tk_type (ti_task i)) = true.
Proof.
  intros SI I. apply in_ids, (Permutation_in _ (ih_second _ _ _ _ SH)), kinds_nth in I. destruct I as (n & t & N & _ & ->). rewrite Forall_forall in SI. specialize (SI t (nth_error_In _ _ N)).
  destruct t; cbn in SI |- *; auto; destruct SI.
Qed.
Lemma elimination_does : solution_method (is_solver se) = CONSTRAINT_ELIMINATION_LLT -> (0 < elimination_regularization_factor (is_solver se))%R -> solves_positive (is_llt se) ->
  Forall simple_class (snd h) -> posed_first se mp (ip_loop s) -> does (elimination_regularization_factor (is_solver se)).
Proof.
  intros ME RG LL SI PO. destruct lreaches as (R0 & R1). destruct (levels_described cs FU) as (D0 & D1). destruct levels_equality as (Q0 & Q1).
  destruct (posed_elimination _ _ _ _ _ _ _ _ R0 E0 D0 Q0 R1 E1 D1 Q1 (is_solver se) (is_llt se) (is_lin se) (ip_qp s) ME RG (fun i => simple_types i SI) (att0 PO) LL) as (x & EX & LX & MX).
  apply (does_of _ cs p l0' l1' cs0 cs1 x EF S2 EX M0 M1). split; [exact LX|]. revert MX. apply minimiser_ext; [|exact sat0]. intros y. unfold cost_of. rewrite cost1. reflexivity.
Qed.
Lemma step_throws : kkt_solve (is_solver se) (is_llt se) (is_lin se) (ik_constraints_of cs) [l0'; l1'] nv (ip_qp s) = Throw -> ik_step se mp s = Throw.
Proof.
  intros E. unfold ik_step. change (is_features se) with f. fold w. rewrite EF. cbn [bind fst snd]. unfold ik_solve. rewrite w_nvars, (ih_levels _ _ _ _ S2).
  unfold kkt_solve in E. destruct (getQPProblem _ _ _ _ _) as [q| |]; cbn [bind] in E |- *; try reflexivity; try discriminate. rewrite E. reflexivity.
Qed.
Lemma elimination_throws t : solution_method (is_solver se) = CONSTRAINT_ELIMINATION_LLT -> In t (snd h) -> ~ simple_class t -> ik_step se mp s = Throw.
Proof.
  intros ME I NS. apply step_throws. destruct lreaches as (R0 & R1). destruct (levels_described cs FU) as (D0 & D1). destruct levels_equality as (Q0 & Q1).
  apply In_nth_error in I. destruct I as (n & N). assert (KI : In (length (fst h) + n, ik_class t) (task_ids l1)) by (apply (Permutation_in _ (Permutation_sym (ih_second _ _ _ _ SH))), kinds_nth; exists n, t; auto).
  apply ids_in in KI. destruct KI as (i & I & Q). injection Q as Q1' Q2'.
  apply (elimination_refused _ _ _ _ _ _ _ _ R0 E0 D0 Q0 R1 E1 D1 Q1 (is_solver se) (is_llt se) (is_lin se) (ip_qp s) i ME I).
  - rewrite Q2'. destruct t; cbn in NS |- *; tauto.
  - destruct (fully_at cs _ _ FU (shape_tasks i (or_intror I))) as (u & _ & _ & _ & _ & _ & P). exact P.
Qed.
Lemma undefined_throws : solution_method (is_solver se) = KKT_UNDEFINED -> ik_step se mp s = Throw.
Proof.
  intros ME. apply step_throws. destruct lreaches as (R0 & R1). destruct (levels_described cs FU) as (D0 & D1). destruct levels_equality as (Q0 & Q1).
  destruct (kkt_problem _ _ _ _ _ _ _ _ R0 E0 D0 Q0 R1 E1 D1 Q1 (ip_qp s)) as (o & q & E & _). unfold kkt_solve. rewrite E. cbn [bind kkt_solveHierarchy]. rewrite ME. reflexivity.
Qed.
End Solve.
End Step.
