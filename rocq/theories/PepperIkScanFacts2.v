(** * The program which finds reachable positions of the body of Pepper: what an iteration does *)
From Coq Require Import String List Reals Arith Bool ZArith Lra Lia Permutation.
From Verif Require Import Base BaseFacts RSum Matrix Mat3 ActiveSet ConstraintType HierarchyLevel HierarchySpec HierarchyFacts Constraints ConstraintsSpec ConstraintsFacts QP QPSpec QPFacts2 Problem ProblemSpec ProblemFacts
  Solution PepperTasksSpec QpoasesBridge QpoasesBridgeSpec Backends BackendsSpec SolverLife SolverLifeSpec SolverLifeFacts WalkProgram WalkProgramSpec WalkProgramFacts WalkProgramFacts2 RotarySpec Rotary Euler EulerSpec Rbdl RbdlSpec PepperProgramSpec PepperIk PepperIkSpec PepperIkFacts PepperIkTasks PepperIkTasksSpec PepperIkTasksFacts PepperIkLoop
  PepperIkLoopSpec PepperIkLoopFacts Solver KKT KKTSpec KKTFacts PepperIkProgram PepperIkProgramSpec PepperIkProgramFacts PepperIkProgramFacts2 PepperIkProgramFacts3 PepperIkProgramRun PepperIkScan PepperIkScanSpec PepperIkScanFacts.
From Verif Require WalkProgramFacts7.
Import ListNotations.
Local Open Scope nat_scope.

Lemma Forall2_In_l {A B} (P : A -> B -> Prop) a b : Forall2 P a b -> forall x, In x a -> exists y, In y b /\ P x y.
Proof. induction 1 as [|x y a b X F IH]; intros z []; [subst z; exists y; split; [left; reflexivity|exact X]|]. destruct (IH z) as (u & U & V); [assumption|]. exists u. split; [right; exact U|exact V]. Qed.

(** what is known about the states of the program; [L] are the objects of the library which do not belong to the solver *)
Definition fit (eig : m3 -> euler_type -> v3) (se : scan_settings) (par : qparams) (L : list nat) (s : scan_program) : Prop :=
  reachable eig (sc_features se) (sc_kinematics se) (lk_model (sp_loop s)) /\ (exists l0 l1, ishape (sc_hierarchy se) (sp_problem s) l0 l1) /\
  holds L (sp_solver s) (sp_world s) /\ sv_par (sp_solver s) = par.

Section Iteration.
Variables (eig : m3 -> euler_type -> v3) (se : scan_settings) (mp : motion_parameters) (s : scan_program).
Let f := sc_features se.
Let h := sc_hierarchy se.
Let fk := sc_kinematics se.
Let m := lk_model (sp_loop s).
Let w := wbc_update f mp (lk_wbc (sp_loop s)).
Let nv := DOF_NUMBER f.
Hypotheses (K : kinematics f fk) (RC : reachable eig f fk m).
Notation Meets := (meets (emb se) mp (embp s)).

Lemma bounds_meaning y : satisfies (form_jointsBounds (w_structure w) m) y <-> forall j, (lower_limit j <= angle f (ik_gc m) j + joint_rate f y j <= upper_limit j)%R.
Proof.
  destruct (any_next eig f fk m mp (lk_wbc (sp_loop s)) K RC y) as (sol & g & w' & SX & SF & NX). fold w in SF, NX.
  destruct (reachable_good eig f fk m K RC) as (file & D & GD). pose proof GD as ((SZ & _ & junk & C) & _).
  destruct (bounds_task f mp (lk_wbc (sp_loop s)) m sol g w' SZ SF NX junk C) as (U & T & B). fold w in U, T, B.
  assert (PT : forall i, i < nv -> point sol i = y i) by (intros i Hi; unfold point; rewrite SX, (nth_indep _ 0%R (y 0)) by (rewrite map_length, seq_length; exact Hi); rewrite map_nth, seq_nth by exact Hi; reflexivity).
  assert (N : c_nvars (form_jointsBounds (w_structure w) m) = nv) by apply U.
  destruct (next_ok f mp (lk_wbc (sp_loop s)) sol m SZ SF) as (g0 & w0 & E & SG & _ & JT). fold w in E. rewrite NX in E. injection E as <- <-.
  assert (JR : forall j, nth (ROOT_DOF_NUMBER f + joint_id f j) (sol_x sol) 0%R = joint_rate f y j).
  { intros j. apply (PT (ROOT_DOF_NUMBER f + joint_id f j)). pose proof (PepperIkFacts.joint_id_lt f j). unfold nv, DOF_NUMBER. lia. }
  transitivity (satisfies (form_jointsBounds (w_structure w) m) (point sol)); [split; apply satisfies_ext; rewrite N; intros j Hj; [symmetry|]; apply PT, Hj|].
  rewrite B. unfold within_limits. split; intros H j; specialize (H j); rewrite JT, JR in *; exact H.
Qed.
Lemma permitted_level ts cs M MS x : Forall constraint_task ts -> Forall (fun t => gain_of t <> 0%R) ts -> Forall2 Meets ts cs -> moving f fk m M MS x ->
  (permitted f m mp MS x ts <-> forall c, In c cs -> satisfies c x).
Proof.
  intros P G F MV. unfold permitted. revert P G. induction F as [|t c ts cs ((old & E) & _) F IH]; intros P G; [split; [intros _ c []|intros _; split; [intros t []|intros []]]|].
  inversion P as [|? ? P1 P2]; subst. inversion G as [|? ? G1 G2]; subst. specialize (IH P2 G2).
  assert (X : satisfies c x <-> (t <> JointsBounds -> exists e, errors f m mp MS x t e /\ Forall (fun v => v = 0%R) e) /\
    (t = JointsBounds -> forall j, (lower_limit j <= angle f (ik_gc m) j + joint_rate f x j <= upper_limit j)%R)).
  { assert (D : t = JointsBounds \/ t <> JointsBounds) by (destruct t; auto; right; discriminate). destruct D as [-> |D].
    - apply ok_inj in E. subst c. etransitivity; [apply bounds_meaning|]. split; [intros H; split; [intros C; contradiction|intros _; exact H]|intros (_ & H); exact (H eq_refl)].
    - assert (PT : proper_task t) by (destruct t; try exact P1; [destruct P1|contradiction]).
      destruct (task_explained eig f fk m mp (lk_wbc (sp_loop s)) K RC t c old M MS x PT E MV) as ((er & EE) & X). destruct (weighs_exists t) as (g & W). split.
      + intros H. split; [intros _; exists er; split; [exact EE|apply (X er g EE W); assumption]|contradiction].
      + intros (H & _). destruct (H D) as (e' & EE' & Z). apply (X e' g EE' W); assumption. }
  split.
  - intros (A & B) d [<- |I].
    + apply X. split; [intros D; apply A; [left; reflexivity|exact D]|intros Q; apply B; left; exact Q].
    + apply IH; [|exact I]. split; [intros u J; apply A; right; exact J|intros J; apply B; right; exact J].
  - intros A. pose proof (proj1 X (A c (or_introl eq_refl))) as (X1 & X2). destruct (proj2 IH (fun d I => A d (or_intror I))) as (Y1 & Y2). split.
    + intros u [<- |I] D; [apply X1, D|apply Y1; assumption].
    + intros [Q|I]; [apply X2, Q|apply Y2, I].
Qed.
End Iteration.

Lemma sum_squares_nonneg cs y : (0 <= sum_list (map (fun c => squared_residuals c y) cs))%R.
Proof.
  induction cs as [|c cs IH]; cbn; [lra|]. assert (0 <= squared_residuals c y)%R; [|lra]. unfold squared_residuals. apply Rsum_nonneg. intros r _. apply Rle_0_sqr.
Qed.
Section Step.
Variables (eig : m3 -> euler_type -> v3) (se : scan_settings) (par : qparams) (L : list nat).
Let f := sc_features se.
Let h := sc_hierarchy se.
Let fk := sc_kinematics se.
Let nv := DOF_NUMBER f.
Hypotheses (K : kinematics f fk) (PH : scan_hierarchy h) (TL : pr_two_levels par = true).

Definition stepped (mp : motion_parameters) (e : environment) (s : scan_program) (r : scan_step) : Prop :=
  match r with
  | Stepped sol s' => answers f sol /\ ik_iteration f fk mp sol (sp_loop s) = Ok (sp_loop s') /\
      exists k, wd_calls (sp_world s') = k :: wd_calls (sp_world s) /\ asks_for se mp (lk_model (sp_loop s)) (lc_problem k) /\
        (forall x, an_primal (en_library e k) = Some x -> forall i, i < nv -> point sol i = x i) /\ (pr_crash par = true -> an_code (en_library e k) = CODE_SUCCESS) /\
        (an_code (en_library e k) = CODE_SUCCESS -> honest_answer (lc_problem k) (en_library e k) ->
           permitted_step se mp (lk_model (sp_loop s)) sol /\ (In JointsBounds (fst h) -> within_limits f (ik_gc (lk_model (sp_loop s'))))) /\
        (an_code (en_library e k) = CODE_SUCCESS -> sound_answer (lc_problem k) (en_library e k) -> least_step se mp (lk_model (sp_loop s)) sol)
  | Failed s' => lk_model (sp_loop s') = lk_model (sp_loop s) /\
      ((wd_calls (sp_world s') = wd_calls (sp_world s) /\ impossible_step se mp (lk_model (sp_loop s))) \/
       exists k, wd_calls (sp_world s') = k :: wd_calls (sp_world s) /\ asks_for se mp (lk_model (sp_loop s)) (lc_problem k) /\ pr_crash par = true /\ an_code (en_library e k) <> CODE_SUCCESS /\
         (capable_answer (lc_problem k) (en_library e k) -> impossible_step se mp (lk_model (sp_loop s))))
  end.

Lemma step_all mp e s : fit eig se par L s -> exists r, sc_step se mp e s = Ok r /\ fit eig se par L (step_state r) /\ stepped mp e s r.
Proof.
  intros (RC & (l0 & l1 & SH) & HO & PA). pose proof PH as (_ & _ & P0 & P1 & PG).
  destruct (sc_formed eig se mp e s l0 l1 K RC PH SH) as (cs & p & l0' & l1' & EF & FU & SH' & EP).
  destruct (fully_split (emb se) mp (embp s) cs FU) as (cs0 & cs1 & EC & M0 & M1).
  set (c := sc_call e cs p (new_solution se e s)) in *. set (w := wbc_update (sc_features se) mp (lk_wbc (sp_loop s))) in *.
  assert (HI : hierarchy_of c (ik_formed cs) false (sp_problem s) l0 l1) by (apply (sc_hierarchy_of se mp e s l0 l1 PH SH); assumption).
  assert (SZ : SolverLifeSpec.sized c) by apply sc_sized.
  assert (SAT : forall M MS y, moving f fk (lk_model (sp_loop s)) M MS y -> (permitted f (lk_model (sp_loop s)) mp MS y (fst h) <-> satisfies_level (ik_constraints_of cs) l0 y)).
  { intros M MS y MV. etransitivity; [apply (permitted_level eig se mp s K RC (fst h) cs0 M MS y P0 PG M0 MV)|]. symmetry. apply (sc_sat0 se mp s l0 l1 SH cs cs0 cs1 EC M0). }
  assert (IMP : (forall y, reasonable (ik_constraints_of cs) l0 nv y -> ~ satisfies_level (ik_constraints_of cs) l0 y) -> impossible_step se mp (lk_model (sp_loop s))).
  { intros H M MS y MV B P. apply (H y); [apply (sc_reasonable se mp s l0 l1 SH cs cs0 cs1 EC M0), B|apply (SAT M MS y MV), P]. }
  pose proof (meets_formed (emb se) mp (embp s) _ _ M1) as F1.
  assert (CO : forall N NS y c', moving f fk (lk_model (sp_loop s)) N NS y -> costs f (lk_model (sp_loop s)) mp NS y (snd h) c' <-> c' = level_cost (ik_constraints_of cs) l1 y).
  { intros N NS y c' MY. rewrite (sc_cost1 se mp s l0 l1 SH cs cs0 cs1 EC M0 M1 y). apply (costs_level eig f fk (lk_model (sp_loop s)) mp (lk_wbc (sp_loop s)) K RC (snd h) cs1 N NS y P1 F1 MY). }
  assert (PO : forall k, gets par c (sp_world s) l0 l1 k -> asks_for se mp (lk_model (sp_loop s)) (lc_problem k)).
  { intros k [_ _ _ _ _ _ _ _ _ (NV & _ & GM) (GP & GQ & _)]. cbn [c sc_call cl_cs cl_solution new_solution so_nv] in NV, GM, GP, GQ. split; [exact NV|]. intros M MS y MY. split.
    - intros FY. apply (SAT M MS y MY), GP, FY.
    - intros BY PY. apply (SAT M MS y MY) in PY. apply (sc_reasonable se mp s l0 l1 SH cs cs0 cs1 EC M0) in BY. split; [exact (GQ y BY PY)|]. intros CY. apply (CO M MS y 0%R MY) in CY.
      apply (GM y BY). split; [exact PY|]. intros z _. rewrite <- CY. rewrite (sc_cost1 se mp s l0 l1 SH cs cs0 cs1 EC M0 M1). apply sum_squares_nonneg. }
  destruct (call_effect L c (sp_solver s) (sp_world s) (ik_formed cs) false (sp_problem s) l0 l1 HO SZ HI) as (t & R & HL & HP & W); [cbn; rewrite PA; exact TL|].
  change (params_of c (sv_par (sp_solver s))) with (sv_par (sp_solver s)) in HP, W. rewrite PA in HP, W.
  unfold sc_step. fold w. rewrite EF. cbn [bind fst snd]. fold c.
  assert (FAIL : sv_solve c (sp_solver s) (sp_world s) = Thrown t -> exists r, (match sv_solve c (sp_solver s) (sp_world s) with
      | Returned t => bind (ik_iteration (sc_features se) (sc_kinematics se) mp (solution_of (w_structure w) (cs_solution t)) (sp_loop s)) (fun l => Ok (Stepped (solution_of (w_structure w) (cs_solution t)) (mkScp l p (ik_matrices cs (sp_matrices s)) (cs_solution t) (cs_solver t) (cs_world t))))
      | Thrown t => Ok (Failed (mkScp (mkIkloop (lk_model (sp_loop s)) w) p (ik_matrices cs (sp_matrices s)) (cs_solution t) (cs_solver t) (cs_world t)))
      | Undefined => UB end) = Ok r /\ fit eig se par L (step_state r) /\ stepped mp e s r).
  { intros ET. rewrite ET in W |- *. eexists. split; [reflexivity|]. split; [split; [exact RC|split; [exists l0', l1'; exact SH'|split; [exact HL|exact HP]]]|].
    cbn [stepped sp_loop lk_model sp_world]. split; [reflexivity|]. destruct W as [(_ & WC & _ & _ & NA)|(_ & k & EK)].
    - left. split; [exact WC|]. apply IMP. intros y (_ & RB) SY. apply NA. split; [|intros a v Q; discriminate Q]. exists y. split; [intros i I _; apply SY, I|exact RB].
    - right. exists k. split; [apply (ef_calls _ _ _ _ _ _ _ _ EK)|]. split; [exact (PO k (ef_gets _ _ _ _ _ _ _ _ EK))|]. destruct (ef_plain _ _ _ _ _ _ _ _ EK eq_refl) as (_ & PL). destruct (PL eq_refl) as (Q1 & Q2). split; [exact Q1|]. split; [exact Q2|].
      intros CA. apply IMP. intros y RY SY. apply Q2, CA. exists y. destruct (gt_points _ _ _ _ _ _ (ef_gets _ _ _ _ _ _ _ _ EK)) as (_ & GP & _). exact (GP y RY SY). }
  destruct R as [ER|ET]; [|exact (FAIL ET)]. clear FAIL. rewrite ER in W |- *. destruct W as [(Q & _)|(AC & k & EK)]; [discriminate Q|].
  set (sol := solution_of (w_structure w) (cs_solution t)) in *. pose proof (ef_written _ _ _ _ _ _ _ _ EK) as WR.
  assert (VL : vlen (so_x (cs_solution t)) = nv) by (rewrite (wr_size _ _ _ WR); reflexivity).
  assert (AN : answers f sol) by (intros mp' w'; split; [reflexivity|cbn; rewrite map_length, seq_length; exact VL]).
  destruct (iteration_ok eig f fk mp sol (sp_loop s) K RC AN) as (lp & EI & RC' & _ & NX & _). fold f fk. rewrite EI. cbn [bind].
  eexists. split; [reflexivity|]. split; [split; [exact RC'|split; [exists l0', l1'; exact SH'|split; [exact HL|exact HP]]]|].
  cbn [stepped sp_loop sp_world]. split; [exact AN|]. split; [exact EI|]. exists k. split; [apply (ef_calls _ _ _ _ _ _ _ _ EK)|]. split; [exact (PO k (ef_gets _ _ _ _ _ _ _ _ EK))|].
  assert (PX : forall x, an_primal (en_library e k) = Some x -> forall i, i < nv -> x i = point sol i).
  { intros x AX i Hi. unfold sol. rewrite WalkProgramFacts7.solution_point by (rewrite VL; exact Hi). symmetry. apply (wr_x _ _ _ WR x AX). exact Hi. }
  split; [intros x AX i Hi; symmetry; exact (PX x AX i Hi)|]. split; [intros CR; apply (ef_success _ _ _ _ _ _ _ _ EK); [reflexivity|exact CR]|].
  assert (EX : forall x, an_primal (en_library e k) = Some x -> satisfies_level (ik_constraints_of cs) l0 x -> satisfies_level (ik_constraints_of cs) l0 (point sol)).
  { intros x AX SX. apply (sc_sat0 se mp s l0 l1 SH cs cs0 cs1 EC M0). intros d I. apply (satisfies_ext d x); [|apply (sc_sat0 se mp s l0 l1 SH cs cs0 cs1 EC M0); assumption].
    rewrite (meets_usable (emb se) mp (embp s) _ _ M0 d I). apply PX, AX. }
  destruct (ef_gets _ _ _ _ _ _ _ _ EK) as [_ _ _ _ _ _ _ _ _ (_ & GM & _) (GP & _ & _)]. cbn [c sc_call cl_cs cl_solution new_solution so_nv] in GM, GP. split.
  - intros OK HA. destruct (HA OK) as (x & AX & FX). pose proof (EX x AX (GP x FX)) as SX. split.
    + intros M MS MV. apply (SAT M MS (point sol) MV), SX.
    + intros IB. rewrite (sc_sat0 se mp s l0 l1 SH cs cs0 cs1 EC M0) in SX.
      destruct (Forall2_In_l _ _ _ M0 _ IB) as (d & ID & (old & ED) & _). apply ok_inj in ED. pose proof (SX d ID) as SD. subst d.
      destruct (reachable_good eig f fk _ K RC) as (file & DD & GD). pose proof GD as (RD & _).
      destruct (ik_bounds f fk (lk_model (sp_loop s)) mp (lk_wbc (sp_loop s)) sol K RD (AN mp (lk_wbc (sp_loop s)))) as (g & w' & m' & E1 & _ & _ & _ & _ & B & _).
      rewrite NX in E1. injection E1 as EG _. rewrite EG. apply B, SD.
  - intros OK HA. destruct (HA OK) as (x & AX & MX). destruct (GM x MX) as (SX & BX).
    intros M MS MV.
    exists (level_cost (ik_constraints_of cs) l1 (point sol)). split; [apply (CO M MS (point sol) _ MV); reflexivity|].
    intros N NS y c' MY BY PY CY. apply (CO N NS y c' MY) in CY. subst c'.
    assert (level_cost (ik_constraints_of cs) l1 (point sol) = level_cost (ik_constraints_of cs) l1 x) as ->.
    { rewrite !(sc_cost1 se mp s l0 l1 SH cs cs0 cs1 EC M0 M1). f_equal. apply map_ext_in. intros d I. apply squared_ext. rewrite (meets_usable (emb se) mp (embp s) _ _ M1 d I). intros j Hj. symmetry. apply (PX x AX j Hj). }
    apply BX; [apply (sc_reasonable se mp s l0 l1 SH cs cs0 cs1 EC M0), BY|apply (SAT N NS y MY), PY].
Qed.
End Step.
