(** * Property C97: the life of a solver object. Vocabulary in SolverLifeSpec.v. *)
From Coq Require Import List Arith ZArith Reals Bool Lia Lra.
From Verif Require Import Base ActiveSet ConstraintType HierarchyLevel HierarchySpec RSum Matrix Constraints ConstraintsSpec RowsSpec QP QPSpec
  Problem ProblemSpec ProblemFacts ProblemFacts2 QpoasesBridge QpoasesBridgeSpec QpoasesBridgeFacts Backends BackendsSpec BackendsFacts
  Solver SolverLife SolverLifeSpec SolverLifeFacts Prop_Bridges.
Import ListNotations.
Local Open Scope R_scope.

(** Which hierarchies are accepted *)
Theorem C97_accepted : forall (par : qparams) (fo : nat -> formed) (gu : bool) (p p1 : problem),
  preach p -> pb_formHierarchy fo gu p = Ok p1 ->
  (sv_accepts par (pb_levels p1) = true <->
   pr_two_levels par = true /\
   exists l, (pb_levels p = [l] \/ exists l0, pb_levels p = [l0; l]) /\
     forall i, In i (lv_tasks l) -> f_n (fo (tk_id (ti_task i))) = 0%nat \/ ct_isEquality (tk_type (ti_task i)) = true).
Proof. exact accepted_iff. Qed.
Theorem C97_not_formed : forall (par : qparams) (n : nat) (ts : list (task * nat)) (p p' : problem),
  push_all n ts p = Ok p' -> sv_accepts par (pb_levels p') = false.
Proof. exact not_formed. Qed.
Theorem C97_refused : forall (c : call) (s : qsolver) (w : world),
  sv_accepts (params_of c (sv_par s)) (pb_levels (cl_problem c)) = false ->
  exists t, sv_solve c s w = Thrown t /\ cs_solution t = cl_solution c /\ cs_report t = None /\ cs_world t = w /\
    sv_par (cs_solver t) = params_of c (sv_par s) /\
    sv_qp (cs_solver t) = sv_qp s /\ sv_guess (cs_solver t) = sv_guess s /\ sv_object (cs_solver t) = sv_object s.
Proof. exact refused. Qed.
(** After any history one object of the library exists at most, and none after the destruction *)
Theorem C97_memory : forall (P : qparams) (w0 : world) (es : list event),
  tidy w0 -> careful P es ->
  exists s w w', sv_run es (sv_new P, w0) = Some (s, w) /\
    (wd_live w = wd_live w0 \/ exists a, ~ In a (wd_live w0) /\ wd_live w = a :: wd_live w0) /\
    sv_destroy s w = Some w' /\ wd_live w' = wd_live w0.
Proof. exact memory_balanced. Qed.
(** The library gets what was given to this call, and the solution is what it gave back *)
Theorem C97_own_call : forall (P : qparams) (w0 : world) (es : list event) (s : qsolver) (w : world) (c : call) (fo : nat -> formed) (gu : bool) (p : problem) (l0 l1 : level),
  tidy w0 -> careful P es -> sv_run es (sv_new P, w0) = Some (s, w) ->
  sized c -> hierarchy_of c fo gu p l0 l1 -> pr_two_levels (params_of c (in_force P es)) = true ->
  (exists t, sv_solve c s w = Thrown t /\ wd_calls (cs_world t) = wd_calls w /\ cs_solution t = cl_solution c /\ cs_report t = None /\ ~ acceptable_call c l0) \/
  (exists t k, (sv_solve c s w = Returned t \/ sv_solve c s w = Thrown t) /\ wd_calls (cs_world t) = k :: wd_calls w /\
     gets (params_of c (in_force P es)) c w l0 l1 k /\ written (cl_library c k) (cl_solution c) (cs_solution t) /\ acceptable_call c l0).
Proof. exact own_call. Qed.
Theorem C97_outcome : forall (P : qparams) (w0 : world) (es : list event) (s : qsolver) (w : world) (c : call) (fo : nat -> formed) (gu : bool) (p : problem) (l0 l1 : level),
  tidy w0 -> careful P es -> sv_run es (sv_new P, w0) = Some (s, w) ->
  sized c -> hierarchy_of c fo gu p l0 l1 -> pr_two_levels (params_of c (in_force P es)) = true -> acceptable_call c l0 ->
  exists t k, (sv_solve c s w = Returned t \/ sv_solve c s w = Thrown t) /\ wd_calls (cs_world t) = k :: wd_calls w /\
    (sv_solve c s w = Returned t -> pr_crash (params_of c (in_force P es)) = true -> so_status (cs_solution t) = STATUS_OK) /\
    (cl_report c = false \/ sensible (cl_library c k) k ->
       (sv_solve c s w = Thrown t <-> pr_crash (params_of c (in_force P es)) = true /\ so_status (cs_solution t) <> STATUS_OK)) /\
    (cl_report c = false -> cs_report t = None) /\
    (cl_report c = true -> sensible (cl_library c k) k -> sv_solve c s w = Returned t ->
       exists v0 v1, cs_report t = Some [v0; v1] /\ fits [v0; v1] (cl_problem c) /\ Forall (eq EQUALITY) v1 /\
         forall l i j, nth_error (pb_levels (cl_problem c)) 0 = Some l -> In i (lv_tasks l) -> (j < len (ti_loc i))%nat ->
           exists u, nth_error v0 (offset (ti_loc i) + j) = Some u /\
             reports (cl_cs c) l (an_wsb (cl_library c k)) (an_wsc (cl_library c k)) i j u).
Proof. exact outcome_of_call. Qed.

(** the hierarchy of C84 is solved with a guess of the solution, after a history with new parameters and a refused call *)
Definition sl_params := mkQParams true true 100 0 [].
Definition sl_formed := match pb_formHierarchy br_fo false br_problem with Ok q => q | _ => pb_new end.
Definition sl_answer := mkAnswer CODE_SUCCESS 3 (Some (fun v => if (v =? 1)%nat then 1 else 3)) (fun v => if (v =? 1)%nat then 1 else 0) (fun _ => 1).
Definition sl_call (g : option nat) (a : option asets) (r : bool) := mkCall None sl_formed (mkQSol 2 (mkVec 2 (fun _ => 0)) STATUS_UNDEFINED (Some (CODE_MAX_ITER, 0%Z)))
  g a r (fun b => if (b =? 7)%nat then Some (mkVec 2 (fun _ => 1)) else None) br_cs (fun _ => sl_answer) (empty_objective, empty_ILU_ALU) ([], []).
Definition sl_history := [SetParameters (mkQParams false true 5 1 []); Solve (sl_call None None true);
  Solve (mkCall (Some sl_params) pb_new (mkQSol 0 (mkVec 0 (fun _ => 0)) STATUS_UNDEFINED None) None None false (fun _ => None) br_cs (fun _ => sl_answer) (empty_objective, empty_ILU_ALU) ([], []))].
Definition sl_active : asets := [[INACTIVE; LOWER_BOUND; UPPER_BOUND]; [EQUALITY; EQUALITY]].
Lemma sl_hierarchy : exists l0 l1, forall g a r, hierarchy_of (sl_call g a r) br_fo false br_problem l0 l1 /\ acceptable_call (sl_call g None r) l0 /\
  acceptable_call (sl_call g (Some sl_active) r) l0 /\ exists x, reasonable br_cs l0 2 x /\ satisfies_level br_cs l0 x.
Proof.
  assert (G : 10 < g_infinity) by (unfold g_infinity; lra).
  assert (F : exists x, forall l0, Forall (fun i => (tk_id (ti_task i) = 1 \/ tk_id (ti_task i) = 2 \/ tk_id (ti_task i) = 3)%nat) (lv_tasks l0) ->
                reasonable br_cs l0 2 x /\ satisfies_level br_cs l0 x).
  { exists (fun _ => 0). intros l0 HF. rewrite Forall_forall in HF. split; [split|]; [intros i Hi; apply br_satisfied, HF, Hi|intros v _; lra|intros i Hi; apply br_satisfied, HF, Hi]. }
  destruct F as (x & F).
  assert (F' : forall l0, Forall (fun i => (tk_id (ti_task i) = 1 \/ tk_id (ti_task i) = 2 \/ tk_id (ti_task i) = 3)%nat) (lv_tasks l0) ->
    (forall i, In i (lv_tasks l0) -> simple_task (ti_task i) = true -> satisfies (br_cs (tk_id (ti_task i))) x) /\ forall v, (v < 2)%nat -> - g_infinity <= x v <= g_infinity).
  { intros l0 HF. destruct (F l0 HF) as ((_ & F1) & F2). split; [intros i Hi _; apply F2, Hi|exact F1]. }
  do 2 eexists. intros g a r. split; [split; [|split; [|split; [|split; [reflexivity|split]]]]|split; [|split]].
  - eapply push_all_reach with (n := 2%nat) (ts := br_tasks) (p := pb_new); [apply pr_new|reflexivity].
  - reflexivity.
  - constructor; [|constructor; [|constructor]]; intros i Hi; cbn in Hi.
    + destruct Hi as [<-|[<-|[<-|[]]]]; (split; [reflexivity|split; [reflexivity|split; [reflexivity|split; [reflexivity|cbn; repeat constructor]]]]).
    + destruct Hi as [<-|[]]; (split; [reflexivity|split; [reflexivity|split; [reflexivity|split; [reflexivity|cbn; repeat constructor]]]]).
  - intros i Hi. cbn in Hi. destruct Hi as [<-|[]]. cbn. split; [reflexivity|discriminate].
  - intros i Hi. cbn in Hi. destruct Hi as [<-|[<-|[<-|[]]]]; reflexivity.
  - split; [|discriminate]. exists x. apply F'. apply Forall_forall. intros i Hi. cbn in Hi. destruct Hi as [<-|[<-|[<-|[]]]]; cbn; auto.
  - split; [|intros b v Hb Hv; injection Hb as <-; injection Hv as <-; cbn; intuition discriminate]. exists x. apply F'. apply Forall_forall. intros i Hi. cbn in Hi. destruct Hi as [<-|[<-|[<-|[]]]]; cbn; auto.
  - exists x. apply F. apply Forall_forall. intros i Hi. cbn in Hi. destruct Hi as [<-|[<-|[<-|[]]]]; cbn; auto.
Qed.
Lemma sl_sized g a r : g = None \/ g = Some 7%nat -> a = None \/ a = Some sl_active -> sized (sl_call g a r).
Proof.
  intros Hg Ha. split; [|split; [reflexivity|]].
  - cbn. intros b Hb. destruct Hg as [-> | ->]; [discriminate|]. injection Hb as <-. eexists. split; [reflexivity|cbn; lia].
  - cbn [sl_call cl_active]. intros b Hb. destruct Ha as [-> | ->]; [discriminate|]. injection Hb as <-.
    split; [reflexivity|]. intros i l v Hl Hv. destruct i as [|[|i]]; cbn in Hl, Hv; [injection Hl as <-; injection Hv as <-; reflexivity|injection Hl as <-; injection Hv as <-; reflexivity|].
    destruct i; discriminate.
Qed.
Example C97_case : tidy (mkWorld [4%nat; 2%nat] 9 []) /\ careful sl_params sl_history /\ in_force sl_params sl_history = sl_params /\
  (exists l0 l1, forall r, hierarchy_of (sl_call (Some 7%nat) (Some sl_active) r) br_fo false br_problem l0 l1 /\ acceptable_call (sl_call (Some 7%nat) (Some sl_active) r) l0) /\
  (forall r, sized (sl_call (Some 7%nat) (Some sl_active) r)) /\
  (exists s w s' w' a, sv_run sl_history (sv_new sl_params, mkWorld [4%nat; 2%nat] 9 []) = Some (s, w) /\
     sv_do (Solve (sl_call (Some 7%nat) None false)) (s, w) = Some (s', w') /\ sv_object s' = Some a).
Proof.
  assert (T : tidy (mkWorld [4%nat; 2%nat] 9 [])) by (intros a Ha; cbn in *; lia).
  assert (C : careful sl_params sl_history).
  { cbn [careful sl_history]. split; [|split; [right; reflexivity|exact I]]. left. split; [apply sl_sized; auto|].
    destruct sl_hierarchy as (l0 & l1 & H). exists br_fo, false, br_problem, l0, l1. apply H. }
  destruct sl_hierarchy as (l0 & l1 & H).
  split; [exact T|]. split; [exact C|]. split; [reflexivity|]. split; [|split].
  - exists l0, l1. intros r. destruct (H (Some 7%nat) (Some sl_active) r) as (H1 & _ & H2 & _). split; [exact H1|exact H2].
  - intros r. apply sl_sized; auto.
  - destruct (H (Some 7%nat) None false) as (H1 & _ & _ & H2).
    apply (used_after _ _ _ _ br_fo false br_problem l0 l1 T C); [apply sl_sized; auto|exact H1|reflexivity|reflexivity|exact H2|reflexivity].
Qed.

(** What is not protected *)
Theorem C97_copy_refuted : forall (P : qparams) (w0 : world) (es : list event) (s : qsolver) (w : world) (a : nat),
  tidy w0 -> careful P es -> sv_run es (sv_new P, w0) = Some (s, w) -> sv_object s = Some a ->
  exists w', sv_destroy (sv_copy s) w = Some w' /\ sv_destroy s w' = None.
Proof. exact copy_double. Qed.
Theorem C97_short_guess_refuted : forall (P : qparams) (w0 : world) (es : list event) (s : qsolver) (w : world) (c : call) (fo : nat -> formed) (gu : bool) (p : problem)
    (l0 l1 : level) (a : nat) (v : vec),
  tidy w0 -> careful P es -> sv_run es (sv_new P, w0) = Some (s, w) ->
  hierarchy_of c fo gu p l0 l1 -> pr_two_levels (params_of c (in_force P es)) = true -> cl_active c = None ->
  (exists x, reasonable (cl_cs c) l0 (so_nv (cl_solution c)) x /\ satisfies_level (cl_cs c) l0 x) ->
  cl_guess c = Some a -> cl_memory c a = Some v -> (vlen v < so_nv (cl_solution c))%nat ->
  sv_solve c s w = Undefined.
Proof. exact short_guess. Qed.
Theorem C97_short_solution_refuted : forall (P : qparams) (w0 : world) (es : list event) (s : qsolver) (w : world) (c : call) (fo : nat -> formed) (gu : bool) (p : problem)
    (l0 l1 : level),
  tidy w0 -> careful P es -> sv_run es (sv_new P, w0) = Some (s, w) ->
  hierarchy_of c fo gu p l0 l1 -> pr_two_levels (params_of c (in_force P es)) = true -> cl_active c = None ->
  (exists x, reasonable (cl_cs c) l0 (so_nv (cl_solution c)) x /\ satisfies_level (cl_cs c) l0 x) ->
  cl_guess c = None -> (vlen (so_x (cl_solution c)) < so_nv (cl_solution c))%nat -> (forall k, an_primal (cl_library c k) <> None) ->
  sv_solve c s w = Undefined.
Proof. exact short_solution. Qed.
Theorem C97_other_size_refuted : forall (P : qparams) (w : world) (c : call) (fo : nat -> formed) (gu : bool) (p : problem) (l : level) (nv : nat),
  preach p -> pb_formHierarchy fo gu p = Ok (cl_problem c) -> described_problem (cl_cs c) fo nv p -> pb_levels p = [l] -> equality_level l ->
  (nv < so_nv (cl_solution c))%nat -> pr_two_levels (params_of c P) = true -> cl_active c = None ->
  sv_solve c (sv_new P) w = Undefined.
Proof. exact other_size. Qed.

Print Assumptions C97_accepted. Print Assumptions C97_not_formed. Print Assumptions C97_refused. Print Assumptions C97_memory. Print Assumptions C97_own_call. Print Assumptions C97_outcome. Print Assumptions C97_copy_refuted. Print Assumptions C97_short_guess_refuted. Print Assumptions C97_short_solution_refuted. Print Assumptions C97_other_size_refuted.
