(** * The program of the inverse kinematics of Pepper: the hierarchy and the solver *)
From Coq Require Import String List Reals Arith Bool ZArith Lra Lia Permutation.
From Verif Require Import Base BaseFacts RSum Matrix Mat3 ActiveSet ConstraintType HierarchyLevel HierarchySpec HierarchyFacts Constraints ConstraintsSpec ConstraintsFacts QP QPSpec QPFacts2 Problem ProblemSpec ProblemFacts
  Solution PepperTasksSpec WalkProgram WalkProgramFacts WalkProgramFacts2 RotarySpec Rotary Euler EulerSpec Rbdl RbdlSpec PepperIk PepperIkSpec PepperIkFacts PepperIkTasks PepperIkTasksSpec PepperIkTasksFacts PepperIkLoop
  PepperIkLoopSpec PepperIkLoopFacts Solver KKT KKTSpec KKTFacts KKTPosedSpec KKTPosedFacts PepperIkProgram PepperIkProgramSpec.
Import ListNotations.
Local Open Scope nat_scope.

(** ** hierarchies *)
Fixpoint news (i : nat) (ts : list ik_task) : list task := match ts with [] => [] | t :: r => new_task i (ik_class t) :: news (S i) r end.
Definition kinds (i : nat) (ts : list ik_task) : list (nat * ctype) := map (fun t => (tk_id t, tk_type t)) (news i ts).
(** the hierarchy of the program *)
Record ishape (h : list ik_task * list ik_task) (p : problem) (l0 l1 : level) : Prop := mkIshape {
  ih_reach : preach p;
  ih_levels : pb_levels p = [l0; l1];
  ih_first : Permutation (task_ids l0) (kinds 0 (fst h));
  ih_second : Permutation (task_ids l1) (kinds (length (fst h)) (snd h));
  ih_guess : unguessed l0 /\ unguessed l1 }.

Lemma push_first ts : forall i p a b, preach p -> pb_levels p = [a; b] -> exists p', ik_push i 0 ts p = Ok p' /\ preach p' /\ pb_levels p' = [fold_left level_pushTask (news i ts) a; b].
Proof.
  induction ts as [|t r IH]; intros i p a b R E; [exists p; auto|]. cbn [ik_push]. 
  assert (P : exists q, pb_pushTask p (new_task i (ik_class t)) 0 = Ok q /\ pb_levels q = [level_pushTask a (new_task i (ik_class t)); b]) by (unfold pb_pushTask; rewrite E; eexists; split; reflexivity).
  destruct P as (q & P & Q). rewrite P. cbn [bind]. apply (IH (S i) q _ b (pr_push _ _ _ _ R P) Q).
Qed.
Lemma push_second ts : forall i p a b, preach p -> pb_levels p = [a; b] -> exists p', ik_push i 1 ts p = Ok p' /\ preach p' /\ pb_levels p' = [a; fold_left level_pushTask (news i ts) b].
Proof.
  induction ts as [|t r IH]; intros i p a b R E; [exists p; auto|]. cbn [ik_push]. 
  assert (P : exists q, pb_pushTask p (new_task i (ik_class t)) 1 = Ok q /\ pb_levels q = [a; level_pushTask b (new_task i (ik_class t))]) by (unfold pb_pushTask; rewrite E; eexists; split; reflexivity).
  destruct P as (q & P & Q). rewrite P. cbn [bind]. apply (IH (S i) q a _ (pr_push _ _ _ _ R P) Q).
Qed.
Lemma filter_perm {A} (g : A -> bool) l : Permutation (rev (filter (fun x => negb (g x)) l) ++ filter g l) l.
Proof.
  apply (@perm_trans _ _ (filter (fun x => negb (g x)) l ++ filter g l)); [apply Permutation_app_tail, Permutation_sym, Permutation_rev|].
  induction l as [|x l IH]; [constructor|]. cbn. destruct (g x); cbn; [|constructor; exact IH].
  apply Permutation_sym. eapply perm_trans; [apply perm_skip, Permutation_sym, IH|]. apply Permutation_middle.
Qed.
Lemma pushed_kinds i ts : Permutation (task_ids (fold_left level_pushTask (news i ts) level_new)) (kinds i ts).
Proof.
  unfold task_ids, kinds. rewrite <- (map_map ti_task (fun t => (tk_id t, tk_type t))). apply Permutation_map. rewrite pushed_gen. cbn [lv_tasks level_new map app]. apply filter_perm.
Qed.
Lemma pushed_unguessed ts : forall l, unguessed l -> Forall (fun t => tk_guess t = []) ts -> unguessed (fold_left level_pushTask ts l).
Proof.
  induction ts as [|t ts IH]; intros l U F; [exact U|]. inversion F; subst. apply IH; [|assumption]. unfold unguessed, level_pushTask in *. cbn [lv_tasks].
  destruct (ct_isSimple (tk_type t)); [apply Forall_app; split; [exact U|repeat constructor; assumption]|constructor; assumption].
Qed.
Lemma news_unguessed ts : forall i, Forall (fun t => tk_guess t = []) (news i ts).
Proof. induction ts; intros i; constructor; auto. Qed.
Lemma setup_shape h p : preach p -> exists p' l0 l1, ik_setup h p = Ok p' /\ ishape h p' l0 l1.
Proof.
  intros R. unfold ik_setup. destruct (push_first (fst h) 0 (pb_reset 2 p) level_new level_new (pr_reset _ 2 R) eq_refl) as (q & E & RQ & Q). rewrite E. cbn [bind].
  destruct (push_second (snd h) (length (fst h)) q _ _ RQ Q) as (q' & E' & RQ' & Q'). exists q', (fold_left level_pushTask (news 0 (fst h)) level_new), (fold_left level_pushTask (news (length (fst h)) (snd h)) level_new).
  split; [exact E'|]. split; auto using pushed_kinds. split; apply pushed_unguessed; try apply news_unguessed; constructor.
Qed.

(** ** kinds *)
Lemma kinds_nth ts : forall i k c, In (k, c) (kinds i ts) <-> exists n t, nth_error ts n = Some t /\ k = i + n /\ c = ik_class t.
Proof.
  induction ts as [|t r IH]; intros i k c.
  - split; [intros []|intros (n & t & E & _); destruct n; discriminate].
  - unfold kinds. cbn [news map]. fold (kinds (S i) r). cbn [In]. rewrite IH. cbn [new_task tk_id tk_type]. split.
    + intros [E|(n & u & N & -> & ->)]; [injection E as <- <-; exists 0, t; repeat split; lia|exists (S n), u; repeat split; auto; lia].
    + intros ([|n] & u & N & -> & ->); [left; injection N as ->; f_equal; lia|right; exists n, u; repeat split; auto; lia].
Qed.
Lemma kinds_nodup ts : forall i, NoDup (map fst (kinds i ts)).
Proof.
  induction ts as [|t r IH]; intros i; [constructor|]. unfold kinds. cbn [news map fst new_task tk_id tk_type]. constructor; [|apply IH].
  intros H. apply in_map_iff in H. destruct H as ((k & c) & E & I). cbn in E. subst k. fold (kinds (S i) r) in I. apply kinds_nth in I. destruct I as (n & u & _ & E & _). lia.
Qed.
Lemma kinds_map {A} (g : nat -> A) ts : forall i cs (d : A), length cs = length ts -> (forall n, n < length ts -> g (i + n) = nth n cs d) -> map (fun k => g (fst k)) (kinds i ts) = cs.
Proof.
  induction ts as [|t r IH]; intros i [|c cs] d L G; try discriminate; [reflexivity|]. unfold kinds. cbn [news map fst new_task tk_id tk_type]. f_equal.
  - specialize (G 0 ltac:(cbn; lia)). rewrite Nat.add_0_r in G. exact G.
  - apply (IH (S i) cs d); [injection L; auto|]. intros n N. specialize (G (S n) ltac:(cbn; lia)). cbn [nth] in G. rewrite <- G. f_equal. lia.
Qed.

(** ** constraints of the tasks *)
Section Tasks.
Variables (eig : m3 -> euler_type -> v3) (f : features) (fk : list R -> rb) (m : ikmodel) (mp : motion_parameters) (w0 : wbc).
Hypotheses (K : kinematics f fk) (RC : reachable eig f fk m).
Let w := wbc_update f mp w0.
Lemma w_prepared : prepared f w.
Proof. exists mp, w0. reflexivity. Qed.
Lemma dof_nonzero : 0 < DOF_NUMBER f.
Proof. exact (dof_pos f). Qed.

Lemma size_ok : sized f (ik_gc m).
Proof. destruct (reachable_good eig f fk m K RC) as (file & _ & GD). apply GD. Qed.

Definition zero_sol : solution := mkSolution (w_structure w) (repeat 0%R (DOF_NUMBER f)).
Lemma any_next y : exists sol g w', sol_x sol = map y (seq 0 (DOF_NUMBER f)) /\ solution_for f w sol /\ getNextGeneralizedCoordinates sol m w = Ok (g, w').
Proof.
  set (sol := mkSolution (w_structure w) (map y (seq 0 (DOF_NUMBER f)))). assert (SF : solution_for f w sol) by (split; [reflexivity|cbn; rewrite map_length, seq_length; reflexivity]).
  destruct (next_ok f mp w0 sol m size_ok SF) as (g & w' & E & _). exists sol, g, w'. split; [reflexivity|]. split; [exact SF|exact E].
Qed.
Lemma point_of sol y i : sol_x sol = map y (seq 0 (DOF_NUMBER f)) -> i < DOF_NUMBER f -> point sol i = y i.
Proof. intros E I. unfold point. rewrite E, (nth_indep _ 0%R (y 0)) by (rewrite map_length, seq_length; exact I). rewrite map_nth, seq_nth by exact I. reflexivity. Qed.

(** every proper task can be formed *)
Lemma task_formed t old : proper_task t -> exists c, ik_form_task f t old m w = Ok c /\ usable (DOF_NUMBER f) c /\ getType c = ik_class t /\ 0 < getNumberOfConstraints c.
Proof.
  destruct (any_next (fun _ => 0%R)) as (sol & g & w' & _ & SF & NX).
  intros P. destruct t as [gain k|gain k flag|gain k|gain k ref| | |]; cbn [ik_form_task ik_class proper_task] in *.
  - destruct (baseCoM_tracks eig f fk gain k old m w K RC w_prepared) as (c & E & U & T & _). exists c. split; [exact E|]. split; [exact U|]. split; [exact T|].
    unfold form_baseCoM in E. apply bind_ok in E. destruct E as (A & EA & E). apply bind_ok in E. destruct E as (p & _ & E). injection E as <-.
    destruct (reachable_good eig f fk m K RC) as (file & D & GD). destruct (base_names file f fk D) as (NE & FN). pose proof GD as (_ & EB & _).
    destruct (com_jacobians f fk file m K D GD _ (ik_base_com m) old NE FN EB) as (J & p0 & EJ & RJ & _). unfold getBaseCoMJacobian in EA. rewrite EJ in EA. injection EA as <-.
    unfold with_gain. destruct f; destruct (isApproximatelyEqual 1 gain); cbn; lia.
  - destruct (bodyCoM_tracks eig f fk gain k flag old m w K RC w_prepared P) as (c & E & U & T & _). exists c. split; [exact E|]. split; [exact U|]. split; [exact T|].
    destruct (reachable_good eig f fk m K RC) as (file & D & GD). destruct (body_names file f fk D) as (NE & FN). pose proof GD as (_ & _ & EB & _).
    unfold form_bodyCoM in E. apply bind_ok in E. destruct E as (p & _ & E). destruct (Z.eqb 7 flag).
    + apply bind_ok in E. destruct E as (A & EA & E). injection E as <-. destruct (com_jacobians f fk file m K D GD _ (ik_body_com m) old NE FN EB) as (J & p0 & EJ & RJ & _).
      unfold getBodyCoMJacobian in EA. rewrite EJ in EA. injection EA as <-. unfold with_gain. destruct (isApproximatelyEqual 1 gain); cbn; lia.
    + destruct (length (flag_rows flag)) as [|n] eqn:L; cbn [Nat.eqb orb] in E; [discriminate|]. destruct (negb _); [discriminate|]. apply bind_ok in E. destruct E as (A & EA & E). injection E as <-.
      unfold with_gain. destruct (isApproximatelyEqual 1 gain); cbn; lia.
  - destruct (baseOrientation_tracks eig f fk gain k m w K RC w_prepared) as (c & E & U & T & _). exists c. split; [exact E|]. split; [exact U|]. split; [exact T|].
    unfold form_baseOrientation in E. apply bind_ok in E. destruct E as (A & EA & E). apply bind_ok in E. destruct E as (o & _ & E). apply bind_ok in E. destruct E as (r & _ & E). injection E as <-.
    destruct (reachable_good eig f fk m K RC) as (file & D & GD). pose proof (good_base_link f fk file m K D GD) as L.
    destruct (link_jacobians f fk file m K GD _ (proj1 L)) as (Jc & J & _ & _ & _ & EJ & RJ & _) || destruct (link_jacobians f fk file m K GD _ L) as (Jc & J & _ & _ & _ & EJ & RJ & _).
    unfold getBaseOrientationJacobian in EA. rewrite EJ in EA. injection EA as <-. unfold with_gain. destruct f; destruct (isApproximatelyEqual 1 gain); cbn; lia.
  - destruct (ik_reference f m mp w0 sol g w' gain k ref size_ok SF NX P) as (U & T & N & _). eexists. split; [reflexivity|]. split; [exact U|]. split; [exact T|]. unfold w. rewrite N. unfold JOINTS_DOF_NUMBER. lia.
  - destruct P.
  - destruct (ik_fix f m mp w0 sol g w' size_ok SF NX) as (U & T & _ & U2 & T2 & _). eexists. split; [reflexivity|]. split; [exact U|]. split; [exact T|]. cbn. lia.
  - destruct (ik_fix f m mp w0 sol g w' size_ok SF NX) as (U & T & _ & U2 & T2 & _). eexists. split; [reflexivity|]. split; [exact U2|]. split; [exact T2|]. cbn. lia.
Qed.
Lemma tasks_formed ts : forall i old, Forall proper_task ts -> exists cs, ik_form_tasks f ts i old m w = Ok cs /\
  Forall2 (fun t c => (exists old, ik_form_task f t old m w = Ok c) /\ usable (DOF_NUMBER f) c /\ getType c = ik_class t /\ 0 < getNumberOfConstraints c) ts cs.
Proof.
  induction ts as [|t r IH]; intros i old P; [exists []; split; [reflexivity|constructor]|]. inversion P; subst.
  destruct (task_formed t (old i)) as (c & E & Q); [assumption|]. destruct (IH (S i) old) as (cs & ES & F); [assumption|].
  exists (c :: cs). cbn [ik_form_tasks]. rewrite E, ES. split; [reflexivity|]. constructor; [split; [eauto|exact Q]|exact F].
Qed.
End Tasks.
