(** * The program of the inverse kinematics of Pepper: what the constraints of the tasks mean *)
From Coq Require Import String List Reals Arith Bool ZArith Lra Lia Permutation.
From Verif Require Import Base BaseFacts RSum Matrix Mat3 ConstraintType HierarchyLevel Constraints ConstraintsSpec ConstraintsFacts QP QPSpec
  Solution PepperTasksSpec WalkProgramFacts2 RotarySpec Rotary Euler EulerSpec Rbdl RbdlSpec RbdlFacts PepperIk PepperIkSpec PepperIkFacts PepperIkTasks PepperIkTasksSpec PepperIkTasksFacts
  PepperIkTasksExample PepperIkLoop PepperIkLoopSpec KKT KKTSpec KKTPosedSpec PepperIkProgram PepperIkProgramSpec PepperIkProgramFacts.
Import ListNotations.
Local Open Scope R_scope.
Notation res := PepperTasksSpec.residual.

Lemma sum_list_seq (g : nat -> R) n : sum_list (map g (seq 0 n)) = Rsum n g.
Proof.
  assert (A : forall l l', sum_list (l ++ l') = sum_list l + sum_list l') by (induction l as [|a l IH]; intros l'; cbn; [ring|rewrite IH; ring]).
  induction n as [|n IH]; [reflexivity|]. rewrite seq_S, map_app, A, IH. cbn. ring.
Qed.
Lemma residuals_list c x e g : getNumberOfConstraints c = length e -> (forall i, (i < length e)%nat -> res c i x (g * nth i e 0)) ->
  squared_residuals c x = g * g * sum_list (map (fun u => u * u) e) /\ (g <> 0 -> (satisfies c x <-> Forall (fun v => v = 0) e)).
Proof.
  intros N H. split.
  - unfold squared_residuals. rewrite N.
    rewrite (Rsum_ext _ _ (fun r => g * g * nth r (map (fun u => u * u) e) 0)).
    + rewrite Rsum_scal. f_equal. rewrite <- (sum_list_seq (fun r => nth r (map (fun u => u * u) e) 0)). f_equal.
      rewrite <- (map_length (fun u => u * u) e). generalize (map (fun u => u * u) e). clear. induction l as [|a l IH]; [reflexivity|]. cbn [length seq map nth]. f_equal. rewrite <- seq_shift, map_map. exact IH.
    + intros r Hr. destruct (H r Hr) as (b & B1 & B2 & B3). unfold QPSpec.residual, rhs. rewrite B1, B3. replace 0 with (0 * 0) at 3 by ring. rewrite (map_nth (fun u => u * u)). ring.
  - intros G. unfold satisfies. rewrite N. rewrite Forall_forall. split.
    + intros S v I. destruct (In_nth _ _ 0 I) as (i & Hi & <-). specialize (S i Hi). apply (residual_zero _ _ _ _ (H i Hi)) in S. apply Rmult_integral in S. destruct S; [contradiction|assumption].
    + intros S i Hi. apply (residual_zero _ _ _ _ (H i Hi)). rewrite (S (nth i e 0)) by (apply nth_In; exact Hi). ring.
Qed.
Lemma weighted_unique gain g g' : weighted gain g -> weighted gain g' -> g = g'.
Proof. unfold weighted. destruct Rlt_dec; congruence. Qed.
Lemma weighted_nonzero gain g : weighted gain g -> gain <> 0 -> g <> 0.
Proof. unfold weighted. destruct Rlt_dec; intros -> H; [lra|exact H]. Qed.
Lemma drives_list c x n gain e0 g : drives c x n gain e0 -> weighted gain g -> 
  squared_residuals c x = g * g * sum_list (map (fun u => u * u) (map e0 (seq 0 n))) /\ (gain <> 0 -> (satisfies c x <-> Forall (fun v => v = 0) (map e0 (seq 0 n)))).
Proof.
  intros (N & (g' & W' & H) & _) W. rewrite (weighted_unique _ _ _ W' W) in H.
  destruct (residuals_list c x (map e0 (seq 0 n)) g) as (A & B).
  - rewrite map_length, seq_length. exact N.
  - rewrite map_length, seq_length. intros i Hi. rewrite (nth_indep _ 0 (e0 0%nat)) by (rewrite map_length, seq_length; exact Hi). rewrite map_nth, seq_nth by exact Hi. exact (H i Hi).
  - split; [exact A|]. intros G. apply B, (weighted_nonzero gain g W G).
Qed.
Lemma map_seq_nth {A B} (F : A -> B) (l : list A) d : map (fun j => F (nth j l d)) (seq 0 (length l)) = map F l.
Proof. induction l as [|a l IH]; [reflexivity|]. cbn [length seq map nth]. f_equal. rewrite <- seq_shift, map_map. exact IH. Qed.

Lemma frame_orthogonal l id O o : tree l -> frame l id O o -> orthogonal O.
Proof.
  intros T F. induction F as [id x M E|id p x O o F M FR IH].
  - destruct T as (_ & _ & _ & _ & _ & RX & _). destruct (RX _ _ E) as ((A & B) & _). split; rewrite m3trans_trans; assumption.
  - destruct (fixed_rotation l T _ _ _ F) as (((A & B) & _) & _). destruct IH as (C & D). unfold orthogonal. rewrite !m3trans_mul, !m3trans_trans. split.
    + rewrite m3mul_assoc, <- (m3mul_assoc (m3trans (sx_E x))), B, m3mul_id_l. exact C.
    + rewrite m3mul_assoc, <- (m3mul_assoc (m3trans O)), D, m3mul_id_l. exact A.
Qed.
Lemma turns_once O a b : orthogonal (O 0) -> turns_with O a -> turns_with O b -> a = b.
Proof.
  intros (OO & _) A B. assert (E : m3mul (skew a) (O 0) = m3mul (skew b) (O 0)).
  { destruct A as (A1 & A2 & A3 & A4 & A5 & A6 & A7 & A8 & A9). destruct B as (B1 & B2 & B3 & B4 & B5 & B6 & B7 & B8 & B9).
    destruct (m3mul (skew a) (O 0)), (m3mul (skew b) (O 0)); cbn in *. f_equal; eapply uniqueness_limite; eassumption. }
  assert (E2 : skew a = skew b).
  { rewrite <- (m3mul_id_r (skew a)), <- (m3mul_id_r (skew b)), <- OO, <- !m3mul_assoc, E. reflexivity. }
  unfold skew in E2. injection E2 as E1 E3 E4 E5 E6 E7. destruct a, b; cbn in *; f_equal; lra.
Qed.
Lemma v3_same F G t a b : (forall s, F s = G s) -> v3_derivative F t a -> v3_derivative G t b -> a = b.
Proof.
  intros E A (B1 & B2 & B3). apply (v3_unique F t a b A).
  assert (T : forall p : v3 -> R, forall l, derivable_pt_lim (fun s => p (G s)) t l -> derivable_pt_lim (fun s => p (F s)) t l).
  { intros p l D. intros eps H. destruct (D eps H) as (dl & Q). exists dl. intros h Hh L. rewrite !E. exact (Q h Hh L). }
  split; [apply T, B1|split; [apply T, B2|apply T, B3]].
Qed.
Lemma turns_same F G a b : orthogonal (F 0) -> (forall s, F s = G s) -> turns_with F a -> turns_with G b -> a = b.
Proof.
  intros O E A B. apply (turns_once F a b O A). unfold turns_with in *. rewrite <- E in B.
  assert (T : forall p : m3 -> R, forall t l, derivable_pt_lim (fun s => p (G s)) t l -> derivable_pt_lim (fun s => p (F s)) t l).
  { intros p t l D. intros eps H. destruct (D eps H) as (dl & Q). exists dl. intros h Hh L. rewrite !E. exact (Q h Hh L). }
  destruct B as (B1 & B2 & B3 & B4 & B5 & B6 & B7 & B8 & B9). repeat split; apply T; assumption.
Qed.

Lemma ok_inj {A} (a b : A) : Ok a = Ok b -> a = b.
Proof. congruence. Qed.
Section Errors.
Variables (eig : m3 -> euler_type -> v3) (f : features) (fk : list R -> rb) (m : ikmodel) (mp : motion_parameters) (w0 : wbc).
Hypotheses (K : kinematics f fk) (RC : reachable eig f fk m).
Let w := wbc_update f mp w0.

Definition explains (t : ik_task) (c : constr) (MS : R -> rmodel) (x : nat -> R) : Prop :=
  (exists e, errors f m mp MS x t e) /\ forall e g, errors f m mp MS x t e -> weighs t g ->
    squared_residuals c x = g * g * sum_list (map (fun u => u * u) e) /\ (gain_of t <> 0 -> (satisfies c x <-> Forall (fun v => v = 0) e)).
Lemma fixed_list js x : let c := mkConstr (DOF_NUMBER f) (BodyI (map (fun j => (ROOT_DOF_NUMBER f + joint_id f j)%nat) js)) BoundsB0 in
  squared_residuals c x = 1 * 1 * sum_list (map (fun u => u * u) (map (joint_rate f x) js)) /\ (1 <> 0 -> (satisfies c x <-> Forall (fun v => v = 0) (map (joint_rate f x) js))).
Proof.
  intros c. apply residuals_list; [cbn; rewrite !map_length; reflexivity|]. rewrite map_length. intros i Hi. exists 0. split; [reflexivity|]. split; [reflexivity|].
  assert (U : usable (DOF_NUMBER f) c).
  { apply usable_I; [|reflexivity]. apply Forall_forall. intros k I. apply in_map_iff in I. destruct I as (j & <- & _). pose proof (joint_id_lt f j). unfold DOF_NUMBER. lia. }
  unfold c. rewrite row_I by (exact U || (rewrite map_length; exact Hi)).
  rewrite (nth_indep _ 0%nat (ROOT_DOF_NUMBER f + joint_id f HeadYaw)%nat) by (rewrite map_length; exact Hi). rewrite (map_nth (fun j => (ROOT_DOF_NUMBER f + joint_id f j)%nat)).
  rewrite (nth_indep _ 0 (joint_rate f x HeadYaw)) by (rewrite map_length; exact Hi). rewrite map_nth. unfold joint_rate. ring.
Qed.
Lemma joints_all j : In j joints.
Proof. unfold joints. destruct j; cbn; tauto. Qed.
Lemma joints_sum (g : joint -> R) : sum_list (map g joints) = sum_list (map (fun i => g (joint_of f i)) (seq 0 JOINTS_DOF_NUMBER)).
Proof. unfold JOINTS_DOF_NUMBER, joints. destruct f; cbn; ring. Qed.
Lemma joints_zero (g : joint -> R) : Forall (fun v => v = 0) (map g joints) <-> Forall (fun v => v = 0) (map (fun i => g (joint_of f i)) (seq 0 JOINTS_DOF_NUMBER)).
Proof.
  rewrite !Forall_forall. split; intros H v I; apply in_map_iff in I; destruct I as (j & <- & I); apply H, in_map_iff.
  - exists (joint_of f j). split; [reflexivity|apply joints_all].
  - exists (joint_id f j). split; [|apply in_seq; pose proof (joint_id_lt f j); lia]. f_equal. apply (joint_id_inj f), joint_of_id, joint_id_lt.
Qed.
Lemma fixArms_is : form_fixArms f (w_structure (wbc_update f mp w0)) = mkConstr (DOF_NUMBER f) (BodyI (map (fun j => (ROOT_DOF_NUMBER f + joint_id f j)%nat)
  [LShoulderPitch; LShoulderRoll; LElbowYaw; LElbowRoll; LWristYaw; RShoulderPitch; RShoulderRoll; RElbowYaw; RElbowRoll; RWristYaw])) BoundsB0.
Proof. unfold form_fixArms. rewrite next_joints, next_nvars. reflexivity. Qed.
Lemma fixHead_is : form_fixHead f (w_structure (wbc_update f mp w0)) = mkConstr (DOF_NUMBER f) (BodyI (map (fun j => (ROOT_DOF_NUMBER f + joint_id f j)%nat) [HeadYaw; HeadPitch])) BoundsB0.
Proof. unfold form_fixHead. rewrite next_joints, next_nvars. reflexivity. Qed.
Lemma task_explained t c old M MS x : proper_task t -> ik_form_task f t old m w = Ok c -> moving f fk m M MS x -> explains t c MS x.
Proof.
  intros P E MV. destruct t as [gain k|gain k flag|gain k|gain k ref| | |]; cbn [ik_form_task proper_task] in E, P; unfold explains; cbn [errors weighs gain_of].
  - destruct (baseCoM_tracks eig f fk gain k old m w K RC (w_prepared f mp w0)) as (c' & E' & _ & _ & H). rewrite E in E'. injection E' as <-.
    destruct (H M MS x MV) as (Q & v & EQ & DV & DR). split; [exists (map (fun i => component i v - k * (component i (mp_base_com mp) - component i (Q 0))) (axes f)), Q, v; auto|].
    intros e g (Q' & v' & EQ' & DV' & ->) W. assert (QQ : forall s, Q s = Q' s) by (intros s; specialize (EQ s); rewrite EQ' in EQ; injection EQ as EQ; auto).
    rewrite <- (v3_same Q Q' 0 v v' QQ DV DV'), <- (QQ 0). destruct (drives_list _ _ _ _ _ g DR W) as (A & B). destruct f; exact (conj A B).
  - destruct (bodyCoM_tracks eig f fk gain k flag old m w K RC (w_prepared f mp w0) P) as (c' & E' & _ & _ & H). rewrite E in E'. injection E' as <-.
    destruct (H M MS x MV) as (Q & v & EQ & DV & DR). split; [exists (map (fun i => component i v - k * (component i (mp_body_com mp) - component i (Q 0))) (selected_axes flag)), Q, v; auto|].
    intros e g (Q' & v' & EQ' & DV' & ->) W. assert (QQ : forall s, Q s = Q' s) by (intros s; specialize (EQ s); rewrite EQ' in EQ; injection EQ as EQ; auto).
    rewrite <- (v3_same Q Q' 0 v v' QQ DV DV'), <- (QQ 0). destruct (drives_list _ _ _ _ _ g DR W) as (A & B). cbv zeta in A, B.
    rewrite (map_seq_nth (fun i => component i v - k * (component i (mp_body_com (w_motion w)) - component i (Q 0))) (selected_axes flag) 0%nat) in A, B. exact (conj A B).
  - destruct (baseOrientation_tracks eig f fk gain k m w K RC (w_prepared f mp w0)) as (c' & E' & _ & _ & H). rewrite E in E'. injection E' as <-.
    destruct (H M MS x MV) as (O & v & r & EO & TW & OE & DR).
    split; [exists (map (fun i => component i v - k * component i r) (match f with ROOT_PLANAR => [2] | _ => [0; 1; 2] end)%nat), O, v, r; auto|].
    intros e g (O' & v' & r' & EO' & TW' & OE' & ->) W. assert (OO : forall s, O s = O' s) by (intros s; specialize (EO s); rewrite EO' in EO; injection EO as EO; auto).
    assert (OR : orthogonal (O 0)).
    { destruct (reachable_good eig f fk m K RC) as (file & D & GD). pose proof (proj1 (good_base_link f fk file m K D GD)) as L. pose proof (good_tree f fk file m K GD) as T.
      destruct (link_pose _ _ _ T (good_updated f fk file m GD) L) as (_ & EL & _). specialize (EO 0). destruct MV as (_ & _ & MS0 & _). unfold at_time, getBaseOrientation in EO. cbn [ik_set_rbdl ik_rbdl ik_base_orientation] in EO.
      rewrite MS0, EL in EO. injection EO as <-. exact (frame_orthogonal _ _ _ _ T (link_frame _ T _ L)). }
    rewrite <- (turns_same O O' v v' OR OO TW TW'). rewrite <- (OO 0) in OE'. rewrite <- (error_unique _ _ _ _ OE OE'). 
    destruct f; destruct (drives_list _ _ _ _ _ g DR W) as (A & B); exact (conj A B).
  - injection E as <-. set (F := fun j => joint_rate f x j - k * (angle_in f ref j - angle f (ik_gc m) j)). split; [exists (map F joints); reflexivity|]. intros e g -> W. subst g. fold F.
    destruct (any_next eig f fk m mp w0 K RC x) as (sol & g & w' & EX & SF & NX).
    destruct (ik_reference f m mp w0 sol g w' gain k ref (size_ok eig f fk m K RC) SF NX P) as (U & T & N & RS & _).
    assert (PX : forall i, (i < DOF_NUMBER f)%nat -> point sol i = x i) by (intros i Hi; apply (point_of f sol x i EX Hi)).
    set (c := form_jointsReference gain k ref (w_structure (wbc_update f mp w0)) m) in *. fold w in c. 
    assert (R2 : forall j, res c (joint_id f j) x (gain * F j)).
    { intros j. destruct (RS j) as (b & B1 & B2 & B3). exists b. split; [exact B1|]. split; [exact B2|]. rewrite (row_ext c (joint_id f j) x (point sol)).
      - rewrite B3. unfold F, joint_rate. rewrite <- PX by (pose proof (joint_id_lt f j); unfold DOF_NUMBER; lia). unfold point.
        rewrite (next_angle f mp w0 m sol g w' (size_ok eig f fk m K RC) SF NX j). ring.
      - intros i Hi. symmetry. apply PX. destruct U as (<- & _). exact Hi. }
    destruct (residuals_list c x (map (fun i => F (joint_of f i)) (seq 0 JOINTS_DOF_NUMBER)) gain) as (A & B).
    + rewrite map_length, seq_length. exact N.
    + rewrite map_length, seq_length. intros i Hi. rewrite (nth_indep _ 0 (F (joint_of f 0))) by (rewrite map_length, seq_length; exact Hi). rewrite (map_nth (fun i => F (joint_of f i))), seq_nth by exact Hi.
      cbn [plus]. rewrite <- (joint_of_id f i Hi) at 1. apply R2.
    + split; [|intros G; exact (iff_trans (B G) (iff_sym (joints_zero F)))]. rewrite map_map in A |- *. apply (eq_trans A). f_equal. symmetry. apply (joints_sum (fun j => F j * F j)).
  - destruct P.
  - unfold w in E. rewrite fixArms_is in E. apply ok_inj in E. subst c. split; [eexists; reflexivity|]. intros e g -> ->. apply fixed_list.
  - unfold w in E. rewrite fixHead_is in E. apply ok_inj in E. subst c. split; [eexists; reflexivity|]. intros e g -> ->. apply fixed_list.
Qed.
Lemma weighs_exists t : exists g, weighs t g.
Proof. destruct t; cbn [weighs]; try destruct Rlt_dec; eexists; reflexivity. Qed.
Lemma weighs_unique t g g' : weighs t g -> weighs t g' -> g = g'.
Proof. destruct t; cbn [weighs]; try destruct Rlt_dec; congruence. Qed.

(** levels *)
Lemma asked_level ts cs M MS x : Forall proper_task ts -> Forall2 (fun t c => exists old, ik_form_task f t old m w = Ok c) ts cs -> moving f fk m M MS x -> Forall (fun t => gain_of t <> 0) ts ->
  (as_asked f m mp MS x ts <-> forall c, In c cs -> satisfies c x).
Proof.
  intros P F MV G. unfold as_asked. revert P G. induction F as [|t c ts cs (old & E) F IH]; intros P G; [split; [intros _ c []|intros _ t []]|].
  inversion P; subst. inversion G; subst. specialize (IH ltac:(assumption) ltac:(assumption)).
  destruct (task_explained t c old M MS x ltac:(assumption) E MV) as ((e & EE) & X). destruct (weighs_exists t) as (g & W). split.
  - intros A d [<- |I]; [|apply IH; [intros u J; apply A; right; exact J|exact I]]. destruct (A t (or_introl eq_refl)) as (e' & EE' & Z). apply (X e' g EE' W); assumption.
  - intros A u [<- |I]; [|apply IH; [intros d J; apply A; right; exact J|exact I]]. exists e. split; [exact EE|]. apply (X e g EE W); [assumption|]. apply A. left. reflexivity.
Qed.
Lemma costs_level ts cs M MS x : Forall proper_task ts -> Forall2 (fun t c => exists old, ik_form_task f t old m w = Ok c) ts cs -> moving f fk m M MS x ->
  forall v, costs f m mp MS x ts v <-> v = sum_list (map (fun c => squared_residuals c x) cs).
Proof.
  intros P F MV. unfold costs. revert P. induction F as [|t c ts cs (old & E) F IH]; intros P v.
  - split; [intros (q & Q & ->); inversion Q; reflexivity|intros ->; exists []; split; [constructor|reflexivity]].
  - inversion P; subst. specialize (IH ltac:(assumption)). destruct (task_explained t c old M MS x ltac:(assumption) E MV) as ((e & EE) & X). destruct (weighs_exists t) as (g & W). cbn [map sum_list]. split.
    + intros (q & Q & ->). inversion Q as [|? a ? q' (e' & g' & E1 & W1 & ->) Q']; subst. cbn [sum_list]. f_equal; [symmetry; apply (X e' g' E1 W1)|]. apply IH. exists q'. split; [exact Q'|reflexivity].
    + intros ->. destruct (proj2 (IH (sum_list (map (fun c => squared_residuals c x) cs))) eq_refl) as (q & Q & EQ). exists (squared_residuals c x :: q). split.
      * constructor; [|exact Q]. exists e, g. split; [exact EE|]. split; [exact W|]. apply (X e g EE W).
      * cbn [sum_list]. rewrite EQ. reflexivity.
Qed.
End Errors.
