(** * Proofs for C100: errors of tasks, control intervals, order of calls *)
From Coq Require Import String List Reals Arith Lra Lia Bool ZArith.
From Verif Require Import Base BaseFacts RSum Matrix Mat3 ConstraintType Constraints ConstraintsSpec ConstraintsFacts Solution Condense SpatialTransform PepperMpc PepperTasksSpec
  RotarySpec Rotary RotaryFacts Euler EulerSpec EulerFacts Rbdl RbdlSpec RbdlFacts RbdlComFacts PepperIk PepperIkSpec PepperIkFacts PepperIkTasks PepperIkTasksSpec PepperIkTasksFacts
  PepperIkCommandFacts PepperIkLoop PepperIkLoopSpec PepperIkLoopFacts.
Import ListNotations.
Local Open Scope R_scope.

(** ** errors of tasks after a small step *)
Lemma Rsum_abs n u : Rabs (Rsum n u) <= Rsum n (fun j => Rabs (u j)).
Proof. induction n as [|n IH]; cbn [Rsum]; [rewrite Rabs_R0; lra|]. eapply Rle_trans; [apply Rabs_triang|]. lra. Qed.
Lemma with_gain_small f gain w A b (x : nat -> R) t : prepared f w -> mcols A = DOF_NUMBER f -> vlen b = mrows A -> gain <> 0 ->
  satisfies (with_gain gain (w_structure w) A b) x -> (forall j, (j < DOF_NUMBER f)%nat -> Rabs (x j) < t) ->
  forall i, (i < mrows A)%nat -> Rabs (vget b i) <= t * Rsum (mcols A) (fun j => Rabs (mget A i j)).
Proof.
  intros PR CA LB G SAT SM i Hi.
  destruct (task_drives f gain w A b PR CA LB) as (_ & _ & DR).
  destruct (DR x (fun i => vget (mulv A (mkVec (DOF_NUMBER f) x)) i - vget b i) (fun i _ => eq_refl)) as (_ & _ & I). rewrite (I G) in SAT. specialize (SAT i Hi).
  assert (vget b i = vget (mulv A (mkVec (DOF_NUMBER f) x)) i) as -> by lra. unfold mulv. cbn [vget].
  eapply Rle_trans; [apply Rsum_abs|]. rewrite <- Rsum_scal. apply Rsum_le. intros j Hj. rewrite Rabs_mult, Rmult_comm. apply Rmult_le_compat_r; [apply Rabs_pos|].
  left. apply SM. rewrite <- CA. exact Hj.
Qed.
Lemma small_point f sol t : answers f sol -> small t sol -> forall j, (j < DOF_NUMBER f)%nat -> Rabs (point sol j) < t.
Proof.
  intros AN S j Hj. unfold point. apply S. destruct (AN (mkMP v3zero v3zero v3zero) (mkWbc true 0 (mkMP v3zero v3zero v3zero) [] [] structure_reset)) as (_ & ->). exact Hj.
Qed.
Theorem stopped_base_com (eig : m3 -> euler_type -> v3) (f : features) (fk : list R -> rb) (gain k tolerance : R) (old : mat) (m : ikmodel) (w : wbc) (c : constr) (sol : solution) :
  kinematics f fk -> reachable eig f fk m -> prepared f w -> answers f sol -> small tolerance sol -> gain <> 0 ->
  form_baseCoM f gain k old (w_structure w) m w = Ok c -> satisfies c (point sol) ->
  exists J P, getBaseCoMJacobian old m = Ok J /\ getBaseCoM m = Ok P /\
    forall i, (i < match f with ROOT_PLANAR => 2 | _ => 3 end)%nat ->
      Rabs (k * (component i (mp_base_com (w_motion w)) - component i P)) <= tolerance * row_norm J i.
Proof.
  intros K RC PR AN SM G. destruct (reachable_good eig f fk m K RC) as (file & D & GD).
  destruct (base_names file f fk D) as (NE & FN). pose proof GD as (_ & EB & _).
  destruct (com_jacobians f fk file m K D GD _ (ik_base_com m) old NE FN EB) as (J & p0 & EJ & RJ & CJ & EP & _).
  unfold form_baseCoM, getBaseCoMJacobian, getBaseCoM. rewrite EJ, EP. cbn [bind]. intros E SAT. exists J, p0. split; [reflexivity|]. split; [reflexivity|].
  pose proof (small_point f sol tolerance AN SM) as SP. intros i Hi.
  assert (B : Rabs (component i (v3scale k (v3sub (mp_base_com (w_motion w)) p0))) <= tolerance * row_norm J i).
  { rewrite <- get_is. destruct f; injection E as <-.
    - apply (with_gain_small ROOT_TIBIA gain w J (vec3 (v3scale k (v3sub (mp_base_com (w_motion w)) p0))) (point sol) tolerance PR CJ); auto. rewrite RJ. exact Hi.
    - apply (with_gain_small ROOT_TORSO gain w J (vec3 (v3scale k (v3sub (mp_base_com (w_motion w)) p0))) (point sol) tolerance PR CJ); auto. rewrite RJ. exact Hi.
    - apply (with_gain_small ROOT_PLANAR gain w (mkMat 2 (mcols J) (mget J)) (mkVec 2 (v3_get (v3scale k (v3sub (mp_base_com (w_motion w)) p0)))) (point sol) tolerance PR CJ); auto. }
  rewrite component_scale, component_sub in B. exact B.
Qed.
Theorem stopped_base_orientation (eig : m3 -> euler_type -> v3) (f : features) (fk : list R -> rb) (gain k tolerance : R) (m : ikmodel) (w : wbc) (c : constr) (sol : solution) :
  kinematics f fk -> reachable eig f fk m -> prepared f w -> answers f sol -> small tolerance sol -> gain <> 0 ->
  form_baseOrientation f gain k (w_structure w) m w = Ok c -> satisfies c (point sol) ->
  exists J O e, getBaseOrientationJacobian m = Ok J /\ getBaseOrientation m = Ok O /\ orientation_error O (rotation_zyx (mp_base_rpy (w_motion w))) e /\
    forall i, (i < 3)%nat -> f <> ROOT_PLANAR \/ i = 2%nat -> Rabs (k * component i e) <= tolerance * row_norm J i.
Proof.
  intros K RC PR AN SM G. destruct (reachable_good eig f fk m K RC) as (file & D & GD).
  assert (L : link (fk (asVector (ik_gc m))) (ik_base_orientation m)) by apply (good_base_link f fk file m K D GD).
  destruct (link_jacobians f fk file m K GD _ L) as (Jc & J & _ & _ & _ & EJ & RJ & CJ & _).
  destruct (link_pose _ _ _ (good_tree f fk file m K GD) (good_updated f fk file m GD) L) as (_ & EO & _).
  unfold form_baseOrientation, getBaseOrientationJacobian, getBaseOrientation. rewrite EJ, EO, rpy_ok. cbn [bind]. intros E SAT.
  set (o := link_O _ _) in *. exists J, o, (getRotationErrorAngleAxis o (rotation_zyx (mp_base_rpy (w_motion w)))).
  split; [reflexivity|]. split; [reflexivity|]. split; [apply error_is|].
  set (e0 := getRotationErrorAngleAxis o (rotation_zyx (mp_base_rpy (w_motion w)))) in *.
  pose proof (small_point f sol tolerance AN SM) as SP. intros i Hi FI. rewrite <- component_scale, <- get_is.
  destruct f; injection E as <-.
  - apply (with_gain_small ROOT_TIBIA gain w J (vec3 (v3scale k e0)) (point sol) tolerance PR CJ); auto. rewrite RJ. exact Hi.
  - apply (with_gain_small ROOT_TORSO gain w J (vec3 (v3scale k e0)) (point sol) tolerance PR CJ); auto. rewrite RJ. exact Hi.
  - destruct FI as [FI | ->]; [congruence|].
    pose proof (with_gain_small ROOT_PLANAR gain w (mkMat 1 (mcols J) (fun _ j => mget J (mrows J - 1) j)) (mkVec 1 (fun _ => vz (v3scale k e0))) (point sol) tolerance PR CJ eq_refl G SAT SP 0%nat ltac:(cbn; lia)) as B.
    cbn [mcols mget vget] in B. rewrite RJ in B. exact B.
Qed.
Theorem stopped_body_com (eig : m3 -> euler_type -> v3) (f : features) (fk : list R -> rb) (gain k tolerance : R) (flag : Z) (old : mat) (m : ikmodel) (w : wbc) (c : constr) (sol : solution) :
  kinematics f fk -> reachable eig f fk m -> prepared f w -> answers f sol -> small tolerance sol -> gain <> 0 ->
  form_bodyCoM gain k flag old (w_structure w) m w = Ok c -> satisfies c (point sol) ->
  exists o J P, getBodyCoMJacobian o m = Ok J /\ getBodyCoM m = Ok P /\
    forall i, In i (selected_axes flag) -> Rabs (k * (component i (mp_body_com (w_motion w)) - component i P)) <= tolerance * row_norm J i.
Proof.
  intros K RC PR AN SM G. destruct (reachable_good eig f fk m K RC) as (file & D & GD).
  destruct (body_names file f fk D) as (NE & FN). pose proof GD as (_ & _ & EB & _).
  unfold form_bodyCoM, getBodyCoMJacobian, getBodyCoM. pose proof (small_point f sol tolerance AN SM) as SP.
  destruct (Z.eqb_spec 7 flag) as [<- |N].
  - destruct (com_jacobians f fk file m K D GD _ (ik_body_com m) old NE FN EB) as (J & p0 & EJ & RJ & CJ & EP & _). rewrite EJ, EP. cbn [bind].
    intros E SAT. injection E as <-. exists old, J, p0. split; [exact EJ|]. split; [reflexivity|]. intros i Hi.
    rewrite <- component_sub, <- component_scale, <- get_is.
    apply (with_gain_small f gain w J (vec3 (v3scale k (v3sub (mp_body_com (w_motion w)) p0))) (point sol) tolerance PR CJ); auto. rewrite RJ. rewrite selected_all in Hi. cbn in Hi. lia.
  - destruct (com_jacobians f fk file m K D GD _ (ik_body_com m) (mzero 0 0) NE FN EB) as (J & p0 & EJ & RJ & CJ & EP & _). rewrite EJ, EP. cbn [bind].
    rewrite flag_rows_selected. destruct (_ || _); [discriminate|]. intros E SAT. injection E as <-. exists (mzero 0 0), J, p0. split; [exact EJ|]. split; [reflexivity|]. intros i Hi.
    destruct (In_nth _ _ 0%nat Hi) as (r & Hr & <-).
    rewrite <- component_sub, <- component_scale, <- get_is.
    exact (with_gain_small f gain w (mkMat (length (selected_axes flag)) (mcols J) (fun i j => mget J (nth i (selected_axes flag) 0%nat) j))
      (mkVec (length (selected_axes flag)) (fun i => v3_get (v3scale k (v3sub (mp_body_com (w_motion w)) p0)) (nth i (selected_axes flag) 0%nat))) (point sol) tolerance PR CJ eq_refl G SAT SP r Hr).
Qed.

(** ** control intervals *)
Theorem loop_interval (eig : m3 -> euler_type -> v3) (f : features) (fk : list R -> rb) (p : wbc_parameters) (mp : motion_parameters) (sols : nat -> solution) (s : ikloop) :
  kinematics f fk -> reachable eig f fk (lk_model s) -> (forall k, answers f (sols k)) -> wp_interval p <> 0 ->
  exists m1 st, saveCurrentState (lk_model s) = Ok m1 /\ states f fk mp sols (mkIkloop m1 (lk_wbc s)) st /\
    (forall k, reachable eig f fk (lk_model (st k))) /\ ik_gc m1 = ik_gc (lk_model s) /\
    ((exists n c, (n < wp_iterations p)%nat /\ first_small (wp_tolerance p) sols n /\ getRobotCommand (wp_interval p) (lk_model (st (S n))) = Ok c /\
        ik_interval f fk p mp sols s = Ok (c, st (S n))) \/
     (ik_interval f fk p mp sols s = Throw /\
      ((forall k, (k < wp_iterations p)%nat -> ~ small (wp_tolerance p) (sols k)) \/
       exists n, (n < wp_iterations p)%nat /\ first_small (wp_tolerance p) sols n /\ getRobotCommand (wp_interval p) (lk_model (st (S n))) = Throw))).
Proof.
  intros K RC AN DT. destruct (state_saved eig f fk (lk_model s) K RC) as (m1 & p0 & o0 & ES & _ & _ & SV & EG & _).
  assert (RC1 : reachable eig f fk m1) by (apply (rc_save eig f fk (lk_model s)); assumption).
  destruct (states_exist eig f fk mp sols (mkIkloop m1 (lk_wbc s)) K RC1 AN) as (ST & P). set (st := st_of f fk mp sols (mkIkloop m1 (lk_wbc s))) in *.
  exists m1, st. split; [exact ES|]. split; [exact ST|]. split; [intros k; apply P|]. split; [exact EG|]. unfold ik_interval. rewrite ES. cbn [bind].
  destruct (iterations_outcome f fk (wp_tolerance p) mp sols _ st AN ST (wp_iterations p) 0) as [(n & Hn & A & B & C)|(A & B)].
  - assert (FS : first_small (wp_tolerance p) sols n) by (split; [exact A|intros k Hk; apply B; lia]).
    change (st 0%nat) with (mkIkloop m1 (lk_wbc s)) in C. rewrite C. cbn [bind fst snd].
    destruct (P (S n)) as (RN & SN & _). cbn [lk_model] in SN. rewrite SV in SN.
    destruct (command_ok eig f fk _ _ (wp_interval p) K RN SN DT) as (pp & o & e & c & _ & _ & _ & _ & _ & _ & _ & [(E & _)|(E & _)]).
    + left. exists n, c. split; [lia|]. split; [exact FS|]. split; [exact E|]. rewrite E. reflexivity.
    + right. rewrite E. split; [reflexivity|]. right. exists n. split; [lia|]. split; [exact FS|]. exact E.
  - right. change (st 0%nat) with (mkIkloop m1 (lk_wbc s)) in B. rewrite B. split; [reflexivity|]. left. intros k Hk. apply A. lia.
Qed.
Lemma interval_executes eig f fk p mp sols s c s' P : kinematics f fk -> reachable eig f fk (lk_model s) -> (forall k, answers f (sols k)) -> wp_interval p <> 0 ->
  getBasePosition (lk_model s) = Ok P -> ik_interval f fk p mp sols s = Ok (c, s') ->
  exists P', reachable eig f fk (lk_model s') /\ getBasePosition (lk_model s') = Ok P' /\ executes f fk (wp_interval p) c s s' P P'.
Proof.
  intros K RC AN DT EP E. destruct (state_saved eig f fk (lk_model s) K RC) as (m1 & p0 & o0 & ES & EP0 & EO0 & SV & EG & _).
  rewrite EP in EP0. injection EP0 as <-.
  assert (RC1 : reachable eig f fk m1) by (apply (rc_save eig f fk (lk_model s)); assumption).
  destruct (states_exist eig f fk mp sols (mkIkloop m1 (lk_wbc s)) K RC1 AN) as (ST & PS). set (st := st_of f fk mp sols (mkIkloop m1 (lk_wbc s))) in *.
  unfold ik_interval in E. rewrite ES in E. cbn [bind] in E.
  destruct (iterations_outcome f fk (wp_tolerance p) mp sols _ st AN ST (wp_iterations p) 0) as [(n & Hn & A & B & C)|(A & B)];
    [|change (st 0%nat) with (mkIkloop m1 (lk_wbc s)) in B; rewrite B in E; discriminate].
  change (st 0%nat) with (mkIkloop m1 (lk_wbc s)) in C. rewrite C in E. cbn [bind fst snd] in E.
  destruct (PS (S n)) as (RN & SN & _). cbn [lk_model] in SN. rewrite SV in SN.
  destruct (command_ok eig f fk _ _ (wp_interval p) K RN SN DT) as (pp & o & e & c' & EP' & EO' & OE & CJ & CI & CB & CW & [(E' & AL)|(E' & _)]); rewrite E' in E; cbn [bind] in E; [|discriminate].
  injection E as <- <-. exists pp. split; [exact RN|]. split; [exact EP'|]. destruct AL as (A1 & A2 & A3). cbn [sv_gc sv_position sv_orientation] in *.
  unfold executes. split; [exact CJ|]. split; [exact CI|]. split; [exact A1|]. split; [exact A2|]. split; [exact A3|]. rewrite CB. cbn [vx vy vz].
  split; [field; exact DT|]. split; [field; exact DT|]. intros -> BR.
  destruct (base_pose_root eig fk _ K RN BR) as (z & _ & EO). rewrite EO' in EO. injection EO as EO.
  destruct (base_pose_root eig fk _ K RC BR) as (z2 & _ & EO2). rewrite EO0 in EO2. injection EO2 as EO2.
  split.
  - rewrite EO, EO2 in OE. rewrite (error_unique _ _ _ _ OE (error_is _ _)), error_yaw. cbn [vz]. field. exact DT.
  - specialize (CW _ EO). rewrite CB in CW. cbn [vx vy vz] in CW. exact CW.
Qed.
Theorem loop_intervals (eig : m3 -> euler_type -> v3) (f : features) (fk : list R -> rb) (p : wbc_parameters) (mps : nat -> motion_parameters) (sols : nat -> nat -> solution)
  (n : nat) (s s' : ikloop) (cs : list command) :
  kinematics f fk -> reachable eig f fk (lk_model s) -> (forall i k, answers f (sols i k)) -> wp_interval p <> 0 ->
  ik_intervals f fk p mps sols n s = Ok (cs, s') ->
  length cs = n /\ exists st P, st 0%nat = s /\ st n = s' /\
    (forall i, (i <= n)%nat -> reachable eig f fk (lk_model (st i)) /\ getBasePosition (lk_model (st i)) = Ok (P i)) /\
    (forall i c, nth_error cs i = Some c -> executes f fk (wp_interval p) c (st i) (st (S i)) (P i) (P (S i))) /\
    forall c0, vx (P n) = vx (P 0%nat) + wp_interval p * Rsum n (fun i => vx (cmd_base (nth i cs c0))) /\
               vy (P n) = vy (P 0%nat) + wp_interval p * Rsum n (fun i => vy (cmd_base (nth i cs c0))).
Proof.
  intros K RC AN DT. revert cs s'. induction n as [|n IH]; intros cs s' E.
  - cbn in E. injection E as <- <-. split; [reflexivity|]. destruct (state_saved eig f fk (lk_model s) K RC) as (_ & p0 & _ & _ & EP & _).
    exists (fun _ => s), (fun _ => p0). split; [reflexivity|]. split; [reflexivity|]. split; [intros i _; split; assumption|]. split; [intros [|i] c H; discriminate|].
    intros c0. cbn [Rsum]. split; ring.
  - cbn [ik_intervals] in E. destruct (ik_intervals f fk p mps sols n s) as [[cs1 s1]| |] eqn:E1; cbn [bind fst snd] in E; [|discriminate|discriminate].
    destruct (ik_interval f fk p (mps n) (sols n) s1) as [[c s2]| |] eqn:E2; cbn [bind fst snd] in E; [|discriminate|discriminate]. injection E as <- <-.
    destruct (IH _ _ eq_refl) as (LN & st & P & S0 & SN & RS & EX & SUM).
    destruct (RS n (le_n n)) as (RN & EPN). rewrite SN in RN, EPN.
    destruct (interval_executes eig f fk p (mps n) (sols n) s1 c s2 (P n) K RN (AN n) DT EPN E2) as (P' & R' & EP' & X).
    split; [rewrite app_length, LN; cbn; lia|].
    exists (fun i => if (i <=? n)%nat then st i else s2), (fun i => if (i <=? n)%nat then P i else P').
    assert (LE : forall i, (i <= n)%nat -> (i <=? n)%nat = true) by (intros i Hi; apply Nat.leb_le, Hi).
    assert (GT : (S n <=? n)%nat = false) by (apply Nat.leb_gt; lia).
    split; [exact S0|]. split; [rewrite GT; reflexivity|]. split; [|split].
    + intros i Hi. destruct (Nat.leb_spec i n) as [H|H]; [apply RS, H|]. split; assumption.
    + intros i c' H. destruct (Nat.lt_ge_cases i n) as [Hi|Hi].
      * rewrite nth_error_app1 in H by lia. rewrite !LE by lia. apply EX, H.
      * rewrite nth_error_app2 in H by lia. assert (i = n) as -> by (assert (HH : nth_error [c] (i - length cs1) <> None) by congruence; apply nth_error_Some in HH; cbn in HH; lia).
        rewrite LN, Nat.sub_diag in H. injection H as <-. rewrite LE, GT by lia. rewrite SN. exact X.
    + intros c0. destruct (SUM c0) as (SX & SY). rewrite GT, (LE 0%nat) by lia. cbn [Rsum].
      rewrite (app_nth2 cs1 [c] c0 (n := n)) by lia. rewrite LN, Nat.sub_diag. cbn [nth].
      rewrite (Rsum_ext n (fun i => vx (cmd_base (nth i (cs1 ++ [c]) c0))) (fun i => vx (cmd_base (nth i cs1 c0)))) by (intros i Hi; rewrite app_nth1 by lia; reflexivity).
      rewrite (Rsum_ext n (fun i => vy (cmd_base (nth i (cs1 ++ [c]) c0))) (fun i => vy (cmd_base (nth i cs1 c0)))) by (intros i Hi; rewrite app_nth1 by lia; reflexivity).
      destruct X as (_ & _ & _ & _ & _ & X1 & X2 & _). rewrite X1, X2, SX, SY. split; ring.
Qed.

(** ** order of calls *)
Lemma calls_app f l l' w : wbc_calls f (l ++ l') w =
  (fst (wbc_calls f l' (fst (wbc_calls f l w))), snd (wbc_calls f l w) ++ snd (wbc_calls f l' (fst (wbc_calls f l w)))).
Proof.
  revert w. induction l as [|c l IH]; intros w; cbn [wbc_calls app fst snd]; [destruct (wbc_calls f l' w); reflexivity|].
  destruct (wbc_do f c w) as (w1 & a). rewrite IH. destruct (wbc_calls f l w1) as (w2 & h). cbn [fst snd]. reflexivity.
Qed.
Lemma given_snoc l c : given_since (l ++ [c]) <-> match c with WCUpdate _ => False | _ => True end.
Proof.
  split.
  - intros (l1 & c1 & l2 & E & G & F). destruct (exists_last (l := l ++ [c]) ltac:(destruct l; discriminate)) as (x & y & Ex).
    assert (In c (c1 :: l2)).
    { assert (exists l3, c1 :: l2 = l3 ++ [c]) as (l3 & ->).
      { destruct (exists_last (l := c1 :: l2) ltac:(discriminate)) as (l3 & z & E3). exists l3. rewrite E3. rewrite E3, app_assoc in E. apply app_inj_tail in E. destruct E as (_ & ->). reflexivity. }
      apply in_or_app. right. left. reflexivity. }
    destruct H as [<- |H]; [exact G|]. rewrite Forall_forall in F. exact (F c H).
  - intros G. exists l, c, []. split; [reflexivity|]. split; [destruct c; exact G|constructor].
Qed.
Lemma next_sets sol m w g w' : getNextGeneralizedCoordinates sol m w = Ok (g, w') -> w_parsed w = false /\ w_parsed w' = true.
Proof.
  unfold getNextGeneralizedCoordinates. destruct (w_parsed w); cbn [negb assert_then]; [discriminate|].
  repeat match goal with |- bind ?x _ = _ -> _ => destruct x; cbn [bind]; [|discriminate|discriminate] end. intros E. injection E as _ <-. split; reflexivity.
Qed.
Lemma parsed_given f l w : w_parsed w = false -> (w_parsed (fst (wbc_calls f l w)) = true <-> given_since l).
Proof.
  intros W. induction l as [|c l _] using rev_ind.
  - cbn. rewrite W. split; [discriminate|]. intros (l1 & c & l2 & E & _). destruct l1; discriminate.
  - rewrite given_snoc, calls_app. cbn [fst]. cbn [wbc_calls]. destruct c as [mp|sol|sol m]; cbn [wbc_do fst wbc_update w_parsed set_parsed]; try tauto.
    + split; [discriminate|tauto].
    + destruct (getNextGeneralizedCoordinates sol m (fst (wbc_calls f l w))) as [(g & w')| |] eqn:E; cbn [fst set_parsed w_parsed]; try tauto.
      destruct (next_sets _ _ _ _ _ E) as (_ & ->). tauto.
Qed.
Theorem calls_once (f : features) (l : list wbc_call) (w : wbc) (sol : solution) (m : ikmodel) :
  w_parsed w = false -> sized f (ik_gc m) -> answers f sol ->
  exists a, snd (wbc_calls f (l ++ [WCNext sol m]) w) = snd (wbc_calls f l w) ++ [(WCNext sol m, a)] /\
    (given_since l -> a = Throw) /\
    (~ given_since l -> exists g, a = Ok (Some g) /\ sized f g /\ forall i, (i < DOF_NUMBER f)%nat -> nth i (asVector g) 0 = nth i (asVector (ik_gc m)) 0 + nth i (sol_x sol) 0).
Proof.
  intros W SZ AN. pose proof (parsed_given f l w W) as I. rewrite calls_app. cbn [snd]. set (w1 := fst (wbc_calls f l w)) in *. cbn [wbc_calls wbc_do].
  destruct (w_parsed w1) eqn:E.
  - assert (T : getNextGeneralizedCoordinates sol m w1 = Throw) by (unfold getNextGeneralizedCoordinates; rewrite E; reflexivity). rewrite T.
    exists Throw. split; [reflexivity|]. split; [reflexivity|]. intros N. destruct N. apply I. reflexivity.
  - destruct (next_ok f (w_motion w1) w1 sol m SZ (AN _ _)) as (g & w' & N & SG & _).
    destruct (next_vector f (w_motion w1) w1 sol m g w' SZ (AN _ _) N) as (_ & V).
    assert (X : exists w2, getNextGeneralizedCoordinates sol m w1 = Ok (g, w2)).
    { revert N. unfold getNextGeneralizedCoordinates. rewrite E. cbn [wbc_update w_parsed negb assert_then].
      repeat match goal with |- bind ?x _ = _ -> _ => destruct x; cbn [bind]; [|discriminate|discriminate] end. intros N. injection N as <- _. eexists. reflexivity. }
    destruct X as (w2 & ->). exists (Ok (Some g)). split; [reflexivity|]. split; [intros G; apply I in G; discriminate|]. intros _. exists g. split; [reflexivity|]. split; assumption.
Qed.
