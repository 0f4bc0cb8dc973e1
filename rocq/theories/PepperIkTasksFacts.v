From Coq Require Import String List Reals Arith Lra Lia Bool ZArith ZifyBool.
From Verif Require Import Base BaseFacts RSum Matrix Mat3 ConstraintType Constraints ConstraintsSpec ConstraintsFacts Solution Condense SpatialTransform PepperMpc PepperTasksSpec
  RotarySpec Rotary RotaryFacts Euler EulerSpec EulerFacts Rbdl RbdlSpec RbdlFacts RbdlComFacts PepperIk PepperIkSpec PepperIkFacts PepperIkTasks PepperIkTasksSpec.
Import ListNotations.
Local Open Scope R_scope.

(** ** a robot which does not move *)
Lemma same_refl l : same_robot l l.
Proof. repeat split. Qed.
Lemma zero_joint j n r : joint_velocity j (mkVec n (fun _ => 0)) r = 0.
Proof. unfold joint_velocity. cbn [vget]. apply Rsum_zero; intros; ring. Qed.
Lemma static_motion l : tree l -> motion (fun _ => l) 0 (mkVec (rb_q l) (fun _ => 0)).
Proof.
  intros T. split; [intros s; split; [exact T|apply same_refl]|]. split; [reflexivity|].
  intros i p j O Op o op I Ep Ej Fi Fp.
  assert (EO : forall s, O s = O 0 /\ o s = o 0).
  { intros s. destruct (link_frame_inv l T i _ _ (Fi s)) as (A & B). destruct (link_frame_inv l T i _ _ (Fi 0)) as (C & D). split; congruence. }
  assert (EP : forall s, Op s = Op 0 /\ op s = op 0).
  { intros s. destruct (link_frame_inv l T p _ _ (Fp s)) as (A & B). destruct (link_frame_inv l T p _ _ (Fp 0)) as (C & D). split; congruence. }
  unfold joint_angular, joint_linear. rewrite !zero_joint. split.
  - eapply m3d_ext; [| |apply (m3d_const (m3mul (m3trans (Op 0)) (O 0)))].
    + intros s. cbn beta. rewrite (proj1 (EO s)), (proj1 (EP s)). reflexivity.
    + unfold m3mul, skew; cbn. f_equal; ring.
  - eapply v3d_ext; [| |apply (v3d_const (m3app (m3trans (Op 0)) (v3sub (o 0) (op 0))))].
    + intros s. cbn beta. rewrite (proj1 (EP s)), (proj2 (EO s)), (proj2 (EP s)). reflexivity.
    + unfold m3app, v3zero; cbn. f_equal; ring.
Qed.

(** ** reachable models *)
Lemma same_linkid a b s : same_robot a b -> getLinkId a s = getLinkId b s.
Proof. intros (_ & _ & _ & _ & A & _ & B & _). unfold getLinkId. rewrite A, B. reflexivity. Qed.
Lemma same_comtag a b l : same_robot a b -> getCoMTag a l = getCoMTag b l.
Proof.
  intros (B & _ & _ & _ & A & _ & C & _). unfold getCoMTag, getLinkId. rewrite A, B, C. reflexivity.
Qed.
Definition base_link : string := "base_footprint".
Definition good (f : features) (fk : list R -> rb) (file : rb) (m : ikmodel) : Prop :=
  ready f fk m /\ getCoMTag file getBaseLinksStringIds = Ok (ik_base_com m) /\ getCoMTag file getBodyLinksStringIds = Ok (ik_body_com m) /\
  ik_base_orientation m = getLinkId file base_link /\ ik_base_position m = getLinkId file base_link /\
  getRootMotionToWheelsTransform = Ok (ik_wheels m) /\
  (forall s, ik_saved m = Some s -> sized f (sv_gc s) /\ frame (fk (asVector (sv_gc s))) (getLinkId file base_link) (sv_orientation s) (sv_position s)).
Lemma good_update f fk file g m : kinematics f fk -> good f fk file m -> sized f g ->
  exists m', updateState fk g m = Ok m' /\ good f fk file m' /\ ik_gc m' = g /\ ik_saved m' = ik_saved m.
Proof.
  intros K (RD & A & B & C & D & E & S) G. pose proof RD as (SZ & U & CN). pose proof (sized_vector _ _ SZ) as LS. pose proof (sized_vector _ _ G) as LG.
  destruct (K _ _ LG LS) as (T2 & SR & _). destruct (K _ _ LS LS) as (T & _).
  destruct (update_again _ _ _ U T T2 SR) as (r & ER & U2). unfold updateState, ik_refresh. cbn [ik_set_gc ik_gc ik_rbdl].
  rewrite ER. cbn [bind]. eexists. split; [reflexivity|]. split; [|split; reflexivity]. unfold good. cbn.
  split; [split; [exact G|split; [exact U2|exact CN]]|]. do 5 (split; [assumption|]). exact S.
Qed.
Section Good.
  Variables (f : features) (fk : list R -> rb) (file : rb) (m : ikmodel).
  Hypothesis K : kinematics f fk.
  Hypothesis D : describes f fk file.
  Hypothesis GD : good f fk file m.
  Let q := asVector (ik_gc m).
  Lemma good_length : length q = DOF_NUMBER f.
  Proof. apply sized_vector, GD. Qed.
  Lemma good_tree : tree (fk q).
  Proof. apply (K q q); apply good_length. Qed.
  Lemma good_same : same_robot (fk q) file.
  Proof. apply D, good_length. Qed.
  Lemma good_q : rb_q (fk q) = DOF_NUMBER f.
  Proof. apply (K q q); apply good_length. Qed.
  Lemma good_updated : updated (fk q) (ik_rbdl m).
  Proof. apply GD. Qed.
  Lemma good_lib : rm_lib (ik_rbdl m) = fk q.
  Proof. apply (updated_ok _ _ good_tree good_updated). Qed.
  Lemma good_base_link : link (fk q) (ik_base_orientation m) /\ link (fk q) (ik_base_position m).
  Proof.
    destruct GD as (_ & _ & _ & A & B & _). rewrite A, B. destruct D as (T & _ & _ & L).
    split; apply (same_link (fk q) file _ good_tree T good_same L).
  Qed.
  Lemma good_tag name : ik_getLinkTag m name = getLinkId (fk q) name.
  Proof. unfold ik_getLinkTag, getLinkTag. rewrite good_lib. reflexivity. Qed.
  Lemma good_save : exists m', saveCurrentState m = Ok m' /\ good f fk file m' /\ ik_gc m' = ik_gc m /\ ik_rbdl m' = ik_rbdl m /\
    exists p o, getBasePosition m = Ok p /\ getBaseOrientation m = Ok o /\ ik_saved m' = Some (mkSaved p o (ik_gc m)).
  Proof.
    unfold saveCurrentState, getBaseOrientation, getBasePosition. destruct good_base_link as (L1 & L2).
    pose proof (link_frame _ good_tree _ L1) as F1. 
    destruct (tag_pose (fk q) (ik_rbdl m) (ik_base_orientation m) v3zero _ _ good_tree good_updated F1) as (_ & E1 & _ & _).
    pose proof (link_frame _ good_tree _ L2) as F2.
    destruct (tag_pose (fk q) (ik_rbdl m) (ik_base_position m) v3zero _ _ good_tree good_updated F2) as (E2 & _ & _ & _).
    rewrite E1, E2. cbn [bind]. eexists. split; [reflexivity|]. destruct GD as (RD & A & B & C & C2 & W & S).
    split; [|split; [reflexivity|split; [reflexivity|do 2 eexists; split; [reflexivity|split; reflexivity]]]].
    unfold good. cbn. do 6 (split; [assumption|]). intros s H. injection H as <-. cbn. split; [apply RD|].
    rewrite <- C. fold q. rewrite C, <- C2 in *. exact F2.
  Qed.
End Good.

Lemma list3 (l : list R) : length l = 3%nat -> exists a b c, l = [a; b; c].
Proof. destruct l as [|a [|b [|c [|d l]]]]; cbn; intros H; try discriminate; eauto. Qed.
Definition corrected (c : command) (t : R) (g : gcoord) : gcoord :=
  mkGC [root_at g 0 + t * vx (cmd_base c); root_at g 1 + t * vy (cmd_base c); root_at g 2 + t * vz (cmd_base c)]
       (map (fun p => fst p + snd p) (combine (gc_joints g) (map (fun d => d * t / cmd_interval c) (lsub (cmd_joints c) (gc_joints g))))).
Lemma corrected_sized c t g : sized ROOT_PLANAR g -> length (cmd_joints c) = JOINTS_DOF_NUMBER -> sized ROOT_PLANAR (corrected c t g).
Proof.
  intros (_ & L) LC. split; [reflexivity|]. cbn [corrected gc_joints]. rewrite map_length, combine_length, map_length, lsub_length by (rewrite LC, L; reflexivity).
  rewrite L, LC. reflexivity.
Qed.
Lemma correct_is eig f fk c t m : sized f (ik_gc m) ->
  correct eig f fk c t m =
    if Rgt_dec t 0 then
      match f with
      | ROOT_PLANAR => if (length (cmd_joints c) =? JOINTS_DOF_NUMBER)%nat then updateState fk (corrected c t (ik_gc m)) m else Throw
      | _ => Throw
      end
    else Ok m.
Proof.
  intros (LR & LJ). unfold correct. destruct (Rgt_dec t 0); [|reflexivity]. destruct f; try reflexivity.
  destruct (list3 _ LR) as (a & b & d & E). cbn [getRootOrientation bind getRootPosition setRootPosition vz]. destruct (Req_EM_T 0 0) as [_|N]; [|contradiction]. cbn [bind vx vy setRootOrientation].
  destruct (Req_EM_T 0 0) as [_|N]; [|contradiction]. cbn [bind vz gc_joints gc_root]. rewrite LJ.
  destruct (Nat.eqb_spec (length (cmd_joints c)) JOINTS_DOF_NUMBER) as [LC|LC]; cbn [assert_then]; [|reflexivity].
  unfold ladd_o. rewrite map_length, lsub_length by (rewrite LC, LJ; reflexivity). rewrite LJ, LC, Nat.eqb_refl. cbn [assert_then bind].
  unfold updateState, corrected. f_equal. f_equal. f_equal. unfold root_at. rewrite E. reflexivity.
Qed.
Lemma reachable_good eig f fk m : kinematics f fk -> reachable eig f fk m -> exists file, describes f fk file /\ good f fk file m.
Proof.
  intros K H. induction H as [junk file m m' D C E|g m m' H IH G E|m m' H IH E|c t m m' H IH E|g c t m m' H IH G E].
  - exists file. split; [exact D|]. pose proof (constructed_sized f m C) as SZ. destruct C as ((j1 & EG) & SV & j2 & LM).
    destruct (load_steps junk f fk file m K D SZ) as (r & W & m2 & EW & U & E2 & B1 & B2 & EM). rewrite E in E2. injection E2 as <-.
    assert (G1 : ik_gc m' = ik_gc m) by (rewrite EM; reflexivity). assert (G2 : ik_rbdl m' = r) by (rewrite EM; reflexivity).
    unfold good, ready. rewrite G1, G2. split; [split; [exact SZ|split; [exact U|exists j2; rewrite EM; exact LM]]|].
    split; [exact B1|]. split; [exact B2|]. rewrite EM. cbn. split; [reflexivity|]. split; [reflexivity|]. split; [exact EW|]. rewrite SV. discriminate.
  - destruct IH as (file & D & GD). exists file. split; [exact D|]. destruct (good_update f fk file g m K GD G) as (m2 & E2 & GD2 & _). rewrite E in E2. injection E2 as <-. exact GD2.
  - destruct IH as (file & D & GD). exists file. split; [exact D|]. destruct (good_save f fk file m K D GD) as (m2 & E2 & GD2 & _). rewrite E in E2. injection E2 as <-. exact GD2.
  - destruct IH as (file & D & GD). exists file. split; [exact D|]. rewrite correct_is in E by apply GD. destruct (Rgt_dec t 0); [|injection E as <-; exact GD].
    destruct f; try discriminate. destruct (Nat.eqb_spec (length (cmd_joints c)) JOINTS_DOF_NUMBER) as [LC|]; [|discriminate].
    destruct (good_update ROOT_PLANAR fk file (corrected c t (ik_gc m)) m K GD) as (m2 & E2 & GD2 & _); [apply corrected_sized; [apply GD|exact LC]|].
    rewrite E in E2. injection E2 as <-. exact GD2.
  - destruct IH as (file & D & GD). exists file. split; [exact D|]. unfold correct_state in E. rewrite correct_is in E by exact G. destruct (Rgt_dec t 0).
    + destruct f; try discriminate. destruct (Nat.eqb_spec (length (cmd_joints c)) JOINTS_DOF_NUMBER) as [LC|]; [|discriminate]. cbn [ik_set_gc ik_gc] in E.
      destruct (good_update ROOT_PLANAR fk file (corrected c t g) m K GD) as (m2 & E2 & GD2 & _); [apply corrected_sized; [exact G|exact LC]|].
      change (updateState fk (corrected c t g) (ik_set_gc m g)) with (updateState fk (corrected c t g) m) in E. rewrite E in E2. injection E2 as <-. exact GD2.
    + destruct (good_update f fk file g m K GD G) as (m2 & E2 & GD2 & _). rewrite E in E2. injection E2 as <-. exact GD2.
Qed.

(** ** gains *)
Lemma residual_zero c x i r : residual c i x r -> (at_least (row_value c i x) (lower c i) /\ at_most (row_value c i x) (upper c i)) <-> r = 0.
Proof. intros (b & E1 & E2 & E3). rewrite E1, E2. unfold at_least, at_most. lra. Qed.
Lemma with_gain_ok gain st A b (x : nat -> R) (e : nat -> R) : mcols A = Solution.getNumberOfVariables st -> (0 < mcols A)%nat -> vlen b = mrows A ->
  (forall i, (i < mrows A)%nat -> e i = vget (mulv A (mkVec (mcols A) x)) i - vget b i) ->
  drives (with_gain gain st A b) x (mrows A) gain e.
Proof.
  intros C P L E. unfold drives.
  assert (R : exists g, weighted gain g /\ forall i, (i < mrows A)%nat -> residual (with_gain gain st A b) i x (g * e i)).
  { unfold with_gain, isApproximatelyEqual. destruct (Rlt_dec (Rabs (1 - gain)) 1e-12) as [H|H].
    - exists 1. split; [unfold weighted; destruct Rlt_dec; [reflexivity|contradiction]|]. intros i Hi. exists (vget b i). split; [reflexivity|]. split; [reflexivity|].
      unfold row_value, coef. cbn [c_nvars c_body]. rewrite E by exact Hi. unfold mulv. cbn [vget]. rewrite C. ring.
    - exists gain. split; [unfold weighted; destruct Rlt_dec; [contradiction|reflexivity]|]. intros i Hi. exists (gain * vget b i). split; [reflexivity|]. split; [reflexivity|].
      unfold row_value, coef. cbn [c_nvars c_body mscale mget]. rewrite E by exact Hi. unfold mulv. cbn [vget]. rewrite C.
      rewrite (Rsum_ext _ (fun j => gain * mget A i j * x j) (fun j => gain * (mget A i j * x j))) by (intros; ring). rewrite Rsum_scal. ring. }
  assert (N : getNumberOfConstraints (with_gain gain st A b) = mrows A).
  { unfold with_gain. destruct (isApproximatelyEqual 1 gain); reflexivity. }
  split; [exact N|]. split; [exact R|]. intros G. destruct R as (g & W & R). unfold satisfies. rewrite N.
  assert (g <> 0) by (unfold weighted in W; destruct Rlt_dec; rewrite W; [lra|exact G]).
  split; intros H' i Hi; specialize (H' i Hi).
  - apply (residual_zero _ _ _ _ (R i Hi)) in H'. apply Rmult_integral in H'. destruct H'; [contradiction|assumption].
  - apply (residual_zero _ _ _ _ (R i Hi)). rewrite H'. ring.
Qed.
Lemma with_gain_usable gain st A b : mcols A = Solution.getNumberOfVariables st -> (0 < mcols A)%nat -> vlen b = mrows A ->
  usable (Solution.getNumberOfVariables st) (with_gain gain st A b) /\ getType (with_gain gain st A b) = AB.
Proof.
  intros C P L. unfold with_gain, usable. destruct (isApproximatelyEqual 1 gain); cbn [c_nvars c_body getType c_bounds]; (split; [|reflexivity]); (split; [reflexivity|]); split; trivial;
  unfold checkConsistency; cbn [getNumberOfConstraints c_body c_bounds bounds_size_ok mscale mrows mcols vlen c_nvars]; rewrite ?L, C, !Nat.eqb_refl; rewrite C in P; apply Nat.ltb_lt in P; rewrite P; reflexivity.
Qed.

(** ** Jacobians and motions *)
Section Moves.
  Variables (f : features) (fk : list R -> rb) (file : rb) (m : ikmodel).
  Hypothesis K : kinematics f fk.
  Hypothesis D : describes f fk file.
  Hypothesis GD : good f fk file m.
  Let q := asVector (ik_gc m).
  Let T : tree (fk q) := good_tree f fk file m K GD.
  Let U : updated (fk q) (ik_rbdl m) := good_updated f fk file m GD.
  Lemma dof_number : getDOFNumber (ik_rbdl m) = DOF_NUMBER f.
  Proof. unfold getDOFNumber. rewrite (good_lib f fk file m K GD). apply (good_q f fk file m K GD). Qed.
  Lemma link_pose l r id : tree l -> updated l r -> link l id ->
    position_link r id = Ok (link_o l id) /\ orientation_link r id = Ok (link_O l id) /\
    position_point r (id, v3zero) = Ok (link_o l id) /\ orientation_point r (id, v3zero) = Ok (link_O l id).
  Proof.
    intros Tl Ul L. pose proof (tag_pose l r id v3zero _ _ Tl Ul (link_frame l Tl id L)) as (A & B & C & E).
    rewrite m3app_zero, v3add_zero_r in C. auto.
  Qed.
  Lemma link_jacobians id : link (fk q) id ->
    exists Jc Jr, jacobian_link COMPLETE (ik_rbdl m) id = Ok Jc /\ mrows Jc = 6%nat /\ mcols Jc = DOF_NUMBER f /\
      jacobian_link ROTATION (ik_rbdl m) id = Ok Jr /\ mrows Jr = 3%nat /\ mcols Jr = DOF_NUMBER f /\
      forall M MS x, moving f fk m M MS x -> exists P O w v,
        (forall s, position_link (MS s) id = Ok (P s) /\ orientation_link (MS s) id = Ok (O s)) /\ turns_with O w /\ v3_derivative P 0 v /\
        rows3 Jc (mkVec (DOF_NUMBER f) x) 0 = w /\ rows3 Jc (mkVec (DOF_NUMBER f) x) 3 = v /\ rows3 Jr (mkVec (DOF_NUMBER f) x) 0 = w.
  Proof.
    intros L.
    destruct (tag_velocity (fun _ => fk q) 0 _ (fun _ => ik_rbdl m) id v3zero (static_motion _ T) (fun _ => U) L)
      as (_ & _ & Jc & _ & Jr & _ & EC & RC & CC & _ & _ & _ & ER & RR & CR & _).
    rewrite dof_number in CC, CR. exists Jc, Jr.
    destruct (link_is_point (fun _ => fk q) 0 _ (fun _ => ik_rbdl m) id COMPLETE (static_motion _ T) (fun _ => U) L) as (E1 & _).
    destruct (link_is_point (fun _ => fk q) 0 _ (fun _ => ik_rbdl m) id ROTATION (static_motion _ T) (fun _ => U) L) as (E2 & _).
    cbn beta in E1, E2. rewrite E1, E2. do 6 (split; [assumption|]). intros M MS x (MV & M0 & MS0 & UP).
    assert (LM : link (M 0) id) by (rewrite M0; exact L).
    destruct (tag_velocity M 0 _ MS id v3zero MV UP LM) as (P & O & Jc' & Jt & Jr' & PO & EC' & _ & _ & _ & _ & _ & ER' & _ & _ & DO & DP & W & V).
    rewrite MS0 in EC', ER'. rewrite EC in EC'. injection EC' as <-. rewrite ER in ER'. injection ER' as <-.
    exists P, O, (rows3 Jc (mkVec (DOF_NUMBER f) x) 0), (rows3 Jc (mkVec (DOF_NUMBER f) x) 3). split.
    - intros s. destruct MV as (TS & _). destruct (TS s) as (TM & SM). destruct (same_link (M s) (M 0) id TM (proj1 (TS 0)) SM LM) as (LS & _).
      destruct (link_pose (M s) (MS s) id TM (UP s) LS) as (A & B & C & E). destruct (PO s) as (P1 & P2). rewrite C in P1. rewrite E in P2. rewrite A, B. auto.
    - split; [exact DO|]. split; [exact DP|]. auto.
  Qed.
  Lemma com_jacobians names tag old : names <> [] -> Forall (fun s => movable file (getLinkId file s)) names -> getCoMTag file names = Ok tag ->
    exists J p0, jacobian_partial old (ik_rbdl m) tag = Ok J /\ mrows J = 3%nat /\ mcols J = DOF_NUMBER f /\ position_partial (ik_rbdl m) tag = Ok p0 /\
      forall M MS x, moving f fk m M MS x -> exists P v,
        (forall s, position_partial (MS s) tag = Ok (P s)) /\ v3_derivative P 0 v /\ rows3 J (mkVec (DOF_NUMBER f) x) 0 = v.
  Proof.
    intros NE F ET. pose proof (good_same f fk file m D GD) as SR. fold q in SR.
    assert (F' : Forall (fun s => movable (fk q) (getLinkId (fk q) s)) names).
    { eapply Forall_impl; [|exact F]. intros s H. rewrite (same_linkid _ _ s SR). apply (same_movable _ _ _ SR H). }
    rewrite <- (same_comtag _ _ names SR) in ET.
    destruct (partial_com_velocity (fun _ => fk q) 0 _ (fun _ => ik_rbdl m) old names (static_motion _ T) (fun _ => U) NE F') as (tag' & P & J & ET' & EP & EJ & RJ & CJ & _).
    rewrite ET in ET'. injection ET' as <-. rewrite dof_number in CJ. exists J, (P 0). split; [exact EJ|]. split; [exact RJ|]. split; [exact CJ|]. split; [exact (EP 0)|].
    intros M MS x (MV & M0 & MS0 & UP).
    destruct (partial_com_velocity M 0 _ MS old names MV UP NE) as (tag' & P' & J' & ET' & EP' & EJ' & _ & _ & DP); [rewrite M0; exact F'|].
    rewrite M0 in ET'. fold q in ET'. rewrite ET in ET'. injection ET' as <-. rewrite MS0, EJ in EJ'. injection EJ' as <-. exists P', (rows3 J (mkVec (DOF_NUMBER f) x) 0). auto.
  Qed.
End Moves.
Lemma dof_pos f : (0 < DOF_NUMBER f)%nat.
Proof. destruct f; cbn; lia. Qed.
Lemma rows3_get J x i r : (i < 3)%nat -> component i (rows3 J x r) = vget (mulv J x) (r + i).
Proof. intros H. destruct i as [|[|[|i]]]; [..|lia]; cbn [component rows3 vx vy vz]; rewrite ?Nat.add_0_r; reflexivity. Qed.
Lemma error_is o r : orientation_error o r (getRotationErrorAngleAxis o r).
Proof.
  unfold orientation_error, getRotationErrorAngleAxis, skew, m3scale, m3add, m3mul, m3trans, v3scale, v3add, v3cross, m3col; cbn. f_equal; field.
Qed.
Lemma error_unique o r e e' : orientation_error o r e -> orientation_error o r e' -> e = e'.
Proof. intros A B. unfold orientation_error in *. rewrite <- A in B. unfold skew in B. injection B as B1 B2 B3 B4 B5 B6. destruct e, e'; cbn in *; f_equal; lra. Qed.
Lemma rpy_ok rpy : convertEulerAnglesToMatrix rpy RPY = Ok (rotation_zyx rpy).
Proof. apply (euler_to_matrix rpy). Qed.

(** ** C90: tasks which track motions *)
Lemma prepared_vars f w : prepared f w -> Solution.getNumberOfVariables (w_structure w) = DOF_NUMBER f.
Proof. intros (mp & w0 & ->). apply next_nvars. Qed.
Lemma get_is v i : v3_get v i = component i v.
Proof. reflexivity. Qed.
Lemma component_scale k v i : component i (v3scale k v) = k * component i v.
Proof. destruct i as [|[|i]]; reflexivity. Qed.
Lemma component_sub a b i : component i (v3sub a b) = component i a - component i b.
Proof. destruct i as [|[|i]]; cbn; ring. Qed.

Lemma base_names file f fk : describes f fk file -> getBaseLinksStringIds <> [] /\ Forall (fun s => movable file (getLinkId file s)) getBaseLinksStringIds.
Proof. intros (_ & _ & F & _). split; [discriminate|]. inversion F. constructor; auto. Qed.
Lemma body_names file f fk : describes f fk file -> getBodyLinksStringIds <> [] /\ Forall (fun s => movable file (getLinkId file s)) getBodyLinksStringIds.
Proof. intros (_ & _ & F & _). split; [discriminate|]. inversion F. assumption. Qed.
(** a task with the given matrix and vector *)
Lemma task_drives f gain w A b : prepared f w -> mcols A = DOF_NUMBER f -> vlen b = mrows A ->
  usable (DOF_NUMBER f) (with_gain gain (w_structure w) A b) /\ getType (with_gain gain (w_structure w) A b) = AB /\
  forall x e, (forall i, (i < mrows A)%nat -> e i = vget (mulv A (mkVec (DOF_NUMBER f) x)) i - vget b i) ->
    drives (with_gain gain (w_structure w) A b) x (mrows A) gain e.
Proof.
  intros PR C L. pose proof (prepared_vars f w PR) as NV. pose proof (dof_pos f) as DP.
  destruct (with_gain_usable gain (w_structure w) A b) as (U & T); [congruence|rewrite C; exact DP|assumption|]. rewrite NV in U. split; [exact U|]. split; [exact T|].
  intros x e E. apply with_gain_ok; [congruence|rewrite C; exact DP|assumption|]. rewrite C. exact E.
Qed.

Theorem baseCoM_tracks (eig : m3 -> euler_type -> v3) (f : features) (fk : list R -> rb) (gain k : R) (old : mat) (m : ikmodel) (w : wbc) :
  kinematics f fk -> reachable eig f fk m -> prepared f w ->
  exists c, form_baseCoM f gain k old (w_structure w) m w = Ok c /\ usable (DOF_NUMBER f) c /\ getType c = AB /\
    forall M MS x, moving f fk m M MS x ->
      exists P v, (forall s, getBaseCoM (at_time m MS s) = Ok (P s)) /\ v3_derivative P 0 v /\
        drives c x (match f with ROOT_PLANAR => 2 | _ => 3 end)%nat gain
          (fun i => component i v - k * (component i (mp_base_com (w_motion w)) - component i (P 0))).
Proof.
  intros K RC PR. destruct (reachable_good eig f fk m K RC) as (file & D & GD).
  destruct (base_names file f fk D) as (NE & FN). pose proof GD as (_ & EB & _).
  destruct (com_jacobians f fk file m K D GD _ (ik_base_com m) old NE FN EB) as (J & p0 & EJ & RJ & CJ & EP & MVS).
  unfold form_baseCoM, getBaseCoMJacobian, getBaseCoM. rewrite EJ, EP. cbn [bind]. eexists. split; [reflexivity|].
  set (A := match f with ROOT_PLANAR => mkMat 2 (mcols J) (mget J) | _ => J end).
  set (b := v3scale k (v3sub (mp_base_com (w_motion w)) p0)).
  set (bb := match f with ROOT_PLANAR => mkVec 2 (v3_get b) | _ => vec3 b end).
  replace (match f with ROOT_PLANAR => _ | _ => _ end) with (with_gain gain (w_structure w) A bb) by (subst A bb; destruct f; reflexivity).
  assert (RA : mrows A = (match f with ROOT_PLANAR => 2 | _ => 3 end)%nat) by (subst A; destruct f; cbn; auto).
  destruct (task_drives f gain w A bb PR) as (U & T & DR); [subst A; destruct f; exact CJ|subst A bb; destruct f; cbn [vlen vec3 mrows]; auto|].
  split; [exact U|]. split; [exact T|]. intros M MS x MV. destruct (MVS M MS x MV) as (P & v & E & DV & RV). exists P, v. split; [exact E|]. split; [exact DV|].
  rewrite <- RA. apply DR. intros i Hi.
  assert (P 0 = p0) as -> by (destruct MV as (_ & _ & MS0 & _); specialize (E 0); rewrite MS0, EP in E; injection E as E; auto).
  assert (I3 : (i < 3)%nat) by (revert Hi; rewrite RA; destruct f; lia). rewrite <- RV, (rows3_get J _ i 0 I3). cbn [plus].
  rewrite <- component_sub, <- component_scale. fold b. f_equal; [|f_equal; subst bb; destruct f; reflexivity].
  subst A. destruct f; reflexivity.
Qed.

Theorem baseOrientation_tracks (eig : m3 -> euler_type -> v3) (f : features) (fk : list R -> rb) (gain k : R) (m : ikmodel) (w : wbc) :
  kinematics f fk -> reachable eig f fk m -> prepared f w ->
  exists c, form_baseOrientation f gain k (w_structure w) m w = Ok c /\ usable (DOF_NUMBER f) c /\ getType c = AB /\
    forall M MS x, moving f fk m M MS x ->
      exists O v e, (forall s, getBaseOrientation (at_time m MS s) = Ok (O s)) /\ turns_with O v /\
        orientation_error (O 0) (rotation_zyx (mp_base_rpy (w_motion w))) e /\
        match f with
        | ROOT_PLANAR => drives c x 1 gain (fun _ => vz v - k * vz e)
        | _ => drives c x 3 gain (fun i => component i v - k * component i e)
        end.
Proof.
  intros K RC PR. destruct (reachable_good eig f fk m K RC) as (file & D & GD).
  assert (L : link (fk (asVector (ik_gc m))) (ik_base_orientation m)).
  { apply (good_base_link f fk file m K D GD). }
  destruct (link_jacobians f fk file m K GD _ L) as (Jc & J & _ & _ & _ & EJ & RJ & CJ & MVS).
  destruct (link_pose _ _ _ (good_tree f fk file m K GD) (good_updated f fk file m GD) L) as (_ & EO & _).
  unfold form_baseOrientation, getBaseOrientationJacobian, getBaseOrientation. rewrite EJ, EO, rpy_ok. cbn [bind]. eexists. split; [reflexivity|].
  set (o := link_O _ _) in *. set (e0 := getRotationErrorAngleAxis o (rotation_zyx (mp_base_rpy (w_motion w)))).
  set (A := match f with ROOT_PLANAR => mkMat 1 (mcols J) (fun _ j => mget J (mrows J - 1) j) | _ => J end).
  set (bb := match f with ROOT_PLANAR => mkVec 1 (fun _ => vz (v3scale k e0)) | _ => vec3 (v3scale k e0) end).
  replace (match f with ROOT_PLANAR => _ | _ => _ end) with (with_gain gain (w_structure w) A bb) by (subst A bb; destruct f; reflexivity).
  destruct (task_drives f gain w A bb PR) as (U & T & DR); [subst A; destruct f; exact CJ|subst A bb; destruct f; cbn [vlen vec3 mrows]; auto|].
  split; [exact U|]. split; [exact T|]. intros M MS x MV. destruct (MVS M MS x MV) as (P & O & v & u & E & TW & _ & _ & _ & RV).
  assert (O 0 = o) as O0 by (destruct MV as (_ & _ & MS0 & _); destruct (E 0) as (_ & E0); rewrite MS0, EO in E0; injection E0 as E0; auto).
  exists O, v, e0. split; [intros s; apply (proj2 (E s))|]. split; [exact TW|]. split; [rewrite O0; apply error_is|].
  assert (G : forall i, (i < 3)%nat -> component i v = vget (mulv J (mkVec (DOF_NUMBER f) x)) i) by (intros i Hi; rewrite <- RV; apply (rows3_get J _ i 0 Hi)).
  subst A bb. destruct f; [rewrite RJ in DR|rewrite RJ in DR|]; apply DR; cbn [mrows]; intros i Hi.
  - rewrite G by exact Hi. rewrite <- component_scale. reflexivity.
  - rewrite G by exact Hi. rewrite <- component_scale. reflexivity.
  - change (vz v) with (component 2 v). rewrite G by lia. cbn [vget mulv mget mcols]. rewrite RJ. cbn. ring.
Qed.

Lemma flag_rows_selected z : flag_rows z = selected_axes z.
Proof.
  unfold flag_rows, selected_axes. cbn [filter].
  assert (T : forall n, (Z.land (2 ^ Z.of_nat n) z =? 0)%Z = negb (Z.testbit z (Z.of_nat n))).
  { intros n. destruct (Z.testbit z (Z.of_nat n)) eqn:B; cbn [negb].
    - apply Z.eqb_neq. intros H. assert (Z.testbit (Z.land (2 ^ Z.of_nat n) z) (Z.of_nat n) = true) as E.
      { rewrite Z.land_spec, B, Z.pow2_bits_true by lia. reflexivity. }
      rewrite H, Z.bits_0 in E. discriminate.
    - apply Z.eqb_eq. apply Z.bits_inj_0. intros i. rewrite Z.land_spec. destruct (Z.eq_dec i (Z.of_nat n)) as [->|N]; [rewrite B; apply Bool.andb_false_r|].
      rewrite Z.pow2_bits_false by auto. reflexivity. }
  pose proof (T 0%nat) as T0. pose proof (T 1%nat) as T1. pose proof (T 2%nat) as T2.
  change (2 ^ Z.of_nat 0)%Z with 1%Z in T0. change (2 ^ Z.of_nat 1)%Z with 2%Z in T1. change (2 ^ Z.of_nat 2)%Z with 4%Z in T2.
  rewrite T0, T1, T2. destruct (Z.testbit z (Z.of_nat 0)), (Z.testbit z (Z.of_nat 1)), (Z.testbit z (Z.of_nat 2)); reflexivity.
Qed.
Lemma selected_all : selected_axes 7 = [0; 1; 2]%nat.
Proof. reflexivity. Qed.
Lemma selected_lt flag i : (i < length (selected_axes flag))%nat -> (nth i (selected_axes flag) 0 < 3)%nat.
Proof.
  intros H. assert (In (nth i (selected_axes flag) 0%nat) (selected_axes flag)) as I by (apply nth_In; exact H).
  unfold selected_axes at 2 in I. apply filter_In in I. destruct I as ([I|[I|[I|[]]]] & _); rewrite <- I; lia.
Qed.
Lemma flags_range flag : (Z.lor 7 flag = 7)%Z -> selected_axes flag <> [] -> (1 <= flag <= 7)%Z.
Proof.
  intros H N. assert (0 <= flag)%Z as P.
  { destruct (Z_lt_le_dec flag 0) as [L|L]; [|exact L]. exfalso. assert (Z.lor 7 flag < 0)%Z by (apply Z.lor_neg; right; exact L). lia. }
  assert (flag <= 7)%Z.
  { destruct (Z_le_gt_dec flag 7) as [L|L]; [exact L|]. exfalso.
    assert (Z.testbit flag (Z.log2 flag) = true) by (apply Z.bit_log2; lia).
    assert (3 <= Z.log2 flag)%Z by (apply Z.log2_le_pow2; lia).
    assert (Z.testbit (Z.lor 7 flag) (Z.log2 flag) = true) as B by (rewrite Z.lor_spec, H0; apply Bool.orb_true_r).
    rewrite H in B. change 7%Z with (Z.ones 3) in B. rewrite Z.ones_spec_high in B by lia. discriminate. }
  assert (flag <> 0)%Z by (intros ->; apply N; reflexivity). lia.
Qed.
Lemma range_flags flag : (1 <= flag <= 7)%Z -> Z.lor 7 flag = 7%Z /\ selected_axes flag <> [].
Proof.
  intros H. assert (flag = 1 \/ flag = 2 \/ flag = 3 \/ flag = 4 \/ flag = 5 \/ flag = 6 \/ flag = 7)%Z as C by lia.
  repeat destruct C as [-> | C]; try rewrite C; split; try reflexivity; discriminate.
Qed.

Theorem bodyCoM_tracks (eig : m3 -> euler_type -> v3) (f : features) (fk : list R -> rb) (gain k : R) (flag : Z) (old : mat) (m : ikmodel) (w : wbc) :
  kinematics f fk -> reachable eig f fk m -> prepared f w -> (1 <= flag <= 7)%Z ->
  exists c, form_bodyCoM gain k flag old (w_structure w) m w = Ok c /\ usable (DOF_NUMBER f) c /\ getType c = AB /\
    forall M MS x, moving f fk m M MS x ->
      exists P v, (forall s, getBodyCoM (at_time m MS s) = Ok (P s)) /\ v3_derivative P 0 v /\
        drives c x (length (selected_axes flag)) gain (fun j => let i := nth j (selected_axes flag) 0%nat in
          component i v - k * (component i (mp_body_com (w_motion w)) - component i (P 0))).
Proof.
  intros K RC PR FL. destruct (reachable_good eig f fk m K RC) as (file & D & GD).
  destruct (body_names file f fk D) as (NE & FN). pose proof GD as (_ & _ & EB & _).
  unfold form_bodyCoM, getBodyCoMJacobian, getBodyCoM.
  destruct (Z.eqb_spec 7 flag) as [<- |N].
  - destruct (com_jacobians f fk file m K D GD _ (ik_body_com m) old NE FN EB) as (J & p0 & EJ & RJ & CJ & EP & MVS). rewrite EJ, EP. cbn [bind].
    eexists. split; [reflexivity|]. destruct (task_drives f gain w J (vec3 (v3scale k (v3sub (mp_body_com (w_motion w)) p0))) PR CJ) as (U & T & DR); [cbn; auto|].
    split; [exact U|]. split; [exact T|]. intros M MS x MV. destruct (MVS M MS x MV) as (P & v & E & DV & RV). exists P, v. split; [exact E|]. split; [exact DV|].
    rewrite selected_all. cbn [length]. rewrite <- RJ. apply DR. intros i Hi. rewrite RJ in Hi.
    assert (P 0 = p0) as -> by (destruct MV as (_ & _ & MS0 & _); specialize (E 0); rewrite MS0, EP in E; injection E as E; auto).
    cbv zeta. replace (nth i [0; 1; 2]%nat 0%nat) with i by (destruct i as [|[|[|i]]]; [..|lia]; reflexivity).
    rewrite <- RV, (rows3_get J _ i 0 Hi), <- component_sub, <- component_scale. reflexivity.
  - destruct (com_jacobians f fk file m K D GD _ (ik_body_com m) (mzero 0 0) NE FN EB) as (J & p0 & EJ & RJ & CJ & EP & MVS). rewrite EJ, EP. cbn [bind].
    rewrite flag_rows_selected. destruct (range_flags flag FL) as (F1 & F2). rewrite F1. cbn [Z.eqb Pos.eqb negb].
    destruct (Nat.eqb_spec (length (selected_axes flag)) 0) as [Z0|Z0]; [apply length_zero_iff_nil in Z0; contradiction|]. cbn [orb].
    eexists. split; [reflexivity|].
    destruct (task_drives f gain w (mkMat (length (selected_axes flag)) (mcols J) (fun i j => mget J (nth i (selected_axes flag) 0%nat) j))
      (mkVec (length (selected_axes flag)) (fun i => v3_get (v3scale k (v3sub (mp_body_com (w_motion w)) p0)) (nth i (selected_axes flag) 0%nat))) PR) as (U & T & DR); [exact CJ|reflexivity|].
    split; [exact U|]. split; [exact T|]. intros M MS x MV. destruct (MVS M MS x MV) as (P & v & E & DV & RV). exists P, v. split; [exact E|]. split; [exact DV|].
    apply DR. cbn [mrows]. intros i Hi. cbv zeta.
    assert (P 0 = p0) as -> by (destruct MV as (_ & _ & MS0 & _); specialize (E 0); rewrite MS0, EP in E; injection E as E; auto).
    rewrite <- RV, (rows3_get J _ _ 0 (selected_lt flag i Hi)), <- component_sub, <- component_scale. reflexivity.
Qed.
Theorem bodyCoM_refused (eig : m3 -> euler_type -> v3) (f : features) (fk : list R -> rb) (gain k : R) (flag : Z) (old : mat) (st : structure) (m : ikmodel) (w : wbc) :
  kinematics f fk -> reachable eig f fk m -> ~ (1 <= flag <= 7)%Z -> form_bodyCoM gain k flag old st m w = Throw.
Proof.
  intros K RC FL. destruct (reachable_good eig f fk m K RC) as (file & D & GD).
  destruct (body_names file f fk D) as (NE & FN). pose proof GD as (_ & _ & EB & _).
  destruct (com_jacobians f fk file m K D GD _ (ik_body_com m) (mzero 0 0) NE FN EB) as (J & p0 & _ & _ & _ & EP & _).
  unfold form_bodyCoM, getBodyCoM. rewrite EP. cbn [bind]. destruct (Z.eqb_spec 7 flag) as [<- |N]; [lia|].
  rewrite flag_rows_selected. destruct (Nat.eqb_spec (length (selected_axes flag)) 0) as [Z0|Z0]; [reflexivity|]. cbn [orb].
  destruct (Z.eqb_spec (Z.lor 7 flag) 7) as [E|E]; [|reflexivity]. exfalso. apply FL. apply flags_range; [exact E|]. intros H. apply Z0. rewrite H. reflexivity.
Qed.

(** *** tags *)
Lemma follows_tag m t : follows m t -> tag_task_tag m t = ik_getLinkTag m (tt_id t).
Proof. intros [H|H]; unfold tag_task_tag; rewrite H; reflexivity. Qed.
Lemma tag_id f fk file m name : kinematics f fk -> good f fk file m -> ik_getLinkTag m name = getLinkId (fk (asVector (ik_gc m))) name.
Proof. intros K GD. unfold ik_getLinkTag, getLinkTag. rewrite (good_lib f fk file m K GD). reflexivity. Qed.
Theorem tag_followed (eig : m3 -> euler_type -> v3) (f : features) (fk : list R -> rb) (m m' : ikmodel) (t : tag_task) :
  kinematics f fk -> reachable eig f fk m -> reachable eig f fk m' -> follows m t ->
  tt_id (tag_task_keep m t) = tt_id t /\ tt_k (tag_task_keep m t) = tt_k t /\ tt_gain (tag_task_keep m t) = tt_gain t /\ follows m' (tag_task_keep m t).
Proof.
  intros K RC RC' F. do 3 (split; [reflexivity|]). right. cbn [tag_task_keep tt_tag tt_id]. f_equal. rewrite (follows_tag m t F).
  destruct (reachable_good eig f fk m K RC) as (file & D & GD). destruct (reachable_good eig f fk m' K RC') as (file' & D' & GD').
  rewrite (tag_id f fk file m _ K GD), (tag_id f fk file' m' _ K GD').
  rewrite (same_linkid _ _ (tt_id t) (good_same f fk file m D GD)).
  pose proof GD' as ((SZ & _) & _). pose proof (sized_vector _ _ SZ) as LN. destruct D as (_ & SM & _). symmetry. apply same_linkid. apply SM, LN.
Qed.
Lemma component6_get J x i : (i < 6)%nat -> vget (mulv J x) i = component6 i (rows3 J x 0) (rows3 J x 3).
Proof. intros H. destruct i as [|[|[|[|[|[|i]]]]]]; [..|lia]; reflexivity. Qed.
Lemma component6_scale i k a b : component6 i (v3scale k a) (v3scale k b) = k * component6 i a b.
Proof. unfold component6. destruct (i <? 3)%nat; apply component_scale. Qed.
Lemma vec6_get a b i : vget (vec6 a b) i = component6 i a b.
Proof. reflexivity. Qed.

Theorem tagOrientation_tracks (eig : m3 -> euler_type -> v3) (f : features) (fk : list R -> rb) (t : tag_task) (rpy : v3) (m : ikmodel) (w : wbc) :
  kinematics f fk -> reachable eig f fk m -> prepared f w -> has_link fk m (tt_id t) -> follows m t ->
  exists c, form_tagOrientation t rpy (w_structure w) m = Ok (tag_task_keep m t, c) /\ usable (DOF_NUMBER f) c /\ getType c = AB /\
    forall M MS x, moving f fk m M MS x ->
      exists O v e, (forall s, getTagOrientation (at_time m MS s) (ik_getLinkTag m (tt_id t)) = Ok (O s)) /\ turns_with O v /\
        orientation_error (O 0) (rotation_zyx rpy) e /\ drives c x 3 (tt_gain t) (fun i => component i v - tt_k t * component i e).
Proof.
  intros K RC PR L F. destruct (reachable_good eig f fk m K RC) as (file & D & GD). unfold has_link in L. rewrite <- (tag_id f fk file m _ K GD) in L.
  destruct (link_jacobians f fk file m K GD _ L) as (Jc & J & _ & _ & _ & EJ & RJ & CJ & MVS).
  destruct (link_pose _ _ _ (good_tree f fk file m K GD) (good_updated f fk file m GD) L) as (_ & EO & _).
  unfold form_tagOrientation, getTagOrientationJacobian, getTagOrientation. rewrite (follows_tag m t F), EJ, EO, rpy_ok. cbn [bind]. eexists. split; [reflexivity|].
  set (o := link_O _ _) in *. set (e0 := getRotationErrorAngleAxis o (rotation_zyx rpy)).
  destruct (task_drives f (tt_gain t) w J (vec3 (v3scale (tt_k t) e0)) PR CJ) as (U & T & DR); [cbn; auto|].
  split; [exact U|]. split; [exact T|]. intros M MS x MV. destruct (MVS M MS x MV) as (P & O & v & u & E & TW & _ & _ & _ & RV).
  assert (O 0 = o) as O0 by (destruct MV as (_ & _ & MS0 & _); destruct (E 0) as (_ & E0); rewrite MS0, EO in E0; injection E0 as E0; auto).
  exists O, v, e0. split; [intros s; apply (proj2 (E s))|]. split; [exact TW|]. split; [rewrite O0; apply error_is|].
  rewrite <- RJ. apply DR. intros i Hi. rewrite RJ in Hi. rewrite <- RV, (rows3_get J _ i 0 Hi), <- component_scale. reflexivity.
Qed.

(** the pose given for the tag by the controller *)
Theorem tagPose_tracks (eig : m3 -> euler_type -> v3) (f : features) (fk : list R -> rb) (t : tag_task) (rpy p : v3) (m : ikmodel) (w : wbc) :
  kinematics f fk -> reachable eig f fk m -> prepared f w -> has_link fk m (tt_id t) -> follows m t ->
  tag_find (tt_id t) (w_pose w) = Some (rpy, p) ->
  exists c c3, form_tagPose t (w_structure w) m w = Ok (tag_task_keep m t, c) /\ usable (DOF_NUMBER f) c /\ getType c = AB /\
    form_tagPose3Dof t (w_structure w) m w = Ok (tag_task_keep m t, c3) /\ usable (DOF_NUMBER f) c3 /\ getType c3 = AB /\
    forall M MS x, moving f fk m M MS x ->
      exists P O v u e, (forall s, getTagPosition (at_time m MS s) (ik_getLinkTag m (tt_id t)) = Ok (P s) /\
                                   getTagOrientation (at_time m MS s) (ik_getLinkTag m (tt_id t)) = Ok (O s)) /\
        turns_with O v /\ v3_derivative P 0 u /\ orientation_error (O 0) (rotation_zyx rpy) e /\
        drives c x 6 (tt_gain t) (fun i => component6 i v u - tt_k t * component6 i e (v3sub p (P 0))) /\
        drives c3 x 6 (tt_gain t) (fun i => if ((2 <=? i) && (i <? 5))%nat then component6 i v u
                                            else component6 i v u - tt_k t * component6 i e (v3sub p (P 0))).
Proof.
  intros K RC PR L F TF. destruct (reachable_good eig f fk m K RC) as (file & D & GD). unfold has_link in L. rewrite <- (tag_id f fk file m _ K GD) in L.
  destruct (link_jacobians f fk file m K GD _ L) as (J & Jr & EJ & RJ & CJ & _ & _ & _ & MVS).
  destruct (link_pose _ _ _ (good_tree f fk file m K GD) (good_updated f fk file m GD) L) as (EP & EO & _).
  unfold form_tagPose, form_tagPose3Dof, getTagPoseErrorInGlobal, getTagCompleteJacobian, getTagOrientation, getTagPosition.
  rewrite TF, (follows_tag m t F), EJ, EO, rpy_ok. cbn [bind]. rewrite EP. cbn [bind fst snd].
  set (o := link_O _ _) in *. set (p0 := link_o _ _) in *. set (e0 := getRotationErrorAngleAxis o (rotation_zyx rpy)).
  set (b := vec6 (v3scale (tt_k t) e0) (v3scale (tt_k t) (v3sub p p0))).
  eexists. eexists. split; [reflexivity|].
  destruct (task_drives f (tt_gain t) w J b PR CJ) as (U & T & DR); [cbn; auto|].
  destruct (task_drives f (tt_gain t) w J (mkVec 6 (fun i => if ((2 <=? i) && (i <? 5))%nat then vget b i * 0 else vget b i)) PR CJ) as (U3 & T3 & DR3); [cbn; auto|].
  split; [exact U|]. split; [exact T|]. split; [reflexivity|]. split; [exact U3|]. split; [exact T3|].
  intros M MS x MV. destruct (MVS M MS x MV) as (P & O & v & u & E & TW & DV & RW & RV & _).
  assert (O 0 = o /\ P 0 = p0) as (O0 & P0) by (destruct MV as (_ & _ & MS0 & _); destruct (E 0) as (E1 & E0); rewrite MS0, EO in E0; rewrite MS0, EP in E1; injection E0 as E0; injection E1 as E1; auto).
  exists P, O, v, u, e0. split; [intros s; apply (E s)|]. split; [exact TW|]. split; [exact DV|]. split; [rewrite O0; apply error_is|].
  rewrite P0. rewrite RJ in DR, DR3. split.
  - apply DR. intros i Hi. rewrite (component6_get J _ i Hi), RW, RV, <- component6_scale. reflexivity.
  - apply DR3. intros i Hi. rewrite (component6_get J _ i Hi), RW, RV. cbn [vget]. destruct ((2 <=? i) && (i <? 5))%nat eqn:B.
    + ring.
    + unfold b. rewrite vec6_get, component6_scale. ring.
Qed.
Theorem tagPose_unset (eig : m3 -> euler_type -> v3) (f : features) (fk : list R -> rb) (t : tag_task) (m : ikmodel) (w : wbc) :
  kinematics f fk -> reachable eig f fk m -> prepared f w -> has_link fk m (tt_id t) -> follows m t ->
  tag_find (tt_id t) (w_pose w) = None ->
  exists c, form_tagPose t (w_structure w) m w = Ok (tag_task_keep m t, c) /\ usable (DOF_NUMBER f) c /\ getType c = AB /\
    forall M MS x, moving f fk m M MS x ->
      exists P O v u, (forall s, getTagPosition (at_time m MS s) (ik_getLinkTag m (tt_id t)) = Ok (P s) /\
                                 getTagOrientation (at_time m MS s) (ik_getLinkTag m (tt_id t)) = Ok (O s)) /\
        turns_with O v /\ v3_derivative P 0 u /\ drives c x 6 (tt_gain t) (fun i => component6 i v u).
Proof.
  intros K RC PR L F TF. destruct (reachable_good eig f fk m K RC) as (file & D & GD). unfold has_link in L. rewrite <- (tag_id f fk file m _ K GD) in L.
  destruct (link_jacobians f fk file m K GD _ L) as (J & Jr & EJ & RJ & CJ & _ & _ & _ & MVS).
  unfold form_tagPose, getTagPoseErrorInGlobal, getTagCompleteJacobian, getTagOrientation, getTagPosition.
  rewrite TF, (follows_tag m t F), EJ. cbn [bind fst snd]. eexists. split; [reflexivity|].
  destruct (task_drives f (tt_gain t) w J (vec6 (v3scale (tt_k t) v3zero) (v3scale (tt_k t) v3zero)) PR CJ) as (U & T & DR); [cbn; auto|].
  split; [exact U|]. split; [exact T|]. intros M MS x MV. destruct (MVS M MS x MV) as (P & O & v & u & E & TW & DV & RW & RV & _).
  exists P, O, v, u. split; [intros s; apply (E s)|]. split; [exact TW|]. split; [exact DV|]. rewrite <- RJ. apply DR.
  intros i Hi. rewrite RJ in Hi. rewrite (component6_get J _ i Hi), RW, RV. rewrite vec6_get, component6_scale.
  assert (component6 i v3zero v3zero = 0) as -> by (unfold component6; destruct (i <? 3)%nat; [destruct i as [|[|i]]|destruct (i - 3)%nat as [|[|?]]]; reflexivity). ring.
Qed.

(** ** C91: velocities of tags, given in the frames of the tags: (linear, angular) *)
Theorem tagAngularVelocity_tracks (eig : m3 -> euler_type -> v3) (f : features) (fk : list R -> rb) (t : tag_task) (m : ikmodel) (w : wbc) :
  kinematics f fk -> reachable eig f fk m -> prepared f w -> has_link fk m (tt_id t) -> follows m t ->
  exists c, form_tagAngularVelocity t (w_structure w) m w = Ok (tag_task_keep m t, c) /\ usable (DOF_NUMBER f) c /\ getType c = AB /\
    forall M MS x, moving f fk m M MS x ->
      exists O v, (forall s, getTagOrientation (at_time m MS s) (ik_getLinkTag m (tt_id t)) = Ok (O s)) /\ turns_with O v /\
        drives c x 3 (tt_gain t) (fun i => component i v - tt_k t * component i (m3app (O 0) (snd (getTagVelocityInLocal w (tt_id t))))).
Proof.
  intros K RC PR L F. destruct (reachable_good eig f fk m K RC) as (file & D & GD). unfold has_link in L. rewrite <- (tag_id f fk file m _ K GD) in L.
  destruct (link_jacobians f fk file m K GD _ L) as (Jc & J & _ & _ & _ & EJ & RJ & CJ & MVS).
  destruct (link_pose _ _ _ (good_tree f fk file m K GD) (good_updated f fk file m GD) L) as (_ & EO & _).
  unfold form_tagAngularVelocity, getTagVelocityInGlobal_rotation, getTagOrientationJacobian, getTagOrientation.
  rewrite (follows_tag m t F), EJ, EO. cbn [bind]. eexists. split; [reflexivity|].
  set (o := link_O _ _) in *. set (ww := snd _).
  destruct (task_drives f (tt_gain t) w J (vec3 (v3scale (tt_k t) (m3app o ww))) PR CJ) as (U & T & DR); [cbn; auto|].
  split; [exact U|]. split; [exact T|]. intros M MS x MV. destruct (MVS M MS x MV) as (P & O & v & u & E & TW & _ & _ & _ & RV).
  assert (O 0 = o) as O0 by (destruct MV as (_ & _ & MS0 & _); destruct (E 0) as (_ & E0); rewrite MS0, EO in E0; injection E0 as E0; auto).
  exists O, v. split; [intros s; apply (proj2 (E s))|]. split; [exact TW|]. rewrite O0.
  rewrite <- RJ. apply DR. intros i Hi. rewrite RJ in Hi. rewrite <- RV, (rows3_get J _ i 0 Hi), <- component_scale. reflexivity.
Qed.
(** what the task does *)
Theorem tagCompleteVelocity_does (eig : m3 -> euler_type -> v3) (f : features) (fk : list R -> rb) (t : tag_task) (m : ikmodel) (w : wbc) :
  kinematics f fk -> reachable eig f fk m -> prepared f w -> has_link fk m (tt_id t) -> follows m t ->
  exists c, form_tagCompleteVelocity t (w_structure w) m w = Ok (tag_task_keep m t, c) /\ usable (DOF_NUMBER f) c /\ getType c = AB /\
    forall M MS x, moving f fk m M MS x ->
      exists P O v u, (forall s, getTagPosition (at_time m MS s) (ik_getLinkTag m (tt_id t)) = Ok (P s) /\
                                 getTagOrientation (at_time m MS s) (ik_getLinkTag m (tt_id t)) = Ok (O s)) /\
        turns_with O v /\ v3_derivative P 0 u /\
        let a := m3app (O 0) (snd (getTagVelocityInLocal w (tt_id t))) in
        let l := m3app (O 0) (fst (getTagVelocityInLocal w (tt_id t))) in
        drives c x 6 (tt_gain t) (fun i => component6 i v u - tt_k t * component6 i a (v3add (v3cross (P 0) a) l)).
Proof.
  intros K RC PR L F. destruct (reachable_good eig f fk m K RC) as (file & D & GD). unfold has_link in L. rewrite <- (tag_id f fk file m _ K GD) in L.
  destruct (link_jacobians f fk file m K GD _ L) as (J & Jr & EJ & RJ & CJ & _ & _ & _ & MVS).
  destruct (link_pose _ _ _ (good_tree f fk file m K GD) (good_updated f fk file m GD) L) as (EP & EO & _).
  unfold form_tagCompleteVelocity, getTagVelocityInGlobal_complete, getTagVelocityInGlobal_rotation, getTagVelocityInGlobal_translation, getTagCompleteJacobian, getTagOrientation, getTagPosition.
  rewrite (follows_tag m t F), EJ, EO, EP. cbn [bind fst snd]. eexists. split; [reflexivity|].
  set (o := link_O _ _) in *. set (p0 := link_o _ _) in *. set (ww := m3app o (snd _)). set (vv := v3add _ _).
  destruct (task_drives f (tt_gain t) w J (vec6 (v3scale (tt_k t) ww) (v3scale (tt_k t) vv)) PR CJ) as (U & T & DR); [cbn; auto|].
  split; [exact U|]. split; [exact T|]. intros M MS x MV. destruct (MVS M MS x MV) as (P & O & v & u & E & TW & DV & RW & RV & _).
  assert (O 0 = o /\ P 0 = p0) as (O0 & P0) by (destruct MV as (_ & _ & MS0 & _); destruct (E 0) as (E1 & E0); rewrite MS0, EO in E0; rewrite MS0, EP in E1; injection E0 as E0; injection E1 as E1; auto).
  exists P, O, v, u. split; [intros s; apply (E s)|]. split; [exact TW|]. split; [exact DV|]. cbv zeta. rewrite O0, P0. fold ww. fold vv.
  rewrite <- RJ. apply DR. intros i Hi. rewrite RJ in Hi. rewrite (component6_get J _ i Hi), RW, RV, <- component6_scale. reflexivity.
Qed.
