From Coq Require Import String List Reals Arith Lra Lia Bool ZArith ZifyBool.
From Verif Require Import Base BaseFacts RSum Matrix Mat3 ConstraintType Constraints ConstraintsSpec ConstraintsFacts Solution Condense Rbdl RbdlSpec RbdlFacts RbdlComFacts
  PepperMpc PepperTasksSpec PepperIk PepperIkSpec.
Import ListNotations.
Local Open Scope R_scope.

(** ** numbers of joints *)
Lemma joint_id_lt f j : (joint_id f j < JOINTS_DOF_NUMBER)%nat.
Proof. unfold JOINTS_DOF_NUMBER. destruct f, j; cbn; lia. Qed.
Lemma joint_id_inj f i j : joint_id f i = joint_id f j -> i = j.
Proof. destruct f, i, j; cbn; intros E; try reflexivity; discriminate. Qed.
Definition joint_of (f : features) (i : nat) : joint :=
  match i with
  | 5 => LShoulderPitch | 6 => LShoulderRoll | 7 => LElbowYaw | 8 => LElbowRoll | 9 => LWristYaw
  | 10 => RShoulderPitch | 11 => RShoulderRoll | 12 => RElbowYaw | 13 => RElbowRoll | 14 => RWristYaw
  | _ => match f, i with
         | ROOT_TORSO, 0 => HeadYaw | ROOT_TORSO, 1 => HeadPitch | ROOT_TORSO, 2 => HipRoll | ROOT_TORSO, 3 => HipPitch | ROOT_TORSO, _ => KneePitch
         | _, 0 => KneePitch | _, 1 => HipPitch | _, 2 => HipRoll | _, 3 => HeadYaw | _, _ => HeadPitch
         end
  end%nat.
Lemma joint_of_id f i : (i < JOINTS_DOF_NUMBER)%nat -> joint_id f (joint_of f i) = i.
Proof. unfold JOINTS_DOF_NUMBER. intros H. do 15 (destruct i as [|i]; [destruct f; reflexivity|]). lia. Qed.
Lemma all_joints f (P : nat -> Prop) : (forall j, P (joint_id f j)) <-> forall i, (i < JOINTS_DOF_NUMBER)%nat -> P i.
Proof.
  split.
  - intros H i Hi. rewrite <- (joint_of_id f i Hi). apply H.
  - intros H j. apply H, joint_id_lt.
Qed.

(** ** tables *)
Lemma unassigned_length junk : length (unassigned junk) = JOINTS_DOF_NUMBER. Proof. reflexivity. Qed.
Lemma assign_length f l : forall v, length (assign f l v) = length v.
Proof. unfold assign. induction l as [|p l IH]; intros v; cbn [fold_left]; [reflexivity|]. rewrite IH. apply update_length. Qed.
Lemma min_table junk f j : angle_in f (il_min (limits_new junk f)) j = lower_limit j.
Proof. destruct f, j; unfold angle_in; cbn -[IZR]; lra. Qed.
Lemma max_table junk f j : angle_in f (il_max (limits_new junk f)) j = upper_limit j.
Proof. destruct f, j; unfold angle_in; cbn -[IZR]; lra. Qed.
Lemma vel_table junk f j : angle_in f (il_vel (limits_new junk f)) j = speed_limit j.
Proof. destruct f, j; unfold angle_in; cbn -[IZR]; lra. Qed.
Lemma rest_table junk f j : angle f (gc_default junk f) j = rest_angle j.
Proof. destruct f, j; unfold angle, angle_in; cbn -[IZR]; lra. Qed.
Lemma limits_lengths junk f : length (il_min (limits_new junk f)) = JOINTS_DOF_NUMBER /\ length (il_max (limits_new junk f)) = JOINTS_DOF_NUMBER /\
  length (il_vel (limits_new junk f)) = JOINTS_DOF_NUMBER.
Proof. unfold limits_new, getJointPositionBounds, getJointVelocityBounds. cbn [il_min il_max il_vel fst snd]. rewrite !assign_length, !unassigned_length. auto. Qed.
Lemma default_sized junk f : sized f (gc_default junk f). Proof. destruct f; split; reflexivity. Qed.
Lemma rest_within j : lower_limit j < rest_angle j < upper_limit j.
Proof. destruct j; cbn -[IZR]; lra. Qed.

(** ** checks *)
Lemma for_check n (P : nat -> Prop) (body : nat -> unit -> outcome unit) :
  (forall i u, (i < n)%nat -> (body i u = Ok tt /\ P i) \/ (body i u = Throw /\ ~ P i)) -> forall k, (k <= n)%nat ->
  (for_up k (n - k) body tt = Ok tt /\ (forall i, (n - k <= i < n)%nat -> P i)) \/ (for_up k (n - k) body tt = Throw /\ exists i, (i < n)%nat /\ ~ P i).
Proof.
  intros H. induction k as [|k IH]; intros Hk.
  - left. split; [reflexivity|]. intros i Hi. lia.
  - cbn [for_up]. destruct (H (n - S k)%nat tt ltac:(lia)) as [(E & Q)|(E & Q)]; rewrite E; cbn [bind].
    + replace (S (n - S k)) with (n - k)%nat by lia. destruct IH as [(E2 & A)|(E2 & i & Hi & N)]; [lia| |].
      * left. split; [exact E2|]. intros i Hi. destruct (Nat.eq_dec i (n - S k)) as [->|D]; [exact Q|apply A; lia].
      * right. split; [exact E2|]. exists i. auto.
    + right. split; [reflexivity|]. exists (n - S k)%nat. split; [lia|exact Q].
Qed.
Lemma for_check_iff n (P : nat -> Prop) (body : nat -> unit -> outcome unit) :
  (forall i u, (i < n)%nat -> (body i u = Ok tt /\ P i) \/ (body i u = Throw /\ ~ P i)) ->
  (for_up n 0 body tt = Ok tt \/ for_up n 0 body tt = Throw) /\ (for_up n 0 body tt = Ok tt <-> forall i, (i < n)%nat -> P i).
Proof.
  intros H. destruct (for_check n P body H n (le_n n)) as [(E & A)|(E & i & Hi & N)]; rewrite Nat.sub_diag in *; rewrite E.
  - split; [left; reflexivity|]. split; [intros _ i Hi; apply A; lia|reflexivity].
  - split; [right; reflexivity|]. split; [discriminate|]. intros A. destruct (N (A i Hi)).
Qed.
Lemma read_at_nth (l : list R) i : (i < length l)%nat -> read_at l i = Ok (nth i l 0).
Proof. intros H. unfold read_at. rewrite (nth_error_nth' l 0 H). reflexivity. Qed.

Lemma positions_check junk f (q : list R) : length q = JOINTS_DOF_NUMBER ->
  (checkJointPositions (limits_new junk f) q = Ok tt \/ checkJointPositions (limits_new junk f) q = Throw) /\
  (checkJointPositions (limits_new junk f) q = Ok tt <-> forall j, lower_limit j - 1e-7 <= angle_in f q j <= upper_limit j + 1e-7).
Proof.
  intros L. unfold checkJointPositions. rewrite L. destruct (limits_lengths junk f) as (L1 & L2 & _).
  match goal with |- context [for_up _ _ ?b _] => set (body := b) end.
  destruct (for_check_iff JOINTS_DOF_NUMBER
    (fun i => nth i (il_min (limits_new junk f)) 0 - 1e-7 <= nth i q 0 <= nth i (il_max (limits_new junk f)) 0 + 1e-7) body) as (A & B).
  - intros i u Hi. unfold body. rewrite !read_at_nth by (rewrite ?L, ?L1, ?L2; exact Hi). cbn [bind].
    change (il_tol (limits_new junk f)) with 1e-7.
    destruct Rlt_dec; [right; split; [reflexivity|lra]|]. destruct Rgt_dec; [right; split; [reflexivity|lra]|left; split; [reflexivity|lra]].
  - split; [exact A|]. rewrite B. rewrite <- (all_joints f). split; intros H j; specialize (H j);
    rewrite <- (min_table junk f j), <- (max_table junk f j) in *; unfold angle_in in *; exact H.
Qed.
Lemma velocities_check junk f (a b : list R) dt : length a = JOINTS_DOF_NUMBER -> length b = JOINTS_DOF_NUMBER ->
  (checkJointVelocities (limits_new junk f) a b dt = Ok tt \/ checkJointVelocities (limits_new junk f) a b dt = Throw) /\
  (checkJointVelocities (limits_new junk f) a b dt = Ok tt <-> forall j, Rabs (angle_in f b j - angle_in f a j) / dt <= speed_limit j).
Proof.
  intros La Lb. unfold checkJointVelocities. rewrite La. destruct (limits_lengths junk f) as (_ & _ & L3).
  match goal with |- context [for_up _ _ ?b _] => set (body := b) end.
  destruct (for_check_iff JOINTS_DOF_NUMBER (fun i => Rabs (nth i b 0 - nth i a 0) / dt <= nth i (il_vel (limits_new junk f)) 0) body) as (A & B).
  - intros i u Hi. unfold body. rewrite !read_at_nth by (rewrite ?La, ?Lb, ?L3; exact Hi). cbn [bind].
    destruct Rgt_dec; [right; split; [reflexivity|lra]|left; split; [reflexivity|lra]].
  - split; [exact A|]. rewrite B. rewrite <- (all_joints f). split; intros H j; specialize (H j); rewrite <- (vel_table junk f j) in *; exact H.
Qed.

(** ** the controller *)
Lemma next_root f mp w : getSolutionPartLocation (w_structure (wbc_update f mp w)) ROOT_VARIABLES_ID = mkLoc 0 (ROOT_DOF_NUMBER f).
Proof. destruct f; reflexivity. Qed.
Lemma next_joints f mp w : getSolutionPartLocation (w_structure (wbc_update f mp w)) JOINTS_VARIABLES_ID = mkLoc (ROOT_DOF_NUMBER f) JOINTS_DOF_NUMBER.
Proof. destruct f; reflexivity. Qed.
Lemma next_nvars f mp w : Solution.getNumberOfVariables (w_structure (wbc_update f mp w)) = DOF_NUMBER f.
Proof. destruct f; reflexivity. Qed.
Lemma ladd_nth a b i : length a = length b -> nth i (map (fun p => fst p + snd p) (combine a b)) 0 = nth i a 0 + nth i b 0.
Proof.
  revert b i. induction a as [|x a IH]; intros [|y b] i L; try discriminate; cbn [combine map].
  - destruct i; cbn; ring.
  - destruct i; cbn [nth fst snd]; [reflexivity|]. apply IH. now injection L.
Qed.
Lemma lsub_nth a b i : length a = length b -> nth i (lsub a b) 0 = nth i a 0 - nth i b 0.
Proof.
  revert b i. unfold lsub. induction a as [|x a IH]; intros [|y b] i L; try discriminate; cbn [combine map].
  - destruct i; cbn; ring.
  - destruct i; cbn [nth fst snd]; [reflexivity|]. apply IH. now injection L.
Qed.
Lemma lsub_length a b : length a = length b -> length (lsub a b) = length a.
Proof. intros L. unfold lsub. rewrite map_length, combine_length. lia. Qed.
Lemma nth_ne (l : list R) i : nth i l 0 = match nth_error l i with Some v => v | None => 0 end.
Proof. destruct (nth_error l i) eqn:E; [apply nth_error_nth, E|apply nth_overflow, nth_error_None, E]. Qed.
Lemma nth_segment (l : list R) o n i : (i < n)%nat -> nth i (segment l o n) 0 = nth (o + i) l 0.
Proof. intros H. rewrite !nth_ne, nth_error_segment. replace (i <? n)%nat with true by lia. reflexivity. Qed.
(** the new configuration *)
Lemma next_ok f mp w sol m : sized f (ik_gc m) -> solution_for f (wbc_update f mp w) sol ->
  exists g w', getNextGeneralizedCoordinates sol m (wbc_update f mp w) = Ok (g, w') /\ sized f g /\
    (forall i, (i < ROOT_DOF_NUMBER f)%nat -> nth i (gc_root g) 0 = nth i (gc_root (ik_gc m)) 0 + nth i (sol_x sol) 0) /\
    (forall j, angle f g j = angle f (ik_gc m) j + nth (ROOT_DOF_NUMBER f + joint_id f j) (sol_x sol) 0).
Proof.
  intros (S1 & S2) (Es & El). unfold getNextGeneralizedCoordinates, getSolutionPart, getData. cbn [wbc_update w_parsed negb assert_then].
  rewrite Es, next_root, next_joints. unfold DOF_NUMBER in El.
  assert (C1 : checkLength (mkLoc 0 (ROOT_DOF_NUMBER f)) (length (sol_x sol)) = true) by (unfold checkLength, loc_end; cbn [offset len]; rewrite El; lia).
  assert (C2 : checkLength (mkLoc (ROOT_DOF_NUMBER f) JOINTS_DOF_NUMBER) (length (sol_x sol)) = true) by (unfold checkLength, loc_end; cbn [offset len]; rewrite El; lia).
  rewrite !assert_true by assumption. cbn [bind offset len].
  assert (L1 : length (gc_root (ik_gc m)) = length (segment (sol_x sol) 0 (ROOT_DOF_NUMBER f))) by (rewrite segment_length by (rewrite El; lia); exact S1).
  assert (L2 : length (gc_joints (ik_gc m)) = length (segment (sol_x sol) (ROOT_DOF_NUMBER f) JOINTS_DOF_NUMBER)) by (rewrite segment_length by (rewrite El; lia); exact S2).
  unfold ladd_o. rewrite assert_true by (apply Nat.eqb_eq, L1). cbn [bind]. rewrite assert_true by (apply Nat.eqb_eq, L2). cbn [bind].
  eexists _, _. split; [reflexivity|]. unfold sized, angle, angle_in. cbn [gc_root gc_joints]. split; [|split].
  - rewrite !map_length, !combine_length, <- L1, <- L2. lia.
  - intros i Hi. rewrite ladd_nth by exact L1. rewrite nth_segment by exact Hi. reflexivity.
  - intros j. rewrite ladd_nth by exact L2. rewrite nth_segment by apply joint_id_lt. reflexivity.
Qed.

(** ** rows of the constraints of joints *)
Lemma consecutive_nth off n i : (i < n)%nat -> nth i (consecutive off n) 0%nat = (off + i)%nat.
Proof. intros H. unfold consecutive. rewrite (nth_indep _ 0%nat (off + 0)%nat) by (rewrite map_length, seq_length; exact H). rewrite (map_nth (fun i => (off + i)%nat)), seq_nth by exact H. reflexivity. Qed.
Lemma consecutive_length off n : length (consecutive off n) = n.
Proof. unfold consecutive. rewrite map_length, seq_length. reflexivity. Qed.
Lemma consecutive_in off n nv : (off + n <= nv)%nat -> Forall (fun j => (j < nv)%nat) (consecutive off n).
Proof. intros H. apply Forall_forall. intros j I. unfold consecutive in I. apply in_map_iff in I. destruct I as (i & <- & I). apply in_seq in I. lia. Qed.
Lemma usable_I nv ix b : Forall (fun j => (j < nv)%nat) ix -> bounds_size_ok (length ix) b = true -> usable nv (mkConstr nv (BodyI ix) b).
Proof. intros F B. split; [reflexivity|]. split; [|exact F]. unfold checkConsistency. cbn. rewrite B. reflexivity. Qed.
Lemma row_I nv ix b i x : usable nv (mkConstr nv (BodyI ix) b) -> (i < length ix)%nat -> row_value (mkConstr nv (BodyI ix) b) i x = x (nth i ix 0%nat).
Proof. intros U H. rewrite <- (getProduct_row nv) by assumption. reflexivity. Qed.
Lemma row_GI nv ix G b i x : usable nv (mkConstr nv (BodyGI ix G) b) -> (i < length ix)%nat -> row_value (mkConstr nv (BodyGI ix G) b) i x = vget G i * x (nth i ix 0%nat).
Proof. intros U H. rewrite <- (getProduct_row nv) by assumption. reflexivity. Qed.

Section Tasks.
  Variables (f : features) (mp : motion_parameters) (w : wbc) (m : ikmodel) (sol : solution) (g : gcoord) (w' : wbc).
  Hypothesis SZ : sized f (ik_gc m).
  Hypothesis SF : solution_for f (wbc_update f mp w) sol.
  Hypothesis NX : getNextGeneralizedCoordinates sol m (wbc_update f mp w) = Ok (g, w').
  Let st := w_structure (wbc_update f mp w).
  Lemma next_angle j : nth (ROOT_DOF_NUMBER f + joint_id f j) (sol_x sol) 0 = angle f g j - angle f (ik_gc m) j.
  Proof. destruct (next_ok f mp w sol m SZ SF) as (g0 & w0 & E & _ & _ & H). rewrite NX in E. injection E as <- <-. rewrite H. ring. Qed.
  Lemma bounds_task junk : ik_constraints m = limits_new junk f ->
    usable (DOF_NUMBER f) (form_jointsBounds st m) /\ getType (form_jointsBounds st m) = ILU /\
    (satisfies (form_jointsBounds st m) (point sol) <-> within_limits f g).
  Proof.
    intros C. unfold form_jointsBounds, st. rewrite next_joints, next_nvars, C. cbn [offset len]. destruct SZ as (_ & SJ). destruct (limits_lengths junk f) as (L1 & L2 & _).
    match goal with |- usable _ ?c /\ _ => assert (U : usable (DOF_NUMBER f) c) end.
    { apply usable_I; [apply consecutive_in; unfold DOF_NUMBER; lia|]. rewrite consecutive_length. cbn [bounds_size_ok vec_of_list vlen].
      rewrite !lsub_length by (rewrite ?L1, ?L2, SJ; reflexivity). rewrite L1, L2. reflexivity. }
    split; [exact U|]. split; [reflexivity|]. unfold satisfies, within_limits.
    transitivity (forall i, (i < JOINTS_DOF_NUMBER)%nat -> nth i (il_min (limits_new junk f)) 0 - nth i (gc_joints (ik_gc m)) 0 <= nth (ROOT_DOF_NUMBER f + i) (sol_x sol) 0 <= nth i (il_max (limits_new junk f)) 0 - nth i (gc_joints (ik_gc m)) 0).
    - change (getNumberOfConstraints _) with (length (consecutive (ROOT_DOF_NUMBER f) JOINTS_DOF_NUMBER)). rewrite consecutive_length.
      split; intros H i Hi; specialize (H i Hi); rewrite row_I in * by (exact U || (rewrite consecutive_length; exact Hi)); rewrite consecutive_nth in * by exact Hi; unfold lower, upper, at_least, at_most, point in *;
      cbn [c_bounds vec_of_list vget] in *; rewrite !lsub_nth in * by (rewrite ?L1, ?L2, SJ; reflexivity); exact H.
    - rewrite <- (all_joints f). split; intros H j; specialize (H j); rewrite next_angle in *; rewrite <- (min_table junk f j), <- (max_table junk f j) in *; unfold angle, angle_in in *; lra.
  Qed.
  Lemma reference_task gain k reference : length reference = JOINTS_DOF_NUMBER ->
    usable (DOF_NUMBER f) (form_jointsReference gain k reference st m) /\ getType (form_jointsReference gain k reference st m) = GIB /\
    getNumberOfConstraints (form_jointsReference gain k reference st m) = JOINTS_DOF_NUMBER /\
    forall j, residual (form_jointsReference gain k reference st m) (joint_id f j) (point sol)
      (gain * (angle f g j - (angle f (ik_gc m) j + k * (angle_in f reference j - angle f (ik_gc m) j)))).
  Proof.
    intros LR. unfold form_jointsReference, st. rewrite next_joints, next_nvars. cbn [offset len]. destruct SZ as (_ & SJ).
    assert (LL : length (lsub reference (gc_joints (ik_gc m))) = JOINTS_DOF_NUMBER) by (rewrite lsub_length; rewrite LR; [reflexivity|rewrite SJ; reflexivity]).
    match goal with |- usable _ ?c /\ _ => assert (U : usable (DOF_NUMBER f) c) end.
    { split; [reflexivity|]. split; [|apply consecutive_in; unfold DOF_NUMBER; lia]. unfold checkConsistency. cbn [c_body c_bounds getNumberOfConstraints bounds_size_ok vec_of_list vlen vconst].
      rewrite map_length, consecutive_length, LL. reflexivity. }
    split; [exact U|]. split; [reflexivity|]. split; [apply consecutive_length|]. intros j. unfold residual, lower, upper. cbn [c_bounds].
    eexists. split; [reflexivity|]. split; [reflexivity|]. rewrite row_GI by (exact U || (rewrite consecutive_length; apply joint_id_lt)).
    rewrite consecutive_nth by apply joint_id_lt. cbn [vconst vget vec_of_list]. unfold point. rewrite next_angle.
    replace 0 with (k * gain * 0) at 1 by ring. rewrite (map_nth (fun d => k * gain * d)). rewrite lsub_nth by (rewrite LR, SJ; reflexivity). unfold angle, angle_in. ring.
  Qed.
  Lemma fix_task js : let c := mkConstr (DOF_NUMBER f) (BodyI (map (fun j => (ROOT_DOF_NUMBER f + joint_id f j)%nat) js)) BoundsB0 in
    usable (DOF_NUMBER f) c /\ (satisfies c (point sol) <-> forall j, In j js -> angle f g j = angle f (ik_gc m) j).
  Proof.
    intros c. assert (U : usable (DOF_NUMBER f) c).
    { apply usable_I; [|reflexivity]. apply Forall_forall. intros i I. apply in_map_iff in I. destruct I as (j & <- & _). pose proof (joint_id_lt f j). unfold DOF_NUMBER. lia. }
    split; [exact U|]. unfold satisfies. change (getNumberOfConstraints c) with (length (map (fun j => (ROOT_DOF_NUMBER f + joint_id f j)%nat) js)).
    split.
    - intros H j I. destruct (In_nth _ _ HeadYaw I) as (i & Hi & <-). specialize (H i). rewrite map_length in H. specialize (H Hi).
      unfold c in H at 1 3. rewrite row_I in H by (exact U || (rewrite map_length; exact Hi)).
      rewrite (nth_indep _ 0%nat (ROOT_DOF_NUMBER f + joint_id f HeadYaw)%nat) in H by (rewrite map_length; exact Hi).
      rewrite (map_nth (fun j => (ROOT_DOF_NUMBER f + joint_id f j)%nat)) in H. unfold point in H. rewrite next_angle in H. unfold lower, upper, at_least, at_most in H. cbn in H. lra.
    - intros H i Hi. pose proof Hi as Hj. rewrite map_length in Hj. unfold c at 1 3. rewrite row_I by (exact U || exact Hi).
      rewrite (nth_indep _ 0%nat (ROOT_DOF_NUMBER f + joint_id f HeadYaw)%nat) by exact Hi.
      rewrite (map_nth (fun j => (ROOT_DOF_NUMBER f + joint_id f j)%nat)). unfold point. rewrite next_angle. rewrite (H (nth i js HeadYaw)) by (apply nth_In; exact Hj).
      unfold lower, upper, at_least, at_most. cbn. lra.
  Qed.
End Tasks.

(** ** updates of the model *)
Lemma update_again l l2 m : updated l m -> tree l -> tree l2 -> same_robot l2 l -> exists m', rm_update l2 m = Ok m' /\ updated l2 m'.
Proof.
  intros U T T2 SR. pose proof (updated_ok l m T U) as (EL & ET & _). destruct U as (m0 & m1 & junk & first & E1 & S1 & E2).
  assert (LJ : length (rm_jd m) = length (rb_joints first)).
  { destruct (load_ok junk first m0) as (m1' & E & _ & _ & C). rewrite E in E1. injection E1 as ->. rewrite <- C. revert E2. unfold rm_update.
    destruct (for_up_inv (fun _ (d : list joint_data) => length d = length (rm_jd m1)) (fun i d => bind (vec_at d i) (fun o => bind (jd_compute l i o) (fun n => write_at d i n))) (length (rm_jd m1)) 0 (rm_jd m1)) as (d & Ed & Ld).
    - reflexivity.
    - intros i s Hi Ls. unfold vec_at. destruct (nth_error s i) as [o|] eqn:En; [|apply nth_error_None in En; lia]. cbn [bind].
      destruct (update_ok l m1 T) as (mm & Em & _); [rewrite C; symmetry; apply same_joints, S1|].
      pose proof (same_joints _ _ S1) as SJ.
      destruct (jd_compute l i o) as [n| |] eqn:Ej; cbn [bind].
      + unfold write_at. rewrite assert_true by lia. eexists. split; [reflexivity|]. rewrite update_length. exact Ls.
      + exfalso. revert Ej. unfold jd_compute, vec_at. destruct (nth_error (rb_joints l) i) as [j|] eqn:Enj; [|apply nth_error_None in Enj; lia]. cbn [bind].
        destruct T as (_ & LX & LJ & _ & _ & _ & _ & _ & HJ & H0 & _).
        destruct (nth_error (rb_X l) i) as [x|] eqn:Ex; [|apply nth_error_None in Ex; lia].
        destruct i as [|i].
        * destruct (H0 j Enj) as (-> & ->). cbn. discriminate.
        * destruct (HJ (S i) j) as (D & R6 & _); [lia|exact Enj|]. destruct (j_custom j).
          -- cbn [bind]. unfold mmul_o. rewrite assert_true by (cbn; rewrite R6; reflexivity). cbn. discriminate.
          -- destruct (D eq_refl) as [-> | ->]; cbn [bind]; [discriminate|]. unfold mmul_o. rewrite assert_true by (cbn; rewrite R6; reflexivity). cbn. discriminate.
      + exfalso. revert Ej. unfold jd_compute, vec_at. destruct (nth_error (rb_joints l) i) as [j|] eqn:Enj; [|apply nth_error_None in Enj; lia]. cbn [bind].
        destruct T as (_ & LX & LJ & _ & _ & _ & _ & _ & HJ & H0 & _).
        destruct (nth_error (rb_X l) i) as [x|] eqn:Ex; [|apply nth_error_None in Ex; lia].
        destruct i as [|i].
        * destruct (H0 j Enj) as (-> & ->). cbn. discriminate.
        * destruct (HJ (S i) j) as (D & R6 & _); [lia|exact Enj|]. destruct (j_custom j).
          -- cbn [bind]. unfold mmul_o. rewrite assert_true by (cbn; rewrite R6; reflexivity). cbn. discriminate.
          -- destruct (D eq_refl) as [-> | ->]; cbn [bind]; [discriminate|]. unfold mmul_o. rewrite assert_true by (cbn; rewrite R6; reflexivity). cbn. discriminate.
    - rewrite Ed. cbn [bind]. intros E2. injection E2 as <-. exact Ld. }
  destruct (load_ok junk first m) as (m2 & E3 & A3 & B3 & C3).
  assert (Q : rm_jd m2 = rm_jd m /\ rm_total m2 = rm_total m).
  { split.
    - revert E3. unfold rm_load. destruct (for_up _ _ _ _); cbn [bind]; [|discriminate|discriminate]. intros E. injection E as <-. cbn [rm_jd].
      unfold resized. rewrite LJ. replace (length (rb_joints first) - length (rb_joints first))%nat with 0%nat by lia. cbn. rewrite app_nil_r. rewrite <- LJ. apply firstn_all.
    - rewrite B3, ET. symmetry. apply total_same. exact S1. }
  destruct Q as (Q1 & Q2).
  assert (E : rm_update l2 m = rm_update l2 m2) by (unfold rm_update; rewrite Q1, Q2; reflexivity).
  assert (S3 : same_robot l2 first).
  { destruct SR as (? & ? & ? & ? & ? & ? & ? & ?), S1 as (? & ? & ? & ? & ? & ? & ? & ?). repeat split; etransitivity; eassumption. }
  destruct (update_ok l2 m2 T2) as (m' & E4 & _); [rewrite C3; symmetry; apply same_joints, S3|].
  exists m'. split; [rewrite E; exact E4|]. exists m, m2, junk, first. auto.
Qed.
Lemma sized_vector f g : sized f g -> length (asVector g) = DOF_NUMBER f.
Proof. intros (A & B). unfold asVector, DOF_NUMBER. rewrite app_length, A, B. reflexivity. Qed.
(** the state of a model can be changed to any vectors of the right sizes *)
Lemma updateState_ok (f : features) (fk : list R -> rb) (m : ikmodel) (g : gcoord) : kinematics f fk -> ready f fk m -> sized f g ->
  exists m', updateState fk g m = Ok m' /\ ready f fk m' /\ ik_gc m' = g /\ ik_constraints m' = ik_constraints m.
Proof.
  intros K (SZ & U & C) G. pose proof (sized_vector _ _ SZ) as LS. pose proof (sized_vector _ _ G) as LG.
  destruct (K _ _ LG LS) as (T2 & SR & _). destruct (K _ _ LS LS) as (T & _).
  destruct (update_again _ _ _ U T T2 SR) as (r & E & U2). unfold updateState, ik_refresh. cbn [ik_set_gc ik_gc ik_rbdl].
  rewrite E. cbn [bind]. eexists. split; [reflexivity|]. cbn. split; [|split; reflexivity]. split; [exact G|]. split; [exact U2|]. exact C.
Qed.

(** ** C88 *)
Theorem ik_bounds (f : features) (fk : list R -> rb) (m : ikmodel) (mp : motion_parameters) (w : wbc) (sol : solution) :
  kinematics f fk -> ready f fk m -> solution_for f (wbc_update f mp w) sol ->
  exists g w' m', getNextGeneralizedCoordinates sol m (wbc_update f mp w) = Ok (g, w') /\ updateState fk g m = Ok m' /\ ready f fk m' /\
    (let c := form_jointsBounds (w_structure (wbc_update f mp w)) m in
     usable (DOF_NUMBER f) c /\ getType c = ILU /\ (satisfies c (point sol) <-> within_limits f g) /\ (satisfies c (point sol) -> checkCurrentState m' = Ok tt)).
Proof.
  intros K RD SF. destruct (next_ok f mp w sol m (proj1 RD) SF) as (g & w' & E & SG & _). destruct (updateState_ok f fk m g K RD SG) as (m' & E' & RD' & EG & EC).
  exists g, w', m'. split; [exact E|]. split; [exact E'|]. split; [exact RD'|]. pose proof RD as (SZ & _ & junk & C).
  destruct (bounds_task f mp w m sol g w' SZ SF E junk C) as (U & T & I). split; [exact U|]. split; [exact T|]. split; [exact I|].
  intros H. apply I in H. unfold checkCurrentState. rewrite EC, C, EG. apply positions_check; [apply SG|]. intros j. specialize (H j). unfold angle in H. lra.
Qed.
Theorem ik_check (f : features) (fk : list R -> rb) (m : ikmodel) : ready f fk m ->
  (checkCurrentState m = Ok tt \/ checkCurrentState m = Throw) /\ (checkCurrentState m = Ok tt <-> almost_within f 1e-7 (ik_gc m)).
Proof. intros ((_ & L) & _ & junk & C). unfold checkCurrentState. rewrite C. apply positions_check. exact L. Qed.
Theorem ik_history (f : features) (fk : list R -> rb) (m : ikmodel) (l : list (motion_parameters * solution)) (m' : ikmodel) :
  kinematics f fk -> ready f fk m -> within_limits f (ik_gc m) -> iterates f fk m l m' ->
  ready f fk m' /\ within_limits f (ik_gc m') /\ checkCurrentState m' = Ok tt.
Proof.
  intros K RD W H. assert (A : ready f fk m' /\ within_limits f (ik_gc m')).
  { induction H as [m|m mp w sol g w' m1 rest m2 SF SAT NX UP _ IH]; [split; assumption|].
    destruct (ik_bounds f fk m mp w sol K RD SF) as (g0 & w0 & m0 & E1 & E2 & RD2 & _ & _ & I & _). rewrite NX in E1. injection E1 as <- <-.
    rewrite UP in E2. injection E2 as <-. apply IH; [exact RD2|]. destruct (next_ok f mp w sol m (proj1 RD) SF) as (g1 & w1 & E & SG & _). rewrite NX in E. injection E as <- <-.
    destruct (updateState_ok f fk m g K RD SG) as (m3 & E3 & _ & EG & _). rewrite UP in E3. injection E3 as <-. rewrite EG. apply I. exact SAT. }
  destruct A as (A & B). split; [exact A|]. split; [exact B|]. apply (ik_check f fk m' A). intros j. specialize (B j). lra.
Qed.
Theorem ik_default (junk : nat -> R) (f : features) (j : joint) :
  sized f (gc_default junk f) /\ angle f (gc_default junk f) j = rest_angle j /\ lower_limit j < rest_angle j < upper_limit j.
Proof. split; [apply default_sized|]. split; [apply rest_table|apply rest_within]. Qed.
Lemma wheels_ok : exists W, getRootMotionToWheelsTransform = Ok W.
Proof. eexists. reflexivity. Qed.
Lemma load_steps (junk : nat -> joint_data) (f : features) (fk : list R -> rb) (file : rb) (m : ikmodel) :
  kinematics f fk -> describes f fk file -> sized f (ik_gc m) ->
  exists r W m', getRootMotionToWheelsTransform = Ok W /\ updated (fk (asVector (ik_gc m))) r /\ ik_load junk f (Some file) fk m = Ok m' /\
    getCoMTag file getBaseLinksStringIds = Ok (ik_base_com m') /\ getCoMTag file getBodyLinksStringIds = Ok (ik_body_com m') /\
    m' = mkIK (ik_base_com m') (ik_body_com m') (getLinkId file "base_footprint") (getLinkId file "base_footprint") W (ik_saved m) (ik_gc m) r (ik_constraints m).
Proof.
  intros K (T & S & F & _) SZ. pose proof (sized_vector _ _ SZ) as L. pose proof (S _ L) as SR. destruct (K _ _ L L) as (T2 & _ & Q).
  destruct (updated_exists (fk (asVector (ik_gc m))) (ik_rbdl m) junk file T2 SR) as (r1 & r & E1 & E2 & U).
  destruct (load_ok junk file (ik_rbdl m)) as (r1' & E1' & LIB & _). rewrite E1 in E1'. injection E1' as <-.
  destruct wheels_ok as (W & EW). exists r, W.
  unfold ik_load. rewrite E1. cbn [bind]. rewrite LIB. unfold getDOFNumber. rewrite LIB.
  assert (QF : rb_q file = DOF_NUMBER f) by (rewrite <- Q; symmetry; apply SR). rewrite QF, Nat.eqb_refl. cbn [assert_then].
  rewrite (getCoMTag_ok file getBaseLinksStringIds) by (inversion F; constructor; [assumption|constructor]). cbn [bind].
  rewrite (getCoMTag_ok file getBodyLinksStringIds) by (inversion F; assumption). cbn [bind].
  rewrite EW. cbn [bind]. unfold ik_refresh. cbn [ik_gc ik_rbdl]. rewrite E2. cbn [bind].
  eexists. split; [reflexivity|]. split; [exact U|]. split; [reflexivity|]. cbn. auto.
Qed.
Lemma constructed_sized f m : constructed f m -> sized f (ik_gc m).
Proof. intros ((junk & ->) & _). apply default_sized. Qed.
Theorem ik_loaded (junk : nat -> joint_data) (f : features) (fk : list R -> rb) (file : rb) (m : ikmodel) :
  kinematics f fk -> describes f fk file -> constructed f m ->
  exists m', ik_load junk f (Some file) fk m = Ok m' /\ ready f fk m' /\ within_limits f (ik_gc m') /\ checkCurrentState m' = Ok tt /\
    forall j, angle f (ik_gc m') j = rest_angle j.
Proof.
  intros K D C. pose proof (constructed_sized f m C) as SZ. destruct C as ((j1 & G) & _ & j2 & LM).
  destruct (load_steps junk f fk file m K D SZ) as (r & W & m' & _ & U & E & _ & _ & EM). exists m'. split; [exact E|].
  assert (EG : ik_gc m' = ik_gc m) by (rewrite EM; reflexivity).
  assert (RD : ready f fk m'). { unfold ready. rewrite EG. split; [exact SZ|]. rewrite EM. cbn [ik_rbdl ik_constraints]. split; [exact U|]. exists j2. exact LM. }
  assert (A : forall j, angle f (ik_gc m') j = rest_angle j) by (intros j; rewrite EG, G; apply rest_table).
  assert (W' : within_limits f (ik_gc m')). { intros j. rewrite A. pose proof (rest_within j). lra. }
  split; [exact RD|]. split; [exact W'|]. split; [|exact A]. apply (ik_check f fk m' RD). intros j. specialize (W' j). lra.
Qed.
Theorem ik_load_refused (junk : nat -> joint_data) (f : features) (fk : list R -> rb) (file : rb) (m : ikmodel) :
  ik_load junk f None fk m = Throw /\ (rb_q file <> DOF_NUMBER f -> ik_load junk f (Some file) fk m = Throw).
Proof.
  split; [reflexivity|]. intros Q. unfold ik_load. destruct (load_ok junk file (ik_rbdl m)) as (r & E & LIB & _). rewrite E. cbn [bind].
  unfold getDOFNumber. rewrite LIB. destruct (Nat.eqb_spec (DOF_NUMBER f) (rb_q file)); [congruence|]. reflexivity.
Qed.
Theorem ik_fix (f : features) (m : ikmodel) (mp : motion_parameters) (w : wbc) (sol : solution) (g : gcoord) (w' : wbc) :
  sized f (ik_gc m) -> solution_for f (wbc_update f mp w) sol -> getNextGeneralizedCoordinates sol m (wbc_update f mp w) = Ok (g, w') ->
  let arms := form_fixArms f (w_structure (wbc_update f mp w)) in
  let heads := form_fixHead f (w_structure (wbc_update f mp w)) in
  usable (DOF_NUMBER f) arms /\ getType arms = IB0 /\ (satisfies arms (point sol) <-> forall j, arm j -> angle f g j = angle f (ik_gc m) j) /\
  usable (DOF_NUMBER f) heads /\ getType heads = IB0 /\ (satisfies heads (point sol) <-> forall j, head j -> angle f g j = angle f (ik_gc m) j).
Proof.
  intros SZ SF NX arms heads. unfold arms, heads, form_fixArms, form_fixHead. rewrite next_joints, next_nvars. cbn [offset len].
  destruct (fix_task f mp w m sol g w' SZ SF NX [LShoulderPitch; LShoulderRoll; LElbowYaw; LElbowRoll; LWristYaw; RShoulderPitch; RShoulderRoll; RElbowYaw; RElbowRoll; RWristYaw]) as (U & I).
  destruct (fix_task f mp w m sol g w' SZ SF NX [HeadYaw; HeadPitch]) as (U2 & I2).
  split; [exact U|]. split; [reflexivity|]. split; [|split; [exact U2|split; [reflexivity|]]].
  - rewrite I. split; intros H j; [intros A; apply H; destruct j; cbn in A |- *; tauto|intros A; apply H; destruct j; cbn in A |- *; intuition discriminate].
  - rewrite I2. split; intros H j; [intros A; apply H; destruct j; cbn in A |- *; tauto|intros A; apply H; destruct j; cbn in A |- *; intuition discriminate].
Qed.
Theorem ik_reference (f : features) (m : ikmodel) (mp : motion_parameters) (w : wbc) (sol : solution) (g : gcoord) (w' : wbc) (gain k : R) (reference : list R) :
  sized f (ik_gc m) -> solution_for f (wbc_update f mp w) sol -> getNextGeneralizedCoordinates sol m (wbc_update f mp w) = Ok (g, w') ->
  length reference = JOINTS_DOF_NUMBER ->
  let c := form_jointsReference gain k reference (w_structure (wbc_update f mp w)) m in
  usable (DOF_NUMBER f) c /\ getType c = GIB /\ getNumberOfConstraints c = JOINTS_DOF_NUMBER /\
  (forall j, residual c (joint_id f j) (point sol) (gain * (angle f g j - (angle f (ik_gc m) j + k * (angle_in f reference j - angle f (ik_gc m) j))))) /\
  (gain <> 0 -> (satisfies c (point sol) <-> forall j, angle f g j = angle f (ik_gc m) j + k * (angle_in f reference j - angle f (ik_gc m) j))).
Proof.
  intros SZ SF NX LR c. destruct (reference_task f mp w m sol g w' SZ SF NX gain k reference LR) as (U & T & N & RS). fold c in U, T, N, RS.
  split; [exact U|]. split; [exact T|]. split; [exact N|]. split; [exact RS|]. intros G. unfold satisfies. rewrite N.
  rewrite <- (all_joints f). split; intros H j; specialize (H j); destruct (RS j) as (b & E1 & E2 & E3).
  - rewrite E1, E2 in H. unfold at_least, at_most in H. assert (Z : gain * (angle f g j - (angle f (ik_gc m) j + k * (angle_in f reference j - angle f (ik_gc m) j))) = 0) by lra.
    apply Rmult_integral in Z. destruct Z as [Z|Z]; [contradiction|lra].
  - rewrite E1, E2. unfold at_least, at_most. rewrite H in E3. rewrite (Rminus_diag_eq (_ + _) _ eq_refl), Rmult_0_r in E3. lra.
Qed.

(** ** C89 *)
Lemma fold_columns (fo fi : features) (M : mat) : mcols M = DOF_NUMBER fi -> forall l r,
  fold_left (fun r j => bind r (fun r =>
      assert_then (ROOT_DOF_NUMBER fi + joint_id fi j <? mcols M)%nat
        (Ok (mkMat (mrows r) (mcols r) (fun i c =>
               if (c =? ROOT_DOF_NUMBER fo + joint_id fo j)%nat then mget M i (ROOT_DOF_NUMBER fi + joint_id fi j) else mget r i c))))) l (Ok r) =
  Ok (fold_left (fun r j => mkMat (mrows r) (mcols r) (fun i c =>
               if (c =? ROOT_DOF_NUMBER fo + joint_id fo j)%nat then mget M i (ROOT_DOF_NUMBER fi + joint_id fi j) else mget r i c)) l r).
Proof.
  intros HM. induction l as [|j l IH]; intros r; cbn [fold_left]; [reflexivity|]. cbn [bind].
  rewrite assert_true by (rewrite HM; pose proof (joint_id_lt fi j); unfold DOF_NUMBER; lia). apply IH.
Qed.
Lemma fold_columns_get (fo fi : features) (M : mat) l : forall r,
  let R := fold_left (fun r j => mkMat (mrows r) (mcols r) (fun i c =>
               if (c =? ROOT_DOF_NUMBER fo + joint_id fo j)%nat then mget M i (ROOT_DOF_NUMBER fi + joint_id fi j) else mget r i c)) l r in
  mrows R = mrows r /\ mcols R = mcols r /\
  (forall i j, In j l \/ mget r i (ROOT_DOF_NUMBER fo + joint_id fo j) = mget M i (ROOT_DOF_NUMBER fi + joint_id fi j) ->
     mget R i (ROOT_DOF_NUMBER fo + joint_id fo j) = mget M i (ROOT_DOF_NUMBER fi + joint_id fi j)) /\
  (forall i c, (c < ROOT_DOF_NUMBER fo)%nat -> mget R i c = mget r i c).
Proof.
  induction l as [|k l IH]; intros r; cbn zeta; cbn [fold_left].
  - split; [reflexivity|]. split; [reflexivity|]. split; [intros i j [[]|H]; exact H|reflexivity].
  - edestruct IH as (A & B & C & D). split; [rewrite A; reflexivity|]. split; [rewrite B; reflexivity|]. split.
    + intros i j H. apply C. cbn [mget]. destruct (Nat.eqb_spec (ROOT_DOF_NUMBER fo + joint_id fo j) (ROOT_DOF_NUMBER fo + joint_id fo k)) as [E|E].
      * right. assert (E' : joint_id fo j = joint_id fo k) by lia. apply joint_id_inj in E'. subst k. reflexivity.
      * destruct H as [[->|H]|H]; [congruence|left; exact H|right; exact H].
    + intros i c Hc. rewrite D by exact Hc. cbn [mget]. replace (c =? _)%nat with false by lia. reflexivity.
Qed.
Theorem reorder_ok (nan : R) (fo fi : features) (M : mat) : mcols M = DOF_NUMBER fi ->
  exists M', reorderJointsColumns nan fo fi M = Ok M' /\ mrows M' = mrows M /\ mcols M' = DOF_NUMBER fo /\
    (forall i j, mget M' i (ROOT_DOF_NUMBER fo + joint_id fo j) = mget M i (ROOT_DOF_NUMBER fi + joint_id fi j)) /\
    (forall i c, (c < ROOT_DOF_NUMBER fo)%nat -> mget M' i c = nan).
Proof.
  intros HM. unfold reorderJointsColumns. rewrite fold_columns by exact HM. eexists. split; [reflexivity|].
  edestruct fold_columns_get as (A & B & C & D). split; [rewrite A; reflexivity|]. split; [rewrite B; reflexivity|]. split.
  - intros i j. apply C. left. destruct j; cbn; tauto.
  - intros i c Hc. rewrite D by exact Hc. reflexivity.
Qed.
Theorem reorder_back (nan : R) (fo fi : features) (M M1 M2 : mat) : mcols M = DOF_NUMBER fi ->
  reorderJointsColumns nan fo fi M = Ok M1 -> reorderJointsColumns nan fi fo M1 = Ok M2 ->
  mrows M2 = mrows M /\ mcols M2 = mcols M /\ (forall i c, (ROOT_DOF_NUMBER fi <= c < DOF_NUMBER fi)%nat -> mget M2 i c = mget M i c) /\
  (forall i c, (c < ROOT_DOF_NUMBER fi)%nat -> mget M2 i c = nan).
Proof.
  intros HM E1 E2. destruct (reorder_ok nan fo fi M HM) as (M1' & E & R1 & C1 & J1 & _). rewrite E in E1. injection E1 as <-.
  destruct (reorder_ok nan fi fo M1' C1) as (M2' & E' & R2 & C2 & J2 & N2). rewrite E' in E2. injection E2 as <-.
  split; [congruence|]. split; [congruence|]. split; [|exact N2].
  intros i c Hc. unfold DOF_NUMBER in Hc. replace c with (ROOT_DOF_NUMBER fi + joint_id fi (joint_of fi (c - ROOT_DOF_NUMBER fi)))%nat by (rewrite joint_of_id; lia).
  rewrite J2, J1. reflexivity.
Qed.
