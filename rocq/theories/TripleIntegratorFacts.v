From Coq Require Import List Reals Arith Lra Lia Bool.
From Verif Require Import Base BaseFacts RSum Matrix Mat3 SmallMatrix BlockDiagonal BlockDiagonalFacts TripleIntegrator TripleIntegratorSpec CubicFacts.
Open Scope R_scope.

Definition m3get (m : m3) (i j : nat) : R := mget (mat33 m) i j.

(** prediction with replicated A and B *)
Lemma predict_replicated m v n x u y : predict (makeBlockDiagonal (mat33 m) n) (makeBlockDiagonal (col3 v) n) x u = Ok y ->
  forall i, (i < n)%nat ->
    position_of y i = m00 m * position_of x i + m01 m * velocity_of x i + m02 m * acceleration_of x i + vx v * vget u i /\
    velocity_of y i = m10 m * position_of x i + m11 m * velocity_of x i + m12 m * acceleration_of x i + vy v * vget u i /\
    acceleration_of y i = m20 m * position_of x i + m21 m * velocity_of x i + m22 m * acceleration_of x i + vz v * vget u i.
Proof.
  unfold predict. intros E i Hi. apply bind_ok in E. destruct E as (a & Ea & E). apply bind_ok in E. destruct E as (b & Eb & E). inversion E; subst y. clear E.
  unfold position_of, velocity_of, acceleration_of.
  assert (G : forall r, (r < 3)%nat -> vget (vadd (mulv a x) (mulv b u)) (3 * i + r) =
     m3get m r 0 * vget x (3 * i) + m3get m r 1 * vget x (3 * i + 1) + m3get m r 2 * vget x (3 * i + 2) + v3get v r * vget u i).
  { intros r Hr. cbn [vadd vget].
    pose proof (makeBlockDiagonal_apply (mat33 m) n a x i r Ea Hi Hr) as A.
    pose proof (makeBlockDiagonal_apply (col3 v) n b u i r Eb Hi Hr) as B.
    cbn [mat33 col3 mrows mcols] in A, B. rewrite (Nat.mul_comm i 3) in A, B.
    change (vget (mulv a x) (3 * i + r) + vget (mulv b u) (3 * i + r) = 
     m3get m r 0 * vget x (3 * i) + m3get m r 1 * vget x (3 * i + 1) + m3get m r 2 * vget x (3 * i + 2) + v3get v r * vget u i).
    rewrite A, B.
    cbn [mulv vget mat33 col3 mcols Rsum vsegment].
    unfold m3get. cbn [mget mat33]. rewrite Nat.mul_1_r, !Nat.add_0_r.
    replace (i + 0)%nat with i by lia. destruct r as [|[|[|r]]]; [| | |lia]; cbn [v3get vx vy vz mget col3]; ring. }
  split; [|split].
  - rewrite <- (Nat.add_0_r (3 * i)) at 1. rewrite G by lia. reflexivity.
  - rewrite G by lia. reflexivity.
  - rewrite G by lia. reflexivity.
Qed.

Lemma predict_ok m v n x u : exists y, predict (makeBlockDiagonal (mat33 m) n) (makeBlockDiagonal (col3 v) n) x u = Ok y /\ vlen y = (3 * n)%nat.
Proof.
  destruct (makeBlockDiagonal_spec (mat33 m) n) as (a & Ea & A & _). destruct (makeBlockDiagonal_spec (col3 v) n) as (b & Eb & B & _).
  exists (vadd (mulv a x) (mulv b u)). unfold predict. rewrite Ea, Eb. split; [reflexivity|]. simpl in *. lia.
Qed.

(** the jerk *)
Lemma output_replicated k T n x u j : predict (getD k n T) (getE k n T) x u = Ok j ->
  vlen j = n /\
  forall i, (i < n)%nat ->
    vget j i = vx (D3 k T) * position_of x i + vy (D3 k T) * velocity_of x i + vz (D3 k T) * acceleration_of x i + E3 k T * vget u i.
Proof.
  unfold predict, getD, getE. intros E. apply bind_ok in E. destruct E as (d & Ed & E). cbn [bind] in E. inversion E; subst j. clear E. split.
  { destruct (makeBlockDiagonal_spec (row3 (D3 k T)) n) as (d' & Ed' & L & _). rewrite Ed in Ed'. inversion Ed'; subst d'. simpl in *. lia. }
  intros i Hi. pose proof (makeBlockDiagonal_apply (row3 (D3 k T)) n d x i 0 Ed Hi) as A. cbn [row3 mrows mcols] in A.
  rewrite Nat.mul_1_r, Nat.add_0_r in A. cbn [vadd vget]. 
  change (vget (mulv d x) i + vget (mulv (mscale (E3 k T) (mid n)) u) i = vx (D3 k T) * position_of x i + vy (D3 k T) * velocity_of x i + vz (D3 k T) * acceleration_of x i + E3 k T * vget u i).
  rewrite A by lia. f_equal.
  - cbn [mulv vget row3 mcols Rsum mget v3get vsegment]. unfold position_of, velocity_of, acceleration_of. rewrite (Nat.mul_comm i 3), Nat.add_0_r. ring.
  - cbn [mulv vget mscale mid mcols mget]. rewrite (Rsum_single n i); [rewrite Nat.eqb_refl; ring|exact Hi|].
    intros l Hl N. replace (i =? l)%nat with false by (symmetry; apply Nat.eqb_neq; congruence). ring.
Qed.
Lemma output_ok k T n x u : exists j, predict (getD k n T) (getE k n T) x u = Ok j /\ vlen j = n.
Proof.
  destruct (makeBlockDiagonal_spec (row3 (D3 k T)) n) as (a & Ea & A & _). unfold predict, getD, getE. rewrite Ea.
  eexists. split; [reflexivity|]. simpl in *. lia.
Qed.

(** ** C27 *)
Theorem same_dynamics k n T x u y j : T <> 0 ->
  predict (getA k n T) (getB k n T) x u = Ok y -> predict (getD k n T) (getE k n T) x u = Ok j ->
  moved n x y j T.
Proof.
  intros HT Ey Ej i Hi. unfold getA, getB in Ey. destruct (predict_replicated _ _ _ _ _ _ Ey i Hi) as (P & V & A).
  destruct (output_replicated _ _ _ _ _ _ Ej) as [_ J]. specialize (J i Hi). rewrite P, V, A, J. unfold motion_position, motion_velocity, motion_acceleration.
  destruct k; cbn [AJerk3 AAcc3 AVel3 APos3 BJerk3 BAcc3 BVel3 BPos3 D3 E3 m00 m01 m02 m10 m11 m12 m20 m21 m22 vx vy vz];
    repeat split; field; exact HT.
Qed.

Definition commanded (k : control_kind) (y j : vec) (i : nat) : R :=
  match k with Jerk => vget j i | Acc => acceleration_of y i | Vel => velocity_of y i | Pos => position_of y i end.
Theorem commanded_attained k n T x u y j : T <> 0 ->
  predict (getA k n T) (getB k n T) x u = Ok y -> predict (getD k n T) (getE k n T) x u = Ok j ->
  forall i, (i < n)%nat -> commanded k y j i = vget u i.
Proof.
  intros HT Ey Ej i Hi. unfold getA, getB in Ey. destruct (predict_replicated _ _ _ _ _ _ Ey i Hi) as (P & V & A).
  destruct (output_replicated _ _ _ _ _ _ Ej) as [_ J]. specialize (J i Hi).
  destruct k; unfold commanded; rewrite ?P, ?V, ?A, ?J; cbn [AJerk3 AAcc3 AVel3 APos3 BJerk3 BAcc3 BVel3 BPos3 D3 E3 m00 m01 m02 m10 m11 m12 m20 m21 m22 vx vy vz]; ring.
Qed.

Theorem predictions_defined k n T Ts x u :
  (exists y, predict (getA k n T) (getB k n T) x u = Ok y /\ vlen y = (3 * n)%nat) /\
  (exists y, predict (getAs k n T Ts) (getBs k n T Ts) x u = Ok y /\ vlen y = (3 * n)%nat) /\
  (exists j, predict (getD k n T) (getE k n T) x u = Ok j /\ vlen j = n).
Proof.
  split; [apply predict_ok|]. split; [|apply output_ok]. destruct k; apply predict_ok.
Qed.

(** ** C28 *)
Theorem subsampled_dynamics k n T Ts x u y j : T <> 0 ->
  predict (getAs k n T Ts) (getBs k n T Ts) x u = Ok y -> predict (getD k n T) (getE k n T) x u = Ok j ->
  moved n x y j Ts.
Proof.
  intros HT Ey Ej i Hi. destruct (output_replicated _ _ _ _ _ _ Ej) as [_ J]. specialize (J i Hi).
  destruct k; cbn [getAs getBs] in Ey; unfold getA, getB in Ey;
  destruct (predict_replicated _ _ _ _ _ _ Ey i Hi) as (P & V & A); rewrite P, V, A, J; unfold motion_position, motion_velocity, motion_acceleration;
  cbn [AJerk3 AsAcc3 AsVel3 AsPos3 BJerk3 BsAcc3 BsVel3 BsPos3 D3 E3 m00 m01 m02 m10 m11 m12 m20 m21 m22 vx vy vz];
    repeat split; field; try exact HT.
Qed.

Lemma moved_unique n x j t y z : moved n x y j t -> moved n x z j t -> vlen y = (3 * n)%nat -> vlen z = (3 * n)%nat -> veq y z.
Proof.
  intros Y Z Ly Lz. split; [congruence|]. rewrite Ly. intros r Hr.
  assert (Hi : (r / 3 < n)%nat) by (apply Nat.div_lt_upper_bound; lia).
  destruct (Y _ Hi) as (Y1 & Y2 & Y3). destruct (Z _ Hi) as (Z1 & Z2 & Z3).
  unfold position_of, velocity_of, acceleration_of in *.
  pose proof (Nat.div_mod r 3 ltac:(lia)) as D. pose proof (Nat.mod_upper_bound r 3 ltac:(lia)) as M.
  destruct (r mod 3) as [|[|[|q]]]; [| | |lia]; rewrite D.
  - rewrite Nat.add_0_r. rewrite Y1, Z1. reflexivity.
  - rewrite Y2, Z2. reflexivity.
  - rewrite Y3, Z3. reflexivity.
Qed.

Theorem full_subsample k n T x u y z : T <> 0 ->
  predict (getA k n T) (getB k n T) x u = Ok y -> predict (getAs k n T T) (getBs k n T T) x u = Ok z -> veq y z.
Proof.
  intros HT Ey Ez. destruct (output_ok k T n x u) as (j & Ej & _).
  destruct (predictions_defined k n T T x u) as ((y' & Ey' & Ly) & (z' & Ez' & Lz) & _). rewrite Ey in Ey'. rewrite Ez in Ez'. inversion Ey'; inversion Ez'; subst.
  eapply moved_unique; eauto using same_dynamics, subsampled_dynamics.
Qed.

(** motions with a constant jerk compose *)
Theorem moved_compose n x y z j t s : moved n x y j t -> moved n y z j s -> moved n x z j (t + s).
Proof.
  intros Y Z i Hi. destruct (Y i Hi) as (Y1 & Y2 & Y3). destruct (Z i Hi) as (Z1 & Z2 & Z3).
  rewrite Z1, Z2, Z3, Y1, Y2, Y3. unfold motion_position, motion_velocity, motion_acceleration. repeat split; field.
Qed.

(** evaluating at Ts and continuing for the rest of the interval with the jerk of the control gives the sampled prediction *)
Theorem subsample_and_continue k n T Ts x u y j s z : T <> 0 ->
  predict (getA k n T) (getB k n T) x u = Ok y -> predict (getD k n T) (getE k n T) x u = Ok j ->
  predict (getAs k n T Ts) (getBs k n T Ts) x u = Ok s -> predict (getA Jerk n (T - Ts)) (getB Jerk n (T - Ts)) s j = Ok z ->
  veq z y.
Proof.
  intros HT Ey Ej Es Ez.
  assert (M2 : moved n s z j (T - Ts)).
  { intros i Hi. unfold getA, getB in Ez. destruct (predict_replicated _ _ _ _ _ _ Ez i Hi) as (P & V & A). rewrite P, V, A.
    unfold motion_position, motion_velocity, motion_acceleration.
    cbn [AJerk3 BJerk3 m00 m01 m02 m10 m11 m12 m20 m21 m22 vx vy vz]. repeat split; field. }
  pose proof (moved_compose _ _ _ _ _ _ _ (subsampled_dynamics _ _ _ _ _ _ _ _ HT Es Ej) M2) as M.
  replace (Ts + (T - Ts)) with T in M by ring.
  eapply moved_unique; [exact M|eapply same_dynamics; eassumption| |].
  - destruct (predict_ok (AJerk3 (T - Ts)) (BJerk3 (T - Ts)) n s j) as (z' & Ez' & L). unfold getA, getB in Ez. rewrite Ez in Ez'. inversion Ez'; subst. exact L.
  - destruct (predictions_defined k n T T x u) as ((y' & Ey' & Ly) & _). rewrite Ey in Ey'. inversion Ey'; subst. exact Ly.
Qed.

(** position, velocity, acceleration, jerk are successive derivatives along the motion *)
Lemma derivable_eq' f t l l' : l = l' -> derivable_pt_lim f t l -> derivable_pt_lim f t l'.
Proof. intros ->. auto. Qed.
Lemma derivable_ext f g t l : (forall s, f s = g s) -> derivable_pt_lim f t l -> derivable_pt_lim g t l.
Proof. intros E H eps He. destruct (H eps He) as [d D]. exists d. intros h Nh Hh. rewrite <- !E. apply D; assumption. Qed.
Theorem motion_derivatives p v a j t :
  derivable_pt_lim (motion_position p v a j) t (motion_velocity v a j t) /\
  derivable_pt_lim (motion_velocity v a j) t (motion_acceleration a j t) /\
  derivable_pt_lim (motion_acceleration a j) t j.
Proof.
  split; [|split].
  - apply (derivable_ext (fun t => p + v * t + (a / 2) * t * t + (j / 6) * t * t * t)); [intros; unfold motion_position; field|].
    eapply derivable_eq'; [|repeat apply d_plus; [apply (derivable_pt_lim_const p)|apply d_lin|apply d_sq|apply d_cube]]. unfold motion_velocity. field.
  - apply (derivable_ext (fun t => v + a * t + (j / 2) * t * t)); [intros; unfold motion_velocity; field|].
    eapply derivable_eq'; [|repeat apply d_plus; [apply (derivable_pt_lim_const v)|apply d_lin|apply d_sq]]. unfold motion_acceleration. field.
  - eapply derivable_eq'; [|apply (d_plus (fun _ => a) (fun t => j * t)); [apply (derivable_pt_lim_const a)|apply d_lin]]. ring.
Qed.
