From Coq Require Import List Reals Lra Bool Lia.
From Verif Require Import Base BaseFacts Mat3 CubicPolynomial CubicSpec CubicFacts FootTrajectory.
Open Scope R_scope.

Lemma le_b_iff x y : le_b x y = true <-> x <= y.
Proof. unfold le_b. destruct (Rle_dec x y); split; intros; try discriminate; auto; contradiction. Qed.

(** ** evaluation of the vertical coordinate *)
Definition piece (p q : R -> R) (t : R) : R := if Rle_dec t (1 / 2) then p (t * 2) else q ((t - 1 / 2) * 2).

Lemma evalz_reported k f p q : reported (fun t => eval (tz1 f) t k) p -> reported (fun t => eval (tz2 f) t k) q ->
  reported (fun t => evalz f t k) (piece p q).
Proof.
  intros [P1 P2] [Q1 Q2]. split; intros t H; unfold evalz, piece; destruct (Rle_dec t (1 / 2)); try apply P1; try apply P2; try apply Q1; try apply Q2; lra.
Qed.
Lemma eval_xyz k f t x y z : evalx f t k = Ok x -> evaly f t k = Ok y -> evalz f t k = Ok z -> ft_eval f t k = Ok (V3 x y z).
Proof. intros X Y Z. unfold ft_eval. rewrite X, Y, Z. reflexivity. Qed.

Lemma ft_rest_ok o a b h f : ft_initialize_rest o a b h = Ok f ->
  vz b <= vz a + h /\ f = mkTrajectory (cubic_rest (vx a) (vx b)) (cubic_rest (vy a) (vy b)) (cubic_rest (vz a) (vz a + h)) (cubic_rest (h + vz a) (vz b)) (ttheta o).
Proof. unfold ft_initialize_rest. intros E. apply assert_ok in E. destruct E as [A E]. inversion E. apply le_b_iff in A. auto. Qed.

Theorem rest_initialises o a b h : (exists f, ft_initialize_rest o a b h = Ok f) <-> vz b <= vz a + h.
Proof.
  split; [intros [f E]; apply ft_rest_ok in E; tauto|]. intros H. eexists. unfold ft_initialize_rest. apply le_b_iff in H. rewrite H. reflexivity.
Qed.
Theorem rest_rejected o a b h : vz a + h < vz b -> ft_initialize_rest o a b h = Throw.
Proof.
  intros H. unfold ft_initialize_rest. destruct (le_b (vz b) (vz a + h)) eqn:E; [apply le_b_iff in E; lra|reflexivity].
Qed.

Definition posz (f : foot_trajectory) : R -> R := piece (pos (tz1 f)) (pos (tz2 f)).
Lemma posz_reported f : reported (fun t => evalz f t POSITION) (posz f).
Proof. apply evalz_reported; apply reported_pos. Qed.
Lemma velz_reported f : reported (fun t => evalz f t VELOCITY) (piece (vel (tz1 f)) (vel (tz2 f))).
Proof. apply evalz_reported; apply reported_vel. Qed.
Lemma accz_reported f : reported (fun t => evalz f t ACCELERATION) (piece (acc (tz1 f)) (acc (tz2 f))).
Proof. apply evalz_reported; apply reported_acc. Qed.

Lemma piece_l p q t : t <= 1 / 2 -> piece p q t = p (t * 2).
Proof. intros. unfold piece. destruct (Rle_dec t (1 / 2)); [reflexivity|contradiction]. Qed.
Lemma piece_r p q t : 1 / 2 < t -> piece p q t = q ((t - 1 / 2) * 2).
Proof. intros. unfold piece. destruct (Rle_dec t (1 / 2)); [lra|reflexivity]. Qed.

Theorem trajectory_ends o a b h f : ft_initialize_rest o a b h = Ok f ->
  ft_eval f 0 POSITION = Ok a /\ ft_eval f 1 POSITION = Ok b /\
  ft_eval f 0 VELOCITY = Ok v3zero /\ ft_eval f 1 VELOCITY = Ok v3zero /\
  evalz f (1 / 2) POSITION = Ok (vz a + h).
Proof.
  intros E. apply ft_rest_ok in E. destruct E as [_ ->]. destruct a as [ax ay az], b as [bx by' bz]. cbn [vx vy vz].
  repeat split.
  - apply eval_xyz; [apply rest_ends|apply rest_ends|]. rewrite (proj1 (posz_reported _)) by lra. unfold posz. rewrite piece_l by lra. unfold pos; simpl. f_equal. ring.
  - apply eval_xyz; [apply rest_ends|apply rest_ends|]. rewrite (proj1 (posz_reported _)) by lra. unfold posz. rewrite piece_r by lra. unfold pos; simpl. f_equal. field.
  - apply eval_xyz; [apply rest_ends|apply rest_ends|]. rewrite (proj1 (velz_reported _)) by lra. rewrite piece_l by lra. unfold vel; simpl. f_equal. ring.
  - apply eval_xyz; [apply rest_ends|apply rest_ends|]. rewrite (proj1 (velz_reported _)) by lra. rewrite piece_r by lra. unfold vel; simpl. f_equal. field.
  - rewrite (proj1 (posz_reported _)) by lra. unfold posz. rewrite piece_l by lra. unfold pos; simpl. f_equal. field.
Qed.

Theorem trajectory_height o a b h f t z : ft_initialize_rest o a b h = Ok f -> evalz f t POSITION = Ok z ->
  Rmin (vz a) (vz b) <= z <= Rmax (vz a) (vz a + h).
Proof.
  intros E. apply ft_rest_ok in E. destruct E as [H ->]. intros Z.
  destruct (Rle_dec 0 t); [destruct (Rle_dec t 1)|].
  2,3: rewrite (proj2 (posz_reported _)) in Z by lra; discriminate.
  rewrite (proj1 (posz_reported _)) in Z by lra. inversion Z; subst z. unfold posz. clear Z.
  destruct (Rle_dec t (1 / 2)).
  - rewrite piece_l by lra. cbn [tz1]. pose proof (pos_between (vz a) (vz a + h) (t * 2)) as B. unfold between in B.
    revert B. unfold Rmin, Rmax. destruct (Rle_dec (vz a) (vz a + h)), (Rle_dec (vz a) (vz b)); lra.
  - rewrite piece_r by lra. cbn [tz2]. pose proof (pos_between (h + vz a) (vz b) ((t - 1 / 2) * 2)) as B. unfold between in B.
    revert B. unfold Rmin, Rmax. destruct (Rle_dec (h + vz a) (vz b)), (Rle_dec (vz a) (vz a + h)), (Rle_dec (vz a) (vz b)); lra.
Qed.

Theorem trajectory_horizontal o a b h f t x y : ft_initialize_rest o a b h = Ok f -> evalx f t POSITION = Ok x -> evaly f t POSITION = Ok y ->
  between (vx a) (vx b) x /\ between (vy a) (vy b) y.
Proof.
  intros E. apply ft_rest_ok in E. destruct E as [H ->]. intros X Y. split; eapply rest_between; eassumption.
Qed.

(** ** continuity *)
Lemma continuity_pt_ext f g x : (forall t, f t = g t) -> continuity_pt f x -> continuity_pt g x.
Proof. intros E C eps H. destruct (C eps H) as (d & D & G). exists d. split; [exact D|]. intros t T. rewrite <- !E. apply G, T. Qed.
Lemma continuity_pos p : continuity (pos p).
Proof. intros t. apply derivable_continuous_pt. exists (vel p t). apply pos_vel. Qed.
Lemma continuity_affine a b : continuity (fun t => a * t + b).
Proof.
  apply continuity_plus; [|apply continuity_const; intros x y; reflexivity].
  apply (continuity_scal id a). exact (derivable_continuous id derivable_id).
Qed.
Lemma continuity_abs_affine a b : continuity (fun t => Rabs (a * t + b)).
Proof. exact (continuity_comp (fun t => a * t + b) Rabs (continuity_affine a b) Rcontinuity_abs). Qed.

Lemma piece_continuous p q : continuity p -> continuity q -> p 1 = q 0 -> continuity (piece p q).
Proof.
  intros P Q E.
  set (lo := fun t => (2 * t + 1) / 2 + -1 * (Rabs (2 * t + -1) / 2)).
  set (hi := fun t => (2 * t + -1) / 2 + 1 * (Rabs (2 * t + -1) / 2)).
  assert (L : continuity lo).
  { unfold lo. apply continuity_plus.
    - unfold Rdiv. apply continuity_mult; [apply continuity_affine|apply continuity_const; intros x y; reflexivity].
    - apply continuity_scal. unfold Rdiv. apply continuity_mult; [apply continuity_abs_affine|apply continuity_const; intros x y; reflexivity]. }
  assert (U : continuity hi).
  { unfold hi. apply continuity_plus.
    - unfold Rdiv. apply continuity_mult; [apply continuity_affine|apply continuity_const; intros x y; reflexivity].
    - apply continuity_scal. unfold Rdiv. apply continuity_mult; [apply continuity_abs_affine|apply continuity_const; intros x y; reflexivity]. }
  assert (X : forall t, piece p q t = p (lo t) + q (hi t) - p 1).
  { intros t. unfold piece, lo, hi. destruct (Rle_dec t (1 / 2)).
    - rewrite Rabs_left1 by lra.
      replace ((2 * t + 1) / 2 + -1 * (- (2 * t + -1) / 2)) with (t * 2) by field.
      replace ((2 * t + -1) / 2 + 1 * (- (2 * t + -1) / 2)) with 0 by field. rewrite E. ring.
    - rewrite Rabs_right by lra.
      replace ((2 * t + 1) / 2 + -1 * ((2 * t + -1) / 2)) with 1 by field.
      replace ((2 * t + -1) / 2 + 1 * ((2 * t + -1) / 2)) with ((t - 1 / 2) * 2) by field. ring. }
  intros t. apply (continuity_pt_ext (fun t => p (lo t) + q (hi t) - p 1)); [intros y; symmetry; apply X|].
  apply continuity_pt_minus; [apply continuity_pt_plus|apply continuity_pt_const; intros x y; reflexivity].
  - exact (continuity_comp lo p L P t).
  - exact (continuity_comp hi q U Q t).
Qed.

Theorem trajectory_continuous o a b h f : ft_initialize_rest o a b h = Ok f ->
  exists x y z, reported (fun t => evalx f t POSITION) x /\ reported (fun t => evaly f t POSITION) y /\ reported (fun t => evalz f t POSITION) z /\
    continuity x /\ continuity y /\ continuity z.
Proof.
  intros E. apply ft_rest_ok in E. destruct E as [H ->].
  eexists _, _, _. split; [apply reported_pos|]. split; [apply reported_pos|]. split; [apply posz_reported|].
  split; [apply continuity_pos|]. split; [apply continuity_pos|]. apply piece_continuous; try apply continuity_pos. unfold pos; simpl. ring.
Qed.

(** ** velocities *)
Lemma derivable_local f g t l d : 0 < d -> (forall s, Rabs (s - t) < d -> f s = g s) -> derivable_pt_lim g t l -> derivable_pt_lim f t l.
Proof.
  intros D E H eps Heps. destruct (H eps Heps) as [del Hd].
  assert (P : 0 < Rmin d del) by (apply Rmin_pos; [exact D|apply cond_pos]).
  exists (mkposreal _ P). intros k Nk Hk. cbn [pos] in Hk.
  assert (Rabs k < d /\ Rabs k < del) as [K1 K2].
  { split; eapply Rlt_le_trans; [exact Hk|apply Rmin_l|exact Hk|apply Rmin_r]. }
  rewrite (E (t + k)), (E t); [apply Hd; assumption| |].
  - replace (t - t) with 0 by ring. rewrite Rabs_R0. exact D.
  - replace (t + k - t) with k by ring. exact K1.
Qed.
Lemma derivable_affine p p' a b t : derivative p p' -> derivable_pt_lim (fun s => p (a * s + b)) t (a * p' (a * t + b)).
Proof.
  intros H. rewrite Rmult_comm. apply (derivable_pt_lim_comp (fun s => a * s + b) p); [|apply H].
  pose proof (d_plus (fun s => a * s) (fun _ => b) t a 0 (d_lin a t) (derivable_pt_lim_const b t)) as G. rewrite Rplus_0_r in G. exact G.
Qed.
Lemma derivable_eq f t l l' : l = l' -> derivable_pt_lim f t l -> derivable_pt_lim f t l'.
Proof. intros ->. auto. Qed.

Lemma piece_derivative p p' q q' : derivative p p' -> derivative q q' ->
  forall t, t <> 1 / 2 -> derivable_pt_lim (piece p q) t (2 * piece p' q' t).
Proof.
  intros P Q t N. destruct (Rle_dec t (1 / 2)).
  - rewrite piece_l by assumption. apply (derivable_local _ (fun s => p (2 * s + 0)) t _ (1 / 2 - t)); [lra| |].
    + intros s Hs. apply Rabs_def2 in Hs. rewrite piece_l by lra. f_equal. ring.
    + eapply derivable_eq; [|apply derivable_affine, P]. f_equal. f_equal. ring.
  - rewrite piece_r by lra. apply (derivable_local _ (fun s => q (2 * s + -1)) t _ (t - 1 / 2)); [lra| |].
    + intros s Hs. apply Rabs_def2 in Hs. rewrite piece_r by lra. f_equal. field.
    + eapply derivable_eq; [|apply derivable_affine, Q]. f_equal. f_equal. field.
Qed.

(** x and y: reported velocity and acceleration are the derivatives; z: they are half of them *)
Theorem trajectory_velocity_factor f :
  (exists x v a, reported (fun t => evalx f t POSITION) x /\ reported (fun t => evalx f t VELOCITY) v /\ reported (fun t => evalx f t ACCELERATION) a /\ derivative x v /\ derivative v a) /\
  (exists x v a, reported (fun t => evaly f t POSITION) x /\ reported (fun t => evaly f t VELOCITY) v /\ reported (fun t => evaly f t ACCELERATION) a /\ derivative x v /\ derivative v a) /\
  (exists x v a, reported (fun t => evalz f t POSITION) x /\ reported (fun t => evalz f t VELOCITY) v /\ reported (fun t => evalz f t ACCELERATION) a /\
     forall t, t <> 1 / 2 -> derivable_pt_lim x t (2 * v t) /\ derivable_pt_lim v t (2 * a t)).
Proof.
  split; [|split].
  - exists (pos (tx f)), (vel (tx f)), (acc (tx f)).
    exact (conj (reported_pos _) (conj (reported_vel _) (conj (reported_acc _) (conj (pos_vel _) (vel_acc _))))).
  - exists (pos (ty f)), (vel (ty f)), (acc (ty f)).
    exact (conj (reported_pos _) (conj (reported_vel _) (conj (reported_acc _) (conj (pos_vel _) (vel_acc _))))).
  - eexists _, _, _. split; [apply posz_reported|]. split; [apply velz_reported|]. split; [apply accz_reported|].
    intros t N. split; apply piece_derivative; auto using pos_vel, vel_acc.
Qed.

(** reported vertical velocity is not the derivative of the reported vertical position *)
Theorem vertical_velocity_wrong : exists o a b h f, ft_initialize_rest o a b h = Ok f /\
  forall z, reported (fun t => evalz f t POSITION) z ->
  exists t v, 0 < t < 1 /\ evalz f t VELOCITY = Ok v /\ ~ derivable_pt_lim z t v.
Proof.
  exists trajectory_new, (V3 0 0 0), (V3 1 0 0), 1. destruct (proj2 (rest_initialises trajectory_new (V3 0 0 0) (V3 1 0 0) 1)) as [f E]; [simpl; lra|].
  exists f. split; [exact E|]. apply ft_rest_ok in E. destruct E as [_ ->]. cbn [vx vy vz]. intros z Z.
  exists (1 / 4), (3 / 2). split; [lra|]. split.
  - rewrite (proj1 (velz_reported _)) by lra. rewrite piece_l by lra. unfold vel; simpl. f_equal. field.
  - intros D.
    set (f := mkTrajectory (cubic_rest 0 1) (cubic_rest 0 0) (cubic_rest 0 (0 + 1)) (cubic_rest (1 + 0) 0) (ttheta trajectory_new)) in *.
    assert (D2 : derivable_pt_lim z (1 / 4) (2 * piece (vel (tz1 f)) (vel (tz2 f)) (1 / 4))).
    { apply (derivable_local _ (posz f) _ _ (1 / 4)); [lra| |apply piece_derivative; [apply pos_vel|apply pos_vel|lra]].
      intros s Hs. apply Rabs_def2 in Hs. destruct Z as [Z _]. assert (H : 0 <= s <= 1) by lra.
      pose proof (Z s H) as Z1. rewrite (proj1 (posz_reported f) s H) in Z1. inversion Z1. reflexivity. }
    pose proof (uniqueness_limite z (1 / 4) _ _ D D2) as U. rewrite piece_l in U by lra. revert U. unfold vel; simpl. lra.
Qed.

(** ** boundary velocities *)
Lemma ft_velocities_ok o a adot b bdot h f : ft_initialize_velocities o a adot b bdot h = Ok f ->
  vz b <= vz a + h /\ f = mkTrajectory (cubic_velocities (vx a) (vx adot) (vx b) (vx bdot)) (cubic_velocities (vy a) (vy adot) (vy b) (vy bdot))
                      (cubic_velocities (vz a) (vz adot) (vz a + h) 0) (cubic_velocities (h + vz a) 0 (vz b) (vz bdot)) (ttheta o).
Proof. unfold ft_initialize_velocities. intros E. apply assert_ok in E. destruct E as [A E]. inversion E. apply le_b_iff in A. auto. Qed.

(** what is attained with non-zero boundary velocities: the final position is off by 3 bdot - 2 adot (3 bdot vertically),
    and the height jumps by 2 adot_z half-way *)
Theorem velocities_trajectory o a adot b bdot h f : ft_initialize_velocities o a adot b bdot h = Ok f ->
  ft_eval f 0 POSITION = Ok a /\ ft_eval f 0 VELOCITY = Ok adot /\
  ft_eval f 1 POSITION = Ok (V3 (vx b - 2 * vx adot + 3 * vx bdot) (vy b - 2 * vy adot + 3 * vy bdot) (vz b + 3 * vz bdot)) /\
  ft_eval f 1 VELOCITY = Ok (V3 (7 * vx bdot - 6 * vx adot) (7 * vy bdot - 6 * vy adot) (7 * vz bdot)) /\
  evalz f (1 / 2) POSITION = Ok (vz a + h - 2 * vz adot).
Proof.
  intros E. apply ft_velocities_ok in E. destruct E as [_ ->]. destruct a as [ax ay az], b as [bx by' bz], adot as [ux uy uz], bdot as [wx wy wz]. cbn [vx vy vz].
  repeat split.
  - apply eval_xyz; [apply velocities_attained|apply velocities_attained|]. rewrite (proj1 (posz_reported _)) by lra. unfold posz. rewrite piece_l by lra. unfold pos; simpl. f_equal. ring.
  - apply eval_xyz; [apply velocities_attained|apply velocities_attained|]. rewrite (proj1 (velz_reported _)) by lra. rewrite piece_l by lra. unfold vel; simpl. f_equal. ring.
  - apply eval_xyz; [apply velocities_attained|apply velocities_attained|]. rewrite (proj1 (posz_reported _)) by lra. unfold posz. rewrite piece_r by lra. unfold pos; simpl. f_equal. field.
  - apply eval_xyz; [apply velocities_attained|apply velocities_attained|]. rewrite (proj1 (velz_reported _)) by lra. rewrite piece_r by lra. unfold vel; simpl. f_equal. field.
  - rewrite (proj1 (posz_reported _)) by lra. unfold posz. rewrite piece_l by lra. unfold pos; simpl. f_equal. field.
Qed.

Theorem velocities_end_wrong : exists o a adot b bdot h f, ft_initialize_velocities o a adot b bdot h = Ok f /\ ft_eval f 1 POSITION <> Ok b.
Proof.
  exists trajectory_new, v3zero, (V3 1 0 0), (V3 1 0 0), v3zero, 1.
  destruct (ft_initialize_velocities trajectory_new v3zero (V3 1 0 0) (V3 1 0 0) v3zero 1) as [f| |] eqn:E.
  - exists f. split; [reflexivity|]. destruct (velocities_trajectory _ _ _ _ _ _ _ E) as (_ & _ & A & _). rewrite A. simpl. intros X. inversion X. lra.
  - exfalso. unfold ft_initialize_velocities, v3zero in E. simpl in E. destruct (le_b 0 (0 + 1)) eqn:L; [discriminate|].
    assert (le_b 0 (0 + 1) = true) by (apply le_b_iff; lra). congruence.
  - exfalso. unfold ft_initialize_velocities, v3zero in E. simpl in E. destruct (le_b 0 (0 + 1)); discriminate.
Qed.

(** no continuous trajectory is reported when the initial vertical velocity is not zero *)
Theorem velocities_jump o a adot b bdot h f : ft_initialize_velocities o a adot b bdot h = Ok f -> vz adot <> 0 ->
  forall z, reported (fun t => evalz f t POSITION) z -> ~ continuity_pt z (1 / 2).
Proof.
  intros E N z Z C. apply ft_velocities_ok in E. destruct E as [_ ->].
  set (f := mkTrajectory _ _ _ _ _) in Z. destruct Z as [Z _].
  set (q := tz2 f). set (d := Rabs (2 * vz adot)).
  assert (D : 0 < d) by (apply Rabs_pos_lt; lra).
  assert (H1 : z (1 / 2) = vz a + h - 2 * vz adot).
  { assert (H : 0 <= 1 / 2 <= 1) by lra. pose proof (Z _ H) as Z1. rewrite (proj1 (posz_reported f) _ H) in Z1. inversion Z1.
    unfold posz. rewrite piece_l by lra. unfold pos; simpl. field. }
  assert (H2 : forall t, 1 / 2 < t <= 1 -> z t = pos q ((t - 1 / 2) * 2)).
  { intros t Ht. assert (H : 0 <= t <= 1) by lra. pose proof (Z _ H) as Z1. rewrite (proj1 (posz_reported f) _ H) in Z1. inversion Z1.
    unfold posz. rewrite piece_r by lra. reflexivity. }
  assert (C2 : continuity_pt (fun t => pos q ((t - 1 / 2) * 2)) (1 / 2)).
  { apply (continuity_pt_ext (fun t => pos q (2 * t + -1))); [intros t; f_equal; field|].
    exact (continuity_comp (fun t => 2 * t + -1) (pos q) (continuity_affine _ _) (continuity_pos q) (1 / 2)). }
  destruct (C (d / 2)) as (e1 & E1 & G1); [lra|]. destruct (C2 (d / 2)) as (e2 & E2 & G2); [lra|].
  set (t := 1 / 2 + Rmin (1 / 2) (Rmin e1 e2) / 2).
  assert (T : 0 < Rmin (1 / 2) (Rmin e1 e2)) by (repeat apply Rmin_pos; lra).
  assert (T1 : Rmin (1 / 2) (Rmin e1 e2) <= 1 / 2) by apply Rmin_l.
  assert (T2 : Rmin (1 / 2) (Rmin e1 e2) <= e1) by (eapply Rle_trans; [apply Rmin_r|apply Rmin_l]).
  assert (T3 : Rmin (1 / 2) (Rmin e1 e2) <= e2) by (eapply Rle_trans; [apply Rmin_r|apply Rmin_r]).
  assert (A : Rabs (t - 1 / 2) = Rmin (1 / 2) (Rmin e1 e2) / 2).
  { unfold t. rewrite Rabs_right; [field|]. lra. }
  specialize (G1 t). specialize (G2 t). cbv beta in G1, G2. simpl in G1, G2. unfold R_dist, D_x, no_cond in G1, G2.
  assert (K1 : Rabs (z t - z (1 / 2)) < d / 2) by (apply G1; repeat split; [unfold t; lra|rewrite A; lra]).
  assert (K2 : Rabs (pos q ((t - 1 / 2) * 2) - pos q ((1 / 2 - 1 / 2) * 2)) < d / 2) by (apply G2; repeat split; [unfold t; lra|rewrite A; lra]).
  rewrite H2 in K1 by (unfold t; lra). rewrite H1 in K1.
  assert (Q : pos q ((1 / 2 - 1 / 2) * 2) = vz a + h) by (unfold pos; simpl; field). rewrite Q in K2.
  assert (X : d <= Rabs (pos q ((t - 1 / 2) * 2) - (vz a + h - 2 * vz adot)) + Rabs (pos q ((t - 1 / 2) * 2) - (vz a + h))).
  { unfold d. rewrite (Rabs_minus_sym _ (vz a + h)).
    eapply Rle_trans; [|apply Rabs_triang]. right. f_equal. ring. }
  lra.
Qed.

(** ** evaluation of a foot state *)
Theorem eval_state_spec f s t s' : ft_eval_state f s t = Ok s' <->
  0 <= t <= 1 /\ ft_eval f t POSITION = Ok (b_position s') /\ ft_eval f t VELOCITY = Ok (b_velocity s') /\ ft_eval f t ACCELERATION = Ok (b_acceleration s') /\
  evalTheta f t POSITION = Ok (vz (b_rpy s')) /\ evalTheta f t VELOCITY = Ok (vz (b_angular_velocity s')) /\ evalTheta f t ACCELERATION = Ok (vz (b_angular_acceleration s')) /\
  vx (b_rpy s') = vx (b_rpy s) /\ vy (b_rpy s') = vy (b_rpy s) /\
  vx (b_angular_velocity s') = vx (b_angular_velocity s) /\ vy (b_angular_velocity s') = vy (b_angular_velocity s) /\
  vx (b_angular_acceleration s') = vx (b_angular_acceleration s) /\ vy (b_angular_acceleration s') = vy (b_angular_acceleration s).
Proof.
  unfold ft_eval_state. split.
  - intros E. apply bind_ok in E. destruct E as (p & E1 & E). apply bind_ok in E. destruct E as (v & E2 & E). apply bind_ok in E. destruct E as (a & E3 & E).
    apply bind_ok in E. destruct E as (y & E4 & E). apply bind_ok in E. destruct E as (w & E5 & E). apply bind_ok in E. destruct E as (e & E6 & E).
    inversion E; subst s'. simpl. repeat split; auto; clear -E4; unfold evalTheta in E4; simpl in E4; unfold getPosition in E4; apply assert_ok in E4; destruct E4 as [E4 _];
      unfold time_ok in E4; destruct (Rle_dec 0 t), (Rle_dec t 1); try discriminate; lra.
  - intros (_ & E1 & E2 & E3 & E4 & E5 & E6 & E7). rewrite E1, E2, E3, E4, E5, E6. simpl. f_equal.
    destruct s' as [p v a [] [] []], s as [p0 v0 a0' [] [] []]; simpl in *. unfold set_yaw; simpl. f_equal; f_equal; intuition congruence.
Qed.

(** ** initialisation from two states *)
Lemma states_as_velocities o a b h f : ft_initialize_states a b h = Ok f ->
  exists g, ft_initialize_velocities o (b_position a) (b_velocity a) (b_position b) (b_velocity b) h = Ok g /\
    tx f = tx g /\ ty f = ty g /\ tz1 f = tz1 g /\ tz2 f = tz2 g /\
    ttheta f = cubic_velocities (vz (b_rpy a)) (vz (b_angular_velocity a)) (vz (b_rpy b)) (vz (b_angular_velocity b)).
Proof.
  unfold ft_initialize_states. cbv zeta. intros E. apply assert_ok in E. destruct E as [A E]. inversion E. eexists.
  unfold ft_initialize_velocities. rewrite A. cbn [assert_then]. split; [reflexivity|]. cbn [tx ty tz1 tz2 ttheta]. auto.
Qed.
Theorem states_initialises a b h : (exists f, ft_initialize_states a b h = Ok f) <-> vz (b_position b) <= vz (b_position a) + h.
Proof.
  unfold ft_initialize_states. cbv zeta. split.
  - intros [f E]. apply assert_ok in E. apply le_b_iff. tauto.
  - intros H. eexists. apply le_b_iff in H. rewrite H. reflexivity.
Qed.
Theorem states_trajectory a b h f : ft_initialize_states a b h = Ok f ->
  (ft_eval f 0 POSITION = Ok (b_position a) /\ ft_eval f 0 VELOCITY = Ok (b_velocity a) /\
   evalTheta f 0 POSITION = Ok (vz (b_rpy a)) /\ evalTheta f 0 VELOCITY = Ok (vz (b_angular_velocity a))) /\
  (let pb := b_position b in let va := b_velocity a in let vb := b_velocity b in
   ft_eval f 1 POSITION = Ok (V3 (vx pb - 2 * vx va + 3 * vx vb) (vy pb - 2 * vy va + 3 * vy vb) (vz pb + 3 * vz vb)) /\
   ft_eval f 1 VELOCITY = Ok (V3 (7 * vx vb - 6 * vx va) (7 * vy vb - 6 * vy va) (7 * vz vb)) /\
   evalTheta f 1 POSITION = Ok (vz (b_rpy b) - 2 * vz (b_angular_velocity a) + 3 * vz (b_angular_velocity b)) /\
   evalTheta f 1 VELOCITY = Ok (7 * vz (b_angular_velocity b) - 6 * vz (b_angular_velocity a))) /\
  evalz f (1 / 2) POSITION = Ok (vz (b_position a) + h - 2 * vz (b_velocity a)).
Proof.
  intros E. destruct (states_as_velocities trajectory_new a b h f E) as (g & G & X & Y & Z1 & Z2 & T).
  destruct (velocities_trajectory _ _ _ _ _ _ _ G) as (A1 & A2 & A3 & A4 & A5).
  assert (Ev : forall t k, ft_eval f t k = ft_eval g t k) by (intros t k; unfold ft_eval, evalx, evaly, evalz; rewrite X, Y, Z1, Z2; reflexivity).
  assert (Ez : forall t k, evalz f t k = evalz g t k) by (intros t k; unfold evalz; rewrite Z1, Z2; reflexivity).
  destruct (velocities_attained (vz (b_rpy a)) (vz (b_angular_velocity a)) (vz (b_rpy b)) (vz (b_angular_velocity b))) as (T1 & T2 & T3 & T4).
  rewrite !Ev, Ez. unfold evalTheta. rewrite T. auto 10.
Qed.
(** from rest to rest the trajectory joins the two states *)
Theorem states_rest a b h f : ft_initialize_states a b h = Ok f -> b_velocity a = v3zero -> b_velocity b = v3zero ->
  vz (b_angular_velocity a) = 0 -> vz (b_angular_velocity b) = 0 ->
  forall s s', ft_eval_state f s 1 = Ok s' ->
    b_position s' = b_position b /\ b_velocity s' = v3zero /\ vz (b_rpy s') = vz (b_rpy b) /\ vz (b_angular_velocity s') = 0.
Proof.
  intros E Va Vb Wa Wb s s' H. destruct (states_trajectory a b h f E) as (_ & (P & V & Y & W) & _). cbv zeta in P, V, Y, W.
  rewrite Va, Vb in P, V. rewrite Wa, Wb in Y, W. unfold v3zero in *. cbn [vx vy vz] in *.
  unfold ft_eval_state in H. rewrite P, V, Y, W in H. cbn [bind] in H.
  apply bind_ok in H. destruct H as (acc & _ & H). apply bind_ok in H. destruct H as (e & _ & H). inversion H. cbn.
  destruct (b_position b) as [x y z]. cbn [vx vy vz]. repeat split; try (f_equal; ring); ring.
Qed.
Example states_case : exists f, ft_initialize_states
    (mkBody (V3 0 0 0) v3zero v3zero (V3 0 0 1) v3zero v3zero) (mkBody (V3 1 2 0) v3zero v3zero (V3 0 0 3) v3zero v3zero) 1 = Ok f /\
  evalTheta f 1 POSITION = Ok 3.
Proof.
  destruct (proj2 (states_initialises (mkBody (V3 0 0 0) v3zero v3zero (V3 0 0 1) v3zero v3zero) (mkBody (V3 1 2 0) v3zero v3zero (V3 0 0 3) v3zero v3zero) 1)) as [f E]; [cbn; lra|].
  exists f. split; [exact E|]. destruct (states_trajectory _ _ _ _ E) as (_ & (_ & _ & T & _) & _). rewrite T. cbn. f_equal. ring.
Qed.
