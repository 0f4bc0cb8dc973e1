From Coq Require Import String List Reals Arith Lra Lia Bool Permutation.
From Verif Require Import Base BaseFacts Mat3 RSum Matrix RotarySpec SpatialTransform SpatialTransformFacts Condense Rbdl RbdlSpec.
Import ListNotations.
Open Scope R_scope.

(** ** Derivatives of products *)
Lemma d_eq f t l l' : derivable_pt_lim f t l -> l = l' -> derivable_pt_lim f t l'.
Proof. intros H <-. exact H. Qed.
Lemma d_ext f g t l : (forall s, f s = g s) -> derivable_pt_lim g t l -> derivable_pt_lim f t l.
Proof. intros E H eps He. destruct (H eps He) as (d & D). exists d. intros h Hh Hd. rewrite !E. apply D; assumption. Qed.
Lemma d_dot3 (a1 b1 a2 b2 a3 b3 : R -> R) t a1' b1' a2' b2' a3' b3' :
  derivable_pt_lim a1 t a1' -> derivable_pt_lim b1 t b1' -> derivable_pt_lim a2 t a2' -> derivable_pt_lim b2 t b2' ->
  derivable_pt_lim a3 t a3' -> derivable_pt_lim b3 t b3' ->
  derivable_pt_lim (fun s => a1 s * b1 s + a2 s * b2 s + a3 s * b3 s) t
    ((a1' * b1 t + a2' * b2 t + a3' * b3 t) + (a1 t * b1' + a2 t * b2' + a3 t * b3')).
Proof.
  intros A1 B1 A2 B2 A3 B3.
  eapply d_eq; [exact (derivable_pt_lim_plus _ _ _ _ _ (derivable_pt_lim_plus _ _ _ _ _ (derivable_pt_lim_mult a1 b1 t _ _ A1 B1)
    (derivable_pt_lim_mult a2 b2 t _ _ A2 B2)) (derivable_pt_lim_mult a3 b3 t _ _ A3 B3))|ring].
Qed.
Lemma m3d_mul F G t F' G' : m3_derivative F t F' -> m3_derivative G t G' ->
  m3_derivative (fun s => m3mul (F s) (G s)) t (m3add (m3mul F' (G t)) (m3mul (F t) G')).
Proof.
  intros (F1 & F2 & F3 & F4 & F5 & F6 & F7 & F8 & F9) (G1 & G2 & G3 & G4 & G5 & G6 & G7 & G8 & G9).
  unfold m3_derivative; cbn [m3add m3mul m00 m01 m02 m10 m11 m12 m20 m21 m22].
  repeat (split; [apply d_dot3; assumption|]). apply d_dot3; assumption.
Qed.
Lemma m3d_app F g t F' g' : m3_derivative F t F' -> v3_derivative g t g' ->
  v3_derivative (fun s => m3app (F s) (g s)) t (v3add (m3app F' (g t)) (m3app (F t) g')).
Proof.
  intros (F1 & F2 & F3 & F4 & F5 & F6 & F7 & F8 & F9) (G1 & G2 & G3).
  unfold v3_derivative; cbn [v3add m3app vx vy vz].
  repeat (split; [apply d_dot3; assumption|]). apply d_dot3; assumption.
Qed.
Lemma v3d_add f g t f' g' : v3_derivative f t f' -> v3_derivative g t g' -> v3_derivative (fun s => v3add (f s) (g s)) t (v3add f' g').
Proof.
  intros (F1 & F2 & F3) (G1 & G2 & G3). unfold v3_derivative; cbn [v3add vx vy vz].
  split; [|split]; [exact (derivable_pt_lim_plus _ _ _ _ _ F1 G1)|exact (derivable_pt_lim_plus _ _ _ _ _ F2 G2)|exact (derivable_pt_lim_plus _ _ _ _ _ F3 G3)].
Qed.
Lemma v3d_scale c f t f' : v3_derivative f t f' -> v3_derivative (fun s => v3scale c (f s)) t (v3scale c f').
Proof.
  intros (F1 & F2 & F3). unfold v3_derivative; cbn [v3scale vx vy vz].
  split; [|split]; [exact (derivable_pt_lim_scal _ c _ _ F1)|exact (derivable_pt_lim_scal _ c _ _ F2)|exact (derivable_pt_lim_scal _ c _ _ F3)].
Qed.
Lemma v3d_const c t : v3_derivative (fun _ => c) t v3zero.
Proof. repeat split; apply derivable_pt_lim_const. Qed.
Lemma m3d_const c t : m3_derivative (fun _ => c) t (M3 0 0 0 0 0 0 0 0 0).
Proof. repeat split; apply derivable_pt_lim_const. Qed.
Lemma v3d_ext f g t d d' : (forall s, f s = g s) -> d = d' -> v3_derivative g t d' -> v3_derivative f t d.
Proof.
  intros E -> (A & B & C). split; [|split]; [exact (d_ext _ _ _ _ (fun s => f_equal vx (E s)) A)|exact (d_ext _ _ _ _ (fun s => f_equal vy (E s)) B)|
    exact (d_ext _ _ _ _ (fun s => f_equal vz (E s)) C)].
Qed.
Lemma m3d_ext F G t D D' : (forall s, F s = G s) -> D = D' -> m3_derivative G t D' -> m3_derivative F t D.
Proof.
  intros E -> (A1 & A2 & A3 & A4 & A5 & A6 & A7 & A8 & A9). unfold m3_derivative.
  split; [exact (d_ext _ _ _ _ (fun s => f_equal m00 (E s)) A1)|]. split; [exact (d_ext _ _ _ _ (fun s => f_equal m01 (E s)) A2)|].
  split; [exact (d_ext _ _ _ _ (fun s => f_equal m02 (E s)) A3)|]. split; [exact (d_ext _ _ _ _ (fun s => f_equal m10 (E s)) A4)|].
  split; [exact (d_ext _ _ _ _ (fun s => f_equal m11 (E s)) A5)|]. split; [exact (d_ext _ _ _ _ (fun s => f_equal m12 (E s)) A6)|].
  split; [exact (d_ext _ _ _ _ (fun s => f_equal m20 (E s)) A7)|]. split; [exact (d_ext _ _ _ _ (fun s => f_equal m21 (E s)) A8)|].
  exact (d_ext _ _ _ _ (fun s => f_equal m22 (E s)) A9).
Qed.

(** ** Algebra *)
Ltac v3ring := unfold v3add, v3sub, v3scale, v3opp, v3cross, v3zero, m3app; cbn [vx vy vz]; f_equal; ring.
Lemma v3_ext a b : vx a = vx b -> vy a = vy b -> vz a = vz b -> a = b.
Proof. destruct a, b; cbn; intros -> -> ->; reflexivity. Qed.
Lemma skew_add a b : skew (v3add a b) = m3add (skew a) (skew b).
Proof. unfold skew, v3add, m3add; cbn. f_equal; ring. Qed.
Lemma m3mul_add_l a b c : m3mul (m3add a b) c = m3add (m3mul a c) (m3mul b c).
Proof. unfold m3add, m3mul; cbn. f_equal; ring. Qed.
Lemma m3app_add a v w : m3app a (v3add v w) = v3add (m3app a v) (m3app a w).
Proof. v3ring. Qed.
Lemma rotation_trans r : rotation r -> rotation (m3trans r).
Proof.
  intros [[A B] D]. split; [split; rewrite m3trans_trans; assumption|]. unfold m3det, m3trans in *; cbn. rewrite <- D. ring.
Qed.
(** cofactors of a rotation are its entries *)
Definition m3cof (r : m3) : m3 :=
  M3 (m11 r * m22 r - m12 r * m21 r) (m12 r * m20 r - m10 r * m22 r) (m10 r * m21 r - m11 r * m20 r)
     (m21 r * m02 r - m22 r * m01 r) (m22 r * m00 r - m20 r * m02 r) (m20 r * m01 r - m21 r * m00 r)
     (m01 r * m12 r - m02 r * m11 r) (m02 r * m10 r - m00 r * m12 r) (m00 r * m11 r - m01 r * m10 r).
Lemma m3cof_rotation r : rotation r -> m3cof r = r.
Proof.
  intros [[_ B] D].
  assert (E : m3mul r (m3trans (m3cof r)) = m3id).
  { transitivity (m3scale (m3det r) m3id); [unfold m3mul, m3trans, m3cof, m3scale, m3det, m3id; cbn; f_equal; ring|].
    rewrite D. unfold m3scale, m3id; cbn. f_equal; ring. }
  rewrite <- (m3trans_trans (m3cof r)), <- (m3mul_id_l (m3trans (m3cof r))), <- B, m3mul_assoc, E, m3mul_id_r. apply m3trans_trans.
Qed.
Lemma rotation_skew r a : rotation r -> m3mul r (skew a) = m3mul (skew (m3app r a)) r.
Proof.
  intros H. transitivity (m3mul (m3cof r) (skew a)); [rewrite m3cof_rotation by exact H; reflexivity|].
  unfold m3mul, m3cof, skew, m3app; cbn. f_equal; ring.
Qed.

(** ** Frames of links *)
Definition body_O (l : rb) (i : nat) : m3 := match nth_error (rb_X l) i with Some x => m3trans (sx_E x) | None => m3id end.
Definition body_o (l : rb) (i : nat) : v3 := match nth_error (rb_X l) i with Some x => sx_r x | None => v3zero end.

Section Tree.
  Variable l : rb.
  Hypothesis T : tree l.
  Lemma t_X i : movable l i -> exists x, nth_error (rb_X l) i = Some x /\ body_O l i = m3trans (sx_E x) /\ body_o l i = sx_r x /\ rotation (sx_E x).
  Proof.
    intros H. destruct T as (N & LX & _ & _ & _ & RX & _). destruct (nth_error (rb_X l) i) as [x|] eqn:E.
    - exists x. unfold body_O, body_o. rewrite E. repeat split; try apply (RX i x E).
    - apply nth_error_None in E. unfold movable in H. lia.
  Qed.
  Lemma t_rotation i : movable l i -> rotation (body_O l i).
  Proof. intros H. destruct (t_X i H) as (x & _ & -> & _ & R). apply rotation_trans, R. Qed.
  Lemma t_frame i : movable l i -> frame l i (body_O l i) (body_o l i).
  Proof. intros H. destruct (t_X i H) as (x & E & -> & -> & _). apply frame_movable; assumption. Qed.
  Lemma t_not_fixed i p x : movable l i -> ~ fixed_to l i p x.
  Proof. intros H [A _]. destruct T as (_ & _ & _ & _ & D & _). unfold movable in H. lia. Qed.
  Lemma t_frame_inv i O o : movable l i -> frame l i O o -> O = body_O l i /\ o = body_o l i.
  Proof.
    intros H F. destruct F as [x M E|p x O o Fx _ _].
    - unfold body_O, body_o. rewrite E. split; reflexivity.
    - exfalso. exact (t_not_fixed i p x H Fx).
  Qed.
  Lemma t_lambda i : movable l i -> (0 < i)%nat -> exists p, nth_error (rb_lambda l) i = Some p /\ (p < i)%nat /\ movable l p.
  Proof.
    intros H I. destruct T as (N & _ & _ & LL & _ & _ & _ & P & _). destruct (nth_error (rb_lambda l) i) as [p|] eqn:E.
    - exists p. specialize (P i p I E). unfold movable in *. repeat split; auto; lia.
    - apply nth_error_None in E. unfold movable in H. lia.
  Qed.
  Lemma t_joint i : movable l i -> exists j, nth_error (rb_joints l) i = Some j.
  Proof.
    intros H. destruct T as (N & _ & LJ & _). destruct (nth_error (rb_joints l) i) as [j|] eqn:E; [eauto|].
    apply nth_error_None in E. unfold movable in H. lia.
  Qed.
  Lemma t_root : body_O l 0 = m3id /\ body_o l 0 = v3zero /\ movable l 0.
  Proof.
    destruct T as (N & _ & _ & _ & _ & _ & X0 & _). unfold body_O, body_o, movable. rewrite X0. repeat split; auto.
  Qed.
  Lemma t_link id : link l id -> movable l id \/ exists p x, fixed_to l id p x /\ movable l p.
  Proof. intros (O & o & F). destruct F as [x M _|p x O o Fx Mp _]; [left; exact M|right; eauto]. Qed.
  Lemma fixed_rotation id p x : fixed_to l id p x -> rotation (sx_E x) /\ movable l p.
  Proof. intros [_ E]. destruct T as (_ & _ & _ & _ & _ & _ & _ & _ & _ & _ & _ & F). destruct (F _ _ _ E). split; assumption. Qed.
  Lemma isLinkFixed_movable id : movable l id -> isLinkFixed l id = false.
  Proof.
    intros H. destruct T as (_ & _ & _ & _ & D & _). unfold movable in H. unfold isLinkFixed.
    destruct (Nat.leb_spec (rb_disc l) id); [lia|reflexivity].
  Qed.
  Lemma isLinkFixed_fixed id p x : fixed_to l id p x -> isLinkFixed l id = true.
  Proof.
    intros [A E]. unfold isLinkFixed. assert (id - rb_disc l < length (rb_fixed l))%nat by (apply nth_error_Some; rewrite E; discriminate).
    apply andb_true_intro; split; [apply andb_true_intro; split|]; [apply Nat.leb_le|apply Nat.ltb_lt|apply Nat.ltb_lt]; lia.
  Qed.
End Tree.

(** the motion of the world is none, and of a body that of its parent and of its joint: velocity of rotation, velocity of the point
    of the body at the origin of the world *)
Inductive twist (l : rb) (dq : vec) : nat -> v3 -> v3 -> Prop :=
| twist_root : twist l dq 0 v3zero v3zero
| twist_body i p j w v : (0 < i)%nat -> nth_error (rb_lambda l) i = Some p -> nth_error (rb_joints l) i = Some j -> twist l dq p w v ->
    twist l dq i (v3add w (m3app (body_O l i) (joint_angular j dq)))
      (v3add v (v3add (m3app (body_O l i) (joint_linear j dq)) (v3cross (body_o l i) (m3app (body_O l i) (joint_angular j dq))))).

Lemma same_movable a b i : same_robot a b -> movable b i -> movable a i.
Proof. intros (E & _) H. unfold movable in *. rewrite E. exact H. Qed.

Lemma body_velocity M t dq : motion M t dq -> forall i, movable (M t) i -> exists w v, twist (M t) dq i w v /\
  m3_derivative (fun s => body_O (M s) i) t (m3mul (skew w) (body_O (M t) i)) /\
  v3_derivative (fun s => body_o (M s) i) t (v3add v (v3cross w (body_o (M t) i))).
Proof.
  intros (TS & Lq & J). intros i. induction i as [i IH] using (well_founded_induction Wf_nat.lt_wf). intros Hi.
  assert (Mv : forall k s, movable (M t) k -> movable (M s) k) by (intros k s; apply same_movable, TS).
  destruct (Nat.eq_dec i 0) as [-> | Ni].
  - exists v3zero, v3zero. split; [constructor|]. split.
    + apply (m3d_ext _ (fun _ => m3id) t _ (M3 0 0 0 0 0 0 0 0 0)); [intros s; apply t_root, TS| |apply m3d_const].
      unfold m3mul, skew, v3zero; cbn. f_equal; ring.
    + apply (v3d_ext _ (fun _ => v3zero) t _ v3zero); [intros s; apply t_root, TS| |apply v3d_const]. v3ring.
  - assert (I0 : (0 < i)%nat) by lia.
    destruct (t_lambda (M t) (proj1 (TS t)) i Hi I0) as (p & Ep & Lp & Mp).
    destruct (t_joint (M t) (proj1 (TS t)) i Hi) as (j & Ej).
    destruct (IH p Lp Mp) as (w & v & Tw & Dw & Dv).
    destruct (J i p j (fun s => body_O (M s) i) (fun s => body_O (M s) p) (fun s => body_o (M s) i) (fun s => body_o (M s) p) I0 Ep Ej)
      as (DQ & Dd).
    { intros s. apply t_frame; [apply TS|apply Mv, Hi]. }
    { intros s. apply t_frame; [apply TS|apply Mv, Mp]. }
    exists (v3add w (m3app (body_O (M t) i) (joint_angular j dq))).
    eexists. split; [exact (twist_body _ _ _ _ _ _ _ I0 Ep Ej Tw)|].
    assert (OO : forall s, m3mul (body_O (M s) p) (m3mul (m3trans (body_O (M s) p)) (body_O (M s) i)) = body_O (M s) i).
    { intros s. destruct (t_rotation (M s) (proj1 (TS s)) p (Mv p s Mp)) as [[A _] _]. rewrite <- m3mul_assoc, A. apply m3mul_id_l. }
    assert (Oo : forall s, v3add (body_o (M s) p) (m3app (body_O (M s) p) (m3app (m3trans (body_O (M s) p)) (v3sub (body_o (M s) i) (body_o (M s) p)))) = body_o (M s) i).
    { intros s. destruct (t_rotation (M s) (proj1 (TS s)) p (Mv p s Mp)) as [[A _] _]. rewrite <- m3app_mul, A, m3app_id.
      destruct (body_o (M s) i), (body_o (M s) p). v3ring. }
    split.
    + eapply m3d_ext; [intros s; symmetry; apply OO| |exact (m3d_mul _ _ _ _ _ Dw DQ)].
      cbn beta. rewrite (m3mul_assoc (skew w)), OO, <- (m3mul_assoc (body_O (M t) p)), OO, rotation_skew by (apply t_rotation; [apply TS|exact Hi]).
      rewrite skew_add, m3mul_add_l. reflexivity.
    + eapply v3d_ext; [intros s; symmetry; apply Oo| |exact (v3d_add _ _ _ _ _ Dv (m3d_app _ _ _ _ _ Dw Dd))].
      cbn beta. rewrite (m3app_mul (skew w)), <- (m3app_mul (body_O (M t) p) (m3mul (m3trans (body_O (M t) p)) (body_O (M t) i))), OO.
      pose proof (Oo t) as E. set (d := m3app (body_O (M t) p) (m3app (m3trans (body_O (M t) p)) (v3sub (body_o (M t) i) (body_o (M t) p)))) in *.
      rewrite skew_cross. rewrite <- E. clearbody d.
      set (a := m3app (body_O (M t) i) (joint_linear j dq)). set (b := m3app (body_O (M t) i) (joint_angular j dq)). clearbody a b.
      destruct w, v, d, a, b, (body_o (M t) p). v3ring.
Qed.

(** ** Links: bodies and bodies fixed to them *)
Definition link_body (l : rb) (id : nat) : nat :=
  if isLinkFixed l id then match nth_error (rb_fixed l) (id - rb_disc l) with Some f => fst f | None => id end else id.
Definition link_rel (l : rb) (id : nat) : sxform :=
  if isLinkFixed l id then match nth_error (rb_fixed l) (id - rb_disc l) with Some f => snd f | None => SX m3id v3zero end else SX m3id v3zero.
Definition link_O (l : rb) (id : nat) : m3 := m3mul (body_O l (link_body l id)) (m3trans (sx_E (link_rel l id))).
Definition link_o (l : rb) (id : nat) : v3 := v3add (body_o l (link_body l id)) (m3app (body_O l (link_body l id)) (sx_r (link_rel l id))).

Lemma m3trans_id : m3trans m3id = m3id. Proof. reflexivity. Qed.
Lemma m3app_zero a : m3app a v3zero = v3zero. Proof. v3ring. Qed.
Lemma v3add_zero_r a : v3add a v3zero = a. Proof. destruct a. v3ring. Qed.
Lemma v3add_comm a b : v3add a b = v3add b a. Proof. v3ring. Qed.
Lemma v3add_assoc a b c : v3add (v3add a b) c = v3add a (v3add b c). Proof. v3ring. Qed.

Section Link.
  Variable l : rb.
  Hypothesis T : tree l.
  Lemma link_movable id : movable l id -> link_body l id = id /\ link_rel l id = SX m3id v3zero.
  Proof. intros H. unfold link_body, link_rel. rewrite (isLinkFixed_movable l T id H). split; reflexivity. Qed.
  Lemma link_fixed id p x : fixed_to l id p x -> link_body l id = p /\ link_rel l id = x.
  Proof. intros H. unfold link_body, link_rel. rewrite (isLinkFixed_fixed l id p x H). destruct H as [_ ->]. split; reflexivity. Qed.
  Lemma link_body_movable id : link l id -> movable l (link_body l id).
  Proof. intros H. destruct (t_link l id H) as [M|(p & x & F & M)]; [rewrite (proj1 (link_movable id M)); exact M|rewrite (proj1 (link_fixed id p x F)); exact M]. Qed.
  Lemma link_frame_inv id O o : frame l id O o -> O = link_O l id /\ o = link_o l id.
  Proof.
    intros F. destruct F as [x M E|p x O o Fx Mp Fp].
    - unfold link_O, link_o. destruct (link_movable id M) as [-> ->]. cbn [sx_E sx_r]. rewrite m3trans_id, m3mul_id_r, m3app_zero, v3add_zero_r.
      unfold body_O, body_o. rewrite E. split; reflexivity.
    - unfold link_O, link_o. destruct (link_fixed id p x Fx) as [-> ->]. destruct (t_frame_inv l T p O o Mp Fp) as [-> ->]. split; reflexivity.
  Qed.
  Lemma link_frame id : link l id -> frame l id (link_O l id) (link_o l id).
  Proof. intros (O & o & F). destruct (link_frame_inv id O o F) as [<- <-]. exact F. Qed.
  Lemma link_transform id : link l id -> exists x, getLinkTransform l id = Ok x /\ m3trans (sx_E x) = link_O l id /\ sx_r x = link_o l id.
  Proof.
    intros H. destruct (t_link l id H) as [M|(p & f & F & M)].
    - destruct (t_X l T id M) as (x & E & EO & Eo & _). exists x. unfold getLinkTransform, vec_at. rewrite (isLinkFixed_movable l T id M), E.
      split; [reflexivity|]. unfold link_O, link_o. destruct (link_movable id M) as [-> ->]. cbn [sx_E sx_r].
      rewrite m3trans_id, m3mul_id_r, m3app_zero, v3add_zero_r. split; symmetry; assumption.
    - destruct (t_X l T p M) as (x & E & EO & Eo & _). exists (sx_mul f x). unfold getLinkTransform, vec_at.
      rewrite (isLinkFixed_fixed l id p f F). pose proof F as [_ ->]. cbn [bind fst snd]. rewrite E. split; [reflexivity|].
      unfold link_O, link_o. destruct (link_fixed id p f F) as [-> ->]. unfold sx_mul; cbn [sx_E sx_r]. rewrite m3trans_mul, <- EO, <- Eo. split; reflexivity.
  Qed.
  Lemma link_root id p : link l id -> expressInRootFrame l id p = Ok (v3add (link_o l id) (m3app (link_O l id) p)).
  Proof.
    intros H. destruct (t_link l id H) as [M|(b & f & F & M)].
    - destruct (t_X l T id M) as (x & E & EO & Eo & _). unfold expressInRootFrame, vec_at. rewrite (isLinkFixed_movable l T id M), E. cbn [bind].
      unfold link_O, link_o. destruct (link_movable id M) as [-> ->]. cbn [sx_E sx_r].
      rewrite m3trans_id, m3mul_id_r, m3app_zero, v3add_zero_r, EO, Eo. reflexivity.
    - destruct (t_X l T b M) as (x & E & EO & Eo & _). unfold expressInRootFrame, vec_at.
      rewrite (isLinkFixed_fixed l id b f F). pose proof F as [_ ->]. cbn [bind fst snd]. rewrite E. cbn [bind].
      unfold link_O, link_o. destruct (link_fixed id b f F) as [-> ->]. rewrite m3app_add, m3app_mul, v3add_assoc, <- EO, <- Eo. reflexivity.
  Qed.
  Lemma link_point id p : link l id -> getPointTagPosition l id p = Ok (v3add (link_o l id) (m3app (link_O l id) p)).
  Proof.
    intros H. destruct (link_transform id H) as (x & E & EO & Eo). unfold getPointTagPosition. rewrite E. cbn [bind]. rewrite EO, Eo, v3add_comm. reflexivity.
  Qed.
  Lemma movable_link id : movable l id -> link l id.
  Proof. intros M. exists (body_O l id), (body_o l id). apply t_frame; assumption. Qed.
End Link.

Lemma same_link a b id : tree a -> tree b -> same_robot a b -> link b id -> link a id /\ link_body a id = link_body b id /\ link_rel a id = link_rel b id.
Proof.
  intros TA TB E H. pose proof E as (E1 & _ & E3 & E4 & E5 & _).
  split; [|unfold link_body, link_rel, isLinkFixed; rewrite E3, E4, E5; split; reflexivity].
  destruct (t_link b id H) as [M|(p & x & [F1 F2] & M)].
  - apply movable_link; [exact TA|]. apply (same_movable a b); assumption.
  - exists (m3mul (body_O a p) (m3trans (sx_E x))), (v3add (body_o a p) (m3app (body_O a p) (sx_r x))).
    assert (Mp : movable a p) by (apply (same_movable a b); assumption).
    apply (frame_fixed a id p x); [split; [rewrite E4, E5; exact F1|rewrite E3, E4; exact F2]|exact Mp|apply t_frame; assumption].
Qed.

(** velocity of a point of a link *)
Lemma link_velocity M t dq id p : motion M t dq -> link (M t) id -> exists w v, twist (M t) dq (link_body (M t) id) w v /\
  m3_derivative (fun s => link_O (M s) id) t (m3mul (skew w) (link_O (M t) id)) /\
  v3_derivative (fun s => v3add (link_o (M s) id) (m3app (link_O (M s) id) p)) t
    (v3add v (v3cross w (v3add (link_o (M t) id) (m3app (link_O (M t) id) p)))).
Proof.
  intros H L. pose proof H as (TS & _ & _).
  assert (SL : forall s, link_body (M s) id = link_body (M t) id /\ link_rel (M s) id = link_rel (M t) id).
  { intros s. apply (same_link (M s) (M t) id); [apply TS|apply TS|apply TS|exact L]. }
  destruct (body_velocity M t dq H (link_body (M t) id)) as (w & v & Tw & DO & Do); [apply link_body_movable; [apply TS|exact L]|].
  exists w, v. split; [exact Tw|]. split.
  - eapply m3d_ext; [intros s; unfold link_O; rewrite (proj1 (SL s)), (proj2 (SL s)); reflexivity| |
      exact (m3d_mul _ _ _ _ _ DO (m3d_const (m3trans (sx_E (link_rel (M t) id))) t))].
    unfold link_O. set (a := body_O (M t) (link_body (M t) id)). set (b := m3trans (sx_E (link_rel (M t) id))). clearbody a b.
    rewrite m3mul_assoc. destruct w, a, b. unfold m3add, m3mul, skew; cbn. f_equal; ring.
  - set (c := v3add (sx_r (link_rel (M t) id)) (m3app (m3trans (sx_E (link_rel (M t) id))) p)).
    assert (P : forall s, v3add (link_o (M s) id) (m3app (link_O (M s) id) p) =
                 v3add (body_o (M s) (link_body (M t) id)) (m3app (body_O (M s) (link_body (M t) id)) c)).
    { intros s. unfold link_o, link_O, c. rewrite (proj1 (SL s)), (proj2 (SL s)), m3app_mul, m3app_add, v3add_assoc. reflexivity. }
    eapply v3d_ext; [exact P| |exact (v3d_add _ _ _ _ _ Do (m3d_app _ _ _ _ _ DO (v3d_const c t)))].
    rewrite P. clearbody c. set (a := body_O (M t) (link_body (M t) id)). set (o := body_o (M t) (link_body (M t) id)).
    cbn beta. rewrite m3app_mul, skew_cross. fold a. rewrite m3app_zero, v3add_zero_r. set (d := m3app a c). clearbody d o. destruct w, v, d, o. v3ring.
Qed.

(** ** Data of the joints *)
Definition column (m : mat) (c : nat) (r : nat) : R := mget m r c.
Lemma sx_apply_toMatrix x s r : (r < 6)%nat -> mget (sx_apply x s) r 0 = Rsum 6 (fun k => mget (sx_toMatrix x) r k * mget s k 0).
Proof.
  intros H. destruct r as [|[|[|[|[|[|r]]]]]]; [| | | | | |lia]; cbn; ring.
Qed.
Lemma resized_length {A} (l : list A) n junk : length (resized l n junk) = n.
Proof. unfold resized. rewrite app_length, firstn_length, map_length, seq_length. lia. Qed.

Definition axis_of (l : rb) (i : nat) (j : rb_joint) (d : joint_data) : Prop :=
  fst d = j_dof j /\ mrows (snd d) = 6%nat /\ mcols (snd d) = j_dof j /\
  exists x, nth_error (rb_X l) i = Some x /\
  forall r c, (r < 6)%nat -> (c < j_dof j)%nat -> mget (snd d) r c = Rsum 6 (fun k => mget (sx_toMatrix (sx_inverse x)) r k * mget (j_S j) k c).

Lemma jd_compute_ok l i j old : tree l -> movable l i -> nth_error (rb_joints l) i = Some j ->
  exists d, jd_compute l i old = Ok d /\ ((0 < i)%nat -> axis_of l i j d).
Proof.
  intros T Hi Ej. destruct (t_X l T i Hi) as (x & Ex & _). pose proof T as (_ & _ & _ & _ & _ & _ & _ & _ & SJ & J0 & _ & _).
  unfold jd_compute, vec_at. rewrite Ej. cbn [bind]. rewrite Ex. cbn [bind].
  destruct (Nat.eq_dec i 0) as [-> | Ni].
  - destruct (J0 j Ej) as [-> ->]. eexists. split; [reflexivity|lia].
  - assert (I0 : (0 < i)%nat) by lia. destruct (SJ i j I0 Ej) as (D & R6 & C & _).
    assert (MM : mmul_o (sx_toMatrix (sx_inverse x)) (j_S j) = Ok (mmul (sx_toMatrix (sx_inverse x)) (j_S j))).
    { unfold mmul_o. rewrite assert_true; [reflexivity|]. rewrite R6. reflexivity. }
    assert (AX : forall r c, mget (mmul (sx_toMatrix (sx_inverse x)) (j_S j)) r c = Rsum 6 (fun k => mget (sx_toMatrix (sx_inverse x)) r k * mget (j_S j) k c)).
    { reflexivity. }
    destruct (j_custom j).
    + rewrite MM. cbn [bind]. eexists. split; [reflexivity|]. intros _. split; [reflexivity|]. split; [reflexivity|]. split; [exact C|]. exists x. split; [exact Ex|].
      intros; apply AX.
    + destruct (D eq_refl) as [E|E]; rewrite E in *.
      * eexists. split; [reflexivity|]. intros _. split; [rewrite E; reflexivity|]. split; [reflexivity|]. split; [rewrite E; reflexivity|]. exists x. split; [exact Ex|].
        intros r c Hr Hc. replace c with 0%nat by lia. apply sx_apply_toMatrix, Hr.
      * rewrite MM. cbn [bind]. eexists. split; [reflexivity|]. intros _. split; [rewrite E; reflexivity|]. split; [reflexivity|]. split; [rewrite E; exact C|]. exists x. split; [exact Ex|].
        intros; apply AX.
Qed.

(** sum of masses of all bodies except the world *)
Definition total_mass (l : rb) : R := Rsum (length (rb_bodies l) - 1) (fun i => match nth_error (rb_bodies l) (S i) with Some b => fst b | None => 0 end).

Lemma load_ok junk l m : exists m1, rm_load junk (Some l) m = Ok m1 /\ rm_lib m1 = l /\ rm_total m1 = total_mass l /\ length (rm_jd m1) = length (rb_joints l).
Proof.
  unfold rm_load.
  destruct (for_up_inv (fun i s => s = Rsum (i - 1) (fun k => match nth_error (rb_bodies l) (S k) with Some b => fst b | None => 0 end))
    (fun i s => bind (vec_at (rb_bodies l) i) (fun b => Ok (s + fst b))) (length (rb_bodies l) - 1) 1 0) as (s & E & P).
  - reflexivity.
  - intros i s Hi ->. unfold vec_at. destruct (nth_error (rb_bodies l) i) as [b|] eqn:Eb; [|apply nth_error_None in Eb; lia].
    cbn [bind]. eexists. split; [reflexivity|]. replace (S i - 1)%nat with (S (i - 1)) by lia. cbn [Rsum]. replace (S (i - 1)) with i by lia. rewrite Eb. reflexivity.
  - rewrite E. cbn [bind]. eexists. split; [reflexivity|]. cbn [rm_lib rm_total rm_jd]. split; [reflexivity|]. split.
    + rewrite P. unfold total_mass. f_equal. lia.
    + apply resized_length.
Qed.

Lemma total_same a b : same_robot a b -> total_mass a = total_mass b.
Proof. intros (E & _). unfold total_mass. rewrite E. reflexivity. Qed.

Lemma update_ok l m : tree l -> length (rm_jd m) = length (rb_joints l) ->
  exists m', rm_update l m = Ok m' /\ rm_lib m' = l /\ rm_total m' = rm_total m /\
    forall i j, (0 < i)%nat -> nth_error (rb_joints l) i = Some j -> exists d, nth_error (rm_jd m') i = Some d /\ axis_of l i j d.
Proof.
  intros T Len. pose proof T as (_ & _ & LJ & _).
  destruct (for_up_inv (fun k (d : list joint_data) => length d = length (rb_joints l) /\
      forall i j, (0 < i < k)%nat -> nth_error (rb_joints l) i = Some j -> exists a, nth_error d i = Some a /\ axis_of l i j a)
    (fun i d => bind (vec_at d i) (fun o => bind (jd_compute l i o) (fun n => write_at d i n))) (length (rm_jd m)) 0 (rm_jd m)) as (d & E & Ld & P).
  - split; [exact Len|]. intros; lia.
  - intros i d Hi (Ld & P). unfold vec_at. destruct (nth_error d i) as [o|] eqn:Eo; [|apply nth_error_None in Eo; lia]. cbn [bind].
    assert (Mi : movable l i) by (unfold movable; lia). destruct (t_joint l T i Mi) as (j & Ej).
    destruct (jd_compute_ok l i j o T Mi Ej) as (a & Ea & Pa). rewrite Ea. cbn [bind]. unfold write_at. rewrite assert_true by (apply Nat.ltb_lt; lia).
    eexists. split; [reflexivity|]. split; [rewrite update_length; exact Ld|]. intros i' j' Hi' Ej'. rewrite nth_error_update.
    destruct (Nat.eqb_spec i i') as [<-|N].
    + replace (i <? length d)%nat with true by (symmetry; apply Nat.ltb_lt; lia). cbn [andb]. rewrite Ej in Ej'. injection Ej' as <-. exists a. split; [reflexivity|]. apply Pa. lia.
    + cbn [andb]. apply P; [lia|exact Ej'].
  - unfold rm_update. rewrite E. cbn [bind]. eexists. split; [reflexivity|]. split; [reflexivity|]. split; [reflexivity|].
    intros i j I0 Ej. apply P; [|exact Ej]. assert (i < length (rb_joints l))%nat by (apply nth_error_Some; rewrite Ej; discriminate). lia.
Qed.

Lemma same_joints a b : same_robot a b -> length (rb_joints a) = length (rb_joints b).
Proof. intros (_ & _ & _ & _ & _ & _ & _ & E). apply (f_equal (@length _)) in E. rewrite !map_length in E. exact E. Qed.
Lemma updated_ok l m : tree l -> updated l m -> rm_lib m = l /\ rm_total m = total_mass l /\
  forall i j, (0 < i)%nat -> nth_error (rb_joints l) i = Some j -> exists d, nth_error (rm_jd m) i = Some d /\ axis_of l i j d.
Proof.
  intros T (m0 & m1 & junk & first & E1 & S & E2). destruct (load_ok junk first m0) as (m2 & E & A & B & C). rewrite E in E1. injection E1 as <-.
  destruct (update_ok l m2 T) as (m3 & E3 & A3 & B3 & C3); [rewrite C; symmetry; apply same_joints, S|]. rewrite E3 in E2. injection E2 as <-.
  split; [exact A3|]. split; [rewrite B3, B; symmetry; apply total_same, S|exact C3].
Qed.
(** a model can be loaded and updated *)
Lemma updated_exists (l : rb) (m0 : rmodel) (junk : nat -> joint_data) (first : rb) : tree l -> same_robot l first -> exists m1 m, rm_load junk (Some first) m0 = Ok m1 /\ rm_update l m1 = Ok m /\ updated l m.
Proof.
  intros T S. destruct (load_ok junk first m0) as (m1 & E & A & B & C). destruct (update_ok l m1 T) as (m & E3 & _); [rewrite C; symmetry; apply same_joints, S|].
  exists m1, m. split; [exact E|]. split; [exact E3|]. exists m0, m1, junk, first. auto.
Qed.

(** ** Jacobians *)
(** the velocity of rotation and of the point [t] of a body which moves with the twist (w, v) *)
Definition v6_at (t w v : v3) (r : nat) : R := v6_get w (v3add v (v3cross w t)) r.
Definition sel_row (k : spatial_type) (r : nat) : nat := match k with TRANSLATION => 3 + r | _ => r end.
Definition sel_rows (k : spatial_type) : nat := match k with COMPLETE => 6 | _ => 3 end.

Lemma sum_set_columns n q d (a b x : nat -> R) : (q + d <= n)%nat -> (forall c, (q <= c < q + d)%nat -> a c = 0) ->
  Rsum n (fun c => (if in_block q d c then b (c - q)%nat else a c) * x c) = Rsum n (fun c => a c * x c) + Rsum d (fun c => b c * x (q + c)%nat).
Proof.
  intros H Z. replace n with (q + (d + (n - q - d)))%nat by lia. rewrite !Rsum_split.
  assert (A : Rsum q (fun c => (if in_block q d c then b (c - q)%nat else a c) * x c) = Rsum q (fun c => a c * x c)).
  { apply Rsum_ext. intros c Hc. unfold in_block. destruct (Nat.leb_spec q c); [lia|]. reflexivity. }
  assert (B : Rsum d (fun i => (if in_block q d (q + i) then b (q + i - q)%nat else a (q + i)%nat) * x (q + i)%nat) = Rsum d (fun c => b c * x (q + c)%nat)).
  { apply Rsum_ext. intros c Hc. unfold in_block. destruct (Nat.leb_spec q (q + c)); [|lia]. destruct (Nat.ltb_spec (q + c) (q + d)); [|lia]. cbn [andb].
    replace (q + c - q)%nat with c by lia. reflexivity. }
  assert (C : Rsum (n - q - d) (fun i => (if in_block q d (q + (d + i)) then b (q + (d + i) - q)%nat else a (q + (d + i))%nat) * x (q + (d + i))%nat) =
              Rsum (n - q - d) (fun i => a (q + (d + i))%nat * x (q + (d + i))%nat)).
  { apply Rsum_ext. intros c Hc. unfold in_block. destruct (Nat.leb_spec q (q + (d + c))); [|lia]. destruct (Nat.ltb_spec (q + (d + c)) (q + d)); [lia|]. reflexivity. }
  assert (D : Rsum d (fun i => a (q + i)%nat * x (q + i)%nat) = 0).
  { apply Rsum_zero. intros c Hc. rewrite Z by lia. ring. }
  rewrite A, B, C, D. ring.
Qed.

Lemma selective_entry k t m : mrows m = 6%nat -> k <> SP_UNDEFINED ->
  exists B, st_applySelective k t (sel_rows k) (mcols m) m = Ok B /\ mrows B = sel_rows k /\ mcols B = mcols m /\
    forall r c, (r < sel_rows k)%nat -> (c < mcols m)%nat -> mget B r c = v6_at t (angular m c) (linear m c) (sel_row k r).
Proof.
  intros H N. destruct (st_selective k t m (sel_rows k) H) as (full & part & E & P & A & B & C); [destruct k; [congruence| | |]; reflexivity|].
  exists part. split; [exact P|]. split; [exact A|]. split; [exact B|]. intros r c Hr Hc.
  destruct (st_apply_ok t m H) as (f & Ef & F1 & F2 & F3). rewrite E in Ef. injection Ef as <-.
  rewrite (meq_get _ _ _ _ C) by lia. cbn [mblock mget].
  assert (ST : forall rr, (rr < 6)%nat -> mget full rr c = v6_at t (angular m c) (linear m c) rr).
  { intros rr Hrr. rewrite F3 by lia. unfold v6_at, v6_get, angular, linear, v3add, v3cross. cbn [vx vy vz].
    destruct rr as [|[|[|[|[|[|rr]]]]]]; [| | | | | |lia]; cbn [st_entry]; ring. }
  destruct k; cbn [sel_row sel_rows] in *; rewrite ?Nat.add_0_l; apply ST; lia.
Qed.

(** the part of the velocity due to one joint *)
Lemma rotation_cross r a b : rotation r -> m3app r (v3cross a b) = v3cross (m3app r a) (m3app r b).
Proof. intros H. rewrite <- !skew_cross, <- !m3app_mul, rotation_skew by exact H. reflexivity. Qed.
Lemma v6_sum t n (A : nat -> nat -> R) (x : nat -> R) r :
  Rsum n (fun c => v6_at t (V3 (A 0%nat c) (A 1%nat c) (A 2%nat c)) (V3 (A 3%nat c) (A 4%nat c) (A 5%nat c)) r * x c) =
  let W k := Rsum n (fun c => A k c * x c) in
  v6_at t (V3 (W 0%nat) (W 1%nat) (W 2%nat)) (V3 (W 3%nat) (W 4%nat) (W 5%nat)) r.
Proof.
  unfold v6_at, v6_get, v3add, v3cross. cbn [vx vy vz].
  destruct r as [|[|[|[|[|r]]]]]; cbn zeta; try reflexivity;
    rewrite <- !Rsum_scal_r, <- Rsum_minus, <- Rsum_plus; apply Rsum_ext; intros; ring.
Qed.
Lemma joint_columns l i j d t dq r : tree l -> axis_of l i j d ->
  Rsum (j_dof j) (fun c => v6_at t (angular (snd d) c) (linear (snd d) c) r * vget dq (j_q j + c)) =
  v6_at t (m3app (body_O l i) (joint_angular j dq))
          (v3add (m3app (body_O l i) (joint_linear j dq)) (v3cross (body_o l i) (m3app (body_O l i) (joint_angular j dq)))) r.
Proof.
  intros T (F1 & F2 & F3 & x & Ex & AX).
  assert (RX : rotation (sx_E x)) by (pose proof T as (_ & _ & _ & _ & _ & RX & _); exact (RX i x Ex)).
  assert (EO : body_O l i = m3trans (sx_E x)) by (unfold body_O; rewrite Ex; reflexivity).
  assert (Eo : body_o l i = m3app (m3trans (sx_E x)) (m3app (sx_E x) (sx_r x))).
  { unfold body_o. rewrite Ex, <- m3app_mul, (proj2 (proj1 RX)), m3app_id. reflexivity. }
  rewrite EO, Eo, <- rotation_cross by (apply rotation_trans, RX).
  unfold angular, linear. rewrite (v6_sum t (j_dof j) (mget (snd d)) (fun c => vget dq (j_q j + c)) r). cbn beta zeta.
  assert (W : forall k, (k < 6)%nat -> Rsum (j_dof j) (fun c => mget (snd d) k c * vget dq (j_q j + c)) =
                Rsum 6 (fun h => mget (sx_toMatrix (sx_inverse x)) k h * joint_velocity j dq h)).
  { intros k Hk. transitivity (Rsum (j_dof j) (fun c => Rsum 6 (fun h => mget (sx_toMatrix (sx_inverse x)) k h * mget (j_S j) h c * vget dq (j_q j + c)))).
    - apply Rsum_ext. intros c Hc. rewrite AX, <- Rsum_scal_r by assumption. reflexivity.
    - rewrite Rsum_swap. apply Rsum_ext. intros h _. unfold joint_velocity. rewrite <- Rsum_scal. apply Rsum_ext. intros; ring. }
  rewrite !W by lia. unfold joint_angular, joint_linear. generalize (joint_velocity j dq). intros y. clear. destruct x as [e [p q s]].
  f_equal; apply v3_ext; cbn; ring.
Qed.

Lemma v6_at_add t w1 v1 w2 v2 r : v6_at t (v3add w1 w2) (v3add v1 v2) r = v6_at t w1 v1 r + v6_at t w2 v2 r.
Proof. unfold v6_at, v6_get, v3add, v3cross. cbn [vx vy vz]. destruct r as [|[|[|[|[|r]]]]]; ring. Qed.
Lemma v6_at_zero t r : v6_at t v3zero v3zero r = 0.
Proof. unfold v6_at, v6_get, v3add, v3cross, v3zero. cbn [vx vy vz]. destruct r as [|[|[|[|[|r]]]]]; ring. Qed.

Lemma loop_ok k m t dq fuel : tree (rm_lib m) -> k <> SP_UNDEFINED -> 
  (forall i j, (0 < i)%nat -> nth_error (rb_joints (rm_lib m)) i = Some j -> exists d, nth_error (rm_jd m) i = Some d /\ axis_of (rm_lib m) i j d) ->
  forall id J w v, (id < fuel)%nat -> movable (rm_lib m) id -> mrows J = sel_rows k -> mcols J = rb_q (rm_lib m) -> twist (rm_lib m) dq id w v ->
  (forall i j c r, (0 < i <= id)%nat -> nth_error (rb_joints (rm_lib m)) i = Some j -> (j_q j <= c < j_q j + j_dof j)%nat -> mget J r c = 0) ->
  exists J', jacobian_loop fuel k m t id J = Ok J' /\ mrows J' = sel_rows k /\ mcols J' = rb_q (rm_lib m) /\
    forall r, (r < sel_rows k)%nat -> vget (mulv J' dq) r = vget (mulv J dq) r + v6_at t w v (sel_row k r).
Proof.
  intros T Nk JD. induction fuel as [|f IH]; intros id J w v Hf Mi RJ CJ Tw Z; [lia|]. cbn [jacobian_loop].
  destruct (Nat.eqb_spec id 0) as [E0|N0].
  - subst id. exists J. split; [reflexivity|]. split; [exact RJ|]. split; [exact CJ|]. intros r Hr. inversion Tw; [|lia].
    rewrite v6_at_zero. ring.
  - inversion Tw as [E|i p j w' v' I0 Ep Ej Tp Ei Ew Ev]; [subst id; lia|]. subst i w v.
    unfold vec_at. rewrite Ej. cbn [bind]. destruct (JD id j I0 Ej) as (d & Ed & AX). rewrite Ed. cbn [bind].
    pose proof T as (_ & _ & _ & _ & _ & _ & _ & LL & SJ & _ & DJ & _).
    destruct (SJ id j I0 Ej) as (_ & S6 & SC & Q).
    pose proof AX as (A1 & A2 & A3 & _). rewrite A1, CJ.
    rewrite assert_true by (apply Nat.leb_le; exact Q).
    destruct (selective_entry k t (snd d) A2 Nk) as (B & EB & B1 & B2 & B3). rewrite RJ. rewrite A3 in EB, B2, B3. rewrite EB. cbn [bind]. rewrite Ep. cbn [bind].
    destruct (IH p (mset_block J 0 (j_q j) B) w' v') as (J' & EJ & R' & C' & V).
    + specialize (LL id p I0 Ep). lia.
    + specialize (LL id p I0 Ep). unfold movable in *. lia.
    + exact RJ.
    + exact CJ.
    + exact Tp.
    + intros i j' c r Hi Ej' Hc. cbn [mset_block mget]. specialize (LL id p I0 Ep).
      destruct (in_block 0 (mrows B) r && in_block (j_q j) (mcols B) c) eqn:IB.
      * exfalso. apply andb_true_iff in IB. destruct IB as [_ IB]. unfold in_block in IB. rewrite B2 in IB. apply andb_true_iff in IB. destruct IB as [I1 I2].
        apply Nat.leb_le in I1. apply Nat.ltb_lt in I2. apply (DJ i id j' j c); [lia|exact Ej'|exact Ej|lia].
      * apply (Z i j' c r); [lia|exact Ej'|exact Hc].
    + exists J'. split; [exact EJ|]. split; [exact R'|]. split; [exact C'|]. intros r Hr. rewrite V by exact Hr.
      rewrite (v6_at_add t w' v'), <- (joint_columns (rm_lib m) id j d t dq (sel_row k r) T AX).
      unfold mulv. cbn [vget mset_block mcols mget]. rewrite CJ.
      assert (E : Rsum (rb_q (rm_lib m)) (fun c => (if in_block 0 (mrows B) r && in_block (j_q j) (mcols B) c then mget B (r - 0) (c - j_q j) else mget J r c) * vget dq c) =
              Rsum (rb_q (rm_lib m)) (fun c => mget J r c * vget dq c) + Rsum (j_dof j) (fun c => mget B r c * vget dq (j_q j + c))).
      { replace (in_block 0 (mrows B) r) with true by (unfold in_block; rewrite B1; symmetry; apply andb_true_intro; split; [apply Nat.leb_le|apply Nat.ltb_lt]; lia).
        cbn [andb]. rewrite B2, Nat.sub_0_r.
        apply (sum_set_columns (rb_q (rm_lib m)) (j_q j) (j_dof j) (fun c => mget J r c) (fun c => mget B r c) (vget dq) Q).
        intros c Hc. apply (Z id j c r); [lia|exact Ej|exact Hc]. }
      rewrite E. assert (E2 : Rsum (j_dof j) (fun c => mget B r c * vget dq (j_q j + c)) =
         Rsum (j_dof j) (fun c => v6_at t (angular (snd d) c) (linear (snd d) c) (sel_row k r) * vget dq (j_q j + c))).
      { apply Rsum_ext. intros c Hc. rewrite B3 by assumption. reflexivity. }
      rewrite E2. ring.
Qed.

(** J dq is the velocity of the tag *)
Lemma tag_jacobian_ok l m k id p dq w v : tree l -> updated l m -> link l id -> k <> SP_UNDEFINED -> twist l dq (link_body l id) w v ->
  exists J, tag_jacobian k m id p = Ok J /\ mrows J = sel_rows k /\ mcols J = rb_q l /\
    forall r, (r < sel_rows k)%nat -> vget (mulv J dq) r = v6_at (v3add (link_o l id) (m3app (link_O l id) p)) w v (sel_row k r).
Proof.
  intros T U L Nk Tw. destruct (updated_ok l m T U) as (El & _ & JD). subst l. unfold tag_jacobian.
  assert (E : (if isLinkFixed (rm_lib m) id
     then bind (vec_at (rb_fixed (rm_lib m)) (id - rb_disc (rm_lib m))) (fun f => Ok (fst f)) else Ok id) = Ok (link_body (rm_lib m) id)).
  { unfold link_body. destruct (t_link (rm_lib m) id L) as [M|(b & x & F & M)].
    - rewrite (isLinkFixed_movable _ T id M). reflexivity.
    - rewrite (isLinkFixed_fixed _ id b x F). unfold vec_at. destruct F as [_ ->]. reflexivity. }
  rewrite E. cbn [bind]. replace (getNumberOfElements k) with (Ok (sel_rows k)) by (destruct k; [congruence| | |]; reflexivity). cbn [bind].
  rewrite (link_root _ T id p L). cbn [bind].
  destruct (loop_ok k m (v3add (link_o (rm_lib m) id) (m3app (link_O (rm_lib m) id) p)) dq (S (link_body (rm_lib m) id)) T Nk JD
      (link_body (rm_lib m) id) (mzero (sel_rows k) (getDOFNumber m)) w v) as (J & EJ & R & C & V); auto.
  - apply link_body_movable; assumption.
  - exists J. split; [exact EJ|]. split; [exact R|]. split; [exact C|]. intros r Hr. rewrite V by exact Hr. unfold mulv, mzero; cbn [vget mcols mget].
    rewrite (Rsum_zero (getDOFNumber m)) by (intros; ring). ring.
Qed.
