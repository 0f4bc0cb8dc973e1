From Coq Require Import List Reals Arith Lra Lia Bool.
From Verif Require Import Base BaseFacts RSum Matrix Mat3 SmallMatrix CubicFacts TripleIntegratorFacts PointMass6z PointMass6zSpec.
Open Scope R_scope.

(** state of an axis in the 6d vector *)
Definition cpos (c : vec) (a : axis) : R := vget c (3 * axis_index a).
Definition cvel (c : vec) (a : axis) : R := vget c (3 * axis_index a + 1).
Definition cacc (c : vec) (a : axis) : R := vget c (3 * axis_index a + 2).

Lemma omega_pos h : 0 < h -> 0 < getOmega h.
Proof. intros H. unfold getOmega, gravity. apply sqrt_lt_R0. apply Rdiv_lt_0_compat; lra. Qed.
Lemma omega_sq h : 0 < h -> getOmega h * getOmega h = gravity / h.
Proof. intros H. unfold getOmega. apply sqrt_sqrt. unfold gravity. apply Rlt_le, Rdiv_lt_0_compat; lra. Qed.

Section Step.
  Variables (Ts T w : R).
  Hypothesis (Hw : w <> 0) (HT : T <> 0).
  Definition sp (p v a u t : R) : R := p + sinh (t * w) / w * v + (cosh (t * w) - 1) / (w * w) * a + (t - sinh (t * w) / w) * ((u - (p - a / (w * w))) / T).
  Definition sv (p v a u t : R) : R := cosh (t * w) * v + sinh (t * w) / w * a + (1 - cosh (t * w)) * ((u - (p - a / (w * w))) / T).
  Definition sa (p v a u t : R) : R := w * sinh (t * w) * v + cosh (t * w) * a - w * sinh (t * w) * ((u - (p - a / (w * w))) / T).

  Lemma step_axis c u a (y := vadd (mulv (getA6 Ts w T) c) (mulv (getB6 Ts w T) u)) :
    cpos y a = sp (cpos c a) (cvel c a) (cacc c a) (vget u (axis_index a)) Ts /\
    cvel y a = sv (cpos c a) (cvel c a) (cacc c a) (vget u (axis_index a)) Ts /\
    cacc y a = sa (cpos c a) (cvel c a) (cacc c a) (vget u (axis_index a)) Ts.
  Proof.
    unfold y, sp, sv, sa, cpos, cvel, cacc. destruct a; cbn [axis_index Nat.mul Nat.add];
    cbn - [Rplus Rmult Rminus Rdiv Ropp Rinv cosh sinh IZR];
    (split; [|split]); field; auto.
  Qed.
End Step.

(** ** derivatives in time *)
Lemma d_scaled (f f' : R -> R) w t : (forall x, derivable_pt_lim f x (f' x)) -> derivable_pt_lim (fun t => f (t * w)) t (w * f' (t * w)).
Proof.
  intros H. rewrite Rmult_comm. apply (derivable_pt_lim_comp (fun s => s * w) f); [|apply H].
  apply (derivable_ext (fun s => w * s)); [intros; ring|apply d_lin].
Qed.
Lemma d_sinh w t : derivable_pt_lim (fun t => sinh (t * w)) t (w * cosh (t * w)).
Proof. apply d_scaled. apply derivable_pt_lim_sinh. Qed.
Lemma d_cosh w t : derivable_pt_lim (fun t => cosh (t * w)) t (w * sinh (t * w)).
Proof. apply d_scaled. apply derivable_pt_lim_cosh. Qed.
Lemma d_scal f c t l : derivable_pt_lim f t l -> derivable_pt_lim (fun t => c * f t) t (c * l).
Proof. apply derivable_pt_lim_scal. Qed.

Lemma sp_derivative T w p v a u t : w <> 0 -> T <> 0 -> derivable_pt_lim (sp T w p v a u) t (sv T w p v a u t).
Proof.
  intros Hw HT. set (k := (u - (p - a / (w * w))) / T).
  set (k0 := p - a / (w * w)). assert (K0 : k0 = p - a / (w * w)) by reflexivity. clearbody k0.
  apply (derivable_ext (fun t => k0 + k * t + (v / w - k / w) * sinh (t * w) + (a / (w * w)) * cosh (t * w))).
  { intros s. unfold sp. fold k. rewrite K0. field. exact Hw. }
  eapply derivable_eq'; [|repeat apply d_plus; [apply (derivable_pt_lim_const k0)|apply d_lin|apply d_scal, d_sinh|apply d_scal, d_cosh]].
  unfold sv. fold k. field. exact Hw.
Qed.
Lemma sv_derivative T w p v a u t : w <> 0 -> T <> 0 -> derivable_pt_lim (sv T w p v a u) t (sa T w p v a u t).
Proof.
  intros Hw HT. set (k := (u - (p - a / (w * w))) / T).
  apply (derivable_ext (fun t => k + (a / w) * sinh (t * w) + (v - k) * cosh (t * w))).
  { intros s. unfold sv. fold k. field. exact Hw. }
  eapply derivable_eq'; [|repeat apply d_plus; [apply (derivable_pt_lim_const k)|apply d_scal, d_sinh|apply d_scal, d_cosh]].
  unfold sa. fold k. field. exact Hw.
Qed.
Lemma sa_dynamics T w p v a u t : w <> 0 -> T <> 0 ->
  sp T w p v a u t - sa T w p v a u t / (w * w) = (p - a / (w * w)) + t / T * (u - (p - a / (w * w))).
Proof. intros Hw HT. unfold sp, sa. field. auto. Qed.

(** ** the public functions *)
Lemma along_convert c h a : along a (pm_position (convertCoMState_to_3d c h)) = cpos c a /\
  along a (pm_velocity (convertCoMState_to_3d c h)) = cvel c a /\ along a (pm_acceleration (convertCoMState_to_3d c h)) = cacc c a.
Proof. destruct a; repeat split. Qed.

Lemma is_cop_iff h s a k : 0 < h -> is_cop h s a k <-> k = along a (pm_position s) - along a (pm_acceleration s) / (getOmega h * getOmega h).
Proof.
  intros Hh. unfold is_cop. rewrite omega_sq by exact Hh. unfold gravity. split.
  - intros E. set (p := along a (pm_position s)) in *. set (q := along a (pm_acceleration s)) in *.
    replace (q / (98 / 10 / h)) with (h * q / (98 / 10)) by (field; lra). rewrite <- E. field.
  - intros ->. field. lra.
Qed.
Lemma evaluate_axis Ts T h c u a : 0 < h -> T <> 0 -> let s := evaluate Ts T h c u in let w := getOmega h in
  along a (pm_position s) = sp T w (cpos c a) (cvel c a) (cacc c a) (vget u (axis_index a)) Ts /\
  along a (pm_velocity s) = sv T w (cpos c a) (cvel c a) (cacc c a) (vget u (axis_index a)) Ts /\
  along a (pm_acceleration s) = sa T w (cpos c a) (cvel c a) (cacc c a) (vget u (axis_index a)) Ts.
Proof.
  intros Hh HT. cbv zeta. unfold evaluate. cbv zeta.
  set (w := getOmega h). assert (Hw : w <> 0) by (pose proof (omega_pos h Hh); unfold w; lra).
  destruct (along_convert (vadd (mulv (getA6 Ts w T) c) (mulv (getB6 Ts w T) u)) h a) as (A & B & C). rewrite A, B, C.
  apply step_axis; assumption.
Qed.

(** the CoP moves linearly and reaches the commanded one *)
Theorem cop_interpolates Ts T h c u a k0 : 0 < h -> T <> 0 -> is_cop h (state_of c h) a k0 ->
  is_cop h (evaluate Ts T h c u) a (k0 + Ts / T * (vget u (axis_index a) - k0)).
Proof.
  intros Hh HT K. apply is_cop_iff in K; [|exact Hh]. apply is_cop_iff; [exact Hh|].
  destruct (along_convert c h a) as (A & B & C). unfold state_of in K. rewrite A, C in K.
  destruct (evaluate_axis Ts T h c u a Hh HT) as (P & V & Q). rewrite P, Q.
  assert (Hw : getOmega h <> 0) by (pose proof (omega_pos h Hh); lra).
  rewrite sa_dynamics by assumption. rewrite <- K. reflexivity.
Qed.
Theorem cop_reached T h c u a : 0 < h -> T <> 0 -> is_cop h (evaluate T T h c u) a (vget u (axis_index a)).
Proof.
  intros Hh HT. set (k0 := along a (pm_position (state_of c h)) - along a (pm_acceleration (state_of c h)) / (getOmega h * getOmega h)).
  assert (K : is_cop h (state_of c h) a k0) by (apply is_cop_iff; [exact Hh|reflexivity]).
  pose proof (cop_interpolates T T h c u a k0 Hh HT K) as E.
  replace (k0 + T / T * (vget u (axis_index a) - k0)) with (vget u (axis_index a)) in E by (field; exact HT). exact E.
Qed.
Theorem evaluate_derivatives T h c u a t : 0 < h -> T <> 0 ->
  derivable_pt_lim (fun t => along a (pm_position (evaluate t T h c u))) t (along a (pm_velocity (evaluate t T h c u))) /\
  derivable_pt_lim (fun t => along a (pm_velocity (evaluate t T h c u))) t (along a (pm_acceleration (evaluate t T h c u))).
Proof.
  intros Hh HT. assert (Hw : getOmega h <> 0) by (pose proof (omega_pos h Hh); lra).
  destruct (evaluate_axis t T h c u a Hh HT) as (P & V & Q). rewrite V, Q. split.
  - eapply derivable_ext; [|apply sp_derivative; eassumption]. intros s. symmetry. apply evaluate_axis; assumption.
  - eapply derivable_ext; [|apply sv_derivative; eassumption]. intros s. symmetry. apply evaluate_axis; assumption.
Qed.
Lemma sinh0 : sinh (0 * 0) = 0.
Proof. rewrite Rmult_0_l. apply sinh_0. Qed.
Theorem evaluate_start T h c u a : 0 < h -> T <> 0 -> let s := evaluate 0 T h c u in
  along a (pm_position s) = along a (pm_position (state_of c h)) /\ along a (pm_velocity s) = along a (pm_velocity (state_of c h)) /\
  along a (pm_acceleration s) = along a (pm_acceleration (state_of c h)).
Proof.
  intros Hh HT. cbv zeta. destruct (along_convert c h a) as (A & B & C). unfold state_of. rewrite A, B, C.
  destruct (evaluate_axis 0 T h c u a Hh HT) as (P & V & Q). rewrite P, V, Q. unfold sp, sv, sa. rewrite Rmult_0_l, sinh_0, cosh_0.
  assert (Hw : getOmega h <> 0) by (pose proof (omega_pos h Hh); lra). repeat split; field; auto.
Qed.
Theorem evaluate_height Ts T h c u : vz (pm_position (evaluate Ts T h c u)) = h /\ vz (pm_velocity (evaluate Ts T h c u)) = 0 /\ vz (pm_acceleration (evaluate Ts T h c u)) = 0.
Proof. repeat split. Qed.

(** subsampling and continuing to the end of the interval *)
Lemma sinh_plus x y : sinh (x + y) = sinh x * cosh y + cosh x * sinh y.
Proof.
  unfold sinh, cosh. rewrite Ropp_plus_distr, !exp_plus. field.
Qed.
Lemma cosh_plus x y : cosh (x + y) = cosh x * cosh y + sinh x * sinh y.
Proof. unfold sinh, cosh. rewrite Ropp_plus_distr, !exp_plus. field. Qed.

Theorem evaluate_continues Ts T h c u a : 0 < h -> 0 < T -> 0 <= Ts < T ->
  let s := evaluate Ts T h c u in let e := evaluate (T - Ts) (T - Ts) h (convertCoMState_to_6d s) u in let f := evaluate T T h c u in
  along a (pm_position e) = along a (pm_position f) /\ along a (pm_velocity e) = along a (pm_velocity f) /\ along a (pm_acceleration e) = along a (pm_acceleration f).
Proof.
  intros Hh HT HTs. cbv zeta.
  assert (Hw : getOmega h <> 0) by (pose proof (omega_pos h Hh); lra).
  assert (E : cpos (convertCoMState_to_6d (evaluate Ts T h c u)) a = along a (pm_position (evaluate Ts T h c u)) /\
              cvel (convertCoMState_to_6d (evaluate Ts T h c u)) a = along a (pm_velocity (evaluate Ts T h c u)) /\
              cacc (convertCoMState_to_6d (evaluate Ts T h c u)) a = along a (pm_acceleration (evaluate Ts T h c u))).
  { destruct a; repeat split. }
  destruct E as (E1 & E2 & E3).
  destruct (evaluate_axis (T - Ts) (T - Ts) h (convertCoMState_to_6d (evaluate Ts T h c u)) u a Hh) as (P & V & Q); [lra|].
  destruct (evaluate_axis T T h c u a Hh) as (P1 & V1 & Q1); [lra|].
  destruct (evaluate_axis Ts T h c u a Hh) as (P2 & V2 & Q2); [lra|].
  rewrite P, V, Q, P1, V1, Q1, E1, E2, E3, P2, V2, Q2. set (w := getOmega h) in *.
  set (p := cpos c a). set (v := cvel c a). set (q := cacc c a). set (n := vget u (axis_index a)).
  (* slope of the cop is the same *)
  assert (K : (n - (sp T w p v q n Ts - sa T w p v q n Ts / (w * w))) / (T - Ts) = (n - (p - q / (w * w))) / T).
  { rewrite sa_dynamics by (auto; lra). field. repeat split; auto; lra. }
  set (X := sp T w p v q n Ts) in *. set (Y := sv T w p v q n Ts). set (Z := sa T w p v q n Ts) in *.
  set (S1 := sinh ((T - Ts) * w)). set (C1 := cosh ((T - Ts) * w)). set (S2 := sinh (Ts * w)). set (C2 := cosh (Ts * w)).
  assert (HS : sinh (T * w) = S1 * C2 + C1 * S2).
  { replace (T * w) with ((T - Ts) * w + Ts * w) by ring. apply sinh_plus. }
  assert (HC : cosh (T * w) = C1 * C2 + S1 * S2).
  { replace (T * w) with ((T - Ts) * w + Ts * w) by ring. apply cosh_plus. }
  unfold sp, sv, sa. rewrite K, HS, HC. fold S1 C1. unfold X, Y, Z, sp, sv, sa. fold S2 C2.
  set (k := (n - (p - q / (w * w))) / T).
  repeat split; field; auto.
Qed.

(** outputs *)
Theorem cop_output h c a : is_cop h (state_of c h) a (vget (mulv (getDdz6 h) c) (axis_index a)).
Proof.
  unfold is_cop, gravity. destruct (along_convert c h a) as (A & _ & C). unfold state_of. rewrite A, C. destruct a; unfold cpos, cacc;
  cbn - [Rplus Rmult Rminus Rdiv Ropp Rinv IZR]; unfold gravity; field.
Qed.
(** the rate of the CoP on the interval: (commanded - current) / T *)
Theorem cop_rate T h c u a k0 : 0 < h -> T <> 0 -> is_cop h (state_of c h) a k0 ->
  vget (vadd (mulv (getD6 T (getOmega h)) c) (mulv (getE6 T) u)) (axis_index a) = (vget u (axis_index a) - k0) / T.
Proof.
  intros Hh HT K. apply is_cop_iff in K; [|exact Hh]. destruct (along_convert c h a) as (A & _ & C). unfold state_of in K. rewrite A, C in K. subst k0.
  assert (Hw : getOmega h <> 0) by (pose proof (omega_pos h Hh); lra).
  destruct a; unfold cpos, cacc; cbn - [Rplus Rmult Rminus Rdiv Ropp Rinv IZR getOmega]; field; auto.
Qed.
(** the capture point position + velocity / omega moves with the velocity given by getDcpv6 *)
Theorem capture_point_velocity T h c u a t : 0 < h -> T <> 0 ->
  derivable_pt_lim (fun t => along a (pm_position (evaluate t T h c u)) + along a (pm_velocity (evaluate t T h c u)) / getOmega h) t
    (vget (mulv (getDcpv6 (getOmega h)) (convertCoMState_to_6d (evaluate t T h c u))) (axis_index a)).
Proof.
  intros Hh HT. destruct (evaluate_derivatives T h c u a t Hh HT) as [P V].
  assert (Hw : getOmega h <> 0) by (pose proof (omega_pos h Hh); lra).
  eapply derivable_eq'; [|apply (d_plus (fun t => along a (pm_position (evaluate t T h c u))) (fun t => along a (pm_velocity (evaluate t T h c u)) / getOmega h)); [exact P|]].
  2: { apply (derivable_ext (fun t => / getOmega h * along a (pm_velocity (evaluate t T h c u)))); [intros; unfold Rdiv; ring|]. apply d_scal, V. }
  set (s := evaluate t T h c u). destruct a; cbn - [Rplus Rmult Rminus Rdiv Ropp Rinv IZR getOmega]; field; auto.
Qed.

(** ** C30 *)
Theorem convert_round_trip_6 c h : vlen c = 6%nat -> veq (convertCoMState_to_6d (convertCoMState_to_3d c h)) c.
Proof.
  intros L. split; [simpl; auto|]. simpl. intros i Hi.
  destruct i as [|[|[|[|[|[|i]]]]]]; try reflexivity. lia.
Qed.
Theorem convert_round_trip_3 s h : let s' := convertCoMState_to_3d (convertCoMState_to_6d s) h in
  (forall a, along a (pm_position s') = along a (pm_position s) /\ along a (pm_velocity s') = along a (pm_velocity s) /\ along a (pm_acceleration s') = along a (pm_acceleration s)) /\
  vz (pm_position s') = h /\ vz (pm_velocity s') = 0 /\ vz (pm_acceleration s') = 0.
Proof. cbv zeta. split; [intros []; repeat split|repeat split]. Qed.
