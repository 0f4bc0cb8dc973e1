From Coq Require Import List Reals Lra.
From Verif Require Import Base BaseFacts LeftRight Mat2 FootParameters FootParametersSpec.
Import ListNotations.
Open Scope R_scope.

Ltac v2solve := unfold transform2, v2add, m2app, mirror, mirror_matrix; cbn; apply v2_eq; cbn; try lra; try ring; try field.

Theorem foot_ads_round_trip p x R pos : x = LEFT \/ x = RIGHT ->
  bind (getADSPositionFromFoot (finalize p) x R pos) (getFootPositionFromADS (finalize p) x R) = Ok pos /\
  bind (getFootPositionFromADS (finalize p) x R pos) (getADSPositionFromFoot (finalize p) x R) = Ok pos.
Proof. intros [->| ->]; split; cbn; f_equal; v2solve. Qed.

Theorem foot_other_foot p x y R pos : the_other x y ->
  bind (getADSPositionFromFoot (finalize p) x R pos) (getFootPositionFromADS (finalize p) y R) =
  Ok (v2add pos (m2app R (V2 0 (match y with LEFT => feet_dist_default p | _ => - feet_dist_default p end)))).
Proof. intros [[-> ->]|[-> ->]]; cbn; f_equal; v2solve. Qed.

Theorem foot_mirror p x y R pos b : the_other x y ->
  (exists f g, getFootPositionFromADS (finalize p) x R pos = Ok f /\ getFootPositionFromADS (finalize p) y (mirror_matrix R) (mirror pos) = Ok g /\ g = mirror f) /\
  (exists f g, getADSPositionFromFoot (finalize p) x R pos = Ok f /\ getADSPositionFromFoot (finalize p) y (mirror_matrix R) (mirror pos) = Ok g /\ g = mirror f) /\
  (b = FB_UNDEFINED \/ exists f g, getFootBounds (finalize p) x b = Ok f /\ getFootBounds (finalize p) y b = Ok g /\ g = mirror_bounds f).
Proof.
  intros [[-> ->]|[-> ->]]; (split; [|split]).
  1,2,4,5: do 2 eexists; split; [cbn; reflexivity|split; [cbn; reflexivity|v2solve]].
  all: destruct b; [left; reflexivity| | |]; right; do 2 eexists; (split; [reflexivity|split; [reflexivity|]]); apply m2_eq; cbn; lra.
Qed.

Theorem foot_rejected p x R pos b :
  (getFootPositionFromADS (finalize p) LR_UNDEFINED R pos = Throw /\ getADSPositionFromFoot (finalize p) LR_UNDEFINED R pos = Throw /\
   getFootBounds (finalize p) LR_UNDEFINED b = Throw) /\ getFootBounds (finalize p) x FB_UNDEFINED = Throw.
Proof. split; [repeat split; reflexivity|]. destruct x; reflexivity. Qed.

Theorem bounds_ordered p x b m : 0 <= max_step_len p -> min_feet_dist p <= max_feet_dist p -> getFootBounds (finalize p) x b = Ok m -> ordered m.
Proof. intros A B. destruct x, b; cbn; intros E; try discriminate; inversion E; subst m; split; cbn; lra. Qed.
(** step bounds: a side step away from the support foot, within the distances *)
Theorem bounds_meaning p x m v : x = LEFT \/ x = RIGHT -> getFootBounds (finalize p) x WITH_RESPECT_TO_SS = Ok m ->
  (within m v <-> Rabs (ux v) <= max_step_len p /\
     min_feet_dist p <= (match x with LEFT => uy v | _ => - uy v end) <= max_feet_dist p).
Proof.
  intros [->| ->]; cbn; intros E; inversion E; subst m; unfold within; cbn; split; intros H; repeat split; try apply Rabs_le; try lra;
    destruct H as [H H']; unfold Rabs in H; destruct (Rcase_abs (ux v)); lra.
Qed.
(** fixed positions agree with the position functions *)
Theorem fixed_positions p x y : the_other x y ->
  (exists b v, getFootBounds (finalize p) x WITH_RESPECT_TO_ADS = Ok b /\ getFootPositionFromADS (finalize p) x m2id v2zero = Ok v /\ only b v) /\
  (exists b v, getFootBounds (finalize p) x ALIGNED_TO_SS = Ok b /\ getADSPositionFromFoot (finalize p) y m2id v2zero = Ok v /\ only b v).
Proof.
  assert (O : forall c, only (M2 0 0 c c) (V2 0 c)).
  { intros c w. unfold within; cbn. split; [intros []; apply v2_eq; cbn; lra|intros ->; cbn; lra]. }
  intros [[-> ->]|[-> ->]]; (split; do 2 eexists; (split; [cbn; reflexivity|split; [cbn; reflexivity|]])); unfold transform2, v2add, m2app, m2id, v2zero; cbn;
   intros w; (split; [intros W; apply O in W; rewrite W; apply v2_eq; cbn; lra|intros ->; apply O; apply v2_eq; cbn; lra]).
Qed.
(** the CoP bounds of a double support are the convex hull of the two feet *)
Theorem cop_bounds p v : 0 <= foot_length p -> 0 <= foot_width p -> 0 <= feet_dist_default p ->
  (within (getADSCoPBounds (finalize p)) v <->
   exists l r fl fr t, getFootPositionFromADS (finalize p) LEFT m2id v2zero = Ok fl /\ getFootPositionFromADS (finalize p) RIGHT m2id v2zero = Ok fr /\
     within (getSSCoPBounds (finalize p)) l /\ within (getSSCoPBounds (finalize p)) r /\ 0 <= t <= 1 /\
     v = v2add (v2scale t (v2add fl l)) (v2scale (1 - t) (v2add fr r))).
Proof.
  intros L W D. set (w := foot_width p) in *. set (d := feet_dist_default p) in *. set (h := foot_length p) in *.
  split.
  - intros [X Y]. cbn in X, Y. fold h w d in X, Y.
    destruct (Req_dec (w + d) 0) as [Z|Z].
    { exists v, v. do 2 eexists. exists 1. split; [cbn; reflexivity|]. split; [cbn; reflexivity|].
      unfold within; cbn. fold h w d. assert (w = 0) by lra. assert (d = 0) by lra. repeat split; try lra.
      unfold transform2, v2add, v2scale, m2app, m2id, v2zero; apply v2_eq; cbn; fold d; rewrite H0; lra. }
    set (t := (uy v + (w + d) / 2) / (w + d)).
    assert (T : t * (w + d) = uy v + (w + d) / 2) by (unfold t; field; exact Z).
    assert (P : 0 < w + d) by lra.
    assert (T0 : 0 <= t <= 1). { split; [apply Rmult_le_reg_r with (w + d)|apply Rmult_le_reg_r with (w + d)]; lra. }
    exists (V2 (ux v) (w / 2 )), (V2 (ux v) (- (w / 2))). do 2 eexists. exists t.
    split; [cbn; reflexivity|]. split; [cbn; reflexivity|]. split; [unfold within; cbn; fold h w d; lra|].
    split; [unfold within; cbn; fold h w d; lra|]. split; [exact T0|].
    unfold transform2, v2add, v2scale, m2app, m2id, v2zero; apply v2_eq; cbn; fold d; [ring|].
    lra.
  - intros (l & r & fl & fr & t & EL & ER & WL & WR & T & ->). cbn in EL, ER. inversion EL; inversion ER; subst fl fr. clear EL ER.
    destruct WL as [[A1 A2] [A3 A4]], WR as [[B1 B2] [B3 B4]]. cbn in A1, A2, A3, A4, B1, B2, B3, B4. fold h w d in A1, A2, A3, A4, B1, B2, B3, B4.
    unfold within, transform2, v2add, v2scale, m2app, m2id, v2zero; cbn. fold h w d. repeat split; nra.
Qed.
