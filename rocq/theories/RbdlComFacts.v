From Coq Require Import String List Reals Arith Lra Lia Bool Permutation.
From Verif Require Import Base BaseFacts Mat3 RSum Matrix RotarySpec SpatialTransform SpatialTransformFacts Condense Rbdl RbdlSpec RbdlFacts.
Import ListNotations.
Open Scope R_scope.

(** ** Poses and Jacobians of tags *)
Theorem tag_pose (l : rb) (m : rmodel) (id : nat) (p : v3) (O : m3) (o : v3) : tree l -> updated l m -> frame l id O o ->
  position_link m id = Ok o /\ orientation_link m id = Ok O /\
  position_point m (id, p) = Ok (v3add o (m3app O p)) /\ orientation_point m (id, p) = Ok O.
Proof.
  intros T U F. destruct (updated_ok l m T U) as (El & _). destruct (link_frame_inv l T id O o F) as [-> ->].
  assert (L : link l id) by (do 2 eexists; exact F). destruct (link_transform l T id L) as (x & E & EO & Eo).
  unfold orientation_point, position_link, orientation_link, position_point. cbn [fst snd]. rewrite El, E. cbn [bind]. rewrite EO, Eo.
  rewrite (link_point l T id p L). repeat split; reflexivity.
Qed.

Lemma rows_v6 t w v (f : nat -> R) : (forall r, (r < 6)%nat -> f r = v6_at t w v r) -> V3 (f 0%nat) (f 1%nat) (f 2%nat) = w /\ V3 (f 3%nat) (f 4%nat) (f 5%nat) = v3add v (v3cross w t).
Proof. intros H. rewrite !H by lia. split; [destruct w|]; reflexivity. Qed.

Theorem tag_velocity (M : R -> rb) (t : R) (dq : vec) (MS : R -> rmodel) (id : nat) (p : v3) :
  motion M t dq -> (forall s, updated (M s) (MS s)) -> link (M t) id ->
  exists P O J Jt Jr,
    (forall s, position_point (MS s) (id, p) = Ok (P s) /\ orientation_point (MS s) (id, p) = Ok (O s)) /\
    jacobian_point COMPLETE (MS t) (id, p) = Ok J /\ mrows J = 6%nat /\ mcols J = getDOFNumber (MS t) /\
    jacobian_point TRANSLATION (MS t) (id, p) = Ok Jt /\ mrows Jt = 3%nat /\ mcols Jt = getDOFNumber (MS t) /\
    jacobian_point ROTATION (MS t) (id, p) = Ok Jr /\ mrows Jr = 3%nat /\ mcols Jr = getDOFNumber (MS t) /\
    m3_derivative O t (m3mul (skew (rows3 J dq 0)) (O t)) /\ v3_derivative P t (rows3 J dq 3) /\
    rows3 Jr dq 0 = rows3 J dq 0 /\ rows3 Jt dq 0 = rows3 J dq 3.
Proof.
  intros H U L. pose proof H as (TS & _). destruct (link_velocity M t dq id p H L) as (w & v & Tw & DO & DP).
  set (P := fun s => v3add (link_o (M s) id) (m3app (link_O (M s) id) p)) in *.
  assert (Q : getDOFNumber (MS t) = rb_q (M t)) by (unfold getDOFNumber; rewrite (proj1 (updated_ok _ _ (proj1 (TS t)) (U t))); reflexivity).
  destruct (tag_jacobian_ok (M t) (MS t) COMPLETE id p dq w v) as (J & EJ & RJ & CJ & VJ); try apply TS; auto; [discriminate|].
  destruct (tag_jacobian_ok (M t) (MS t) TRANSLATION id p dq w v) as (Jt & Et & Rt & Ct & Vt); try apply TS; auto; [discriminate|].
  destruct (tag_jacobian_ok (M t) (MS t) ROTATION id p dq w v) as (Jr & Er & Rr & Cr & Vr); try apply TS; auto; [discriminate|].
  exists P, (fun s => link_O (M s) id), J, Jt, Jr. rewrite Q.
  split.
  { intros s. destruct (same_link (M s) (M t) id) as (Ls & _); [apply TS|apply TS|apply TS|exact L|].
    destruct (tag_pose (M s) (MS s) id p (link_O (M s) id) (link_o (M s) id)) as (_ & _ & A & B); [apply TS|apply U|apply link_frame; [apply TS|exact Ls]|].
    split; assumption. }
  repeat (split; [assumption|]).
  destruct (rows_v6 (P t) w v (vget (mulv J dq)) VJ) as [Ew Ev].
  unfold rows3. cbn zeta. rewrite !Vr, !Vt by (cbn; lia). cbn [Nat.add] in *. rewrite Ew, Ev.
  split; [exact DO|]. split; [exact DP|]. split; [destruct w|]; reflexivity.
Qed.

(** tags of links are points at the origins of links *)
Theorem link_is_point (M : R -> rb) (t : R) (dq : vec) (MS : R -> rmodel) (id : nat) (k : spatial_type) : motion M t dq -> (forall s, updated (M s) (MS s)) -> link (M t) id ->
  jacobian_link k (MS t) id = jacobian_point k (MS t) (id, v3zero) /\ position_link (MS t) id = position_point (MS t) (id, v3zero) /\
  orientation_link (MS t) id = orientation_point (MS t) (id, v3zero).
Proof.
  intros H U L. pose proof H as (TS & _). split; [reflexivity|]. split; [|reflexivity].
  destruct (tag_pose (M t) (MS t) id v3zero (link_O (M t) id) (link_o (M t) id)) as (A & _ & B & _); [apply TS|apply U|apply link_frame; [apply TS|exact L]|].
  rewrite A, B, m3app_zero, v3add_zero_r. reflexivity.
Qed.

(** ** Centres of mass *)
Definition V3sum (n : nat) (f : nat -> v3) : v3 := V3 (Rsum n (fun i => vx (f i))) (Rsum n (fun i => vy (f i))) (Rsum n (fun i => vz (f i))).
Definition bmass (l : rb) (id : nat) : R := match nth_error (rb_bodies l) id with Some b => fst b | None => 0 end.
Definition bcom (l : rb) (id : nat) : v3 := match nth_error (rb_bodies l) id with Some b => snd b | None => v3zero end.
Definition bpos (l : rb) (id : nat) : v3 := v3add (link_o l id) (m3app (link_O l id) (bcom l id)).
Definition term (l : rb) (id : nat) : v3 := v3scale (bmass l id) (bpos l id).

Lemma V3sum_S n f : V3sum (S n) f = v3add (V3sum n f) (f n).
Proof. reflexivity. Qed.
Lemma V3sum_ext n f g : (forall i, (i < n)%nat -> f i = g i) -> V3sum n f = V3sum n g.
Proof. intros H. unfold V3sum. f_equal; apply Rsum_ext; intros i Hi; rewrite H by exact Hi; reflexivity. Qed.
Lemma body_eq l id : movable l id -> nth_error (rb_bodies l) id = Some (bmass l id, bcom l id).
Proof.
  intros H. unfold bmass, bcom. destruct (nth_error (rb_bodies l) id) as [[a b]|] eqn:E; [reflexivity|]. apply nth_error_None in E. unfold movable in H. lia.
Qed.
Lemma sum_loop n first (body : nat -> v3 -> outcome v3) (f : nat -> v3) :
  (forall i c, (i < n)%nat -> body (first + i)%nat c = Ok (v3add c (f i))) ->
  for_up n first body v3zero = Ok (V3sum n f).
Proof.
  intros H. destruct (for_up_inv (fun k c => c = V3sum (k - first) f) body n first v3zero) as (c & E & P).
  - rewrite Nat.sub_diag. reflexivity.
  - intros i c Hi ->. eexists. split; [replace i with (first + (i - first))%nat at 1 by lia; apply H; lia|].
    replace (S i - first)%nat with (S (i - first)) by lia. rewrite V3sum_S. reflexivity.
  - rewrite E, P. do 2 f_equal. lia.
Qed.

Definition ids_ok (l : rb) (ids : list nat) : Prop := Forall (movable l) ids.
Definition Vids (l : rb) (ids : list nat) : v3 := V3sum (length ids) (fun i => term l (nth i ids 0%nat)).

Lemma position_partial_ok l m t : tree l -> updated l m -> ids_ok l (fst t) -> position_partial m t = Ok (v3scale (/ snd t) (Vids l (fst t))).
Proof.
  intros T U H. destruct (updated_ok l m T U) as (El & _). unfold position_partial. rewrite El.
  rewrite (sum_loop (length (fst t)) 0 _ (fun i => term l (nth i (fst t) 0%nat))); [reflexivity|].
  intros i c Hi. cbn [Nat.add]. unfold vec_at. rewrite (nth_error_nth' (fst t) 0%nat Hi). cbn [bind].
  assert (Mi : movable l (nth i (fst t) 0%nat)) by (apply (proj1 (Forall_forall _ _) H), nth_In, Hi).
  rewrite (body_eq l _ Mi). cbn [bind fst snd]. rewrite (link_point l T _ _ (movable_link l T _ Mi)). reflexivity.
Qed.
Lemma position_com_ok l m : tree l -> updated l m ->
  position_com m = Ok (v3scale (/ total_mass l) (V3sum (length (rb_bodies l) - 1) (fun i => term l (1 + i)%nat))).
Proof.
  intros T U. destruct (updated_ok l m T U) as (El & Et & _). unfold position_com. rewrite El, Et.
  rewrite (sum_loop (length (rb_bodies l) - 1) 1 _ (fun i => term l (1 + i)%nat)); [reflexivity|].
  intros i c Hi. unfold vec_at. assert (Mi : movable l (1 + i)) by (unfold movable; lia).
  rewrite (body_eq l _ Mi). cbn [bind fst snd]. rewrite (link_point l T _ _ (movable_link l T _ Mi)). reflexivity.
Qed.

Lemma twist_exists l dq : tree l -> forall id, movable l id -> exists w v, twist l dq id w v.
Proof.
  intros T id. induction id as [id IH] using (well_founded_induction Wf_nat.lt_wf). intros M.
  destruct (Nat.eq_dec id 0) as [-> | N]; [do 2 eexists; constructor|].
  destruct (t_lambda l T id M) as (p & Ep & Lp & Mp); [lia|]. destruct (t_joint l T id M) as (j & Ej).
  destruct (IH p Lp Mp) as (w & v & Tw). do 2 eexists. eapply twist_body; eauto. lia.
Qed.

(** the sum of Jacobians of bodies: the first is assigned, the others are added *)
Lemma jac_loop n first (body : nat -> mat -> outcome mat) (G : nat -> mat) q old : (0 < n)%nat ->
  (forall i, (i < n)%nat -> mrows (G i) = 3%nat /\ mcols (G i) = q) ->
  (forall i J, (i < n)%nat -> body (first + i)%nat J = if (i =? 0)%nat then Ok (G i) else madd_o J (G i)) ->
  exists J, for_up n first body old = Ok J /\ mrows J = 3%nat /\ mcols J = q /\
    forall r c, mget J r c = Rsum n (fun i => mget (G i) r c).
Proof.
  intros N S H. destruct (for_up_inv (fun k J => (k = first \/ (mrows J = 3%nat /\ mcols J = q /\
      forall r c, mget J r c = Rsum (k - first) (fun i => mget (G i) r c)))) body n first old) as (J & E & P).
  - left. reflexivity.
  - intros i J Hi P. assert (Hb : body i J = if (i - first =? 0)%nat then Ok (G (i - first)%nat) else madd_o J (G (i - first)%nat)).
    { replace i with (first + (i - first))%nat at 1 by lia. apply H. lia. }
    destruct (S (i - first)%nat) as [S1 S2]; [lia|]. rewrite Hb. destruct (Nat.eqb_spec (i - first) 0) as [Z|Z].
    + eexists. split; [reflexivity|]. right. split; [exact S1|]. split; [exact S2|]. intros r c. replace (Datatypes.S i - first)%nat with 1%nat by lia.
      rewrite Z. cbn [Rsum]. ring.
    + destruct P as [P|(P1 & P2 & P3)]; [lia|]. unfold madd_o. rewrite assert_true by (rewrite P1, P2, S1, S2, !Nat.eqb_refl; reflexivity).
      eexists. split; [reflexivity|]. right. split; [exact P1|]. split; [exact P2|]. intros r c. replace (Datatypes.S i - first)%nat with (Datatypes.S (i - first)) by lia.
      cbn [madd mget Rsum]. rewrite P3. reflexivity.
  - exists J. split; [exact E|]. destruct P as [P|(P1 & P2 & P3)]; [lia|]. split; [exact P1|]. split; [exact P2|]. intros r c. rewrite P3. f_equal. lia.
Qed.

Definition com_jac (l : rb) (m : rmodel) (id : nat) : mat :=
  match tag_jacobian TRANSLATION m id (bcom l id) with Ok J => mscale (bmass l id) J | _ => mzero 0 0 end.
Lemma com_jac_ok l m id : tree l -> updated l m -> movable l id ->
  (forall first J, accumulate m first id J = if first then Ok (com_jac l m id) else madd_o J (com_jac l m id)) /\
  mrows (com_jac l m id) = 3%nat /\ mcols (com_jac l m id) = rb_q l.
Proof.
  intros T U Mi. destruct (updated_ok l m T U) as (El & _). destruct (twist_exists l (vconst 0 0) T id Mi) as (w & v & Tw).
  assert (L : link l id) by (apply movable_link; assumption).
  destruct (tag_jacobian_ok l m TRANSLATION id (bcom l id) (vconst 0 0) w v) as (J & E & R & C & _); auto; [discriminate|rewrite (proj1 (link_movable l T id Mi)); exact Tw|].
  unfold com_jac. rewrite E. split; [|split; assumption]. intros first J0. unfold accumulate. rewrite El. unfold vec_at. rewrite (body_eq l id Mi). cbn [bind fst snd]. rewrite E. reflexivity.
Qed.
(** the velocity of the centre of mass of a body *)
Lemma term_velocity M t dq MS id : motion M t dq -> (forall s, updated (M s) (MS s)) -> movable (M t) id ->
  v3_derivative (fun s => term (M s) id) t (rows3 (com_jac (M t) (MS t) id) dq 0).
Proof.
  intros H U Mi. pose proof H as (TS & _). assert (L : link (M t) id) by (apply movable_link; [apply TS|exact Mi]).
  destruct (link_velocity M t dq id (bcom (M t) id) H L) as (w & v & Tw & _ & DP).
  destruct (tag_jacobian_ok (M t) (MS t) TRANSLATION id (bcom (M t) id) dq w v) as (J & E & R & C & V); try apply TS; auto; [discriminate|].
  assert (EM : forall s, bmass (M s) id = bmass (M t) id /\ bcom (M s) id = bcom (M t) id).
  { intros s. destruct (proj2 (TS s)) as (E1 & _). unfold bmass, bcom. rewrite E1. split; reflexivity. }
  eapply v3d_ext; [intros s; unfold term, bpos; rewrite (proj1 (EM s)), (proj2 (EM s)); reflexivity| |exact (v3d_scale (bmass (M t) id) _ _ _ DP)].
  unfold com_jac. rewrite E. unfold rows3. cbn zeta.
  assert (MV : forall r, vget (mulv (mscale (bmass (M t) id) J) dq) r = bmass (M t) id * vget (mulv J dq) r).
  { intros r. unfold mulv. cbn [vget mscale mcols mget]. rewrite <- Rsum_scal. apply Rsum_ext. intros; ring. }
  rewrite !MV, !V by (cbn; lia). cbn [sel_row Nat.add]. unfold v6_at, v6_get. reflexivity.
Qed.
Lemma sum_velocity n (f : R -> nat -> v3) (G : nat -> mat) t dq q J c : (forall i, (i < n)%nat -> mcols (G i) = q) -> mcols J = q -> 
  (forall r h, mget J r h = Rsum n (fun i => mget (G i) r h)) ->
  (forall i, (i < n)%nat -> v3_derivative (fun s => f s i) t (rows3 (G i) dq 0)) ->
  v3_derivative (fun s => v3scale c (V3sum n (f s))) t (rows3 (mscale c J) dq 0).
Proof.
  intros S C E D. apply (v3d_ext _ (fun s => v3scale c (V3sum n (f s))) t _ (v3scale c (V3sum n (fun i => rows3 (G i) dq 0)))); [reflexivity| |].
  - unfold rows3, v3scale, V3sum. cbn zeta. cbn [vx vy vz].
    assert (X : forall r, vget (mulv (mscale c J) dq) r = c * Rsum n (fun i => vget (mulv (G i) dq) r)).
    { intros r. unfold mulv. cbn [vget mscale mcols mget]. rewrite C.
      transitivity (c * Rsum q (fun k => Rsum n (fun i => mget (G i) r k * vget dq k))).
      - rewrite <- Rsum_scal. apply Rsum_ext. intros k Hk. rewrite E, Rmult_assoc, <- Rsum_scal_r. reflexivity.
      - f_equal. rewrite Rsum_swap. apply Rsum_ext. intros i Hi. rewrite S by exact Hi. reflexivity. }
    rewrite !X. reflexivity.
  - apply v3d_scale. clear J S C E. induction n as [|n IH]; [exact (v3d_const v3zero t)|].
    eapply v3d_ext; [intros s; apply V3sum_S|apply V3sum_S|]. apply v3d_add; [apply IH; intros; apply D; lia|apply D; lia].
Qed.

Theorem com_velocity (M : R -> rb) (t : R) (dq : vec) (MS : R -> rmodel) (old : mat) :
  motion M t dq -> (forall s, updated (M s) (MS s)) -> (1 < length (rb_bodies (M t)))%nat ->
  exists P J, (forall s, position_com (MS s) = Ok (P s)) /\ jacobian_com old (MS t) = Ok J /\ mrows J = 3%nat /\ mcols J = getDOFNumber (MS t) /\
    v3_derivative P t (rows3 J dq 0).
Proof.
  intros H U N. pose proof H as (TS & _). destruct (updated_ok (M t) (MS t) (proj1 (TS t)) (U t)) as (El & Et & _).
  set (n := (length (rb_bodies (M t)) - 1)%nat).
  assert (MV : forall i, (i < n)%nat -> movable (M t) (1 + i)) by (intros i Hi; unfold movable; lia).
  destruct (jac_loop n 1 (fun i J => accumulate (MS t) (i =? 1)%nat i J) (fun i => com_jac (M t) (MS t) (1 + i)) (rb_q (M t)) old) as (J & EJ & RJ & CJ & VJ).
  - unfold n. lia.
  - intros i Hi. apply (com_jac_ok (M t) (MS t)); [apply TS|apply U|apply MV, Hi].
  - intros i J Hi. rewrite (proj1 (com_jac_ok (M t) (MS t) (1 + i) (proj1 (TS t)) (U t) (MV i Hi))). destruct i; reflexivity.
  - exists (fun s => v3scale (/ total_mass (M t)) (V3sum n (fun i => term (M s) (1 + i)%nat))), (mscale (/ total_mass (M t)) J).
    split.
    { intros s. rewrite (position_com_ok (M s) (MS s)) by (try apply TS; apply U). destruct (proj2 (TS s)) as (E1 & _). unfold n, total_mass. rewrite E1. reflexivity. }
    unfold jacobian_com. rewrite El, Et. fold n. rewrite EJ. cbn [bind]. split; [reflexivity|]. split; [exact RJ|]. split; [unfold getDOFNumber; rewrite El; exact CJ|].
    apply (sum_velocity n (fun s i => term (M s) (1 + i)%nat) (fun i => com_jac (M t) (MS t) (1 + i)) t dq (rb_q (M t)) J).
    + intros i Hi. apply (com_jac_ok (M t) (MS t)); [apply TS|apply U|apply MV, Hi].
    + exact CJ.
    + exact VJ.
    + intros i Hi. apply (term_velocity M t dq MS (1 + i) H U (MV i Hi)).
Qed.

(** tags of several bodies *)
Lemma getCoMTag_ok l names : Forall (fun s => movable l (getLinkId l s)) names ->
  getCoMTag l names = Ok (map (getLinkId l) names, Rsum (length names) (fun i => bmass l (nth i (map (getLinkId l) names) 0%nat))).
Proof.
  intros H. unfold getCoMTag.
  destruct (for_up_inv (fun k t => fst t = firstn k (map (getLinkId l) names) /\ snd t = Rsum k (fun i => bmass l (nth i (map (getLinkId l) names) 0%nat)))
    (fun i t => bind (vec_at names i) (fun s => bind (vec_at (rb_bodies l) (getLinkId l s)) (fun b => Ok (fst t ++ [getLinkId l s], snd t + fst b))))
    (length names) 0 ([], 0)) as (t & E & P1 & P2).
  - split; reflexivity.
  - intros i t Hi (P1 & P2). unfold vec_at. destruct (nth_error names i) as [s|] eqn:Es; [|apply nth_error_None in Es; lia]. cbn [bind].
    assert (Ms : movable l (getLinkId l s)) by (apply (proj1 (Forall_forall _ _) H); apply nth_error_In in Es; exact Es).
    rewrite (body_eq l _ Ms). cbn [bind fst snd]. eexists. split; [reflexivity|]. cbn [fst snd].
    assert (En : nth_error (map (getLinkId l) names) i = Some (getLinkId l s)) by (rewrite nth_error_map, Es; reflexivity).
    split.
    + rewrite P1. pose proof (firstn_skipn i (map (getLinkId l) names)) as FS.
      rewrite <- (firstn_skipn 1 (skipn i (map (getLinkId l) names))) in FS. 
      assert (Sk : firstn 1 (skipn i (map (getLinkId l) names)) = [getLinkId l s]).
      { destruct (skipn i (map (getLinkId l) names)) as [|a rest] eqn:Ek.
        - apply (f_equal (@length _)) in Ek. rewrite skipn_length, map_length in Ek. cbn in Ek. lia.
        - cbn. f_equal. assert (X : nth_error (skipn i (map (getLinkId l) names)) 0 = Some a) by (rewrite Ek; reflexivity).
          rewrite nth_error_skipn, Nat.add_0_r, En in X. congruence. }
      rewrite <- FS at 2. rewrite Sk, app_assoc.
      assert (Ln : length (firstn i (map (getLinkId l) names) ++ [getLinkId l s]) = S i) by (rewrite app_length, firstn_length, map_length; cbn; lia).
      rewrite <- Ln at 1. rewrite firstn_app, Nat.sub_diag, firstn_all. cbn [firstn]. rewrite app_nil_r. reflexivity.
    + cbn [Rsum]. rewrite P2, (nth_error_nth _ i _ En). reflexivity.
  - rewrite E. destruct t as [a b]. cbn [fst snd] in *. rewrite P1, P2. rewrite Nat.add_0_l. rewrite <- (map_length (getLinkId l) names) at 1. rewrite firstn_all. reflexivity.
Qed.

Theorem partial_com_velocity (M : R -> rb) (t : R) (dq : vec) (MS : R -> rmodel) (old : mat) (names : list string) :
  motion M t dq -> (forall s, updated (M s) (MS s)) -> names <> [] -> Forall (fun s => movable (M t) (getLinkId (M t) s)) names ->
  exists tag P J, getCoMTag (M t) names = Ok tag /\
    (forall s, position_partial (MS s) tag = Ok (P s)) /\ jacobian_partial old (MS t) tag = Ok J /\ mrows J = 3%nat /\ mcols J = getDOFNumber (MS t) /\
    v3_derivative P t (rows3 J dq 0).
Proof.
  intros H U Nn F. pose proof H as (TS & _). destruct (updated_ok (M t) (MS t) (proj1 (TS t)) (U t)) as (El & Et & _).
  rewrite (getCoMTag_ok (M t) names F). set (ids := map (getLinkId (M t)) names).
  set (mass := Rsum (length names) (fun i => bmass (M t) (nth i ids 0%nat))).
  assert (N : (0 < length ids)%nat) by (unfold ids; rewrite map_length; destruct names; [congruence|cbn; lia]).
  assert (Ids : ids_ok (M t) ids) by (unfold ids_ok, ids; apply Forall_map; exact F).
  assert (MV : forall i, (i < length ids)%nat -> movable (M t) (nth i ids 0%nat)) by (intros i Hi; apply (proj1 (Forall_forall _ _) Ids), nth_In, Hi).
  destruct (jac_loop (length ids) 0 (fun i J => bind (vec_at ids i) (fun id => accumulate (MS t) (i =? 0)%nat id J)) (fun i => com_jac (M t) (MS t) (nth i ids 0%nat)) (rb_q (M t)) old)
    as (J & EJ & RJ & CJ & VJ).
  - exact N.
  - intros i Hi. apply (com_jac_ok (M t) (MS t)); [apply TS|apply U|apply MV, Hi].
  - intros i J Hi. cbn [Nat.add]. unfold vec_at. rewrite (nth_error_nth' ids 0%nat Hi). cbn [bind].
    rewrite (proj1 (com_jac_ok (M t) (MS t) _ (proj1 (TS t)) (U t) (MV i Hi))). destruct i; reflexivity.
  - exists (ids, mass), (fun s => v3scale (/ mass) (Vids (M s) ids)), (mscale (/ mass) J). split; [reflexivity|].
    split.
    { intros s. apply (position_partial_ok (M s) (MS s) (ids, mass)); [apply TS|apply U|]. cbn [fst]. revert Ids. unfold ids_ok. apply Forall_impl. intros a. apply same_movable, TS. }
    unfold jacobian_partial. cbn [fst snd]. rewrite EJ. cbn [bind]. split; [reflexivity|]. split; [exact RJ|]. split; [unfold getDOFNumber; rewrite El; exact CJ|].
    apply (sum_velocity (length ids) (fun s i => term (M s) (nth i ids 0%nat)) (fun i => com_jac (M t) (MS t) (nth i ids 0%nat)) t dq (rb_q (M t)) J).
    + intros i Hi. apply (com_jac_ok (M t) (MS t)); [apply TS|apply U|apply MV, Hi].
    + exact CJ.
    + exact VJ.
    + intros i Hi. apply (term_velocity M t dq MS _ H U (MV i Hi)).
Qed.

(** ** What the centres of mass are *)
Lemma masses_sum l ids ms : tree l -> ids_ok l ids -> masses_at l ids ms ->
  mass_sum ms = Rsum (length ids) (fun i => bmass l (nth i ids 0%nat)) /\ moment ms = Vids l ids.
Proof.
  intros T Ok H. induction H as [|id mp ids ms (c & O & o & Eb & F & Ep) H IH]; [split; reflexivity|].
  inversion Ok as [|a b Ma Mb]; subst. destruct (IH Mb) as [I1 I2].
  assert (Em : bmass l id = fst mp /\ term l id = v3scale (fst mp) (snd mp)).
  { destruct (link_frame_inv l T id O o F) as [-> ->]. unfold term, bpos, bmass, bcom. rewrite Eb. cbn [fst snd]. rewrite Ep. split; reflexivity. }
  destruct Em as [E1 E2]. cbn [mass_sum moment fold_right length]. fold (mass_sum ms). fold (moment ms). rewrite I1, I2. split.
  - rewrite Rsum_first. cbn [nth]. rewrite E1. reflexivity.
  - unfold Vids. cbn [length]. unfold V3sum. rewrite !Rsum_first. cbn [nth]. rewrite E2. reflexivity.
Qed.
Lemma all_bodies_ok l : tree l -> ids_ok l (all_bodies l).
Proof. intros T. apply Forall_forall. intros i Hi. apply in_seq in Hi. unfold movable. lia. Qed.
Lemma nth_all l i : (i < length (rb_bodies l) - 1)%nat -> nth i (all_bodies l) 0%nat = (1 + i)%nat.
Proof. intros H. apply seq_nth, H. Qed.
Lemma scale_inv m c : m <> 0 -> v3scale m (v3scale (/ m) c) = c.
Proof. intros H. destruct c. unfold v3scale; cbn. f_equal; field; exact H. Qed.

Theorem com_is_mean (l : rb) (m : rmodel) (ms : list (R * v3)) : tree l -> updated l m -> masses_at l (all_bodies l) ms ->
  mass_com m = mass_sum ms /\
  (mass_sum ms <> 0 -> exists c, position_com m = Ok c /\ v3scale (mass_sum ms) c = moment ms).
Proof.
  intros T U H. destruct (masses_sum l (all_bodies l) ms T (all_bodies_ok l T) H) as [E1 E2].
  destruct (updated_ok l m T U) as (El & Et & _).
  assert (EM : total_mass l = mass_sum ms).
  { rewrite E1. unfold total_mass, all_bodies. rewrite seq_length. apply Rsum_ext. intros i Hi. fold (all_bodies l). rewrite nth_all by exact Hi. reflexivity. }
  split; [unfold mass_com; rewrite Et; exact EM|]. intros N. rewrite (position_com_ok l m T U). eexists. split; [reflexivity|].
  rewrite <- EM at 1. rewrite scale_inv by (rewrite EM; exact N). rewrite E2. unfold Vids, all_bodies. rewrite seq_length. apply V3sum_ext. intros i Hi.
  fold (all_bodies l). rewrite nth_all by exact Hi. reflexivity.
Qed.
Theorem partial_com_is_mean (l : rb) (m : rmodel) (names : list string) (ms : list (R * v3)) : tree l -> updated l m -> Forall (fun s => movable l (getLinkId l s)) names ->
  masses_at l (map (getLinkId l) names) ms ->
  exists tag, getCoMTag l names = Ok tag /\ mass_partial tag = mass_sum ms /\
  (mass_sum ms <> 0 -> exists c, position_partial m tag = Ok c /\ v3scale (mass_sum ms) c = moment ms).
Proof.
  intros T U F H. assert (Ids : ids_ok l (map (getLinkId l) names)) by (apply Forall_map; exact F).
  destruct (masses_sum l _ ms T Ids H) as [E1 E2]. rewrite map_length in E1.
  rewrite (getCoMTag_ok l names F). eexists. split; [reflexivity|]. cbn [mass_partial snd]. split; [symmetry; exact E1|]. intros N.
  eexists. split; [apply (position_partial_ok l m _ T U); exact Ids|]. cbn [fst snd]. rewrite <- E1, scale_inv by exact N. symmetry. exact E2.
Qed.

Lemma masses_exist l ids : tree l -> ids_ok l ids -> exists ms, masses_at l ids ms.
Proof.
  intros T H. induction H as [|id ids M H (ms & IH)]; [exists []; constructor|]. exists ((bmass l id, bpos l id) :: ms). constructor; [|exact IH].
  exists (bcom l id), (link_O l id), (link_o l id). cbn [fst snd]. split; [apply body_eq, M|]. split; [apply link_frame; [exact T|apply movable_link; assumption]|reflexivity].
Qed.
Lemma masses_perm l a b ms ns : tree l -> ids_ok l a -> Permutation a b -> masses_at l a ms -> masses_at l b ns -> mass_sum ms = mass_sum ns /\ moment ms = moment ns.
Proof.
  intros T. revert b ms ns. assert (G : forall a b, Permutation a b -> ids_ok l a -> forall ms ns, masses_at l a ms -> masses_at l b ns -> mass_sum ms = mass_sum ns /\ moment ms = moment ns).
  2: { intros b ms ns Ok P. apply (G a b P Ok). }
  clear a. assert (U : forall id x y, (exists c O o, nth_error (rb_bodies l) id = Some (fst x, c) /\ frame l id O o /\ snd x = v3add o (m3app O c)) ->
     (exists c O o, nth_error (rb_bodies l) id = Some (fst y, c) /\ frame l id O o /\ snd y = v3add o (m3app O c)) -> x = y).
  { intros id [x1 x2] [y1 y2] (c & O & o & E & F & G) (c' & O' & o' & E' & F' & G'). cbn in *. destruct (link_frame_inv l T id _ _ F) as [-> ->].
    destruct (link_frame_inv l T id _ _ F') as [-> ->]. rewrite E in E'. injection E' as <- <-. rewrite G, G'. reflexivity. }
  intros a b P. induction P as [|x a b P IH|x y a|a b c P1 IH1 P2 IH2]; intros Ok ms ns A B.
  - inversion A; inversion B; split; reflexivity.
  - inversion A as [|? mx ? ma Ax Aa]; inversion B as [|? nx ? nb Bx Bb]; subst. rewrite (U x mx nx Ax Bx). inversion Ok; subst.
    destruct (IH H2 ma nb Aa Bb) as [I1 I2]. cbn [mass_sum moment fold_right]. fold (mass_sum ma) (mass_sum nb) (moment ma) (moment nb). rewrite I1, I2. split; reflexivity.
  - inversion A as [|? my ? m1 Ay A1]; inversion A1 as [|? mx ? ma Ax Aa]; inversion B as [|? nx ? n1 Bx B1]; inversion B1 as [|? ny ? nb By Bb]; subst.
    assert (E : ma = nb). { clear -Aa Bb U. revert nb Bb. induction Aa as [|i x a ma Hx Ha IHa]; intros nb Bb; inversion Bb as [|? y ? nb' Hy Hb]; subst; [reflexivity|].
      rewrite (U i x y Hx Hy), (IHa nb' Hb). reflexivity. }
    rewrite (U x mx nx Ax Bx), (U y my ny Ay By), E. cbn [mass_sum moment fold_right]. split; [lra|]. destruct (fold_right (fun mp s => v3add (v3scale (fst mp) (snd mp)) s) v3zero nb). v3ring.
  - assert (Okb : ids_ok l b) by (unfold ids_ok in *; rewrite Forall_forall in *; intros z Hz; apply Ok; apply (Permutation_in z (Permutation_sym P1) Hz)).
    destruct (masses_exist l b T Okb) as (bs & Hb). destruct (IH1 Ok ms bs A Hb) as [I1 I2]. destruct (IH2 Okb bs ns Hb B) as [J1 J2]. split; congruence.
Qed.
Lemma moments_app a b : mass_sum (a ++ b) = mass_sum a + mass_sum b /\ moment (a ++ b) = v3add (moment a) (moment b).
Proof.
  induction a as [|x a [I1 I2]]; cbn [mass_sum moment fold_right app].
  - fold (mass_sum b) (moment b). split; [ring|]. destruct (moment b). v3ring.
  - fold (mass_sum a) (mass_sum b) (moment a) (moment b) (mass_sum (a ++ b)) (moment (a ++ b)). rewrite I1, I2. split; [ring|]. v3ring.
Qed.

(** the bodies split into groups: the centre of mass of the robot is the mean of the centres of mass of the groups *)
Theorem com_partition (l : rb) (m : rmodel) (groups : list (list string)) (c : v3) (total : R) : tree l -> updated l m ->
  Permutation (map (getLinkId l) (concat groups)) (all_bodies l) -> mass_com m = total -> total <> 0 -> position_com m = Ok c ->
  exists tags : list tag_partial, Forall2 (fun g tag => getCoMTag l g = Ok tag) groups tags /\
    total = fold_right (fun tag s => mass_partial tag + s) 0 tags /\
    (Forall (fun tag => mass_partial tag <> 0) tags -> exists cs, Forall2 (fun tag p => position_partial m tag = Ok p) tags cs /\
       v3scale total c = fold_right (fun x s => v3add (v3scale (mass_partial (fst x)) (snd x)) s) v3zero (combine tags cs)).
Proof.
  intros T U P Et N Ec.
  assert (A : Forall (fun s => movable l (getLinkId l s)) (concat groups)).
  { apply Forall_map. unfold all_bodies in P. apply Forall_forall. intros i Hi. apply (Permutation_in i P) in Hi. apply in_seq in Hi. unfold movable. lia. }
  destruct (masses_exist l (all_bodies l) T (all_bodies_ok l T)) as (ms & Hm).
  destruct (com_is_mean l m ms T U Hm) as (M1 & M2). rewrite Et in M1. destruct M2 as (c' & Ec' & M3); [rewrite <- M1; exact N|]. rewrite Ec in Ec'. injection Ec' as <-.
  assert (G : forall gs, Forall (fun s => movable l (getLinkId l s)) (concat gs) -> exists ns tags, masses_at l (map (getLinkId l) (concat gs)) ns /\
     Forall2 (fun g tag => getCoMTag l g = Ok tag) gs tags /\ mass_sum ns = fold_right (fun tag s => mass_partial tag + s) 0 tags /\
     (Forall (fun tag => mass_partial tag <> 0) tags -> exists cs, Forall2 (fun tag p => position_partial m tag = Ok p) tags cs /\
       moment ns = fold_right (fun x s => v3add (v3scale (mass_partial (fst x)) (snd x)) s) v3zero (combine tags cs))).
  { intros gs. induction gs as [|g gs IH]; intros Hg.
    - exists [], []. split; [constructor|]. split; [constructor|]. split; [reflexivity|]. intros _. exists []. split; [constructor|reflexivity].
    - cbn [concat] in Hg. apply Forall_app in Hg. destruct Hg as [H1 H2]. destruct (IH H2) as (ns & tags & I1 & I2 & I3 & I4).
      destruct (masses_exist l (map (getLinkId l) g) T) as (gm & Hgm); [apply Forall_map; exact H1|].
      destruct (partial_com_is_mean l m g gm T U H1 Hgm) as (tag & T1 & T2 & T3).
      exists (gm ++ ns), (tag :: tags). cbn [concat]. rewrite map_app. split; [apply Forall2_app; assumption|]. split; [constructor; assumption|].
      destruct (moments_app gm ns) as [-> ->]. cbn [fold_right]. split; [rewrite T2, I3; reflexivity|].
      intros F. inversion F as [|? ? F1 F2]; subst. destruct (I4 F2) as (cs & C1 & C2). destruct T3 as (p & P1 & P2); [rewrite <- T2; exact F1|].
      exists (p :: cs). split; [constructor; assumption|]. cbn [combine fold_right fst snd]. rewrite T2, P2, C2. reflexivity. }
  destruct (G groups A) as (ns & tags & G1 & G2 & G3 & G4). exists tags. split; [exact G2|].
  assert (Ids : ids_ok l (map (getLinkId l) (concat groups))) by (apply Forall_map; exact A).
  destruct (masses_perm l _ _ ns ms T Ids P G1 Hm) as [Q1 Q2]. split; [rewrite M1, <- Q1; exact G3|].
  intros F. destruct (G4 F) as (cs & C1 & C2). exists cs. split; [exact C1|]. rewrite M1, M3, <- Q2. exact C2.
Qed.

(** ** Names of links *)
Lemma unknown_id names max id : (forall k, ~ In (id, k) names) -> rb_GetBodyId names max id = max.
Proof.
  induction names as [|(n, k) rest IH]; intros H; cbn [rb_GetBodyId]; [reflexivity|]. destruct (String.eqb_spec n id) as [<-|N].
  - exfalso. apply (H k). left. reflexivity.
  - apply IH. intros k' Hk. apply (H k'). right. exact Hk.
Qed.
(** the name of a link which does not exist is accepted; any use of the tag reads memory out of range *)
Theorem unknown_name (l : rb) (m : rmodel) (name : string) (p : v3) : tree l -> updated l m -> (forall k, ~ In (name, k) (rb_names l)) ->
  exists tag, getLinkTag l name = tag /\ getPointTag l name p = (tag, p) /\ getLinkCoMTag l name = UB /\ getCoMTag l [name] = UB /\
    position_link m tag = UB /\ position_point m (tag, p) = UB /\ orientation_link m tag = UB /\ mass_link m tag = UB /\
    jacobian_link COMPLETE m tag = UB.
Proof.
  intros T U H. exists (rb_max l). pose proof (unknown_id (rb_names l) (rb_max l) name H) as E. destruct (updated_ok l m T U) as (El & _).
  pose proof T as (N & LX & _ & _ & D & _).
  assert (Ex : nth_error (rb_X l) (rb_max l) = None) by (apply nth_error_None; lia).
  assert (Eb : nth_error (rb_bodies l) (rb_max l) = None) by (apply nth_error_None; lia).
  assert (Ef : isLinkFixed l (rb_max l) = false).
  { unfold isLinkFixed. rewrite Nat.ltb_irrefl. rewrite andb_false_r. reflexivity. }
  assert (Et : getLinkTransform l (rb_max l) = UB) by (unfold getLinkTransform, vec_at; rewrite Ef, Ex; reflexivity).
  unfold getLinkTag, getPointTag, getLinkCoMTag, getCoMTag, getLinkId. rewrite E. unfold vec_at.
  split; [reflexivity|]. split; [reflexivity|]. split; [rewrite Eb; reflexivity|]. split; [cbn [length for_up nth_error bind]; unfold getLinkId; rewrite E, Eb; reflexivity|].
  unfold position_link, position_point, orientation_link, mass_link, jacobian_link, tag_jacobian, getPointTagPosition, expressInRootFrame, vec_at. cbn [fst snd].
  rewrite El, Et, Eb, Ef. cbn [bind getNumberOfElements]. rewrite Ex. repeat split; reflexivity.
Qed.
(** the mass and the centre of mass of a fixed link cannot be obtained: memory is read out of range *)
Theorem fixed_mass (l : rb) (m : rmodel) (name : string) (parent : nat) (x : sxform) : tree l -> updated l m -> fixed_to l (getLinkId l name) parent x ->
  getLinkCoMTag l name = UB /\ getCoMTag l [name] = UB /\ mass_link m (getLinkTag l name) = UB /\
  exists o, position_link m (getLinkTag l name) = Ok o.
Proof.
  intros T U F. destruct (updated_ok l m T U) as (El & _). pose proof T as (N & LX & _ & _ & D & _).
  assert (Eb : nth_error (rb_bodies l) (getLinkId l name) = None) by (apply nth_error_None; destruct F; lia).
  unfold getLinkCoMTag, getCoMTag, mass_link, getLinkTag, vec_at. rewrite El, Eb. cbn [length for_up nth_error bind].
  rewrite Eb. split; [reflexivity|]. split; [reflexivity|]. split; [reflexivity|].
  destruct (fixed_rotation l T _ _ _ F) as [_ Mp].
  assert (Fr : frame l (getLinkId l name) (m3mul (body_O l parent) (m3trans (sx_E x))) (v3add (body_o l parent) (m3app (body_O l parent) (sx_r x)))).
  { apply (frame_fixed l _ parent x); [exact F|exact Mp|apply t_frame; assumption]. }
  destruct (tag_pose l m _ v3zero _ _ T U Fr) as (A & _). eexists. exact A.
Qed.
(** tags of the links which exist do not depend on the configuration *)
Theorem tags_constant (a b : rb) (name : string) : same_robot a b -> getLinkTag a name = getLinkTag b name /\ getLinkCoMTag a name = getLinkCoMTag b name.
Proof. intros (E1 & _ & _ & _ & E5 & _ & E7 & _). unfold getLinkTag, getLinkCoMTag, getLinkId. rewrite E1, E5, E7. split; reflexivity. Qed.
