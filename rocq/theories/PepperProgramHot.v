(** * The Pepper program: what the solver is told about the previous iteration *)
From Coq Require Import String List Reals Arith Bool ZArith Lra Lia.
From Verif Require Import Base BaseFacts RSum Matrix Mat2 Mat3 ActiveSet Mixins ConstraintType HierarchyLevel HierarchySpec Constraints ConstraintsSpec RowsSpec QP QPSpec Problem ProblemSpec
  PointMass6z PointMass6zSpec TripleIntegratorSpec Solution Task MpcGuess MpcGuessSpec MpcGuessFacts
  QpoasesBridge QpoasesBridgeSpec Backends BackendsSpec Solver SolverLife SolverLifeSpec SolverLifeFacts WalkProgram WalkProgramSpec WalkProgramFacts WalkProgramFacts2 WalkProgramHot
  PepperPreview PepperPreviewSpec PepperFormFacts PepperModel PepperMpc PepperMpcSpec PepperMpcFacts2 PepperTasks PepperTasksSpec PepperTasksFacts PepperTasksFacts2 PepperLoop PepperLoopSpec PepperLoopFacts PepperLoopFacts2
  PepperProgram PepperProgramSpec PepperProgramFacts PepperProgramFacts2 PepperProgramFacts3 PepperProgramFacts4 PepperProgramFacts6 PepperProgramFacts7 PepperProgramHotSpec.
Import ListNotations.
Local Open Scope R_scope.

(** ** the guess of the solution *)
Lemma moved_pepper N x : (0 < N)%nat -> length x = (4 * N)%nat -> moved_commands N (fun i => nth i x 0) (vector_of (shifted (firstn (2 * N) x) ++ shifted (skipn (2 * N) x))).
Proof.
  intros HN L. assert (L1 : length (firstn (2 * N) x) = (2 * N)%nat) by (rewrite firstn_length; lia). assert (L2 : length (skipn (2 * N) x) = (2 * N)%nat) by (rewrite skipn_length; lia).
  assert (S1 : length (shifted (firstn (2 * N) x)) = (2 * N)%nat) by (unfold shifted; rewrite app_length, skipn_length; cbn [length]; lia).
  assert (S2 : length (shifted (skipn (2 * N) x)) = (2 * N)%nat) by (unfold shifted; rewrite app_length, skipn_length; cbn [length]; lia).
  assert (Sh : forall y i, length y = (2 * N)%nat -> (i + 2 < 2 * N)%nat -> nth i (shifted y) 0 = nth (2 + i) y 0).
  { intros y i Ly Hi. unfold shifted. rewrite app_nth1 by (rewrite skipn_length; lia). apply nth_drop. }
  assert (Sl : forall y a, length y = (2 * N)%nat -> nth (2 * (N - 1) + axis_index a) (shifted y) 0 = 0).
  { intros y a Ly. unfold shifted. rewrite app_nth2 by (rewrite skipn_length; lia). rewrite skipn_length, Ly. replace (2 * (N - 1) + axis_index a - (2 * N - 2))%nat with (axis_index a) by lia. destruct a; reflexivity. }
  split; unfold base_var, jerk_var; cbn [vector_of vlen vget].
  - rewrite app_length. lia.
  - intros k a Hk. pose proof (axis_small a). rewrite app_nth1 by lia. rewrite Sh by (assumption || lia). rewrite nth_keep by lia. f_equal. lia.
  - intros a. pose proof (axis_small a). rewrite app_nth1 by lia. apply Sl. exact L1.
  - intros k a Hk. pose proof (axis_small a). rewrite app_nth2 by lia. rewrite S1. replace (2 * N + 2 * k + axis_index a - 2 * N)%nat with (2 * k + axis_index a)%nat by lia. rewrite Sh by (assumption || lia). rewrite nth_drop. f_equal. lia.
  - intros a. pose proof (axis_small a). rewrite app_nth2 by lia. rewrite S1. replace (2 * N + 2 * (N - 1) + axis_index a - 2 * N)%nat with (2 * (N - 1) + axis_index a)%nat by lia. apply Sl. exact L2.
Qed.
Lemma moved_commands_same N x y v g : (0 < N)%nat -> moved_commands N x v -> (forall i, (i < 4 * N)%nat -> x i = y i) -> vlen g = (4 * N)%nat -> (forall i, (i < 4 * N)%nat -> vget g i = vget v i) -> moved_commands N y g.
Proof.
  intros HN [M1 M2 M3 M4 M5] X L G. unfold base_var, jerk_var in *. split; unfold base_var, jerk_var.
  - exact L.
  - intros k a Hk. pose proof (axis_small a). rewrite G, <- X by lia. apply M2. exact Hk.
  - intros a. pose proof (axis_small a). rewrite G by lia. apply M3.
  - intros k a Hk. pose proof (axis_small a). rewrite G, <- X by lia. apply M4. exact Hk.
  - intros a. pose proof (axis_small a). rewrite G by lia. apply M5.
Qed.

(** ** the guess of the active set *)
Lemma four_parts {A} (G : A -> list act) (l : list A) N b i : length l = 4%nat -> (forall a, In a l -> length (G a) = (2 * N)%nat) -> (b < 4)%nat -> (i < 2 * N)%nat ->
  exists a, nth_error l b = Some a /\ nth_error (concat (map G l)) (b * (2 * N) + i) = nth_error (G a) i.
Proof.
  intros L HG Hb Hi. destruct l as [|a0 [|a1 [|a2 [|a3 [|]]]]]; try discriminate L. cbn [map concat]. rewrite app_nil_r.
  assert (G0 := HG a0 ltac:(cbn; auto)). assert (G1 := HG a1 ltac:(cbn; auto)). assert (G2 := HG a2 ltac:(cbn; auto)).
  destruct b as [|[|[|[|b]]]]; [exists a0|exists a1|exists a2|exists a3|lia]; (split; [reflexivity|]).
  - rewrite nth_error_app1 by lia. f_equal.
  - rewrite nth_error_app2 by lia. rewrite nth_error_app1 by lia. f_equal. lia.
  - rewrite nth_error_app2 by lia. rewrite nth_error_app2 by lia. rewrite nth_error_app1 by lia. f_equal. lia.
  - rewrite nth_error_app2 by lia. rewrite nth_error_app2 by lia. rewrite nth_error_app2 by lia. f_equal. lia.
Qed.
Lemma part_at rows v b i : (i < rows)%nat -> length v = (4 * rows)%nat -> (b < 4)%nat -> exists a, nth_error (parts rows v) b = Some a /\ length a = rows /\ nth_error a i = nth_error v (b * rows + i).
Proof.
  intros Hi L Hb. exists (segment v (b * rows) rows). split; [destruct b as [|[|[|[|b]]]]; [reflexivity..|lia]|]. unfold segment. split; [rewrite firstn_length, skipn_length; nia|]. rewrite error_keep, error_drop by lia. reflexivity.
Qed.

(** ** the bounds on the velocity of the base *)
Section Posed.
Variables (junk : nat -> nat -> nat -> R) (se : pepper_settings) (e : environment) (s0 : loop) (gain : R) (n : nat) (s : pepper_program).
Variables (g : mg) (x : motions) (f : pepper_tasks) (p : problem) (r : request) (l0 l1 k0 k1 : level) (par : qparams) (L : list nat).
Notation P := (mg_par (lp_mg s0)).
Notation N := (horizon_length P).
Hypothesis (Pp : PepperPreviewSpec.proper P) (G : kgood se s0 gain par L n s) (K : kposed junk se e s0 gain n s g x f p r l0 l1 k0 k1).

Lemma velocity_rows : (forall j y, bounds_variable (kt_velocity f) j y <-> (j < 2 * N)%nat /\ y = j) /\
  (forall k a, (k < N)%nat -> lower_or_inf (kt_velocity f) (2 * k + axis_index a) = lower_bound (rb_velocity (ks_bounds se)) a /\ upper_or_inf (kt_velocity f) (2 * k + axis_index a) = upper_bound (rb_velocity (ks_bounds se)) a).
Proof.
  destruct (ko_size _ _ _ _ _ _ _ _ _ _ _ _ _ _ _ _ K) as [Sz _]. pose proof (ko_tasks _ _ _ _ _ _ _ _ _ _ _ _ _ _ _ _ K) as Ta. unfold kp_form_tasks in Ta. cbv zeta in Ta.
  apply bind_ok in Ta. destruct Ta as (c0 & C0 & Ta). apply bind_ok in Ta. destruct Ta as (c1 & _ & Ta). apply bind_ok in Ta. destruct Ta as (c2 & _ & Ta). apply bind_ok in Ta. destruct Ta as (c3 & _ & Ta).
  apply bind_ok in Ta. destruct Ta as (c4 & _ & Ta). injection Ta as <-. cbn [kt_velocity].
  destruct (kg_loop _ _ _ _ _ _ _ G) as (I1 & I2 & I3 & _).
  pose proof (ko_update _ _ _ _ _ _ _ _ _ _ _ _ _ _ _ _ K) as U. unfold mg_updateAndShift, mg_update in U. apply bind_ok in U. destruct U as (u & U & V). apply bind_ok in U. destruct U as (z & E & U).
  destruct z as [[|] ll]; cbn [fst snd] in U; [|injection U as <-; discriminate V]. apply bind_ok in U. destruct U as (M & EM & U). injection U as <-. cbn [fst snd] in V. injection V as <- _. cbn [mg_size mg_horizon] in Sz, C0.
  assert (Pp' : PepperPreviewSpec.proper (mg_par (lp_mg (kp_loop s)))) by (rewrite I1; exact Pp).
  destruct (intervals_are se (as_queue (lp_motions s0)) n (kp_loop s) _ ll Pp' I2 I3 E) as [Len I]. pose proof (form_motions_horizon _ _ _ _ _ Pp' I2 E) as Hz. rewrite I1 in *.
  unfold form_baseVelocityBounds in C0. destruct (loc_pepper N) as (Lo & _). rewrite Lo in C0. cbn [Base.offset len] in C0. rewrite Nat.div_mul in C0 by lia. rewrite fill_indices_ok in C0. cbn [bind] in C0.
  destruct (fill_bounds_ok (en_junk e VELOCITY) (N * 2) N (getNominalBaseVelocityBounds ll) (fun _ => rb_velocity (ks_bounds se)) (le_n _)) as (lb & ub & FB & L1 & L2 & H).
  { intros i Hi. unfold getNominalBaseVelocityBounds. destruct (I i Hi) as (v & uu & xx & ww & X1 & _ & _ & _ & _ & _ & _ & Y). cbv zeta in Y.
    rewrite (interval_data_ok N ll i (proj1 Hz) Hi). cbn [bind]. pose proof (data_at_set N ll i v (proj1 Hz) X1) as D. rewrite Y in D. injection D as <-. reflexivity. }
  rewrite FB in C0. cbn [bind fst snd] in C0. injection C0 as <-. split.
  - intros j y. unfold bounds_variable. cbn [c_body]. split.
    + intros X. assert (Hj : (j < N * 2)%nat). { assert (Y : (j < length (map (fun i => (0 + i)%nat) (seq 0 (N * 2))))%nat) by (apply nth_error_Some; intros Z; pose proof (eq_trans (eq_sym Z) X) as Y; discriminate Y). rewrite map_length, seq_length in Y. exact Y. }
      split; [lia|]. apply nth_error_nth with (d := 0%nat) in X. exact (eq_trans (eq_sym X) (nth_indices 0 (N * 2) j Hj)).
    + intros [Hj ->]. rewrite nth_error_map. rewrite (nth_error_nth' (seq 0 (N * 2)) 0%nat) by (rewrite seq_length; lia). rewrite seq_nth by lia. reflexivity.
  - intros k a Hk. destruct (H k a Hk) as [H1 H2]. unfold lower_or_inf, upper_or_inf, lower, upper. cbn [c_bounds]. split; [exact H1|exact H2].
Qed.

(** the four tasks of the first level: their identities, kinds and rows *)
Definition member (b : nat) (i : tinfo) : Prop :=
  nth_error (lv_tasks k0) b = Some i /\ nth_error kids0 b = Some (tk_id (ti_task i), tk_type (ti_task i)) /\ ti_loc i = mkLoc (b * (2 * N)) (2 * N).
Lemma members : (forall b, (b < 4)%nat -> exists i, member b i) /\ (forall i, In i (lv_tasks k0) -> exists b, (b < 4)%nat /\ member b i).
Proof.
  destruct (ko_shape _ _ _ _ _ _ _ _ _ _ _ _ _ _ _ _ K) as (_ & Id & _). destruct (ko_places _ _ _ _ _ _ _ _ _ _ _ _ _ _ _ _ K) as [Lo _].
  assert (Len : length (lv_tasks k0) = 4%nat) by (rewrite <- (map_length ti_loc), Lo, map_length, seq_length; reflexivity).
  assert (X : forall b i, (b < 4)%nat -> nth_error (lv_tasks k0) b = Some i -> member b i).
  { intros b i Hb E. split; [exact E|]. split.
    - rewrite <- Id. unfold task_ids. rewrite nth_error_map, E. reflexivity.
    - assert (Y : nth_error (map ti_loc (lv_tasks k0)) b = Some (mkLoc (b * (2 * N)) (2 * N))) by (rewrite Lo; destruct b as [|[|[|[|b]]]]; [reflexivity..|lia]).
      rewrite nth_error_map, E in Y. injection Y as Y. exact Y. }
  split.
  - intros b Hb. destruct (nth_error (lv_tasks k0) b) as [i|] eqn:E; [exists i; apply X; assumption|apply nth_error_None in E; lia].
  - intros i I. apply In_nth_error in I. destruct I as (b & E). exists b. assert (Hb : (b < 4)%nat) by (rewrite <- Len; apply nth_error_Some; congruence). split; [exact Hb|]. apply X; assumption.
Qed.
Lemma member_rows b i : (b < 3)%nat -> member b i -> simple_task (ti_task i) = false /\ forall j y, ~ bounds_variable (kp_constraints f (tk_id (ti_task i))) j y.
Proof.
  intros Hb (_ & Id & _). unfold kids0 in Id.
  assert (Ob : forall k, In k kids0 -> getType (kp_constraints f (fst k)) = snd k) by (intros k Ik; apply (kf_objects _ _ _ _ _ _ (ko_formed _ _ _ _ _ _ _ _ _ _ _ _ _ _ _ _ K)); apply in_or_app; left; exact Ik).
  assert (T : forall c j y, (getType c = ASLU \/ getType c = ALU) -> ~ bounds_variable c j y).
  { intros c j y Ht B. unfold bounds_variable in B. unfold getType in Ht. destruct c as [nv [A|A o|ix|gg ix] bb]; cbn [c_body c_bounds] in *; try contradiction. destruct bb; destruct Ht; discriminate. }
  unfold simple_task. destruct b as [|[|[|b]]]; [| | |lia]; cbn [nth_error] in Id; injection Id as Id Ty; rewrite <- Id, <- Ty; (split; [reflexivity|]); intros j y; apply T.
  - left. apply (Ob (ACCELERATION, ASLU)). cbn. auto.
  - right. apply (Ob (PRESSURE, ALU)). cbn. auto.
  - right. apply (Ob (BODY, ALU)). cbn. auto.
Qed.
Lemma member_velocity i : member 3 i -> kp_constraints f (tk_id (ti_task i)) = kt_velocity f /\ Base.offset (ti_loc i) = (3 * (2 * N))%nat.
Proof. intros (_ & Id & Lo). cbn [nth_error kids0] in Id. injection Id as Id _. rewrite <- Id, Lo. split; reflexivity. Qed.

(** the statuses which are given to the library *)
Lemma told_pepper v ga : same_active_set (kp_constraints f) (4 * N) k0 v ga -> length (fst ga) = (4 * N)%nat /\
  (forall y, (y < 2 * N)%nat -> exists q t, nth_error (fst ga) y = Some q /\ nth_error v (3 * (2 * N) + y) = Some t /\ guess_means t q) /\
  (forall y, (2 * N <= y < 4 * N)%nat -> nth_error (fst ga) y = Some ST_INACTIVE) /\
  (forall b i, (b < 3)%nat -> (i < 2 * N)%nat -> exists q t, nth_error (snd ga) (b * (2 * N) + i) = Some q /\ nth_error v (b * (2 * N) + i) = Some t /\ guess_means t q).
Proof.
  intros (Lg & Ro & La). destruct members as [Mb Mi]. destruct velocity_rows as [Vr _]. split; [exact Lg|].
  assert (B : forall i j y, In i (lv_tasks k0) -> bounds_variable (kp_constraints f (tk_id (ti_task i))) j y -> Base.offset (ti_loc i) = (3 * (2 * N))%nat /\ (j < 2 * N)%nat /\ y = j).
  { intros i j y I Bv. destruct (Mi i I) as (b & Hb & Me). destruct (Nat.lt_ge_cases b 3) as [L3|L3]; [destruct (member_rows b i L3 Me) as [_ X]; destruct (X j y Bv)|].
    assert (b = 3%nat) by lia. subst b. destruct (member_velocity i Me) as [E1 E2]. rewrite E1 in Bv. apply Vr in Bv. split; [exact E2|exact Bv]. }
  destruct (Mb 3%nat ltac:(lia)) as (iv & Me). destruct (member_velocity iv Me) as [E1 E2]. assert (Iv : In iv (lv_tasks k0)) by (destruct Me as [Me _]; exact (nth_error_In _ _ Me)).
  split; [|split].
  - intros y Hy. destruct (La y ltac:(lia)) as (q & Q & [(i & j & t & I & Bv & E & _ & Gm & _)|(Bv & ->)]).
    + exists q, t. split; [exact Q|]. destruct (B i j y I Bv) as (X1 & _ & ->). rewrite X1 in E. split; assumption.
    + exists ST_INACTIVE, INACTIVE. split; [exact Q|]. split; [|reflexivity]. rewrite <- E2. apply Bv; [exact Iv|]. rewrite E1. apply Vr. split; [exact Hy|reflexivity].
  - intros y Hy. destruct (La y ltac:(lia)) as (q & Q & [(i & j & t & I & Bv & _)|(_ & ->)]); [|exact Q]. destruct (B i j y I Bv) as (_ & X & ->). lia.
  - intros b j Hb Hj. destruct (Mb b ltac:(lia)) as (i & Mi'). destruct (member_rows b i Hb Mi') as [Si _]. destruct Mi' as (Ei & _ & Lo).
    destruct (Ro i j (nth_error_In _ _ Ei)) as (t & q & X); [rewrite Lo; exact Hj|exact Si|]. rewrite Lo in X. exists q, t. destruct X as (X1 & X2 & X3). split; [exact X2|]. split; [exact X1|exact X3].
Qed.
(** the statuses which are reported *)
Lemma reported_pepper wsb wsc v : finite_velocity (ks_bounds se) ->
  (forall i j, In i (lv_tasks k0) -> (j < len (ti_loc i))%nat -> exists u, nth_error v (Base.offset (ti_loc i) + j) = Some u /\ reports (kp_constraints f) k0 wsb wsc i j u) ->
  (forall y, (y < 2 * N)%nat -> exists u, nth_error v (3 * (2 * N) + y) = Some u /\ act_of (wsb y) u) /\
  (forall b i, (b < 3)%nat -> (i < 2 * N)%nat -> exists u, nth_error v (b * (2 * N) + i) = Some u /\ act_of (wsc (b * (2 * N) + i)%nat) u).
Proof.
  intros Fv Rp. destruct members as [Mb Mi]. destruct velocity_rows as [Vr Vb]. split.
  - intros y Hy. destruct (Mb 3%nat ltac:(lia)) as (i & Me). destruct (member_velocity i Me) as [E1 E2]. pose proof Me as (Ei & _ & Lo).
    destruct (Rp i y (nth_error_In _ _ Ei)) as (u & U & (R1 & _ & R2)); [rewrite Lo; exact Hy|]. rewrite E2 in U. exists u. split; [exact U|]. rewrite E1 in R2. destruct (R2 y) as [R3 R4]; [apply Vr; split; [exact Hy|reflexivity]|].
    assert (Ax : exists k a, (k < N)%nat /\ y = (2 * k + axis_index a)%nat).
    { exists (y / 2)%nat, (if Nat.eqb (y mod 2) 0 then AxisX else AxisY). pose proof (Nat.div_mod y 2 ltac:(lia)) as DM. pose proof (Nat.mod_upper_bound y 2 ltac:(lia)). split; [lia|]. destruct (Nat.eqb_spec (y mod 2) 0); cbn [axis_index]; lia. }
    destruct Ax as (k & a & Hk & Ey). destruct (Vb k a Hk) as [B1 B2]. rewrite <- Ey in B1, B2. destruct (Fv a) as [F1 F2].
    assert (One : forall i' j', In i' (lv_tasks k0) -> bounds_variable (kp_constraints f (tk_id (ti_task i'))) j' y -> kp_constraints f (tk_id (ti_task i')) = kt_velocity f /\ j' = y).
    { intros i' j' I' Bv. destruct (Mi i' I') as (b & Hb & Me'). destruct (Nat.lt_ge_cases b 3) as [L3|L3]; [destruct (member_rows b i' L3 Me') as [_ X]; destruct (X j' y Bv)|].
      assert (b = 3%nat) by lia. subst b. destruct (member_velocity i' Me') as [E3 _]. split; [exact E3|]. rewrite E3 in Bv. apply Vr in Bv. symmetry. apply Bv. }
    split; [|split].
    + intros W. apply R3. split; [exact W|]. split; [rewrite B1; exact F1|]. intros i' j' I' Bv. destruct (One i' j' I' Bv) as [-> ->]. apply Rle_refl.
    + intros W. destruct R1 as [-> | [-> | ->]]; [|reflexivity|]; exfalso.
      * destruct (proj1 R3 eq_refl) as [X _]. lra.
      * destruct (proj1 R4 eq_refl) as [X _]. lra.
    + intros W. apply R4. split; [exact W|]. split; [rewrite B2; exact F2|]. intros i' j' I' Bv. destruct (One i' j' I' Bv) as [-> ->]. apply Rle_refl.
  - intros b j Hb Hj. destruct (Mb b ltac:(lia)) as (i & Me). destruct (member_rows b i Hb Me) as [Si _]. destruct Me as (Ei & _ & Lo).
    destruct (Rp i j (nth_error_In _ _ Ei)) as (u & U & (_ & R1 & _)); [rewrite Lo; exact Hj|]. specialize (R1 Si). rewrite Lo in U, R1. exists u. split; assumption.
Qed.
End Posed.

Section Hot.
Variables (junk : nat -> nat -> nat -> R) (se : pepper_settings) (par : qparams) (gain : R) (details : option (backend_code * Z)) (w : world) (s0 : loop) (s : pepper_program) (es : nat -> environment).
Hypothesis (Re : ready se par gain details w s0 s) (Un : kp_understood junk se es s).
Notation P := (mg_par (lp_mg s0)).
Notation N := (horizon_length P).
Notation Turn := (kturn junk se par gain w s0 s es).

Lemma kasked_turn n k : kp_asked junk se es s n k -> exists x g y f p r l0 l1 k0 k1 t, kp_after junk se es s n = Ok (Some x) /\ kgood se s0 gain par (wd_live w) n x /\ Turn n x g y f p r l0 l1 k0 k1 t k.
Proof.
  intros As. pose proof As as (x & g1 & y1 & f1 & p1 & r1 & t1 & A & Pre & R1 & C1). pose proof (kgood_at junk se par gain details w s0 s Re es Un n x A) as G. exists x.
  destruct (ktakes junk se par gain details w s0 s Re es Un n x A G) as [(_ & _ & No)|[(_ & _ & _ & No)|(_ & _ & g & y & f & p & r & l0 & l1 & k0 & k1 & t & k' & Tu)]]; try solve [destruct (No k As)].
  assert (k' = k).
  { destruct Tu as (_ & As' & _). destruct As' as (x2 & g2 & y2 & f2 & p2 & r2 & t2 & A2 & Pre2 & R2 & C2). rewrite A in A2. injection A2 as <-. rewrite Pre in Pre2. injection Pre2 as <- <- <- <- <-.
    assert (t2 = t1) by (destruct R1, R2; congruence). subst t2. congruence. } subst k'.
  exists g, y, f, p, r, l0, l1, k0, k1, t. split; [exact A|]. split; [exact G|exact Tu].
Qed.
Lemma some_interval : (0 < N)%nat.
Proof. destruct Re as (Pp & _). exact (proj1 Pp). Qed.
Lemma asked_variables n k : kp_asked junk se es s n k -> qa_nV (lc_problem k) = (4 * N)%nat.
Proof.
  intros As. destruct (kasked_turn n k As) as (x & g & y & f & p & r & l0 & l1 & k0 & k1 & t & _ & _ & (K & _ & Ef & _)).
  rewrite (proj1 (gt_problem _ _ _ _ _ _ (ef_gets _ _ _ _ _ _ _ _ Ef))). exact (ko_nv _ _ _ _ _ _ _ _ _ _ _ _ _ _ _ _ K).
Qed.
(** *** the guess of the solution *)
Lemma kguess_not_given n k : hs_solution (ks_start se) = false -> kp_asked junk se es s n k -> lc_guess k = None.
Proof.
  intros Hs As. destruct (kasked_turn n k As) as (x & g & y & f & p & r & l0 & l1 & k0 & k1 & t & _ & _ & (K & _ & Ef & _)). pose proof (ko_guess _ _ _ _ _ _ _ _ _ _ _ _ _ _ _ _ K) as Gu. rewrite Hs in Gu.
  apply (gt_no_guess _ _ _ _ _ _ (ef_gets _ _ _ _ _ _ _ _ Ef)). unfold kp_call. cbn [cl_guess]. rewrite Gu. reflexivity.
Qed.
Lemma kguess_given n x g y f p r l0 l1 k0 k1 t k : hs_solution (ks_start se) = true -> Turn n x g y f p r l0 l1 k0 k1 t k -> exists v u, rq_guess r = Some (vector_of v) /\ lc_guess k = Some u /\ vlen u = (4 * N)%nat /\
  (forall i, (i < 4 * N)%nat -> vget u i = vget (vector_of v) i) /\
  v = (if Nat.eqb (length (sol_x (kp_old x))) 0 then zeros (4 * N) else shifted (firstn (2 * N) (sol_x (kp_old x))) ++ shifted (skipn (2 * N) (sol_x (kp_old x)))).
Proof.
  intros Hs (K & _ & Ef & _). pose proof (ko_guess _ _ _ _ _ _ _ _ _ _ _ _ _ _ _ _ K) as Gu. rewrite Hs in Gu. destruct Gu as (v & Gu & Ev). pose proof (ko_nv _ _ _ _ _ _ _ _ _ _ _ _ _ _ _ _ K) as NV.
  pose proof (gt_guess _ _ _ _ _ _ (ef_gets _ _ _ _ _ _ _ _ Ef)) as X. unfold kp_call in X. cbn [cl_guess cl_memory cl_solution] in X. rewrite Gu in X. destruct (X _ eq_refl) as (v' & u & E & Lk & Lu & Vu). cbn in E. injection E as <-.
  rewrite NV in Lu, Vu. exists v, u. split; [exact Gu|]. split; [exact Lk|]. split; [exact Lu|]. split; [exact Vu|exact Ev].
Qed.
Lemma kguess_first k : hs_solution (ks_start se) = true -> kp_asked junk se es s 0 k -> exists u, lc_guess k = Some u /\ vlen u = (4 * N)%nat /\ forall i, (i < 4 * N)%nat -> vget u i = 0.
Proof.
  intros Hs As. destruct (kasked_turn 0 k As) as (x & g & y & f & p & r & l0 & l1 & k0 & k1 & t & A & _ & Tu). destruct (kguess_given _ _ _ _ _ _ _ _ _ _ _ _ _ Hs Tu) as (v & u & _ & Lk & Lu & Vu & Ev). exists u. split; [exact Lk|]. split; [exact Lu|].
  cbn [kp_after] in A. injection A as <-. destruct Re as (_ & _ & _ & _ & _ & _ & _ & _ & St). unfold kp_start in St. apply bind_ok in St. destruct St as (q & _ & St). injection St as <-. cbn [kp_old sol_x length Nat.eqb] in Ev.
  intros i Hi. rewrite Vu by exact Hi. rewrite Ev. cbn [vector_of vget]. apply nth_repeat.
Qed.
Lemma kguess_next n x x' k k' : hs_solution (ks_start se) = true -> kp_steps junk se es s n x x' -> kp_asked junk se es s n k -> kp_asked junk se es s (S n) k' ->
  exists u, lc_guess k' = Some u /\ moved_commands N (point (kp_last x')) u /\ forall z, an_primal (en_library (es n) k) = Some z -> forall i, (i < 4 * N)%nat -> point (kp_last x') i = z i.
Proof.
  intros Hs St As As'. destruct (kasked_turn (S n) k' As') as (x2 & g & y & f & p & r & l0 & l1 & k0 & k1 & t & A & _ & Tu). destruct (kguess_given _ _ _ _ _ _ _ _ _ _ _ _ _ Hs Tu) as (v & u & _ & Lk & Lu & Vu & Ev). clear Tu.
  pose proof St as [A1 A2]. rewrite A2 in A. injection A as <-. destruct (kasked_turn n k As) as (x1 & g1 & y1 & f1 & p1 & r1 & i0 & i1 & j0 & j1 & t1 & A & _ & (K & _ & Ef & [(_ & E & _)|(R1 & _ & z & E & _ & _ & Fi & _ & _ & _ & _ & _ & Ls & Ca)])); [congruence|].
  rewrite A2 in E. injection E as <-. rewrite R1 in Ef. rewrite A1 in A. injection A as <-. destruct Ca as [Ol _]. rewrite Hs in Ol. pose proof some_interval as HN.
  destruct Fi as [_ Fi]. rewrite Ol, Fi in Ev. destruct (Nat.eqb_spec (4 * N) 0); [lia|]. exists u. split; [exact Lk|]. split.
  - apply (moved_commands_same N (fun i => nth i (sol_x (kp_last x')) 0) (point (kp_last x')) (vector_of v) u HN); [rewrite Ev; apply moved_pepper; assumption|intros i Hi; reflexivity|exact Lu|exact Vu].
  - exact (answer_point junk se par gain s0 es n x x' g1 y1 f1 p1 r1 i0 i1 j0 j1 t1 k K Ef Ls).
Qed.
(** *** the guess of the active set *)
Lemma kactive_not_given n k : hs_active (ks_start se) = false -> kp_asked junk se es s n k -> lc_active k = None.
Proof.
  intros Hs As. destruct (kasked_turn n k As) as (x & g & y & f & p & r & l0 & l1 & k0 & k1 & t & _ & _ & (K & _ & Ef & _)). pose proof (ko_active _ _ _ _ _ _ _ _ _ _ _ _ _ _ _ _ K) as Gu. rewrite Hs in Gu.
  apply (gt_no_active _ _ _ _ _ _ (ef_gets _ _ _ _ _ _ _ _ Ef)). exact Gu.
Qed.
Notation guessed := (guessed_bounds (sampling_ms P) (ks_subsampling se) N).
Lemma kactive_given n x g y f p r l0 l1 k0 k1 t k : hs_active (ks_start se) = true -> Turn n x g y f p r l0 l1 k0 k1 t k -> exists ga, lc_active k = Some ga /\ same_active_set (kp_constraints f) (4 * N) k0 (concat (map guessed (actuals l0))) ga.
Proof.
  intros Hs (K & _ & Ef & _). pose proof (ko_active _ _ _ _ _ _ _ _ _ _ _ _ _ _ _ _ K) as Ra. rewrite Hs in Ra. destruct Ra as (a1 & Ra). pose proof (ko_nv _ _ _ _ _ _ _ _ _ _ _ _ _ _ _ _ K) as NV.
  destruct (gt_active _ _ _ _ _ _ (ef_gets _ _ _ _ _ _ _ _ Ef) _ Ra) as (l & v & ga & L1 & L2 & L3 & L4). cbn [kp_call cl_problem cl_cs cl_solution] in L1, L4. destruct (ko_shape _ _ _ _ _ _ _ _ _ _ _ _ _ _ _ _ K) as (Eq & _). rewrite Eq in L1. injection L1 as <-. cbn [nth_error] in L2. injection L2 as <-.
  rewrite NV in L4. exists ga. split; [exact L3|exact L4].
Qed.
Lemma guessed_nothing a : a = [] \/ (ks_subsampling se < sampling_ms P)%Z -> guessed a = repeat INACTIVE (2 * N).
Proof. unfold guessed_bounds. intros [-> | H]; [destruct (_ <? _)%Z; reflexivity|]. apply Z.ltb_lt in H. rewrite H. reflexivity. Qed.
(** nothing is kept *)
Lemma kactive_unknown n k : hs_active (ks_start se) = true -> n = 0%nat \/ hs_report (ks_start se) = false \/ (ks_subsampling se < sampling_ms P)%Z -> kp_asked junk se es s n k ->
  exists ga, lc_active k = Some ga /\ empty_working_set N ga.
Proof.
  intros Hs Hn As. destruct (kasked_turn n k As) as (x & g & y & f & p & r & l0 & l1 & k0 & k1 & t & A & G & Tu). destruct (kactive_given _ _ _ _ _ _ _ _ _ _ _ _ _ Hs Tu) as (ga & Lk & Sa). exists ga. split; [exact Lk|].
  pose proof Tu as (K & _). destruct Re as (Pp & _ & _ & _ & _ & _ & _ & _ & St). destruct (told_pepper _ _ _ _ _ _ _ _ _ _ _ _ _ _ _ _ _ _ Pp G K _ _ Sa) as (T1 & T2 & T3 & T4).
  assert (L4 : length (actuals l0) = 4%nat). { destruct (ko_before _ _ _ _ _ _ _ _ _ _ _ _ _ _ _ _ K) as (_ & Id & _). unfold actuals. rewrite map_length. rewrite <- (map_length (fun i => (tk_id (ti_task i), tk_type (ti_task i)))). unfold task_ids in Id. rewrite Id. reflexivity. }
  assert (No : forall a, In a (actuals l0) -> guessed a = repeat INACTIVE (2 * N)).
  { intros a I. apply guessed_nothing. destruct Hn as [->|[Hr|Hr]]; [left|left|right; exact Hr].
    - cbn [kp_after] in A. injection A as <-. unfold kp_start in St. destruct (kp_setup_shape (ks_position se) pb_new pr_new) as (q & i0 & i1 & E & _ & S & Ke). rewrite E in St. cbn [bind] in St. injection St as <-. cbn [kp_problem] in *.
      destruct (ko_before _ _ _ _ _ _ _ _ _ _ _ _ _ _ _ _ K) as (E0 & _). cbn [kp_problem] in E0. destruct S as (E1 & _). rewrite E1 in E0. injection E0 as <- <-. exact (kk_report _ _ _ _ (Ke (mkHot false false false) 0%nat) eq_refl a I).
    - destruct (kg_problem _ _ _ _ _ _ _ G) as (_ & i0 & i1 & S & Ke). destruct (ko_before _ _ _ _ _ _ _ _ _ _ _ _ _ _ _ _ K) as (E0 & _). destruct S as (E1 & _). rewrite E1 in E0. injection E0 as <- <-. exact (kk_report _ _ _ _ Ke Hr a I). }
  assert (In4 : forall b i, (b < 4)%nat -> (i < 2 * N)%nat -> nth_error (concat (map guessed (actuals l0))) (b * (2 * N) + i) = Some INACTIVE).
  { intros b i Hb Hi. destruct (four_parts guessed (actuals l0) N b i L4) as (a & Ea & X); [intros a I; rewrite (No a I); apply repeat_length|exact Hb|exact Hi|]. apply (eq_trans X). rewrite (No a (nth_error_In _ _ Ea)). apply error_repeat. exact Hi. }
  split.
  - exact T1.
  - intros v Hv. destruct (Nat.lt_ge_cases v (2 * N)) as [L2|L2]; [|apply T3; lia]. destruct (T2 v L2) as (q & z & Q & Z & Me). rewrite In4 in Z by lia. injection Z as <-. cbn in Me. subst q. exact Q.
  - intros b c a Hc. unfold row_at. pose proof (axis_small a). assert (Hb : (row_index b < 3)%nat) by (destruct b; cbn; lia).
    destruct (T4 (row_index b) (2 * c + axis_index a)%nat Hb ltac:(lia)) as (q & z & Q & Z & Me). rewrite In4 in Z by lia. injection Z as <-. cbn in Me. subst q. rewrite <- Nat.add_assoc. exact Q.
Qed.
(** the working set of the previous iteration *)
Lemma kactive_next n k k' : hs_active (ks_start se) = true -> hs_report (ks_start se) = true -> (sampling_ms P <= ks_subsampling se)%Z -> finite_velocity (ks_bounds se) -> kp_asked junk se es s n k -> kp_asked junk se es s (S n) k' ->
  exists ga, lc_active k' = Some ga /\ moved_working_set N (an_wsb (en_library (es n) k)) (an_wsc (en_library (es n) k)) ga.
Proof.
  intros Hs Hr Hp Fv As As'. destruct (kasked_turn (S n) k' As') as (x2 & g & y & f & p & r & l0 & l1 & k0 & k1 & t & A & G & Tu). destruct (kactive_given _ _ _ _ _ _ _ _ _ _ _ _ _ Hs Tu) as (ga & Lk & Sa). exists ga. split; [exact Lk|].
  destruct (kasked_turn n k As) as (x1 & g1 & y1 & f1 & p1 & r1 & i0 & i1 & m0 & m1 & t1 & A1 & G1 & (K1 & _ & Ef & [(_ & E & _)|(R1 & _ & z & E & _ & _ & Fi & _ & _ & _ & _ & _ & Ls & Ca)])); [congruence|].
  rewrite A in E. injection E as <-. destruct Ca as [_ Ca]. destruct (Ca Hr) as (j0 & j1 & v0 & Sj & Ac & Lv & Rp). pose proof Tu as (K & _). destruct Re as (Pp & _ & _ & _ & _ & Two & _). specialize (Two Hs Hr Hp).
  assert (l0 = j0). { destruct (ko_before _ _ _ _ _ _ _ _ _ _ _ _ _ _ _ _ K) as (E0 & _). destruct Sj as (E1 & _). rewrite E1 in E0. injection E0 as <- _. reflexivity. } subst j0.
  destruct (told_pepper _ _ _ _ _ _ _ _ _ _ _ _ _ _ _ _ _ _ Pp G K _ _ Sa) as (T1 & T2 & T3 & T4).
  destruct (reported_pepper _ _ _ _ _ _ _ _ _ _ _ _ _ _ _ _ _ _ Pp G1 K1 _ _ _ Fv Rp) as (Q1 & Q2).
  set (wsb := an_wsb (en_library (es n) k)) in *. set (wsc := an_wsc (en_library (es n) k)) in *. rewrite Ac in T2, T4.
  assert (Gs : forall a, length a = (2 * N)%nat -> guessed a = guessed_cops N a). { intros a La. unfold guessed_bounds. destruct (Z.ltb_spec (ks_subsampling se) (sampling_ms P)); [lia|reflexivity]. }
  assert (Pl : forall a, In a (parts (2 * N) v0) -> length a = (2 * N)%nat).
  { intros a I. apply In_nth_error in I. destruct I as (b & I). assert (Hb : (b < 4)%nat) by (change 4%nat with (length (parts (2 * N) v0)); apply nth_error_Some; congruence).
    destruct (part_at (2 * N) v0 b 0 ltac:(lia) Lv Hb) as (a' & X & La & _). congruence. }
  assert (Gl : forall a, In a (parts (2 * N) v0) -> length (guessed a) = (2 * N)%nat) by (intros a I; rewrite (Gs a (Pl a I)); apply guessed_cops_length; [exact Two|right; apply Pl; exact I]).
  assert (Mv : forall b i, (b < 4)%nat -> (i + 2 < 2 * N)%nat -> nth_error (concat (map guessed (parts (2 * N) v0))) (b * (2 * N) + i) = nth_error v0 (b * (2 * N) + (2 + i))).
  { intros b i Hb Hi. destruct (four_parts guessed (parts (2 * N) v0) N b i eq_refl Gl Hb ltac:(lia)) as (a & Ea & X). apply (eq_trans X). rewrite (Gs a) by (apply Pl; exact (nth_error_In _ _ Ea)). rewrite cops_moved; [|apply Pl; exact (nth_error_In _ _ Ea)|exact Hi].
    destruct (part_at (2 * N) v0 b (2 + i) ltac:(lia) Lv Hb) as (a' & Ea' & _ & Y). rewrite <- Y. congruence. }
  assert (Ml : forall b a, (b < 4)%nat -> nth_error (concat (map guessed (parts (2 * N) v0))) (b * (2 * N) + (2 * (N - 1) + axis_index a)) = Some INACTIVE).
  { intros b ax Hb. pose proof (axis_small ax). destruct (four_parts guessed (parts (2 * N) v0) N b (2 * (N - 1) + axis_index ax)%nat eq_refl Gl Hb ltac:(lia)) as (a & Ea & X). apply (eq_trans X). rewrite (Gs a) by (apply Pl; exact (nth_error_In _ _ Ea)).
    apply (cops_last N a ax); [lia|apply Pl; exact (nth_error_In _ _ Ea)]. }
  assert (Ms : forall ws z q, act_of ws z -> guess_means z q -> qstatus_of ws q).
  { intros ws z q (B1 & B2 & B3) Gm. split; [|split]; intros W; [rewrite (B1 W) in Gm|rewrite (B2 W) in Gm|rewrite (B3 W) in Gm]; exact Gm. }
  split.
  - exact T1.
  - intros c a Hc. unfold base_var. pose proof (axis_small a). destruct (T2 (2 * c + axis_index a)%nat ltac:(lia)) as (q & z & Q & Z & Me). rewrite Mv in Z by lia. destruct (Q1 (2 + (2 * c + axis_index a))%nat ltac:(lia)) as (u & U & Au).
    rewrite U in Z. injection Z as ->. exists q. split; [exact Q|]. replace (2 * S c + axis_index a)%nat with (2 + (2 * c + axis_index a))%nat by lia. exact (Ms _ _ _ Au Me).
  - intros a. unfold base_var. pose proof (axis_small a). destruct (T2 (2 * (N - 1) + axis_index a)%nat ltac:(lia)) as (q & z & Q & Z & Me). rewrite Ml in Z by lia. injection Z as <-. cbn in Me. subst q. exact Q.
  - intros c a Hc. unfold jerk_var. pose proof (axis_small a). apply T3. lia.
  - intros b c a Hc. unfold row_at. pose proof (axis_small a). assert (Hb : (row_index b < 3)%nat) by (destruct b; cbn; lia). destruct (T4 (row_index b) (2 * c + axis_index a)%nat Hb ltac:(lia)) as (q & z & Q & Z & Me).
    rewrite Mv in Z by lia. destruct (Q2 (row_index b) (2 + (2 * c + axis_index a))%nat Hb ltac:(lia)) as (u & U & Au). rewrite U in Z. injection Z as ->. exists q. split; [rewrite <- Nat.add_assoc; exact Q|].
    replace (row_index b * (2 * N) + 2 * S c + axis_index a)%nat with (row_index b * (2 * N) + (2 + (2 * c + axis_index a)))%nat by lia. exact (Ms _ _ _ Au Me).
  - intros b a. unfold row_at. pose proof (axis_small a). assert (Hb : (row_index b < 3)%nat) by (destruct b; cbn; lia). destruct (T4 (row_index b) (2 * (N - 1) + axis_index a)%nat Hb ltac:(lia)) as (q & z & Q & Z & Me). rewrite Ml in Z by lia. injection Z as <-. cbn in Me. subst q.
    rewrite <- Nat.add_assoc. exact Q.
Qed.
End Hot.

(** ** theorems *)
(** nothing is guessed if it was not asked for *)
Theorem kp_hot_nothing : forall junk se par gain details w s0 s es, ready se par gain details w s0 s -> kp_understood junk se es s -> forall n k, kp_asked junk se es s n k ->
  qa_nV (lc_problem k) = (4 * horizon_length (mg_par (lp_mg s0)))%nat /\ (hs_solution (ks_start se) = false -> lc_guess k = None) /\ (hs_active (ks_start se) = false -> lc_active k = None).
Proof.
  intros junk se par gain details w s0 s es Re Un n k As. split; [eapply asked_variables; eassumption|]. split; intros Hs.
  - eapply kguess_not_given; eassumption.
  - eapply kactive_not_given; eassumption.
Qed.
(** the guess of the solution: zero in the first iteration, the previous solution one interval later in the others *)
Theorem kp_hot_solution : forall junk se par gain details w s0 s es, ready se par gain details w s0 s -> kp_understood junk se es s -> hs_solution (ks_start se) = true -> let N := horizon_length (mg_par (lp_mg s0)) in
  (forall k, kp_asked junk se es s 0 k -> exists g, lc_guess k = Some g /\ vlen g = (4 * N)%nat /\ forall i, (i < 4 * N)%nat -> vget g i = 0) /\
  (forall n x x' k k', kp_steps junk se es s n x x' -> kp_asked junk se es s n k -> kp_asked junk se es s (S n) k' ->
    exists g, lc_guess k' = Some g /\ moved_commands N (point (kp_last x')) g /\ forall y, an_primal (en_library (es n) k) = Some y -> forall i, (i < 4 * N)%nat -> point (kp_last x') i = y i).
Proof.
  intros junk se par gain details w s0 s es Re Un Hs N. split.
  - intros k As. eapply kguess_first; eassumption.
  - intros n x x' k k' St As As'. eapply kguess_next; eassumption.
Qed.
(** the guess of the active set: nothing is known in the first iteration, or if the active set found by the solver is not processed, or if an iteration
    advances by less than an interval; otherwise it is the previous working set one interval later *)
Theorem kp_hot_active : forall junk se par gain details w s0 s es, ready se par gain details w s0 s -> kp_understood junk se es s -> hs_active (ks_start se) = true -> let N := horizon_length (mg_par (lp_mg s0)) in
  (forall n k, n = 0%nat \/ hs_report (ks_start se) = false \/ (ks_subsampling se < sampling_ms (mg_par (lp_mg s0)))%Z -> kp_asked junk se es s n k -> exists g, lc_active k = Some g /\ empty_working_set N g) /\
  (hs_report (ks_start se) = true -> (sampling_ms (mg_par (lp_mg s0)) <= ks_subsampling se)%Z -> finite_velocity (ks_bounds se) -> forall n k k', kp_asked junk se es s n k -> kp_asked junk se es s (S n) k' ->
    exists g, lc_active k' = Some g /\ moved_working_set N (an_wsb (en_library (es n) k)) (an_wsc (en_library (es n) k)) g).
Proof.
  intros junk se par gain details w s0 s es Re Un Hs N. split.
  - intros n k Hn As. eapply kactive_unknown; eassumption.
  - intros Hr Hp Fv n k k' As As'. eapply kactive_next; eassumption.
Qed.

(** ** a case: guesses of all kinds, calls in all of the four iterations *)
Theorem kp_hot_case : forall junk hs es, exists s, let se := cr_settings hs in let es' := fun n => cr_environment (es n) in
  ready se cr_par (1 / 2) None cr_world cr_loop s /\ kp_understood junk se es' s /\ finite_velocity (ks_bounds se) /\ (sampling_ms (mg_par (lp_mg cr_loop)) <= ks_subsampling se)%Z /\
  forall n, (n < 4)%nat -> exists x x' k, kp_steps junk se es' s n x x' /\ kp_asked junk se es' s n k.
Proof.
  intros junk hs es. destruct (cr_ready hs) as (s & Re). exists s. intros se es'. pose proof (cr_understood junk hs es s) as Un. split; [exact Re|]. split; [exact Un|]. split.
  { intros a. assert (X : 10 <= g_infinity) by (unfold g_infinity; lra). destruct a; cbn [se cr_settings ks_bounds cr_bounds rb_velocity lower_bound upper_bound a00 a01 a10 a11]; lra. }
  split; [cbn; lia|]. destruct (cr_run junk hs es s Re) as (x & [X _]).
  assert (B : forall n y, kp_after junk se es' s n = Ok (Some y) -> forall m, (m < n)%nat -> exists a b, kp_steps junk se es' s m a b).
  { induction n as [|n IH]; intros y A m Hm; [lia|]. destruct (kp_before junk se s es' n y A) as (z & St). destruct (Nat.eq_dec m n) as [->|Ne]; [exists z, y; exact St|]. exact (IH z (proj1 St) m ltac:(lia)). }
  intros n Hn. destruct (B 4%nat x X n Hn) as (a & b & St). destruct (kstepped junk se cr_par (1 / 2) None cr_world cr_loop s Re es' Un n a b St) as (_ & _ & _ & _ & g & y & f & p & r & l0 & l1 & k0 & k1 & t & k & _ & As & _).
  exists a, b, k. split; assumption.
Qed.
