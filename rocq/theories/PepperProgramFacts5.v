(** * The Pepper program: the problem given to the library, theorems *)
From Coq Require Import String List Reals Arith Bool ZArith Lra Lia.
From Verif Require Import Base BaseFacts RSum Matrix Mat2 Mat3 ActiveSet Mixins ConstraintType HierarchyLevel HierarchySpec Constraints ConstraintsSpec QP QPSpec Problem ProblemSpec
  PointMass6z PointMass6zSpec TripleIntegratorSpec Solution Task MpcGuess MpcGuessSpec MpcGuessFacts
  QpoasesBridge QpoasesBridgeSpec Backends BackendsSpec Solver SolverLife SolverLifeSpec SolverLifeFacts WalkProgram WalkProgramSpec WalkProgramFacts WalkProgramFacts2
  PepperPreview PepperPreviewSpec PepperFormFacts PepperModel PepperMpc PepperMpcSpec PepperMpcFacts2 PepperTasks PepperTasksSpec PepperTasksFacts PepperTasksFacts2 PepperLoop PepperLoopSpec PepperLoopFacts PepperLoopFacts2
  PepperProgram PepperProgramSpec PepperProgramFacts PepperProgramFacts2 PepperProgramFacts3 PepperProgramFacts4.
Import ListNotations.
Local Open Scope R_scope.


(** ** the problem given to the library is the problem of the robot *)
Lemma kfeasible junk se gain par s0 e n x g y f p r l0 l1 k0 k1 w0 res t k : proper (mg_par (lp_mg s0)) -> mg_par (lp_mg (kp_loop x)) = mg_par (lp_mg s0) ->
  kposed junk se e s0 gain n x g y f p r l0 l1 k0 k1 -> effect par (kp_call se e f p r) w0 l0 l1 res t k -> let N := horizon_length (mg_par (lp_mg s0)) in
  (forall sol P, fits_problem N sol -> planned (kp_loop x) sol P ->
    (qpoases_feasible (lc_problem k) (point sol) <-> respects (ks_bounds se) (as_queue (lp_motions s0)) (ks_shift se) n (kp_loop x) P /\ finite N sol)) /\
  (forall z, qpoases_feasible (lc_problem k) z -> qpoases_feasible (lc_problem k) (point (as_pepper N z))) /\
  (forall z, minimum (qpoases_cost (lc_problem k)) (qpoases_feasible (lc_problem k)) z ->
    forall sol P sol' P', fits_problem N sol -> planned (kp_loop x) sol P -> (forall i, (i < 4 * N)%nat -> z i = point sol i) ->
      fits_problem N sol' -> planned (kp_loop x) sol' P' -> respects (ks_bounds se) (as_queue (lp_motions s0)) (ks_shift se) n (kp_loop x) P' -> finite N sol' ->
      plan_cost se gain (as_queue (lp_motions s0)) n (kp_loop x) sol P <= plan_cost se gain (as_queue (lp_motions s0)) n (kp_loop x) sol' P').
Proof.
  intros Pp EP K Ef N. pose proof (ko_formed _ _ _ _ _ _ _ _ _ _ _ _ _ _ _ _ K) as KF. pose proof (ko_before _ _ _ _ _ _ _ _ _ _ _ _ _ _ _ _ K) as Sh. pose proof (ko_nv _ _ _ _ _ _ _ _ _ _ _ _ _ _ _ _ K) as NV.
  pose proof (gt_points _ _ _ _ _ _ (ef_gets _ _ _ _ _ _ _ _ Ef)) as (G1 & G2 & G3). pose proof (gt_problem _ _ _ _ _ _ (ef_gets _ _ _ _ _ _ _ _ Ef)) as (_ & GM & _). cbn [kp_call cl_cs cl_solution] in G1, G2, G3, GM. rewrite NV in G2, G3, GM. fold N in NV, G2, G3, GM.
  assert (LR := level_respects se gain (as_queue (lp_motions s0)) n (kp_loop x) f (kp_problem x) l0 l1 KF Sh). assert (LC := level_plan_cost se gain (as_queue (lp_motions s0)) n (kp_loop x) f (kp_problem x) l0 l1 KF Sh).
  assert (LX := klevel_ext se gain (as_queue (lp_motions s0)) n (kp_loop x) f (kp_problem x) l0 l1 KF Sh). assert (CX := kcost_ext se gain (as_queue (lp_motions s0)) n (kp_loop x) f (kp_problem x) l0 l1 KF Sh).
  assert (RE := level_reasonable se gain (as_queue (lp_motions s0)) n (kp_loop x) f (kp_problem x) l0 l1 KF Sh). rewrite EP in LR, LC, LX, CX, RE. fold N in LR, LC, LX, CX, RE.
  assert (FF : forall z, qpoases_feasible (lc_problem k) z -> forall v, (v < 4 * N)%nat -> - g_infinity <= z v <= g_infinity).
  { intros z Fz. destruct Sh as (_ & I0 & _). destruct (four_tasks l0 _ _ _ _ I0) as (a & b & c & d & E & _ & _ & _ & X). injection X as X1 X2.
    apply (G3 z Fz d); [rewrite E; cbn; auto|unfold simple_task; rewrite X2; reflexivity|]. rewrite X1.
    pose proof (kf_objects _ _ _ _ _ _ KF (VELOCITY, ILU)) as (_ & _ & NC); [cbn; auto 6|]. cbn [fst] in NC. rewrite NC, EP. destruct Pp as [Pp _]. lia. }
  split; [|split].
  - intros sol P Fi Pl. split.
    + intros Fe. split; [apply (LR sol P Fi Pl), G1, Fe|exact (FF _ Fe)].
    + intros [Rs Fn]. apply G2; [apply RE; exact Fn|apply (LR sol P Fi Pl), Rs].
  - intros z Fe. apply G2.
    + apply RE. intros v Hv. rewrite as_pepper_point by exact Hv. exact (FF z Fe v Hv).
    + apply (LX z); [|apply G1, Fe]. intros i Hi. rewrite as_pepper_point by exact Hi. reflexivity.
  - intros z Mz sol P sol' P' Fi Pl Ez Fi' Pl' Rs Fn. destruct (GM z Mz) as [_ M]. rewrite <- (LC sol P Fi Pl), <- (LC sol' P' Fi' Pl'). rewrite <- (CX z (point sol) Ez).
    apply M; [apply RE; exact Fn|apply (LR sol' P' Fi' Pl'), Rs].
Qed.

Section Theorems.
Variables (junk : nat -> nat -> nat -> R) (se : pepper_settings) (par : qparams) (gain : R) (details : option (backend_code * Z)) (w : world) (s0 : loop) (s : pepper_program).
Hypothesis Re : ready se par gain details w s0 s.
Notation P := (mg_par (lp_mg s0)).
Notation N := (horizon_length P).
Notation Q := (as_queue (lp_motions s0)).
Notation Good := (kgood se s0 gain par (wd_live w)).
Notation enough n := (endless Q \/ (Z.of_nat N * sampling_ms P + Z.of_nat n * ks_shift se <= total Q)%Z).

Lemma kp_movable n x sol Pl : Good n x -> fits_problem N sol -> planned (kp_loop x) sol Pl -> respects (ks_bounds se) Q (ks_shift se) n (kp_loop x) Pl -> finite N sol -> movable (ks_bounds se).
Proof.
  intros G Fi [_ H] Rs Fn a. destruct Re as (Pp & _). pose proof (kp_par se par gain w s0 n x G) as EP. rewrite EP in H. assert (HN : (0 < N)%nat) by apply Pp.
  exists (base_command sol 0 a). destruct (H 0%nat a HN) as (_ & E & _). specialize (Rs 0%nat a). rewrite EP in Rs. specialize (Rs HN). rewrite E in Rs. split; [apply Rs|].
  change (base_command sol 0 a) with (point sol (2 * 0 + axis_index a)). apply Fn. destruct a; cbn [axis_index]; lia.
Qed.

Lemma sound_honest_answers es : kp_library_is sound_answer junk se es s -> kp_library_is honest_answer junk se es s.
Proof. intros Li n k As Co. destruct (Li n k As Co) as (y & Y1 & Y2 & _). exists y. split; assumption. Qed.

Lemma kp_sound es (Un : kp_understood junk se es s) n x x' : pr_crash par = true -> kp_library_is sound_answer junk se es s -> kp_steps junk se es s n x x' ->
  fits_problem N (kp_last x') /\ finite N (kp_last x') /\ exists Pl, planned (kp_loop x) (kp_last x') Pl /\ respects (ks_bounds se) Q (ks_shift se) n (kp_loop x) Pl /\
  forall sol', fits_problem N sol' -> (exists Pl', planned (kp_loop x) sol' Pl') /\
    forall Pl', planned (kp_loop x) sol' Pl' -> finite N sol' -> respects (ks_bounds se) Q (ks_shift se) n (kp_loop x) Pl' ->
      plan_cost se gain Q n (kp_loop x) (kp_last x') Pl <= plan_cost se gain Q n (kp_loop x) sol' Pl'.
Proof.
  intros Cr Li St. pose proof Re as (Pp & _).
  destruct (kstepped junk se par gain details w s0 s Re es Un n x x' St) as (G & _ & _ & _ & g & y & f & p & r & l0 & l1 & k0 & k1 & t & k & K & As & Ef & Sc & _ & Fi & _ & _ & _ & _ & _ & Ls & _).
  pose proof (kp_par se par gain w s0 n x G) as EP. destruct (kfeasible junk se gain par s0 (es n) n x g y f p r l0 l1 k0 k1 (kp_world x) (Returned t) t k Pp EP K Ef) as (F1 & F2 & F3).
  destruct (Li n k As (Sc Cr)) as (z & Z & Mz). assert (Ez : forall i, (i < 4 * N)%nat -> z i = point (kp_last x') i) by (intros i Hi; symmetry; exact (answer_point junk se par gain s0 es n x x' g y f p r l0 l1 k0 k1 t k K Ef Ls z Z i Hi)).
  split; [exact Fi|]. destruct (ko_plans _ _ _ _ _ _ _ _ _ _ _ _ _ _ _ _ K (kp_last x') Fi) as (Pl & HPl). destruct (ko_plans _ _ _ _ _ _ _ _ _ _ _ _ _ _ _ _ K (as_pepper N z) (as_pepper_fits N z)) as (Pz & HPz).
  pose proof (F2 z (proj1 Mz)) as Fz. apply (F1 _ _ (as_pepper_fits N z) HPz) in Fz. destruct Fz as [Rz Fnz].
  assert (SL : kp_last x' = as_pepper N z).
  { destruct Fi as [Fs Fl]. assert (X : sol_x (kp_last x') = map z (seq 0 (4 * N))).
    { apply (nth_ext _ _ 0 (z 0%nat)); [rewrite map_length, seq_length; exact Fl|]. rewrite Fl. intros i Hi. rewrite map_nth, seq_nth by exact Hi. cbn [Nat.add]. symmetry. exact (Ez i Hi). }
    unfold as_pepper. rewrite <- X, <- Fs. destruct (kp_last x'); reflexivity. }
  rewrite SL. rewrite SL in HPl, Ez, Fi. split; [exact Fnz|]. exists Pz. split; [exact HPz|]. split; [exact Rz|]. intros sol' Fi'. split; [exact (ko_plans _ _ _ _ _ _ _ _ _ _ _ _ _ _ _ _ K sol' Fi')|].
  intros Pl' HPl' Fn' Rs'. exact (F3 z Mz _ Pz sol' Pl' Fi HPz Ez Fi' HPl' Rs' Fn').
Qed.

Lemma kp_fails es (Un : kp_understood junk se es s) n x : pr_crash par = true -> kp_library_is honest_answer junk se es s -> kp_after junk se es s n = Ok (Some x) -> enough n ->
  (forall sol Pl, fits_problem N sol -> finite N sol -> planned (kp_loop x) sol Pl -> ~ respects (ks_bounds se) Q (ks_shift se) n (kp_loop x) Pl) -> kp_after junk se es s (S n) = Throw.
Proof.
  intros Cr Li A En No. pose proof (kgood_at junk se par gain details w s0 s Re es Un n x A) as G. pose proof Re as (Pp & _).
  destruct (ktakes junk se par gain details w s0 s Re es Un n x A G) as [(Ne & E & _)|[(_ & Mv & E & _)|(_ & Mv & g & y & f & p & r & l0 & l1 & k0 & k1 & t & k & K & As & Ef & [(R1 & E & _ & Co)|(R1 & Sc & x2 & E & G' & X)])]]; [contradiction|exact E|exact E|].
  exfalso. pose proof (kp_par se par gain w s0 n x G) as EP. destruct (kfeasible junk se gain par s0 (es n) n x g y f p r l0 l1 k0 k1 (kp_world x) _ t k Pp EP K Ef) as (F1 & F2 & F3).
  destruct (Li n k As (Sc Cr)) as (z & _ & Fz). apply F2 in Fz. destruct (ko_plans _ _ _ _ _ _ _ _ _ _ _ _ _ _ _ _ K (as_pepper N z) (as_pepper_fits N z)) as (Pz & HPz).
  apply (F1 _ _ (as_pepper_fits N z) HPz) in Fz. destruct Fz as [Rz Fnz]. exact (No _ _ (as_pepper_fits N z) Fnz HPz Rz).
Qed.
Lemma kp_succeeds es (Un : kp_understood junk se es s) n x : kp_library_is capable_answer junk se es s -> kp_after junk se es s n = Ok (Some x) -> enough n ->
  (exists sol Pl, fits_problem N sol /\ finite N sol /\ planned (kp_loop x) sol Pl /\ respects (ks_bounds se) Q (ks_shift se) n (kp_loop x) Pl) -> exists x', kp_steps junk se es s n x x'.
Proof.
  intros Li A En (sol & Pl & Fi & Fn & HP & Rs). pose proof (kgood_at junk se par gain details w s0 s Re es Un n x A) as G. pose proof Re as (Pp & _).
  pose proof (kp_movable n x sol Pl G Fi HP Rs Fn) as Mv.
  destruct (ktakes junk se par gain details w s0 s Re es Un n x A G) as [(Ne & E & _)|[(_ & Nm & E & _)|(_ & _ & g & y & f & p & r & l0 & l1 & k0 & k1 & t & k & K & As & Ef & [(R1 & E & _ & Co)|(R1 & Sc & x2 & E & G' & X)])]]; try contradiction.
  - exfalso. apply Co, (Li n k As). pose proof (kp_par se par gain w s0 n x G) as EP. destruct (kfeasible junk se gain par s0 (es n) n x g y f p r l0 l1 k0 k1 (kp_world x) _ t k Pp EP K Ef) as (F1 & _).
    exists (point sol). apply (F1 sol Pl Fi HP). split; assumption.
  - exists x2. split; assumption.
Qed.

(** bounds on the velocity which contradict each other *)
Lemma kp_contradictory es : ~ movable (ks_bounds se) -> (forall n k, ~ kp_asked junk se es s n k) /\ forall n, enough 0 /\ kp_after junk se es s (S n) = Throw \/ ~ enough 0 /\ kp_after junk se es s (S n) = Ok None.
Proof.
  intros Nm. pose proof Re as (Pp & V & Hs & Ha & Ms & Two & TL & Ti & St). destruct (start_kgood se par gain details w s0 s Re) as (G & E0 & W0).
  assert (A0 : kp_after junk se es s 0 = Ok (Some s)) by reflexivity.
  assert (X : (forall k, ~ kp_asked junk se es s 0 k) /\ (enough 0 /\ kp_after junk se es s 1 = Throw \/ ~ enough 0 /\ kp_after junk se es s 1 = Ok None)).
  { destruct (poses_pepper junk se gain par (wd_live w) s0 Pp Two TL (es 0%nat) 0 s G) as [(La & g & y & f & p & r & l0 & l1 & k0 & k1 & K)|(La & Pre)].
    - pose proof (ko_prepare _ _ _ _ _ _ _ _ _ _ _ _ _ _ _ _ K) as Pre.
      destruct (solves_pepper junk se gain par (wd_live w) s0 TL (es 0%nat) 0 s g y f p r l0 l1 k0 k1 G K) as (t & R & Ht & Pt & [(Mv & Th & Ca)|(Mv & _)]); [|contradiction]. split.
      + intros k (x1 & g1 & y1 & f1 & p1 & r1 & t1 & A1 & P1 & R1 & C1). rewrite A0 in A1. injection A1 as <-. rewrite Pre in P1. injection P1 as <- <- <- <- <-. rewrite Th in R1. destruct R1 as [R1|R1]; [discriminate R1|injection R1 as <-].
        rewrite Ca in C1. apply (f_equal (@length _)) in C1. cbn [length] in C1. lia.
      + left. split; [apply (enough_iff junk se par gain details w s0 s Re 0 s G); exact La|]. cbn [kp_after bind]. unfold kp_iterate. rewrite Pre. cbn [bind]. rewrite Th. reflexivity.
    - split.
      + intros k (x1 & g & y & f & p & r & t & A1 & P1 & _). rewrite A0 in A1. injection A1 as <-. rewrite Pre in P1. discriminate P1.
      + right. split; [rewrite <- (enough_iff junk se par gain details w s0 s Re 0 s G); exact La|]. cbn [kp_after bind]. unfold kp_iterate. rewrite Pre. reflexivity. }
  destruct X as [Na X].
  assert (Y : forall n, enough 0 /\ kp_after junk se es s (S n) = Throw \/ ~ enough 0 /\ kp_after junk se es s (S n) = Ok None).
  { induction n as [|n IH]; [exact X|]. destruct IH as [[En A]|[En A]]; [left|right]; (split; [exact En|]); cbn [kp_after] in A |- *; rewrite A; reflexivity. }
  split; [|exact Y]. intros [|n] k As; [exact (Na k As)|]. destruct As as (x & _ & _ & _ & _ & _ & _ & A & _). destruct (Y n) as [[_ B]|[_ B]]; congruence.
Qed.
End Theorems.
