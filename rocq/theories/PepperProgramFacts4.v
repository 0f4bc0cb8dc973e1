(** * The Pepper program: all of its iterations *)
From Coq Require Import String List Reals Arith Bool ZArith Lra Lia.
From Verif Require Import Base BaseFacts RSum Matrix Mat2 Mat3 ActiveSet Mixins ConstraintType HierarchyLevel HierarchySpec Constraints ConstraintsSpec QP QPSpec Problem ProblemSpec
  PointMass6z PointMass6zSpec TripleIntegratorSpec Solution Task MpcGuess MpcGuessSpec MpcGuessFacts
  QpoasesBridge QpoasesBridgeSpec Backends BackendsSpec Solver SolverLife SolverLifeSpec SolverLifeFacts WalkProgram WalkProgramSpec WalkProgramFacts WalkProgramFacts2
  PepperPreview PepperPreviewSpec PepperFormFacts PepperModel PepperMpc PepperMpcSpec PepperMpcFacts2 PepperTasks PepperTasksSpec PepperTasksFacts PepperTasksFacts2 PepperLoop PepperLoopSpec PepperLoopFacts PepperLoopFacts2
  PepperProgram PepperProgramSpec PepperProgramFacts PepperProgramFacts2 PepperProgramFacts3.
Import ListNotations.
Local Open Scope R_scope.

Section Run.
Variables (junk : nat -> nat -> nat -> R) (se : pepper_settings) (par : qparams) (gain : R) (details : option (backend_code * Z)) (w : world) (s0 : loop) (s : pepper_program).
Hypothesis Re : ready se par gain details w s0 s.
Notation P := (mg_par (lp_mg s0)).
Notation N := (horizon_length P).
Notation Q := (as_queue (lp_motions s0)).
Notation Good := (kgood se s0 gain par (wd_live w)).
(** the motion is long enough for the iteration [n] *)
Notation enough n := (endless Q \/ (Z.of_nat N * sampling_ms P + Z.of_nat n * ks_shift se <= total Q)%Z).

Lemma start_kgood : Good 0 s /\ kp_loop s = s0 /\ kp_world s = w.
Proof.
  destruct Re as (Pp & V & Hs & Ha & Ms & Two & TL & Ti & St). unfold kp_start in St. destruct (kp_setup_shape (ks_position se) pb_new pr_new) as (p & l0 & l1 & E & Pr & Sh & Ke). rewrite E in St. cbn [bind] in St. injection St as <-.
  split; [|split; reflexivity]. split; cbn [kp_loop kp_problem kp_body_jerk kp_solver kp_world kp_old].
  - apply (started (ks_advance se) (ks_shift se) (fun _ => as_pepper N (fun _ => 0)) s0). split; [exact Pp|]. split; [exact V|]. split; [exact Hs|]. split; [exact Ha|]. intros _. apply as_pepper_fits.
  - exact Ms.
  - split; [exact Pr|]. exists l0, l1. split; [exact Sh|apply Ke].
  - left. reflexivity.
  - split; [split; [exact Ti|reflexivity]|reflexivity].
  - left. reflexivity.
Qed.
Lemma enough_iff n x : Good n x -> (lasts P (as_queue (lp_motions (kp_loop x))) <-> enough n).
Proof.
  intros G. destruct Re as (Pp & V & Hs & Ha & _). apply (lasts_iff junk (ks_advance se) (ks_shift se) (fun _ => as_pepper N (fun _ => 0)) s0); [|exact (kg_loop _ _ _ _ _ _ _ G)].
  split; [exact Pp|]. split; [exact V|]. split; [exact Hs|]. split; [exact Ha|]. intros _. apply as_pepper_fits.
Qed.
Lemma enough_less n m : (m <= n)%nat -> enough n -> enough m.
Proof. intros L [E|E]; [left; exact E|right]. destruct Re as (_ & _ & Hs & _). nia. Qed.

(** an iteration which calls the library *)
Definition kturn (es : nat -> environment) (n : nat) (x : pepper_program) (g : mg) (y : motions) (f : pepper_tasks) (p : problem) (r : request) (l0 l1 k0 k1 : level) (t : cstate) (k : libcall) : Prop :=
  kposed junk se (es n) s0 gain n x g y f p r l0 l1 k0 k1 /\ kp_asked junk se es s n k /\
  effect par (kp_call se (es n) f p r) (kp_world x) l0 l1 (sv_solve (kp_call se (es n) f p r) (kp_solver x) (kp_world x)) t k /\
  ((sv_solve (kp_call se (es n) f p r) (kp_solver x) (kp_world x) = Thrown t /\ kp_after junk se es s (S n) = Throw /\ pr_crash par = true /\ an_code (en_library (es n) k) <> CODE_SUCCESS) \/
   (sv_solve (kp_call se (es n) f p r) (kp_solver x) (kp_world x) = Returned t /\ (pr_crash par = true -> an_code (en_library (es n) k) = CODE_SUCCESS) /\
    exists x', kp_after junk se es s (S n) = Ok (Some x') /\ Good (S n) x' /\ cycle junk (ks_bounds se) (ks_advance se) (ks_shift se) (kp_last x') (kp_loop x) = Ok (Some (kp_loop x')) /\ fits_problem N (kp_last x') /\
      mg_size (lp_mg (kp_loop x')) = mg_size g /\ mg_horizon (lp_mg (kp_loop x')) = mg_horizon g /\ mg_matrices (lp_mg (kp_loop x')) = mg_matrices g /\
      kp_solution x' = cs_solution t /\ kp_world x' = cs_world t /\ kp_last x' = solution_of (structure_pepper N) (cs_solution t) /\ kcarried se s0 (es n) f k0 k x x')).

Lemma ktakes es (Un : kp_understood junk se es s) n x : kp_after junk se es s n = Ok (Some x) -> Good n x ->
  (~ enough n /\ kp_after junk se es s (S n) = Ok None /\ forall k, ~ kp_asked junk se es s n k) \/
  (enough n /\ ~ movable (ks_bounds se) /\ kp_after junk se es s (S n) = Throw /\ forall k, ~ kp_asked junk se es s n k) \/
  (enough n /\ movable (ks_bounds se) /\ exists g y f p r l0 l1 k0 k1 t k, kturn es n x g y f p r l0 l1 k0 k1 t k).
Proof.
  intros A G. pose proof Re as (Pp & V & Hs & Ha & Ms & Two & TL & Ti & St).
  assert (AS : kp_after junk se es s (S n) = kp_iterate junk se (es n) x) by (cbn [kp_after]; rewrite A; reflexivity).
  destruct (poses_pepper junk se gain par (wd_live w) s0 Pp Two TL (es n) n x G) as [(La & g & y & f & p & r & l0 & l1 & k0 & k1 & K)|(La & Pre)].
  2:{ left. split; [rewrite <- (enough_iff n x G); exact La|]. split; [rewrite AS; unfold kp_iterate; rewrite Pre; reflexivity|].
      intros k (x1 & g & y & f & p & r & t & A1 & P1 & _). rewrite A in A1. injection A1 as <-. rewrite Pre in P1. discriminate P1. }
  right. pose proof (ko_prepare _ _ _ _ _ _ _ _ _ _ _ _ _ _ _ _ K) as Pre.
  destruct (solves_pepper junk se gain par (wd_live w) s0 TL (es n) n x g y f p r l0 l1 k0 k1 G K) as (t & R & Ht & Pt & [(Mv & Th & Ca)|(Mv & k & Ef)]).
  - left. split; [apply (enough_iff n x G); exact La|]. split; [exact Mv|]. split; [rewrite AS; unfold kp_iterate; rewrite Pre; cbn [bind]; rewrite Th; reflexivity|].
    intros k (x1 & g1 & y1 & f1 & p1 & r1 & t1 & A1 & P1 & R1 & C1). rewrite A in A1. injection A1 as <-. rewrite Pre in P1. injection P1 as <- <- <- <- <-. rewrite Th in R1. destruct R1 as [R1|R1]; [discriminate R1|injection R1 as <-].
    rewrite Ca in C1. apply (f_equal (@length _)) in C1. cbn [length] in C1. lia.
  - right. split; [apply (enough_iff n x G); exact La|]. split; [exact Mv|]. exists g, y, f, p, r, l0, l1, k0, k1, t, k. split; [exact K|].
    assert (As : kp_asked junk se es s n k). { exists x, g, y, f, p, r, t. split; [exact A|]. split; [exact Pre|]. split; [exact R|]. exact (ef_calls _ _ _ _ _ _ _ _ Ef). }
    assert (Se : hs_report (ks_start se) = true -> SolverLifeSpec.sensible (en_library (es n) k) k) by (intros Hr; exact (Un Hr n k As)).
    split; [exact As|]. split; [exact Ef|]. destruct R as [R|R].
    + right. split; [exact R|]. split; [intros Cr; exact (ef_success _ _ _ _ _ _ _ _ Ef R Cr)|]. rewrite R in Ef.
      destruct (advances_pepper junk se gain par (wd_live w) s0 Pp V Hs Ha Two TL (es n) n x g y f p r l0 l1 k0 k1 t k G La K R Ht Pt Ef Se) as (x' & It & X). exists x'. split; [rewrite AS; exact It|exact X].
    + left. split; [exact R|]. split; [rewrite AS; unfold kp_iterate; rewrite Pre; cbn [bind]; rewrite R; reflexivity|].
      destruct (hs_report (ks_start se)) eqn:Hr; [exact (proj1 (ef_report _ _ _ _ _ _ _ _ Ef Hr (Se eq_refl)) R)|exact (proj2 (ef_plain _ _ _ _ _ _ _ _ Ef Hr) R)].
Qed.

(** the program after [n] iterations *)
Lemma kruns es (Un : kp_understood junk se es s) n :
  match kp_after junk se es s n with
  | Ok (Some x) => Good n x /\ (n = 0%nat \/ (enough (n - 1) /\ movable (ks_bounds se))) /\ length (wd_calls (kp_world x)) = (length (wd_calls w) + n)%nat
  | Ok None => (0 < n)%nat /\ ~ enough (n - 1)
  | Throw => (0 < n)%nat /\ enough 0 /\ (movable (ks_bounds se) -> pr_crash par = true /\ exists m k, (m < n)%nat /\ kp_asked junk se es s m k /\ an_code (en_library (es m) k) <> CODE_SUCCESS)
  | _ => False
  end.
Proof.
  induction n as [|n IH].
  - cbn [kp_after]. destruct start_kgood as (G & E & W). split; [exact G|]. split; [left; reflexivity|]. rewrite W. lia.
  - destruct (kp_after junk se es s n) as [[x|]| |] eqn:A; try contradiction.
    + destruct IH as (G & _ & LC). destruct (ktakes es Un n x A G) as [(Ne & E & _)|[(En & Mv & E & _)|(En & Mv & g & y & f & p & r & l0 & l1 & k0 & k1 & t & k & K & As & Ef & [(R1 & E & Cr & Co)|(R1 & _ & x' & E & G' & _ & _ & _ & _ & _ & _ & Wx & _)])]]; rewrite E.
      * split; [lia|]. replace (S n - 1)%nat with n by lia. exact Ne.
      * split; [lia|]. split; [exact (enough_less n 0 ltac:(lia) En)|]. intros X. contradiction.
      * split; [lia|]. split; [exact (enough_less n 0 ltac:(lia) En)|]. intros _. split; [exact Cr|]. exists n, k. split; [lia|]. split; assumption.
      * split; [exact G'|]. split; [right; replace (S n - 1)%nat with n by lia; split; assumption|]. rewrite Wx, (ef_calls _ _ _ _ _ _ _ _ Ef). cbn [length]. lia.
    + cbn [kp_after]. rewrite A. cbn [bind]. destruct IH as [IH1 IH2]. split; [lia|]. intros X. apply IH2. apply (enough_less (S n - 1)); [lia|exact X].
    + cbn [kp_after]. rewrite A. cbn [bind]. destruct IH as [IH1 [IH2 IH3]]. split; [lia|]. split; [exact IH2|]. intros Mv. destruct (IH3 Mv) as (Cr & m & k & L & X). split; [exact Cr|]. exists m, k. split; [lia|exact X].
Qed.
Lemma kgood_at es (Un : kp_understood junk se es s) n x : kp_after junk se es s n = Ok (Some x) -> Good n x.
Proof. intros A. pose proof (kruns es Un n) as R1. rewrite A in R1. apply R1. Qed.
Lemma kstepped es (Un : kp_understood junk se es s) n x x' : kp_steps junk se es s n x x' -> Good n x /\ Good (S n) x' /\ enough n /\ movable (ks_bounds se) /\ exists g y f p r l0 l1 k0 k1 t k,
  kposed junk se (es n) s0 gain n x g y f p r l0 l1 k0 k1 /\ kp_asked junk se es s n k /\
  effect par (kp_call se (es n) f p r) (kp_world x) l0 l1 (Returned t) t k /\ (pr_crash par = true -> an_code (en_library (es n) k) = CODE_SUCCESS) /\
  cycle junk (ks_bounds se) (ks_advance se) (ks_shift se) (kp_last x') (kp_loop x) = Ok (Some (kp_loop x')) /\ fits_problem N (kp_last x') /\
  mg_size (lp_mg (kp_loop x')) = mg_size g /\ mg_horizon (lp_mg (kp_loop x')) = mg_horizon g /\ mg_matrices (lp_mg (kp_loop x')) = mg_matrices g /\
  kp_solution x' = cs_solution t /\ kp_world x' = cs_world t /\ kp_last x' = solution_of (structure_pepper N) (cs_solution t) /\ kcarried se s0 (es n) f k0 k x x'.
Proof.
  intros [A A']. pose proof (kgood_at es Un n x A) as G. split; [exact G|]. split; [exact (kgood_at es Un (S n) x' A')|].
  destruct (ktakes es Un n x A G) as [(Ne & E & _)|[(En & Mv & E & _)|(En & Mv & g & y & f & p & r & l0 & l1 & k0 & k1 & t & k & K & As & Ef & [(R1 & E & Cr & Co)|(R1 & Sc & x2 & E & G' & X)])]]; try congruence.
  rewrite A' in E. injection E as <-. split; [exact En|]. split; [exact Mv|]. exists g, y, f, p, r, l0, l1, k0, k1, t, k. rewrite R1 in Ef. do 4 (split; [assumption|]). exact X.
Qed.
Lemma kp_before es n x' : kp_after junk se es s (S n) = Ok (Some x') -> exists x, kp_steps junk se es s n x x'.
Proof. intros A. pose proof A as A'. cbn [kp_after] in A. apply bind_ok in A. destruct A as ([x|] & A & B); [|discriminate B]. exists x. split; assumption. Qed.

(** ** the loop of C98 with the solutions of the program *)
Definition kp_sols (es : nat -> environment) (n : nat) : solution := match kp_after junk se es s (S n) with Ok (Some x') => kp_last x' | _ => as_pepper N (fun _ => 0) end.
Lemma kp_sols_posed es (Un : kp_understood junk se es s) : well_posed (ks_advance se) (ks_shift se) (kp_sols es) s0.
Proof.
  destruct Re as (Pp & V & Hs & Ha & _). split; [exact Pp|]. split; [exact V|]. split; [exact Hs|]. split; [exact Ha|]. intros n. unfold kp_sols.
  destruct (kp_after junk se es s (S n)) as [[x'|]| |] eqn:A; try apply as_pepper_fits. destruct (kp_before es n x' A) as (x & St).
  destruct (kstepped es Un n x x' St) as (_ & _ & _ & _ & g & y & f & p & r & l0 & l1 & k0 & k1 & t & k & _ & _ & _ & _ & _ & Fi & _). exact Fi.
Qed.
Lemma kp_sols_after es (Un : kp_understood junk se es s) n x : kp_after junk se es s n = Ok (Some x) -> after junk (ks_bounds se) (ks_advance se) (ks_shift se) (kp_sols es) s0 n = Ok (Some (kp_loop x)).
Proof.
  revert x. induction n as [|n IH]; intros x A.
  - cbn [kp_after] in A. injection A as <-. cbn [after]. destruct start_kgood as (_ & -> & _). reflexivity.
  - destruct (kp_before es n x A) as (y & St). cbn [after]. rewrite (IH y (proj1 St)). cbn [bind]. unfold kp_sols. rewrite A.
    destruct (kstepped es Un n y x St) as (_ & _ & _ & _ & g & z & f & p & r & l0 & l1 & k0 & k1 & t & k & _ & _ & _ & _ & C & _). exact C.
Qed.
Lemma kp_sols_step es n x x' : kp_steps junk se es s n x x' -> kp_sols es n = kp_last x'.
Proof. intros [_ A]. unfold kp_sols. rewrite A. reflexivity. Qed.
Lemma kp_sols_stop es (Un : kp_understood junk se es s) n x : kp_stops junk se es s n x -> after junk (ks_bounds se) (ks_advance se) (ks_shift se) (kp_sols es) s0 (S n) = Ok None.
Proof.
  intros [A B]. pose proof (kruns es Un (S n)) as R1. rewrite B in R1. replace (S n - 1)%nat with n in R1 by lia. destruct R1 as [_ Ne].
  destruct (loop_duration junk (ks_bounds se) (ks_advance se) (ks_shift se) (kp_sols es) s0 (kp_sols_posed es Un) (S n)) as (o & E & Ho). rewrite E. destruct o as [l|]; [|reflexivity].
  exfalso. destruct Ho as [Ho _]. destruct Ho as [X|X]; [discriminate|discriminate X|]. replace (S n - 1)%nat with n in X by lia. contradiction.
Qed.

(** ** what the answers of the library mean *)
Lemma point_solution (t : cstate) nv i : vlen (so_x (cs_solution t)) = nv -> (i < nv)%nat -> forall st, point (solution_of st (cs_solution t)) i = vget (so_x (cs_solution t)) i.
Proof.
  intros L Hi st. unfold point, solution_of. cbn [sol_x]. rewrite L. rewrite nth_indep with (d' := vget (so_x (cs_solution t)) 0%nat) by (rewrite map_length, seq_length; exact Hi). rewrite map_nth, seq_nth by exact Hi. reflexivity.
Qed.
Lemma answer_point es n x x' g y f p r l0 l1 k0 k1 t k : kposed junk se (es n) s0 gain n x g y f p r l0 l1 k0 k1 -> effect par (kp_call se (es n) f p r) (kp_world x) l0 l1 (Returned t) t k ->
  kp_last x' = solution_of (structure_pepper N) (cs_solution t) -> forall z, an_primal (en_library (es n) k) = Some z -> forall i, (i < 4 * N)%nat -> point (kp_last x') i = z i.
Proof.
  intros K Ef Ls z Z i Hi. pose proof (ef_written _ _ _ _ _ _ _ _ Ef) as W. cbn [kp_call cl_library cl_solution] in W. pose proof (ko_nv _ _ _ _ _ _ _ _ _ _ _ _ _ _ _ _ K) as NV. pose proof (ko_x _ _ _ _ _ _ _ _ _ _ _ _ _ _ _ _ K) as VX.
  rewrite Ls. rewrite (point_solution t (4 * N) i); [|rewrite (wr_size _ _ _ W), VX; exact NV|exact Hi]. apply (wr_x _ _ _ W z Z). rewrite NV. exact Hi.
Qed.
Lemma kp_par n x : Good n x -> mg_par (lp_mg (kp_loop x)) = P.
Proof. intros G. apply (kg_loop _ _ _ _ _ _ _ G). Qed.

Lemma honest_respects es (Un : kp_understood junk se es s) n x x' : pr_crash par = true -> kp_library_is honest_answer junk se es s -> kp_steps junk se es s n x x' ->
  exists g y f p r l0 l1 k0 k1, kposed junk se (es n) s0 gain n x g y f p r l0 l1 k0 k1 /\ satisfies_level (kp_constraints f) l0 (point (kp_last x')) /\
    mg_size (lp_mg (kp_loop x')) = mg_size g /\ mg_horizon (lp_mg (kp_loop x')) = mg_horizon g /\ mg_matrices (lp_mg (kp_loop x')) = mg_matrices g.
Proof.
  intros Cr Li St. destruct (kstepped es Un n x x' St) as (G & _ & _ & _ & g & y & f & p & r & l0 & l1 & k0 & k1 & t & k & K & As & Ef & Sc & _ & Fi & E1 & E2 & E3 & _ & _ & Ls & _).
  exists g, y, f, p, r, l0, l1, k0, k1. split; [exact K|]. split; [|auto].
  destruct (Li n k As (Sc Cr)) as (z & Z & Fe). apply (proj1 (gt_points _ _ _ _ _ _ (ef_gets _ _ _ _ _ _ _ _ Ef))) in Fe. cbn [kp_call cl_cs] in Fe.
  assert (X : forall i, (i < 4 * horizon_length (mg_par (lp_mg (kp_loop x))))%nat -> z i = point (kp_last x') i).
  { intros i Hi. rewrite (kp_par n x G) in Hi. symmetry. exact (answer_point es n x x' g y f p r l0 l1 k0 k1 t k K Ef Ls z Z i Hi). }
  exact (klevel_ext se gain Q n (kp_loop x) f (kp_problem x) l0 l1 (ko_formed _ _ _ _ _ _ _ _ _ _ _ _ _ _ _ _ K) (ko_before _ _ _ _ _ _ _ _ _ _ _ _ _ _ _ _ K) z _ X Fe).
Qed.
Lemma honest_obeys es (Un : kp_understood junk se es s) n x x' : pr_crash par = true -> kp_library_is honest_answer junk se es s -> kp_steps junk se es s n x x' ->
  obeys_velocity (kp_loop x') (kp_last x') /\ obeys_acceleration (kp_loop x') (kp_last x') /\ obeys_cop (kp_loop x') (kp_last x') /\ obeys_body (kp_loop x') (kp_last x').
Proof.
  intros Cr Li St. destruct (honest_respects es Un n x x' Cr Li St) as (g & y & f & p & r & l0 & l1 & k0 & k1 & K & Sa & E1 & E2 & E3).
  destruct (ko_before _ _ _ _ _ _ _ _ _ _ _ _ _ _ _ _ K) as (_ & I0 & _). rewrite satisfies_ids, I0 in Sa.
  pose proof (ko_tasks _ _ _ _ _ _ _ _ _ _ _ _ _ _ _ _ K) as Ta. unfold kp_form_tasks in Ta. cbv zeta in Ta.
  apply bind_ok in Ta. destruct Ta as (c0 & C0 & Ta). apply bind_ok in Ta. destruct Ta as (c1 & C1 & Ta). apply bind_ok in Ta. destruct Ta as (c2 & C2 & Ta). apply bind_ok in Ta. destruct Ta as (c3 & C3 & Ta).
  apply bind_ok in Ta. destruct Ta as (c4 & _ & Ta). injection Ta as <-. unfold obeys_velocity, obeys_acceleration, obeys_cop, obeys_body. rewrite E1, E2, E3. split; [|split; [|split]].
  - exists (en_junk (es n) VELOCITY), (kp_velocity_ix x), c0. split; [exact C0|]. apply (Sa (VELOCITY, ILU)). cbn. auto.
  - exists (en_junk (es n) ACCELERATION), c3. split; [exact C3|]. apply (Sa (ACCELERATION, ASLU)). cbn. auto.
  - exists (en_junk (es n) PRESSURE), c2. split; [exact C2|]. apply (Sa (PRESSURE, ALU)). cbn. auto.
  - exists (en_junk (es n) BODY), c1. split; [exact C1|]. apply (Sa (BODY, ALU)). cbn. auto.
Qed.
Lemma kp_consecutive es (Un : kp_understood junk se es s) n x x' : kp_steps junk se es s n x x' ->
  consecutive junk (ks_bounds se) (ks_advance se) (ks_shift se) (kp_sols es) s0 n (kp_loop x) (kp_loop x').
Proof. intros [A B]. split; apply kp_sols_after; assumption. Qed.
Lemma kp_obeyed es (Un : kp_understood junk se es s) n x : pr_crash par = true -> kp_library_is honest_answer junk se es s -> kp_after junk se es s n = Ok (Some x) ->
  obeyed obeys_velocity junk (ks_bounds se) (ks_advance se) (ks_shift se) (kp_sols es) s0 n /\ obeyed obeys_acceleration junk (ks_bounds se) (ks_advance se) (ks_shift se) (kp_sols es) s0 n.
Proof.
  intros Cr Li A. assert (X : forall k l, (k < n)%nat -> after junk (ks_bounds se) (ks_advance se) (ks_shift se) (kp_sols es) s0 (S k) = Ok (Some l) -> exists z z', kp_steps junk se es s k z z' /\ kp_loop z' = l).
  { assert (Y : forall m z, kp_after junk se es s m = Ok (Some z) -> forall k, (k <= m)%nat -> exists z', kp_after junk se es s k = Ok (Some z')).
    { induction m as [|m IH]; intros z Az k Hk; [replace k with 0%nat by lia; eauto|]. destruct (Nat.eq_dec k (S m)) as [-> |D]; [eauto|]. destruct (kp_before es m z Az) as (z1 & B & _). apply (IH z1 B). lia. }
    intros k l Hk E. destruct (Y n x A (S k) Hk) as (z' & B). destruct (kp_before es k z' B) as (z & St). exists z, z'. split; [exact St|]. rewrite (kp_sols_after es Un (S k) z' B) in E. injection E as <-. reflexivity. }
  split; intros k l Hk E; destruct (X k l Hk E) as (z & z' & St & <-); rewrite (kp_sols_step es k z z' St); apply (honest_obeys es Un k z z' Cr Li St).
Qed.
End Run.
