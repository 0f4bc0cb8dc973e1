(** * The walking program: one iteration *)
From Coq Require Import String List Reals Arith Bool ZArith Lra Lia.
From Verif Require Import Base BaseFacts RSum BoxMinimum Matrix Mat2 Mat3 ActiveSet Mixins ConstraintType HierarchyLevel HierarchySpec Constraints ConstraintsSpec QP QPSpec Problem ProblemSpec LeftRight FootParameters FootTrajectory
  PointMass6z PointMass6zSpec Solution Task MpcGuess MpcGuessSpec MpcGuessFacts PepperTasksSpec StanceFSM StanceSpec StanceFSMFacts StanceFSMFacts2 StanceTimeFacts WalkPreview WalkPreviewSpec WalkPreviewFacts WalkMpc WalkModel WalkModelSpec WalkProfiles WalkProfilesSpec WalkTasks WalkTasksSpec WalkTasksFacts2
  QpoasesBridge QpoasesBridgeSpec Backends BackendsSpec Solver SolverLife SolverLifeSpec SolverLifeFacts WalkLoop WalkLoopSpec WalkLoopFacts WalkLoopFacts2 WalkLoopFacts3 WalkLoopFacts4 WalkLoopFacts5 WalkLoopFacts6 WalkLoopFacts8 WalkStepsFacts
  WalkProgram WalkProgramSpec WalkProgramFacts WalkProgramFacts2 WalkProgramFacts3 WalkProgramFacts4.
Import ListNotations.
Local Open Scope R_scope.

(** ** guesses *)
(** the parts of the hierarchy which belong to the tasks of bounds *)
Definition placed (N n : nat) (k0 k1 : level) : Prop :=
  (exists i j, lv_tasks k0 = [i; j] /\ tk_id (ti_task i) = STEPS /\ tk_id (ti_task j) = COPS /\ ti_loc i = mkLoc 0 (2 * n) /\ ti_loc j = mkLoc (2 * n) (2 * N)) /\
  (exists i j k, lv_tasks k1 = [i; j; k] /\ len (ti_loc k) = 2 * N)%nat /\ level_getNumberOfConstraints k0 = (2 * n + 2 * N)%nat.
Lemma old_fits N n old : (0 < N)%nat -> old = mkSolution structure_reset [] \/ (exists k, fitting N k old /\ (k <= S n)%nat /\ (n <= S k)%nat) ->
  exists v, guessSolution_wpg (structure_wpg N n) old = Ok v /\ length (sol_x v) = (2 * N + 2 * n)%nat.
Proof.
  intros HN [->|(k & [S L] & K1 & K2)].
  - rewrite guess_wpg_first. eexists. split; [reflexivity|]. cbn [sol_x]. unfold zeros. rewrite repeat_length. lia.
  - destruct old as [st x]. cbn [sol_structure sol_x] in S, L. subst st. rewrite <- (firstn_skipn (N * 2) x).
    assert (L1 : length (firstn (N * 2) x) = (N * 2)%nat) by (rewrite firstn_length; lia). assert (L2 : length (skipn (N * 2) x) = (k * 2)%nat) by (rewrite skipn_length; lia).
    rewrite (guess_wpg N n k _ _ HN L1 L2).
    assert (Ls : length (shifted (firstn (N * 2) x)) = (N * 2)%nat) by (unfold shifted; rewrite app_length, skipn_length; cbn [length]; lia).
    destruct (Nat.eqb_spec n k) as [->|A]; [eexists; split; [reflexivity|]; cbn [sol_x]; rewrite app_length; lia|].
    destruct (Nat.eqb_spec (Datatypes.S n) k) as [B|B]; [eexists; split; [reflexivity|]; cbn [sol_x]; rewrite app_length, skipn_length; lia|].
    destruct (Nat.eqb_spec n (Datatypes.S k)) as [C|C]; [eexists; split; [reflexivity|]; cbn [sol_x]; rewrite !app_length; cbn [length]; lia|lia].
Qed.

(** the invariant of the program *)
Record good (hs : hotstart) (mp : mpc_params) (f0 : fsm) (nan inc H theta centering : R) (par : qparams) (L : list nat) (s : program) : Prop := mkGood {
  go_loop : inv mp f0 nan inc H theta (pg_loop s);
  go_problem : preach (pg_problem s) /\ exists l0 l1, shape (pg_problem s) l0 l1 /\ exists m sa ca ce, keeps hs (horizon_length mp) m l0 l1 sa ca ce /\
    forall fuel ly ry h, form fuel mp ly ry inc (wl_fsm (pg_loop s)) = Finished (Ok (Some h)) -> (m <= S (length (h_steps h)))%nat;
  go_centered : centered (horizon_length mp) centering (pg_centering s);
  go_solver : holds L (pg_solver s) (pg_world s) /\ sv_par (pg_solver s) = par;
  go_old : pg_old s = mkSolution structure_reset [] \/ exists k, fitting (horizon_length mp) k (pg_old s) /\
    forall fuel ly ry h, form fuel mp ly ry inc (wl_fsm (pg_loop s)) = Finished (Ok (Some h)) -> (k <= S (length (h_steps h)))%nat /\ (length (h_steps h) <= S k)%nat;
  go_unused : hs_solution hs = false -> pg_old s = mkSolution structure_reset [] }.

Lemma stopped_update fuel junk nan inc fp sol l : cycle fuel junk nan inc fp sol l = Finished (Ok None) -> exists g, wg_update fuel junk nan inc (wl_model l) (wl_fsm l) (wl_wpg l) = Finished (Ok (false, g)).
Proof.
  unfold cycle. intros A. apply rbind_ok in A. destruct A as ([[|] g] & U & X); [|eauto]. exfalso. cbn [fst snd] in X. apply rbind_ok in X. destruct X as (f & _ & X). injection X as X.
  apply bind_ok in X. destruct X as (y & _ & X). apply bind_ok in X. destruct X as (z & _ & X). discriminate X.
Qed.
Lemma stopped_prepare fuel junk nan se e s g : wg_update fuel junk nan (se_inc se) (wl_model (pg_loop s)) (wl_fsm (pg_loop s)) (wl_wpg (pg_loop s)) = Finished (Ok (false, g)) ->
  pg_iterate fuel junk nan se e s = Finished (Ok None).
Proof. intros U. unfold pg_iterate, pg_prepare. rewrite U. reflexivity. Qed.

(** what is known of the problem of an iteration *)
Definition posed (fuel : nat) (junk : nat -> nat -> nat -> R) (nan : R) (se : settings) (e : environment) (mp : mpc_params) (H centering : R) (s : program)
    (g : wpg) (f : formed_tasks) (p : problem) (r : request) (h : horizon) (rs : list nat) (M : walk_matrices) (l0 l1 : level) : Prop :=
  wg_update fuel junk nan (se_inc se) (wl_model (pg_loop s)) (wl_fsm (pg_loop s)) (wl_wpg (pg_loop s)) = Finished (Ok (true, g)) /\
  wg_par g = mp /\ wg_horizon g = h /\ wg_matrices g = M /\
  form fuel mp (yaw nan (wl_model (pg_loop s)) LEFT) (yaw nan (wl_model (pg_loop s)) RIGHT) (se_inc se) (wl_fsm (pg_loop s)) = Finished (Ok (Some h)) /\ form_rotations h = Ok rs /\
  (forall sol, fitting (horizon_length mp) (length (h_steps h)) sol -> exists pf,
     walk_solved junk (horizon_length mp) (intervals_of h H) (interval_rotations h) (h_steps h) (step_rotations h rs) (support_of nan (wl_model (pg_loop s))) (cstate_of (wl_model (pg_loop s))) sol M pf) /\
  pg_prepare fuel junk nan se e s = Finished (Ok (Some (g, f, p, r))) /\
  well_formed junk nan se centering (horizon_length mp) h H rs (support_of nan (wl_model (pg_loop s))) (cstate_of (wl_model (pg_loop s))) M f /\
  (exists k0 k1, preach p /\ shape p k0 k1 /\ placed (horizon_length mp) (length (h_steps h)) k0 k1 /\ exists m sa ca ce, keeps (se_start se) (horizon_length mp) m k0 k1 sa ca ce) /\ shape (pg_problem s) l0 l1 /\
  so_nv (rq_solution r) = (2 * horizon_length mp + 2 * length (h_steps h))%nat /\ vlen (so_x (rq_solution r)) = so_nv (rq_solution r) /\ so_x (rq_solution r) = mkVec (so_nv (rq_solution r)) (en_x e) /\
  sized (pg_call se e f p r) /\ hierarchy_of (pg_call se e f p r) (formed_of se (structure_wpg (horizon_length mp) (length (h_steps h))) f) (hs_active (se_start se)) (pg_problem s) l0 l1 /\ acceptable_call (pg_call se e f p r) l0 /\
  exists x, reasonable (constraints_of f) l0 (so_nv (rq_solution r)) x /\ minimum (level_cost (constraints_of f) l1) (satisfies_level (constraints_of f) l0) x.

Lemma poses fuel junk p mp f0 nan H theta centering par L se pr e s :
  regular mp p -> init p = Ok f0 -> 0 < H -> (stances_left f0 + 1 <= fuel)%nat -> (Z.of_nat (6 * horizon_length mp) < 2 ^ 53)%Z ->
  WalkLoopSpec.sensible pr -> moderate pr -> se_feet se = finalize pr -> good (se_start se) mp f0 nan (se_inc se) H theta centering par L s ->
  ((left_ms (wl_fsm (pg_loop s)) < horizon_length mp * sampling_ms mp)%nat /\ pg_iterate fuel junk nan se e s = Finished (Ok None) /\
   (forall sol, cycle fuel junk nan (se_inc se) (finalize pr) sol (pg_loop s) = Finished (Ok None))) \/
  ((horizon_length mp * sampling_ms mp <= left_ms (wl_fsm (pg_loop s)))%nat /\
   exists g f q r h rs M l0 l1, posed fuel junk nan se e mp H centering s g f q r h rs M l0 l1).
Proof.
  intros Reg Ini HH FU H53 Sen Mo Fe [I (PR & l0 & l1 & S & m & sa & ca & ce & Ke & Km) Ce [Ho Pa] Old Unu].
  destruct (progress fuel junk p mp f0 nan (se_inc se) H theta pr (as_solution 0 0 (fun _ => 0)) (pg_loop s) Reg Ini HH FU I) as [[Lt C]|(Ge & g & U & _)].
  { left. split; [exact Lt|]. destruct (stopped_update _ _ _ _ _ _ _ C) as (g & U). split; [exact (stopped_prepare fuel junk nan se e s g U)|]. intros sol. unfold cycle. rewrite U. reflexivity. }
  right. split; [exact Ge|]. pose proof U as U'. apply update_inv in U'. destruct U' as (h & rs & M & F & Ro & Up & Eg).
  change (yaw_of nan (lf (ms_feet (md_state (wl_model (pg_loop s)))))) with (yaw nan (wl_model (pg_loop s)) LEFT) in F.
  change (yaw_of nan (rf (ms_feet (md_state (wl_model (pg_loop s)))))) with (yaw nan (wl_model (pg_loop s)) RIGHT) in F.
  rewrite (i_par _ _ _ _ _ _ _ I) in F, Up, Eg. rewrite (i_height _ _ _ _ _ _ _ I) in Up, Eg.
  destruct (st_problem p mp f0 nan (se_inc se) H theta (pg_loop s) Reg Ini HH I fuel junk h F) as (rs' & Ro' & _ & K). rewrite Ro in Ro'. injection Ro' as <-.
  assert (So : forall sol, fitting (horizon_length mp) (length (h_steps h)) sol -> exists pf,
     walk_solved junk (horizon_length mp) (intervals_of h H) (interval_rotations h) (h_steps h) (step_rotations h rs) (support_of nan (wl_model (pg_loop s))) (cstate_of (wl_model (pg_loop s))) sol M pf).
  { intros sol [S1 S2]. destruct (K sol S1 S2) as (M' & pf & W). exists pf. assert (M' = M) by (destruct W as (_ & _ & _ & X & _); congruence). subst M'. exact W. }
  assert (HN : (0 < horizon_length mp)%nat) by (destruct Reg as (_ & _ & X & _); lia).
  assert (G : wg_par g = mp /\ wg_horizon g = h /\ wg_matrices g = M) by (rewrite Eg; auto). destruct G as (G1 & G2 & G3).
  destruct (tasks_formed fuel junk nan se centering mp _ _ _ _ h H rs _ _ M F HN H53 So e g s G1 G2 G3 Ce) as (f & Ef & WF).
  set (N := horizon_length mp) in *. set (n := length (h_steps h)) in *.
  assert (Fc : forall k, In k (map fst (ids0 ++ ids1)) -> f_consistent (formed_of se (structure_wpg N n) f k) = true).
  { intros k Ik. apply in_map_iff in Ik. destruct Ik as (y & <- & Iy). destruct (wf_objects _ _ _ _ _ _ _ _ _ _ _ _ WF y Iy) as (_ & _ & X & _). exact X. }
  destruct (wf_rows _ _ _ _ _ _ _ _ _ _ _ _ WF) as (R1 & R2 & R3). assert (HN1 : (1 < N)%nat) by (destruct Reg as (_ & _ & X & _); unfold N; lia).
  destruct (form_shape se N n m f (pg_problem s) l0 l1 sa ca ce PR S Ke HN1 (Km _ _ _ _ F) Fc R3 R1 R2) as (q & k0 & k1 & Q1 & Q2 & Q3 & Q4 & _ & Q5 & Q6 & Q7 & Q8).
  set (nv := Solution.getNumberOfVariables (structure_wpg N n)).
  assert (NV : nv = (2 * N + 2 * n)%nat) by (unfold nv; destruct (loc_wpg N n) as (_ & _ & X & _); rewrite X; lia).
  set (so := mkQSol nv (mkVec nv (en_x e)) (so_status (pg_solution s)) (so_details (pg_solution s))).
  assert (XV : exists v, (if hs_solution (se_start se) then bind (guessSolution_wpg (structure_wpg N n) (pg_old s)) (fun v => Ok (Some (vector_of (sol_x v)))) else Ok None) = Ok v /\
    forall y, v = Some y -> (nv <= vlen y)%nat).
  { destruct (hs_solution (se_start se)); [|exists None; split; [reflexivity|discriminate]].
    destruct (old_fits N n (pg_old s) HN) as (v & V1 & V2). { destruct Old as [Old|(k & Old & Ok')]; [left; exact Old|right; exists k; split; [exact Old|exact (Ok' _ _ _ _ F)]]. }
    rewrite V1. eexists. split; [reflexivity|]. intros y Y. injection Y as <-. cbn [vector_of vlen]. rewrite V2, NV. lia. }
  destruct XV as (v & V1 & V2).
  assert (XA : exists a, (if hs_active (se_start se) then bind (pb_guessActiveSet q) (fun a => Ok (Some a)) else Ok None) = Ok a /\
    forall y, a = Some y -> fits y q /\ forall z, nth_error y 0 = Some z -> ~ In UNDEFINED z).
  { destruct (hs_active (se_start se)); [|exists None; split; [reflexivity|discriminate]].
    destruct (Q8 eq_refl) as (a1 & A1 & A2). rewrite A1. eexists. split; [reflexivity|]. intros y Y. injection Y as <-. destruct Q3 as (Eq & _). pose proof (ke_defined _ _ _ _ _ _ _ _ Ke) as De.
    assert (D1 : ~ In UNDEFINED sa) by (intros X; apply De, in_or_app; left; exact X). assert (D2 : ~ In UNDEFINED ca) by (intros X; apply De, in_or_app; right; exact X). split.
    - split; [unfold pb_getNumberOfLevels; rewrite Eq; reflexivity|]. intros i l a. rewrite Eq. destruct i as [|[|i]]; cbn [nth_error]; intros L1 L2; try (destruct i; discriminate L1); injection L1 as <-; injection L2 as <-; [|exact A2].
      rewrite app_length, guessed_steps_length, guessed_cops_length; [lia|exact HN1|exact (ke_cop _ _ _ _ _ _ _ _ Ke)|exact (ke_steps _ _ _ _ _ _ _ _ Ke)|exact (Km _ _ _ _ F)].
    - intros z Z. cbn [nth_error] in Z. injection Z as <-. intros X. apply in_app_or in X. destruct X as [X|X]; [exact (guessed_steps_defined _ _ _ _ D1 X)|exact (guessed_cops_defined _ _ D2 X)]. }
  destruct XA as (a & A1 & A2).
  set (r := mkRequest so v a).
  assert (P : pg_prepare fuel junk nan se e s = Finished (Ok (Some (g, f, q, r)))).
  { unfold pg_prepare. rewrite U. cbn [rbind fst snd]. unfold pg_form. rewrite G1, G2. fold N n nv so. destruct (loc_wpg N n) as (_ & _ & _ & X). rewrite X. cbn [assert_then].
    rewrite Ef. cbn [bind]. rewrite Q1. cbn [bind]. rewrite V1. cbn [bind]. rewrite A1. reflexivity. }
  assert (HI : hierarchy_of (pg_call se e f q r) (formed_of se (structure_wpg N n) f) (hs_active (se_start se)) (pg_problem s) l0 l1).
  { split; [exact PR|]. split; [exact Q1|]. split; [|apply shape_qp; exact S]. cbn [pg_call cl_cs cl_solution so_nv so r rq_solution]. apply (shape_described _ _ _ _ l0 l1 S).
    intros k Ik. destruct (wf_objects _ _ _ _ _ _ _ _ _ _ _ _ WF k Ik) as (X & Y). split; [exact X|]. split; [reflexivity|]. rewrite NV. exact Y. }
  destruct (solvable fuel junk nan se centering mp _ _ _ _ pr h H rs _ _ M f (pg_problem s) l0 l1 F WF S Sen Mo Fe) as (x & X1 & X2).
  exists g, f, q, r, h, rs, M, l0, l1. unfold posed. do 6 (split; [assumption|]). split; [exact So|]. split; [exact P|]. split; [exact WF|].
  split; [exists k0, k1; split; [exact Q2|]; split; [exact Q3|]; split; [split; [exact Q5|split; assumption]|exists m, sa, ca, ce; exact Q4]|]. split; [exact S|]. split; [exact NV|]. split; [reflexivity|]. split; [reflexivity|].
  split.
  { split; [|split; [reflexivity|]].
    - cbn [pg_call cl_guess cl_memory cl_solution r rq_guess rq_solution so so_nv]. intros y Y. destruct v as [z|]; [|discriminate Y]. exists z. split; [reflexivity|exact (V2 z eq_refl)].
    - cbn [pg_call cl_active cl_problem r rq_active]. intros y Y. apply (A2 y Y). }
  split; [exact HI|]. cbn [so_nv so r rq_solution]. rewrite NV. split; [|exists x; split; assumption].
  split; [|cbn [pg_call cl_active r rq_active]; intros y z Y; exact (proj2 (A2 y Y) z)]. exists x. cbn [pg_call cl_cs cl_solution so_nv so r rq_solution]. rewrite NV. split; [intros i Ii _; exact (proj1 X2 i Ii)|apply X1].
Qed.

(** the answer of the solver in an iteration *)
Lemma solves mp f0 nan se e H theta centering par L s fuel junk g f q r h rs M l0 l1 :
  pr_two_levels par = true -> good (se_start se) mp f0 nan (se_inc se) H theta centering par L s -> posed fuel junk nan se e mp H centering s g f q r h rs M l0 l1 ->
  exists t k, (sv_solve (pg_call se e f q r) (pg_solver s) (pg_world s) = Returned t \/ sv_solve (pg_call se e f q r) (pg_solver s) (pg_world s) = Thrown t) /\
    holds L (cs_solver t) (cs_world t) /\ sv_par (cs_solver t) = par /\ effect par (pg_call se e f q r) (pg_world s) l0 l1 (sv_solve (pg_call se e f q r) (pg_solver s) (pg_world s)) t k.
Proof.
  intros TL [I _ Ce [Ho Pa] _ _] (_ & _ & _ & _ & _ & _ & _ & _ & _ & _ & _ & _ & _ & _ & Sz & HI & Fe & _).
  destruct (call_effect L (pg_call se e f q r) (pg_solver s) (pg_world s) _ _ (pg_problem s) l0 l1 Ho Sz HI) as (t & R & Ht & Pt & [(_ & _ & _ & _ & No)|(_ & k & Ef)]).
  { cbn [params_of pg_call cl_params]. rewrite Pa. exact TL. }
  { contradiction. }
  cbn [params_of pg_call cl_params] in Pt, Ef. rewrite Pa in Pt, Ef. exists t, k. split; [exact R|]. split; [exact Ht|]. split; [exact Pt|exact Ef].
Qed.

(** what the next iteration gets from this one: the solution, and the statuses of the bounds *)
Definition carried (se : settings) (N n : nat) (e : environment) (f : formed_tasks) (q : problem) (k : libcall) (s s' : program) : Prop :=
  pg_old s' = (if hs_solution (se_start se) then last_solution s' else pg_old s) /\
  (hs_report (se_start se) = true -> exists k0 k1 j0 j1 v0 ce, shape q k0 k1 /\ placed N n k0 k1 /\ shape (pg_problem s') j0 j1 /\ keeps (se_start se) N n j0 j1 (firstn (2 * n) v0) (skipn (2 * n) v0) ce /\
     length v0 = (2 * n + 2 * N)%nat /\ forall i j, In i (lv_tasks k0) -> (j < len (ti_loc i))%nat ->
       exists u, nth_error v0 (Base.offset (ti_loc i) + j) = Some u /\ reports (constraints_of f) k0 (an_wsb (en_library e k)) (an_wsc (en_library e k)) i j u).
(** the rest of the iteration *)
Lemma advances fuel junk p mp f0 nan H theta centering par L se pr e s g f q r h rs M l0 l1 t k :
  regular mp p -> init p = Ok f0 -> 0 < H -> (stances_left f0 + 1 <= fuel)%nat -> se_feet se = finalize pr -> good (se_start se) mp f0 nan (se_inc se) H theta centering par L s ->
  (horizon_length mp * sampling_ms mp <= left_ms (wl_fsm (pg_loop s)))%nat -> posed fuel junk nan se e mp H centering s g f q r h rs M l0 l1 ->
  sv_solve (pg_call se e f q r) (pg_solver s) (pg_world s) = Returned t -> holds L (cs_solver t) (cs_world t) -> sv_par (cs_solver t) = par ->
  effect par (pg_call se e f q r) (pg_world s) l0 l1 (Returned t) t k -> (hs_report (se_start se) = true -> SolverLifeSpec.sensible (en_library e k) k) ->
  exists s' pf, pg_iterate fuel junk nan se e s = Finished (Ok (Some s')) /\ good (se_start se) mp f0 nan (se_inc se) H theta centering par L s' /\
    cycle fuel junk nan (se_inc se) (finalize pr) (last_solution s') (pg_loop s) = Finished (Ok (Some (pg_loop s'))) /\
    (left_ms (wl_fsm (pg_loop s')) + sampling_ms mp = left_ms (wl_fsm (pg_loop s)))%nat /\
    fitting (horizon_length mp) (length (h_steps h)) (last_solution s') /\ wl_wpg (pg_loop s') = mkWpg mp true h H M pf /\ pg_solution s' = cs_solution t /\ pg_world s' = cs_world t /\
    walk_solved junk (horizon_length mp) (intervals_of h H) (interval_rotations h) (h_steps h) (step_rotations h rs) (support_of nan (wl_model (pg_loop s))) (cstate_of (wl_model (pg_loop s))) (last_solution s') M pf /\
    last_solution s' = solution_of (structure_wpg (horizon_length mp) (length (h_steps h))) (cs_solution t) /\ carried se (horizon_length mp) (length (h_steps h)) e f q k s s'.
Proof.
  intros Reg Ini HH FU Fe G Ge P E Ht Pt Ef Se. pose proof G as [I (PR & z0 & z1 & Z & m' & sa' & ca' & ce' & Ke' & Km') Ce [Ho Pa] Old Unu].
  destruct P as (U & G1 & G2 & G3 & F & Ro & So & Pp & WF & (k0 & k1 & Q2 & Q3 & Pl & m & sa & ca & ce & Ke) & Sh & NV & VL & _ & Sz & HI & Fc & _).
  set (st := structure_wpg (horizon_length mp) (length (h_steps h))) in *. set (sol := solution_of st (cs_solution t)).
  assert (Fi : fitting (horizon_length mp) (length (h_steps h)) sol).
  { split; [reflexivity|]. unfold sol, solution_of. cbn [sol_x]. rewrite map_length, seq_length. rewrite (wr_size _ _ _ (ef_written _ _ _ _ _ _ _ _ Ef)). cbn [pg_call cl_solution]. rewrite VL. exact NV. }
  destruct (progress fuel junk p mp f0 nan (se_inc se) H theta pr sol (pg_loop s) Reg Ini HH FU I) as [[Lt _]|(_ & g' & U' & K)]; [lia|].
  rewrite U in U'. injection U' as <-. destruct K as (l' & h' & rs' & M' & pf & com & It & Q4 & Q5).
  { unfold fits_walk. rewrite G1, G2. exact Fi. }
  pose proof It as (F' & Ro' & Up' & _). rewrite (i_par _ _ _ _ _ _ _ I) in F'.
  change (yaw_of nan (lf (ms_feet (md_state (wl_model (pg_loop s)))))) with (yaw nan (wl_model (pg_loop s)) LEFT) in F'.
  change (yaw_of nan (rf (ms_feet (md_state (wl_model (pg_loop s)))))) with (yaw nan (wl_model (pg_loop s)) RIGHT) in F'.
  rewrite F in F'. injection F' as <-. rewrite Ro in Ro'. injection Ro' as <-.
  destruct (inv_step fuel junk p mp f0 nan (se_inc se) H theta pr sol (pg_loop s) l' h rs M' pf com Reg Ini HH ltac:(lia) I Q4 Q5 It) as (I' & L' & _ & Ws & _).
  assert (M' = M). { destruct (So sol Fi) as (pf' & W'). destruct Ws as (_ & _ & _ & X & _). destruct W' as (_ & _ & _ & Y & _). congruence. } subst M'.
  pose proof It as (_ & _ & _ & _ & _ & _ & _ & Gw). rewrite (i_par _ _ _ _ _ _ _ I), (i_height _ _ _ _ _ _ _ I) in Gw.
  pose proof (cycle_intro _ _ _ _ _ _ _ _ _ _ _ _ _ It) as C.
  assert (Nx : forall fl ly ry hx, form fl mp ly ry (se_inc se) (wl_fsm l') = Finished (Ok (Some hx)) -> (length (h_steps h) <= S (length (h_steps hx)))%nat /\ (length (h_steps hx) <= S (length (h_steps h)))%nat).
  { intros fl ly ry hx Fx. pose proof C as Cx. unfold cycle in Cx. rewrite U in Cx. cbn [rbind fst snd] in Cx.
    destruct (shiftTime fuel (wl_fsm (pg_loop s)) (sampling_ms (wg_par (wl_wpg (pg_loop s))))) as [[fs| |]|] eqn:Sx; try discriminate Cx. cbn [rbind] in Cx.
    injection Cx as Cx. apply bind_ok in Cx. destruct Cx as (y & _ & Cx). cbv zeta in Cx. apply bind_ok in Cx. destruct Cx as (z & _ & Cx). injection Cx as Cx.
    rewrite <- Cx in Fx. cbn [wl_fsm] in Fx. rewrite (i_par _ _ _ _ _ _ _ I) in Sx.
    assert (F1 : (1 <= fuel)%nat) by lia.
    exact (steps_number p _ _ _ _ _ _ _ _ _ _ _ _ _ _ Reg Ini (i_reach _ _ _ _ _ _ _ I) (i_time _ _ _ _ _ _ _ I) (i_grid _ _ _ _ _ _ _ I) F F1 Sx Fx). }
  assert (PC : exists q', pg_process se q t = Ok q' /\ preach q' /\ exists j0 j1 m2 sa2 ca2 ce2, shape q' j0 j1 /\ keeps (se_start se) (horizon_length mp) m2 j0 j1 sa2 ca2 ce2 /\
    (m2 = 0 \/ m2 = length (h_steps h))%nat /\ (hs_report (se_start se) = true -> exists v0, m2 = length (h_steps h) /\ sa2 = firstn (2 * length (h_steps h)) v0 /\ ca2 = skipn (2 * length (h_steps h)) v0 /\
       length v0 = (2 * length (h_steps h) + 2 * horizon_length mp)%nat /\ forall i j, In i (lv_tasks k0) -> (j < len (ti_loc i))%nat ->
       exists u, nth_error v0 (Base.offset (ti_loc i) + j) = Some u /\ reports (constraints_of f) k0 (an_wsb (en_library e k)) (an_wsc (en_library e k)) i j u)).
  { unfold pg_process. destruct (hs_report (se_start se)) eqn:Hr.
    - destruct (ef_report _ _ _ _ _ _ _ _ Ef) as [_ Rp]; [exact Hr|exact (Se eq_refl)|]. destruct (Rp eq_refl) as (v0 & v1 & R1 & R2 & _ & R4). rewrite R1.
      destruct Pl as ((i & j & T0 & D0 & D1 & L0 & L1) & T1 & Nc). pose proof Q3 as (Eq & _). cbn [pg_call cl_problem cl_cs cl_library] in R2, R4. specialize (R4 k0).
      assert (R5 : forall i j, In i (lv_tasks k0) -> (j < len (ti_loc i))%nat -> exists u, nth_error v0 (Base.offset (ti_loc i) + j) = Some u /\ reports (constraints_of f) k0 (an_wsb (en_library e k)) (an_wsc (en_library e k)) i j u).
      { intros. apply R4; [rewrite Eq; reflexivity|assumption|assumption]. }
      assert (Lv : length v0 = (2 * length (h_steps h) + 2 * horizon_length mp)%nat) by (rewrite <- Nc; apply (proj2 R2 0%nat); [rewrite Eq|]; reflexivity).
      assert (Un : ~ In UNDEFINED v0).
      { intros X. apply In_nth_error in X. destruct X as (y & Y). assert (Ly : (y < length v0)%nat) by (apply nth_error_Some; congruence).
        assert (Z1 : exists u, nth_error v0 y = Some u /\ u <> UNDEFINED).
        { assert (Re : forall i j u, reports (constraints_of f) k0 (an_wsb (en_library e k)) (an_wsc (en_library e k)) i j u -> u <> UNDEFINED) by (intros i' j' u ([-> | [-> | ->]] & _); discriminate).
          destruct (Nat.lt_ge_cases y (2 * length (h_steps h))) as [Y1|Y1].
          - destruct (R5 i y) as (u & U1 & U2); [rewrite T0; left; reflexivity|rewrite L0; exact Y1|]. rewrite L0 in U1. exists u. split; [exact U1|exact (Re _ _ _ U2)].
          - destruct (R5 j (y - 2 * length (h_steps h))%nat) as (u & U1 & U2); [rewrite T0; right; left; reflexivity|rewrite L1; cbn [len]; lia|]. rewrite L1 in U1. cbn [Base.offset] in U1.
            replace (2 * length (h_steps h) + (y - 2 * length (h_steps h)))%nat with y in U1 by lia. exists u. split; [exact U1|exact (Re _ _ _ U2)]. }
        destruct Z1 as (u & U1 & U2). congruence. }
      destruct HI as (_ & HF & _).
      destruct (process_shape _ _ (se_start se) (horizon_length mp) (length (h_steps h)) m (pg_problem s) q k0 k1 sa ca ce v0 v1 PR HF Q3 Ke Hr) as (q' & j0 & j1 & e2 & W1 & W2 & W3 & W4);
        [exists i, j; auto|exact T1|exact Nc|exact R2|exact Un|].
      exists q'. split; [exact W1|]. split; [exact W2|]. exists j0, j1, (length (h_steps h)), (firstn (2 * length (h_steps h)) v0), (skipn (2 * length (h_steps h)) v0), e2. split; [exact W3|]. split; [exact W4|]. split; [right; reflexivity|].
      intros _. exists v0. do 3 (split; [reflexivity|]). split; [exact Lv|exact R5].
    - exists q. split; [reflexivity|]. split; [exact Q2|]. exists k0, k1, m, sa, ca, ce. split; [exact Q3|]. split; [exact Ke|]. split; [|discriminate]. left.
      destruct (ke_report _ _ _ _ _ _ _ _ Ke Hr) as [Es _]. pose proof (ke_steps _ _ _ _ _ _ _ _ Ke) as Ls. rewrite Es in Ls. cbn [length] in Ls. lia. }
  destruct PC as (q' & PC & Pq & j0 & j1 & m2 & sa2 & ca2 & ce2 & Sq & Kq & Mq & Rq).
  set (s' := mkProgram l' q' (indices_in (ft_steps f)) (indices_in (ft_cop f)) (ft_centering f) (cs_solution t) (cs_solver t) (cs_world t) (if hs_solution (se_start se) then sol else pg_old s)).
  assert (LS : last_solution s' = sol).
  { unfold last_solution, s'. cbn [pg_loop pg_solution]. rewrite Gw. reflexivity. }
  exists s', pf. split.
  { unfold pg_iterate. rewrite Pp. cbn [rbind]. rewrite E. unfold pg_advance. rewrite G1, G2. fold st sol. rewrite PC, Fe.
    unfold cycle in C. rewrite U in C. cbn [rbind fst snd] in C. destruct (shiftTime fuel (wl_fsm (pg_loop s)) (sampling_ms (wg_par (wl_wpg (pg_loop s))))) as [[fs| |]|]; try discriminate C. cbn [rbind] in C |- *.
    injection C as C. apply bind_ok in C. destruct C as (y & Y & C). rewrite Y. cbn [bind]. cbv zeta in C. apply bind_ok in C. destruct C as (z & Z' & C). rewrite Z'. cbn [bind]. injection C as C. unfold s'. rewrite <- C. reflexivity. }
  split.
  { split; cbn [s' pg_loop pg_problem pg_centering pg_solver pg_world pg_old].
    - exact I'.
    - split; [exact Pq|]. exists j0, j1. split; [exact Sq|]. exists m2, sa2, ca2, ce2. split; [exact Kq|]. intros fl ly ry hx Fx. destruct Mq as [-> | ->]; [lia|apply (Nx _ _ _ _ Fx)].
    - exact (wf_centered _ _ _ _ _ _ _ _ _ _ _ _ WF).
    - split; [exact Ht|exact Pt].
    - destruct (hs_solution (se_start se)) eqn:Hs; [right; exists (length (h_steps h)); split; [exact Fi|exact Nx]|].
      left. exact (Unu eq_refl).
    - intros Hs. rewrite Hs. exact (Unu Hs). }
  rewrite LS. split; [exact C|]. split; [exact L'|]. split; [exact Fi|]. split; [exact Gw|]. split; [reflexivity|]. split; [reflexivity|]. split; [exact Ws|]. split; [reflexivity|].
  split; [rewrite LS; reflexivity|]. intros Hr. destruct (Rq Hr) as (v0 & -> & -> & -> & Lv & R5). exists k0, k1, j0, j1, v0, ce2. split; [exact Q3|]. split; [exact Pl|]. split; [exact Sq|]. split; [exact Kq|]. split; [exact Lv|exact R5].
Qed.
