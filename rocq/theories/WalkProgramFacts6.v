(** * The walking program: all of its iterations *)
From Coq Require Import String List Reals Arith Bool ZArith Lra Lia.
From Verif Require Import Base BaseFacts RSum BoxMinimum Matrix Mat2 Mat3 ActiveSet Mixins ConstraintType HierarchyLevel HierarchySpec Constraints ConstraintsSpec QP QPSpec Problem ProblemSpec LeftRight FootParameters FootTrajectory
  PointMass6z PointMass6zSpec Solution Task MpcGuess MpcGuessFacts PepperTasksSpec StanceFSM StanceSpec StanceFSMFacts StanceFSMFacts2 StanceTimeFacts WalkPreview WalkPreviewSpec WalkPreviewFacts WalkMpc WalkModel WalkModelSpec WalkProfiles WalkProfilesSpec WalkTasks WalkTasksSpec WalkTasksFacts2
  QpoasesBridge QpoasesBridgeSpec Backends BackendsSpec Solver SolverLife SolverLifeSpec SolverLifeFacts WalkLoop WalkLoopSpec WalkLoopFacts WalkLoopFacts2 WalkLoopFacts3 WalkLoopFacts4 WalkLoopFacts5 WalkLoopFacts6 WalkLoopFacts7 WalkLoopFacts8
  WalkProgram WalkProgramSpec WalkProgramFacts WalkProgramFacts2 WalkProgramFacts3 WalkProgramFacts4 WalkProgramFacts5.
Import ListNotations.
Local Open Scope nat_scope.

Section Run.
Variables (p : params) (s0 : wloop) (fuel : nat) (junk : nat -> nat -> nat -> R) (nan : R) (se : settings) (pr : primary) (par : qparams) (centering : R) (details : option (backend_code * Z)) (w : world) (s : program).
Hypothesis (FU : stances_left (wl_fsm s0) + 1 <= fuel) (La : launched p s0 pr se par centering details w s).
Notation mp := (wg_par (wl_wpg s0)).
Notation N := (horizon_length mp).
Notation H := (height_of (wl_model s0)).
Notation theta := (yaw nan (wl_model s0) (first_foot p) + INR (turns p) * se_inc se)%R.
Notation Good := (good (se_start se) mp (wl_fsm s0) nan (se_inc se) H theta centering par (wd_live w)).

Lemma start_good : Good s /\ pg_loop s = s0 /\ pg_world s = w.
Proof.
  destruct La as (Reg & Sta & H53 & Sen & Mo & Fe & TL & Ti & St). unfold pg_start in St. destruct (setup_shape pb_new pr_new) as (q & l0 & l1 & E & P & S & Ke). rewrite E in St. cbn [bind] in St. injection St as <-.
  split; [|split; reflexivity]. split; cbn [pg_loop pg_problem pg_centering pg_solver pg_world pg_old].
  - apply inv_start; assumption.
  - split; [exact P|]. exists l0, l1. split; [exact S|]. exists 0, [], [], []. split; [apply Ke|]. intros. apply Nat.le_0_l.
  - left. reflexivity.
  - split; [split; [exact Ti|reflexivity]|reflexivity].
  - left. reflexivity.
  - reflexivity.
Qed.

(** the state [x] of the program in the iteration [n] *)
Definition turn (es : nat -> environment) (n : nat) (x : program) (g : wpg) (f : formed_tasks) (q : problem) (so : request) (h : horizon) (rs : list nat) (M : walk_matrices) (l0 l1 : level) (t : cstate) (k : libcall) : Prop :=
  posed fuel junk nan se (es n) mp H centering x g f q so h rs M l0 l1 /\ N * sampling_ms mp <= left_ms (wl_fsm (pg_loop x)) /\
  asked fuel junk nan se es s n k /\ holds (wd_live w) (cs_solver t) (cs_world t) /\
  effect par (pg_call se (es n) f q so) (pg_world x) l0 l1 (sv_solve (pg_call se (es n) f q so) (pg_solver x) (pg_world x)) t k /\
  ((sv_solve (pg_call se (es n) f q so) (pg_solver x) (pg_world x) = Thrown t /\ pg_after fuel junk nan se es s (S n) = Finished Throw /\ pr_crash par = true /\ an_code (en_library (es n) k) <> CODE_SUCCESS) \/
   (sv_solve (pg_call se (es n) f q so) (pg_solver x) (pg_world x) = Returned t /\ (pr_crash par = true -> an_code (en_library (es n) k) = CODE_SUCCESS) /\
    exists x' pf, pg_after fuel junk nan se es s (S n) = Finished (Ok (Some x')) /\ Good x' /\
      cycle fuel junk nan (se_inc se) (finalize pr) (last_solution x') (pg_loop x) = Finished (Ok (Some (pg_loop x'))) /\
      left_ms (wl_fsm (pg_loop x')) + sampling_ms mp = left_ms (wl_fsm (pg_loop x)) /\
      fitting N (length (h_steps h)) (last_solution x') /\ wl_wpg (pg_loop x') = mkWpg mp true h H M pf /\ pg_solution x' = cs_solution t /\ pg_world x' = cs_world t /\
      walk_solved junk N (intervals_of h H) (interval_rotations h) (h_steps h) (step_rotations h rs) (support_of nan (wl_model (pg_loop x))) (cstate_of (wl_model (pg_loop x))) (last_solution x') M pf /\
      last_solution x' = solution_of (structure_wpg N (length (h_steps h))) (cs_solution t) /\ carried se N (length (h_steps h)) (es n) f q k x x')).

Lemma takes es (Un : understood fuel junk nan se es s) n x : pg_after fuel junk nan se es s n = Finished (Ok (Some x)) -> Good x ->
  (left_ms (wl_fsm (pg_loop x)) < N * sampling_ms mp /\ pg_after fuel junk nan se es s (S n) = Finished (Ok None) /\ (forall sol, cycle fuel junk nan (se_inc se) (finalize pr) sol (pg_loop x) = Finished (Ok None)) /\
   (forall k, ~ asked fuel junk nan se es s n k)) \/
  exists g f q so h rs M l0 l1 t k, turn es n x g f q so h rs M l0 l1 t k.
Proof.
  intros A G. destruct La as (Reg & Sta & H53 & Sen & Mo & Fe & TL & Ti & St). pose proof Sta as (Ini & _ & _ & _ & HH).
  assert (AS : pg_after fuel junk nan se es s (S n) = pg_iterate fuel junk nan se (es n) x) by (cbn [pg_after]; rewrite A; reflexivity).
  destruct (poses fuel junk p mp _ nan H theta centering par (wd_live w) se pr (es n) x Reg Ini HH FU H53 Sen Mo Fe G) as [(Lt & It & Cy)|(Ge & g & f & q & so & h & rs & M & l0 & l1 & P)].
  - left. split; [exact Lt|]. split; [congruence|]. split; [exact Cy|]. intros k (x1 & g & f & q & so & t & A1 & P1 & _). rewrite A in A1. injection A1 as <-.
    unfold pg_iterate in It. rewrite P1 in It. cbn [rbind] in It.
    specialize (Cy (as_solution 0 0 (fun _ => 0%R))). apply stopped_update in Cy. destruct Cy as (g' & U). unfold pg_prepare in P1. rewrite U in P1. discriminate P1.
  - right. destruct (solves mp _ nan se (es n) H theta centering par (wd_live w) x fuel junk g f q so h rs M l0 l1 TL G P) as (t & k & R1 & Ht & Pt & Ef).
    exists g, f, q, so, h, rs, M, l0, l1, t, k. split; [exact P|]. split; [exact Ge|].
    assert (Pp : pg_prepare fuel junk nan se (es n) x = Finished (Ok (Some (g, f, q, so)))) by (destruct P as (_ & _ & _ & _ & _ & _ & _ & X & _); exact X).
    assert (As : asked fuel junk nan se es s n k). { exists x, g, f, q, so, t. split; [exact A|]. split; [exact Pp|]. split; [exact R1|]. exact (ef_calls _ _ _ _ _ _ _ _ Ef). }
    assert (Se : hs_report (se_start se) = true -> SolverLifeSpec.sensible (en_library (es n) k) k) by (intros Hr; exact (Un Hr n k As)).
    split; [exact As|].
    split; [exact Ht|]. split; [exact Ef|]. destruct R1 as [R1|R1].
    + right. split; [exact R1|]. split; [intros Cr; exact (ef_success _ _ _ _ _ _ _ _ Ef R1 Cr)|]. rewrite R1 in Ef.
      destruct (advances fuel junk p mp _ nan H theta centering par (wd_live w) se pr (es n) x g f q so h rs M l0 l1 t k Reg Ini HH FU Fe G Ge P R1 Ht Pt Ef Se) as (x' & pf & It & K).
      exists x', pf. split; [rewrite AS; exact It|exact K].
    + left. split; [exact R1|]. split; [|destruct (hs_report (se_start se)) eqn:Hr; [exact (proj1 (ef_report _ _ _ _ _ _ _ _ Ef Hr (Se eq_refl)) R1)|exact (proj2 (ef_plain _ _ _ _ _ _ _ _ Ef Hr) R1)]].
      rewrite AS. unfold pg_iterate. rewrite Pp. cbn [rbind]. rewrite R1. reflexivity.
Qed.

(** the program after [n] iterations *)
Lemma runs es (Un : understood fuel junk nan se es s) n :
  match pg_after fuel junk nan se es s n with
  | Finished (Ok (Some x)) => Good x /\ left_ms (wl_fsm (pg_loop x)) + n * sampling_ms mp = total_ms p /\ (n = 0 \/ (N + (n - 1)) * sampling_ms mp <= total_ms p) /\ length (wd_calls (pg_world x)) = length (wd_calls w) + n
  | Finished (Ok None) => 0 < n /\ total_ms p < (N + (n - 1)) * sampling_ms mp
  | Finished Throw => pr_crash par = true /\ exists m k, m < n /\ asked fuel junk nan se es s m k /\ an_code (en_library (es m) k) <> CODE_SUCCESS
  | _ => False
  end.
Proof.
  destruct La as (Reg & Sta & _). pose proof Sta as (Ini & _). pose proof Reg as (Wk & HP & N2 & TP & _).
  induction n as [|n IH].
  - cbn [pg_after]. destruct start_good as (G & E & W). split; [exact G|]. rewrite E, W. split; [rewrite (total_start p _ Ini Wk); lia|]. split; [left; reflexivity|lia].
  - destruct (pg_after fuel junk nan se es s n) as [[[x|]| |]|] eqn:A; try contradiction.
    + destruct IH as (G & LM & _ & LC). destruct (takes es Un n x A G) as [(Lt & E & _)|(g & f & q & so & h & rs & M & l0 & l1 & t & k & P & Ge & As & Ho & Ef & [(R1 & E & Cr & Co)|(R1 & _ & x' & pf & E & G' & _ & LM' & _ & _ & _ & Wx & _)])].
      * rewrite E. split; [lia|]. replace (S n - 1) with n by lia. nia.
      * rewrite E. split; [exact Cr|]. exists n, k. split; [lia|]. split; assumption.
      * rewrite E. split; [exact G'|]. split; [lia|]. split; [right; replace (S n - 1) with n by lia; nia|]. rewrite Wx, (ef_calls _ _ _ _ _ _ _ _ Ef). cbn [length]. lia.
    + cbn [pg_after]. rewrite A. cbn [rbind]. destruct IH as [IH1 IH2]. split; [lia|]. replace (N + (S n - 1)) with (N + (n - 1) + 1) by lia. nia.
    + cbn [pg_after]. rewrite A. cbn [rbind]. destruct IH as [IH1 (m & k & L & IH2)]. split; [exact IH1|]. exists m, k. split; [lia|exact IH2].
Qed.
Lemma good_at es (Un : understood fuel junk nan se es s) n x : pg_after fuel junk nan se es s n = Finished (Ok (Some x)) -> Good x.
Proof. intros A. pose proof (runs es Un n) as R1. rewrite A in R1. apply R1. Qed.
Lemma stepped es (Un : understood fuel junk nan se es s) n x x' : steps_to fuel junk nan se es s n x x' -> Good x /\ Good x' /\ exists g f q so h rs M l0 l1 t k pf,
  posed fuel junk nan se (es n) mp H centering x g f q so h rs M l0 l1 /\ asked fuel junk nan se es s n k /\ holds (wd_live w) (cs_solver t) (cs_world t) /\
  effect par (pg_call se (es n) f q so) (pg_world x) l0 l1 (Returned t) t k /\ (pr_crash par = true -> an_code (en_library (es n) k) = CODE_SUCCESS) /\
  cycle fuel junk nan (se_inc se) (finalize pr) (last_solution x') (pg_loop x) = Finished (Ok (Some (pg_loop x'))) /\
  fitting N (length (h_steps h)) (last_solution x') /\ wl_wpg (pg_loop x') = mkWpg mp true h H M pf /\ pg_solution x' = cs_solution t /\ pg_world x' = cs_world t /\
  walk_solved junk N (intervals_of h H) (interval_rotations h) (h_steps h) (step_rotations h rs) (support_of nan (wl_model (pg_loop x))) (cstate_of (wl_model (pg_loop x))) (last_solution x') M pf /\
  last_solution x' = solution_of (structure_wpg N (length (h_steps h))) (cs_solution t) /\ carried se N (length (h_steps h)) (es n) f q k x x'.
Proof.
  intros [A A']. pose proof (good_at es Un n x A) as G. split; [exact G|]. split; [exact (good_at es Un (S n) x' A')|].
  destruct (takes es Un n x A G) as [(Lt & E & _)|(g & f & q & so & h & rs & M & l0 & l1 & t & k & P & Ge & As & Ho & Ef & [(R1 & E & _)|(R1 & Sc & y & pf & E & G' & C & LM' & Fi & Gw & Sx & Wx & Ws & Ls)])]; try congruence.
  rewrite A' in E. injection E as <-. exists g, f, q, so, h, rs, M, l0, l1, t, k, pf. rewrite R1 in Ef. do 6 (split; [assumption|]). do 5 (split; [assumption|]). exact Ls.
Qed.

(** ** the loop of C99 with the solutions of the program *)
Definition given (es : nat -> environment) (n : nat) (x : wloop) : solution :=
  match pg_after fuel junk nan se es s (S n) with
  | Finished (Ok (Some x')) => last_solution x'
  | _ => chosen fuel junk nan (se_inc se) pr x
  end.
Fixpoint mixed (es : nat -> environment) (n : nat) : run (option wloop) :=
  match n with
  | O => Finished (Ok (Some s0))
  | S k => rbind (mixed es k) (fun o => match o with None => Finished (Ok None) | Some x => cycle fuel junk nan (se_inc se) (finalize pr) (given es k x) x end)
  end.
Definition mixed_sols (es : nat -> environment) (n : nat) : solution := match mixed es n with Finished (Ok (Some x)) => given es n x | _ => mkSolution (structure_wpg 0 0) [] end.
Lemma mixed_after es n : after fuel junk nan (se_inc se) (finalize pr) (mixed_sols es) s0 n = mixed es n.
Proof. induction n as [|n IH]; [reflexivity|]. cbn [after mixed]. rewrite IH. unfold mixed_sols. destruct (mixed es n) as [[[x|]| |]|]; reflexivity. Qed.
Lemma mixed_follows es (Un : understood fuel junk nan se es s) n x : pg_after fuel junk nan se es s n = Finished (Ok (Some x)) -> mixed es n = Finished (Ok (Some (pg_loop x))).
Proof.
  revert x. induction n as [|n IH]; intros x A.
  - cbn [pg_after] in A. injection A as <-. cbn [mixed]. destruct start_good as (_ & -> & _). reflexivity.
  - pose proof A as A'. cbn [pg_after] in A. apply rbind_ok in A. destruct A as ([y|] & A & _); [|cbn [pg_after] in A'; rewrite A in A'; discriminate A'].
    cbn [mixed]. rewrite (IH y A). cbn [rbind]. unfold given. rewrite A'. destruct (stepped es Un n y x (conj A A')) as (_ & _ & g & f & q & so & h & rs & M & l0 & l1 & t & k & pf & _ & _ & _ & _ & _ & C & _). exact C.
Qed.
Lemma mixed_walking es (Un : understood fuel junk nan se es s) : walking p s0 fuel junk nan (se_inc se) pr (mixed_sols es).
Proof.
  destruct La as (Reg & Sta & _). split; [exact Reg|]. split; [exact Sta|]. intros k x g A U. rewrite mixed_after in A. unfold mixed_sols. rewrite A. unfold given.
  destruct (pg_after fuel junk nan se es s (S k)) as [[[x'|]| |]|] eqn:A'.
  1:{ pose proof A' as A2. cbn [pg_after] in A2. apply rbind_ok in A2. destruct A2 as ([y|] & A2 & _); [|cbn [pg_after] in A'; rewrite A2 in A'; discriminate A'].
      rewrite (mixed_follows es Un k y A2) in A. injection A as <-. destruct (stepped es Un k y x' (conj A2 A')) as (_ & _ & g' & f & q & so & h & rs & M & l0 & l1 & t & c & pf & P & _ & _ & _ & _ & _ & Fi & _).
      destruct P as (U' & G1 & G2 & _). rewrite U in U'. injection U' as <-. unfold fits_walk. rewrite G1, G2. exact Fi. }
  all: unfold chosen; rewrite U; split; [reflexivity|]; cbn [pick sol_x]; rewrite map_length, seq_length; reflexivity.
Qed.
Lemma mixed_solution es (Un : understood fuel junk nan se es s) n x x' : steps_to fuel junk nan se es s n x x' -> consecutive fuel junk nan (se_inc se) (finalize pr) (mixed_sols es) s0 n (pg_loop x) (pg_loop x') /\ mixed_sols es n = last_solution x'.
Proof.
  intros [A A']. split; [split; rewrite mixed_after; apply (mixed_follows es Un); assumption|]. unfold mixed_sols. rewrite (mixed_follows es Un n x A). unfold given. rewrite A'. reflexivity.
Qed.
Lemma mixed_end es (Un : understood fuel junk nan se es s) n x : stops fuel junk nan se es s n x -> ended fuel junk nan (se_inc se) (finalize pr) (mixed_sols es) s0 n (pg_loop x).
Proof.
  intros [A A']. split; [rewrite mixed_after; apply (mixed_follows es Un); exact A|].
  destruct (takes es Un n x A (good_at es Un n x A)) as [(_ & _ & Cy & _)|(g & f & q & so & h & rs & M & l0 & l1 & t & k & P & Ge & As & Ho & Ef & [(R1 & E & _)|(R1 & _ & x' & pf & E & _)])]; [|congruence|congruence].
  cbn [after]. rewrite mixed_after, (mixed_follows es Un n x A). cbn [rbind]. apply Cy.
Qed.
(** ** answers of the library *)
Lemma asked_effect es n x k k' f q so t g : pg_after fuel junk nan se es s n = Finished (Ok (Some x)) -> pg_prepare fuel junk nan se (es n) x = Finished (Ok (Some (g, f, q, so))) ->
  (sv_solve (pg_call se (es n) f q so) (pg_solver x) (pg_world x) = Returned t \/ sv_solve (pg_call se (es n) f q so) (pg_solver x) (pg_world x) = Thrown t) ->
  wd_calls (cs_world t) = k :: wd_calls (pg_world x) -> asked fuel junk nan se es s n k' -> k' = k.
Proof.
  intros A P R1 C (x1 & g1 & f1 & q1 & so1 & t1 & A1 & P1 & R2 & C1). rewrite A in A1. injection A1 as <-. rewrite P in P1. injection P1 as <- <- <- <-.
  assert (t1 = t) by (destruct R1, R2; congruence). subst t1. congruence.
Qed.
End Run.
