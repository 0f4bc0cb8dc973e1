(** * The program which plans and executes: iterations *)
From Coq Require Import String List Reals Arith Bool ZArith Lra Lia.
From Verif Require Import Base BaseFacts RSum Matrix Mat2 Mat3 ActiveSet Mixins ConstraintType HierarchyLevel HierarchySpec Constraints ConstraintsSpec QP QPSpec Problem ProblemSpec
  PointMass6z PointMass6zSpec TripleIntegratorSpec Solution Task MpcGuess MpcGuessSpec MpcGuessFacts
  QpoasesBridge QpoasesBridgeSpec Backends BackendsSpec Solver SolverLife SolverLifeSpec SolverLifeFacts WalkProgram WalkProgramSpec WalkProgramFacts WalkProgramFacts2
  RotarySpec Rotary Euler EulerSpec Rbdl RbdlSpec PepperIk PepperIkSpec PepperIkFacts PepperIkTasks PepperIkTasksSpec PepperIkTasksFacts PepperIkLoop PepperIkCommandFacts PepperIkLoopSpec KKT KKTSpec KKTPosedSpec PepperIkProgram PepperIkProgramSpec PepperIkProgramFacts2 PepperIkProgramRun
  PepperPreview PepperPreviewSpec PepperFormFacts PepperModel PepperMpc PepperMpcSpec PepperMpcFacts2 PepperTasks PepperTasksSpec PepperTasksFacts PepperTasksFacts2 PepperLoop PepperLoopSpec PepperLoopFacts PepperLoopFacts2
  PepperProgram PepperProgramSpec PepperProgramFacts PepperProgramFacts2 PepperProgramFacts3 PepperProgramFacts4 PepperProgramFacts5 PepperCoupled PepperCoupledSpec PepperCoupledIk.
Import ListNotations.
Local Open Scope R_scope.

(** ** the part of the MPC *)
(** the motions are shifted after the iteration instead of before the next one *)
Definition kp_shifted (se : co_settings) (k : pepper_program) : pepper_program :=
  let l := kp_loop k in kp_with_loop (mkLoop (lp_model l) (shift_motions (sampling_ms (mg_par (lp_mg l))) (co_shift se) (lp_motions l)) (lp_mg l)) k.
Lemma finish_par se g x f p t s k : kp_finish (co_mpc se) g x f p t s = Ok (Some k) -> mg_par (lp_mg (kp_loop k)) = mg_par g /\ lp_motions (kp_loop k) = x.
Proof.
  unfold kp_finish. intros E. apply bind_ok in E. destruct E as (q & _ & E). apply bind_ok in E. destruct E as (n & E1 & E). injection E as <-. cbn [kp_loop lp_mg lp_motions]. split; [|reflexivity].
  cbn [co_mpc ks_advance] in E1. apply bind_ok in E1. destruct E1 as (g' & E1 & E2). apply bind_ok in E2. destruct E2 as (m & _ & E2). injection E2 as <-. cbn [snd]. unfold mg_parse in E1. apply bind_ok in E1. destruct E1 as (y & _ & E1). injection E1 as <-. reflexivity.
Qed.
Lemma finish_shift se g x x' f p t s : kp_finish (co_mpc se) g x' f p t s =
  bind (kp_finish (co_mpc se) g x f p t s) (fun o => Ok (option_map (fun k => kp_with_loop (mkLoop (lp_model (kp_loop k)) x' (lp_mg (kp_loop k))) k) o)).
Proof.
  unfold kp_finish. destruct (kp_process (co_mpc se) p t) as [q| |]; cbn [bind]; try reflexivity. destruct (match ks_advance (co_mpc se) with Whole => _ | Part ms => _ end) as [n| |]; reflexivity.
Qed.
Lemma update_par junk r x m g b g' : mg_update junk r x m g = Ok (b, g') -> mg_par g' = mg_par g.
Proof.
  unfold mg_update. intros E. apply bind_ok in E. destruct E as ((b' & h) & _ & E). cbn [fst snd] in E. destruct b'; [apply bind_ok in E; destruct E as (M & _ & E)|]; injection E as <- <-; reflexivity.
Qed.
Lemma plan_iterate junk se e s : kp_iterate junk (co_mpc se) e s = bind (co_plan junk se e s) (fun o => Ok (option_map (kp_shifted se) o)).
Proof.
  unfold kp_iterate, kp_prepare, co_plan, mg_updateAndShift. cbn [co_mpc ks_bounds ks_shift]. fold (co_mpc se).
  destruct (mg_update junk (ct_bounds se) (lp_motions (kp_loop s)) (lp_model (kp_loop s)) (lp_mg (kp_loop s))) as [(b & g)| |] eqn:E; cbn [bind fst snd]; try reflexivity. pose proof (update_par _ _ _ _ _ _ _ E) as EP.
  destruct b; [|reflexivity]. change (mkPepper (ct_bounds se) _ _ _ _ _ _ _ _) with (co_mpc se). destruct (kp_form (co_mpc se) e g s) as [((f & p) & r)| |]; cbn [bind fst snd]; try reflexivity.
  destruct (sv_solve _ _ _) as [t|t|]; try reflexivity. rewrite (finish_shift se g (lp_motions (kp_loop s))).
  destruct (kp_finish (co_mpc se) g (lp_motions (kp_loop s)) f p t s) as [[k|]| |] eqn:EF; cbn [bind option_map]; try reflexivity. destruct (finish_par _ _ _ _ _ _ _ _ EF) as (A & B). unfold kp_shifted. rewrite A, B, EP. reflexivity.
Qed.
(** the state of the model may be replaced *)
Lemma kgood_model se s0 gain par L n s m : kgood se s0 gain par L n s -> ps_base_mass m + ps_body_mass m <> 0 ->
  kgood se s0 gain par L n (kp_with_loop (mkLoop m (lp_motions (kp_loop s)) (lp_mg (kp_loop s))) s).
Proof. intros [A B C D E F] M. split; cbn [kp_with_loop kp_loop kp_problem kp_body_jerk kp_solver kp_world kp_old lp_model]; try assumption. Qed.
Lemma started_kgood se par gain details w s0 s m : PepperPreviewSpec.proper (mg_par (lp_mg s0)) -> valid_queue (as_queue (lp_motions s0)) -> (Z.of_nat (ct_subsampling se) <= sampling_ms (mg_par (lp_mg s0)))%Z ->
  pr_two_levels par = true -> tidy w -> kp_start (co_mpc se) par gain details w s0 = Ok s -> ps_base_mass m + ps_body_mass m <> 0 ->
  kp_loop s = s0 /\ kgood (co_mpc se) s0 gain par (wd_live w) 0 (kp_with_loop (mkLoop m (lp_motions s0) (lp_mg s0)) s).
Proof.
  intros Pp V Ha TL Ti St M. set (s1 := mkLoop m (lp_motions s0) (lp_mg s0)).
  assert (X : kp_loop s = s0 /\ kp_start (co_mpc se) par gain details w s1 = Ok (kp_with_loop s1 s)).
  { unfold kp_start in *. destruct (kp_setup (ks_position (co_mpc se)) pb_new) as [p| |]; cbn [bind] in *; try discriminate. injection St as <-. split; reflexivity. }
  destruct X as (EL & X). split; [exact EL|].
  destruct (start_kgood (co_mpc se) par gain details w s1 (kp_with_loop s1 s)) as ([A B C D E F] & _).
  - split; [exact Pp|]. split; [exact V|]. split; [cbn; unfold co_shift; lia|]. split; [cbn; lia|]. split; [exact M|]. split; [cbn; discriminate|]. split; [exact TL|]. split; [exact Ti|exact X].
  - split; assumption.
Qed.

Section Run.
Variables (eig : m3 -> euler_type -> v3) (junk : nat -> nat -> nat -> R) (se : co_settings) (par : qparams) (gain : R) (details : option (backend_code * Z)) (w : world) (s0 : loop)
  (m0 : ikmodel) (wb : wbc) (matrices : nat -> mat) (qp : objective * contAB) (c0 : PepperIkTasks.command) (s : coupled).
Hypothesis Re : co_ready eig se par gain details w s0 m0 wb matrices qp c0 s.
Notation P := (mg_par (lp_mg s0)).
Notation N := (horizon_length P).
Notation Q := (as_queue (lp_motions s0)).
Notation ik := (ct_ik se).
Notation fk := (is_kinematics ik).
Notation Good := (kgood (co_mpc se) s0 gain par (wd_live w)).
Notation enough n := (endless Q \/ (Z.of_nat N * sampling_ms P + Z.of_nat n * co_shift se <= total Q)%Z).
Notation d := (INR (ct_difference se) / 1000).

(** the state after [n] iterations *)
Definition cgood (n : nat) (x : coupled) : Prop :=
  (forall m, ps_base_mass m + ps_body_mass m <> 0 ->
     Good n (kp_with_loop (mkLoop m (lp_motions (kp_loop (if (n =? 0)%nat then co_pepper x else kp_shifted se (co_pepper x)))) (lp_mg (mpc x))) (co_pepper x))) /\
  sound eig ik (co_ik x) /\ ((0 < n)%nat -> length (cmd_joints (co_command x)) = JOINTS_DOF_NUMBER /\ cmd_joints (co_command x) = gc_joints (ik_gc (robot x)) /\ cmd_interval (co_command x) = wp_interval (is_wbc ik)).
Lemma start_cgood : cgood 0 s /\ robot s = m0 /\ mpc s = s0.
Proof.
  destruct Re as (Pp & V & Ha & TL & Ti & EF & K & PH & DT & HM & RC & St). unfold co_start in St. apply bind_ok in St. destruct St as (k & Ek & St). apply bind_ok in St. destruct St as (i & Ei & St). injection St as <-.
  assert (RC' : reachable eig (is_features ik) fk m0) by (rewrite EF; exact RC). destruct (start_sound eig ik m0 wb matrices qp RC') as (i' & Ei' & EL & SO). rewrite Ei in Ei'. apply ok_inj in Ei'. subst i'.
  assert (EK : kp_loop k = s0) by (unfold kp_start in Ek; apply bind_ok in Ek; destruct Ek as (p & _ & Ek); injection Ek as <-; reflexivity).
  split; [|split; [unfold robot; cbn [co_ik]; rewrite EL; reflexivity|exact EK]]. split; [|split; [exact SO|lia]]. intros m M. unfold mpc. cbn [co_pepper Nat.eqb]. rewrite EK.
  exact (proj2 (started_kgood se par gain details w s0 k m Pp V Ha TL Ti Ek M)).
Qed.

(** feedback and synchronisation *)
Lemma begins n x : cgood n x -> exists y, co_begins eig se n x y /\ Good n (co_pepper y) /\ sound eig ik (co_ik y) /\ synced eig (robot y) (lp_model (mpc x)) (lp_model (mpc y)) /\
  ((n = 0)%nat -> robot y = robot x) /\ ((0 < n)%nat -> moved (co_command x) d (ik_gc (robot x)) (ik_gc (robot y)) /\ forall j, angle ROOT_PLANAR (ik_gc (robot y)) j = angle ROOT_PLANAR (ik_gc (robot x)) j).
Proof.
  intros (G & SO & CM). destruct Re as (Pp & V & Ha & TL & Ti & EF & K & PH & DT & HM & RC & St). pose proof (proj1 SO) as RX. rewrite EF in RX. fold (robot x) in RX.
  assert (FB : exists x1, co_feedback eig se n x = Ok x1 /\ sound eig ik (co_ik x1) /\ ((n = 0)%nat -> robot x1 = robot x) /\
    ((0 < n)%nat -> moved (co_command x) d (ik_gc (robot x)) (ik_gc (robot x1))) /\
    co_pepper x1 = kp_with_loop (mkLoop (lp_model (mpc x)) (lp_motions (kp_loop (if (n =? 0)%nat then co_pepper x else kp_shifted se (co_pepper x)))) (lp_mg (mpc x))) (co_pepper x)).
  { unfold co_feedback. destruct (Nat.eqb_spec n 0) as [-> |NZ].
    - exists x. split; [reflexivity|]. split; [exact SO|]. split; [reflexivity|]. split; [lia|]. unfold mpc. destruct x as [[[ ] ] ]. reflexivity.
    - assert (LJ := proj1 (CM ltac:(lia))). destruct (reachable_good eig _ _ (robot x) K RX) as (file & _ & ((SZ & _) & _)).
      destruct (correct_ok eig ROOT_PLANAR fk (robot x) (ik_gc (robot x)) (co_command x) d K RX SZ) as (C1 & _ & C3).
      assert (X : exists m', correct_state eig ROOT_PLANAR fk (ik_gc (robot x)) (co_command x) d (robot x) = Ok m' /\ reachable eig ROOT_PLANAR fk m' /\ moved (co_command x) d (ik_gc (robot x)) (ik_gc m')).
      { destruct (Rlt_le_dec 0 d) as [D|D].
        - destruct (C3 D eq_refl LJ) as (_ & m' & A & B & C). exists m'. auto.
        - destruct (C1 D) as (_ & m' & A & B & C). exists m'. split; [exact A|]. split; [exact C|]. rewrite B. assert (D0 : d = 0) by (apply Rle_antisym; [exact D|]; apply Rmult_le_pos; [apply pos_INR|lra]). rewrite D0.
          split; [exact SZ|]. do 3 (split; [ring|]). intros j. unfold Rdiv. ring. }
      destruct X as (m' & EC & RM & MV). rewrite EF. unfold robot in EC. rewrite EC. cbn [bind]. eexists. split; [reflexivity|]. split; [split; [cbn; rewrite EF; exact RM|exact (proj2 SO)]|]. split; [intros; lia|].
      split; [intros _; exact MV|reflexivity]. }
  destruct FB as (x1 & EX & SO1 & R0 & R1 & EK). pose proof (proj1 SO1) as RX1. rewrite EF in RX1. fold (robot x1) in RX1.
  destruct (state_error eig ROOT_PLANAR fk (mkMP v3zero v3zero v3zero) (robot x1) K RX1) as (b & p & o & _ & EB & EP & EO & _).
  assert (EY : getBaseYaw eig (robot x1) = Ok (vz (v3reverse (eig o RPY)))) by (unfold getBaseYaw; rewrite EO; reflexivity).
  set (st := ps_update (lp_model (mpc x)) (getBaseMass (robot x1)) (getBodyMass (robot x1)) b p (vz (v3reverse (eig o RPY)))).
  set (y := mkCo (kp_with_loop (mkLoop st (lp_motions (kp_loop (if (n =? 0)%nat then co_pepper x else kp_shifted se (co_pepper x)))) (lp_mg (mpc x))) (co_pepper x)) (co_ik x1) (co_command x1)).
  assert (ES : co_sync eig x1 = Ok y).
  { unfold co_sync. fold (robot x1). rewrite EB. cbn [bind]. rewrite EP. cbn [bind]. rewrite EY. cbn [bind]. unfold y, st. rewrite EK. reflexivity. }
  exists y. split; [exists x1; auto|]. split; [apply G; cbn; exact (HM (robot x1) RX1)|]. split; [exact SO1|]. split.
  { unfold synced. change (robot y) with (robot x1). cbn. auto 12. }
  split; [exact R0|]. intros L. split; [exact (R1 L)|]. intros j. destruct (R1 L) as (_ & _ & _ & _ & A). change (robot y) with (robot x1). rewrite A. destruct (CM L) as (_ & -> & _). unfold angle, Rdiv. ring.
Qed.
Lemma begins_unique n x y y' : co_begins eig se n x y -> co_begins eig se n x y' -> y = y'.
Proof. intros (a & A & B) (a' & A' & B'). rewrite A in A'. apply ok_inj in A'. subst a'. rewrite B in B'. apply ok_inj in B'. exact B'. Qed.
Lemma begins_iterate e n x y : co_begins eig se n x y -> co_iterate eig junk se e n x = bind (co_plan junk se e (co_pepper y)) (fun o => match o with None => Ok None
  | Some k => bind (co_control ik (ct_tolerance se) (co_references (lp_model (kp_loop k))) (co_ik y)) (fun r => Ok (Some (mkCo k (snd r) (fst r)))) end).
Proof. intros (a & A & B). unfold co_iterate. rewrite A. cbn [bind]. rewrite B. reflexivity. Qed.

(** what is known of the plan [k'] which is made in the iteration [n] *)
Record cplan (es : nat -> environment) (n : nat) (x y : coupled) (k' : pepper_program) (k : libcall) : Prop := mkCP {
  cp_asked : co_asked eig junk se es s n k;
  cp_good : Good (S n) (kp_shifted se k');
  cp_advanced : advanced junk (ct_bounds se) (Part (ct_subsampling se)) (co_shift se) (kp_last k') (mpc y) (kp_loop (kp_shifted se k'));
  cp_success : pr_crash par = true -> an_code (en_library (es n) k) = CODE_SUCCESS;
  cp_fits : fits_problem N (kp_last k');
  cp_posed : exists g z f p r l0 l1 k0 k1 t, kposed junk (co_mpc se) (es n) s0 gain n (co_pepper y) g z f p r l0 l1 k0 k1 /\
    effect par (kp_call (co_mpc se) (es n) f p r) (kp_world (co_pepper y)) l0 l1 (Returned t) t k /\ kp_last k' = solution_of (structure_pepper N) (cs_solution t) }.
Lemma plans es n x y : co_after eig junk se es s n = Ok (Some x) -> co_begins eig se n x y -> Good n (co_pepper y) ->
  (~ enough n /\ co_plan junk se (es n) (co_pepper y) = Ok None /\ forall k, ~ co_asked eig junk se es s n k) \/
  (enough n /\ ~ movable (ct_bounds se) /\ co_plan junk se (es n) (co_pepper y) = Throw /\ forall k, ~ co_asked eig junk se es s n k) \/
  (enough n /\ movable (ct_bounds se) /\ exists k, co_asked eig junk se es s n k /\
    ((co_plan junk se (es n) (co_pepper y) = Throw /\ pr_crash par = true /\ an_code (en_library (es n) k) <> CODE_SUCCESS /\
        exists g z f p r l0 l1 k0 k1 t, kposed junk (co_mpc se) (es n) s0 gain n (co_pepper y) g z f p r l0 l1 k0 k1 /\ effect par (kp_call (co_mpc se) (es n) f p r) (kp_world (co_pepper y)) l0 l1 (Thrown t) t k) \/
     exists k', co_plan junk se (es n) (co_pepper y) = Ok (Some k') /\ cplan es n x y k' k)).
Proof.
  intros A B G. pose proof Re as (Pp & V & Ha & TL & Ti & EF & K & PH & DT & HM & RC & St).
  assert (Hs : (0 <= ks_shift (co_mpc se))%Z) by (cbn; unfold co_shift; lia).
  assert (Ha' : (0 <= step_ms (sampling_ms P) (ks_advance (co_mpc se)) <= sampling_ms P)%Z) by (cbn; lia).
  assert (Two : hs_active (ks_start (co_mpc se)) = true -> hs_report (ks_start (co_mpc se)) = true -> (sampling_ms P <= ks_subsampling (co_mpc se))%Z -> (1 < N)%nat) by (cbn; discriminate).
  assert (EN : lasts P (as_queue (lp_motions (kp_loop (co_pepper y)))) <-> enough n).
  { apply (lasts_iff junk (ks_advance (co_mpc se)) (ks_shift (co_mpc se)) (fun _ => as_pepper N (fun _ => 0)) s0); [|exact (kg_loop _ _ _ _ _ _ _ G)].
    split; [exact Pp|]. split; [exact V|]. split; [exact Hs|]. split; [exact Ha'|]. intros _. apply as_pepper_fits. }
  assert (PRE : forall g x1 f1 p1 r1, kp_prepare junk (co_mpc se) (es n) (co_pepper y) = Ok (Some (g, x1, f1, p1, r1)) <->
    mg_update junk (ct_bounds se) (lp_motions (mpc y)) (lp_model (mpc y)) (lp_mg (mpc y)) = Ok (true, g) /\ kp_form (co_mpc se) (es n) g (co_pepper y) = Ok (f1, p1, r1) /\
    x1 = shift_motions (sampling_ms (mg_par (lp_mg (mpc y)))) (co_shift se) (lp_motions (mpc y))).
  { intros g x1 f1 p1 r1. unfold kp_prepare, mg_updateAndShift. cbn [co_mpc ks_bounds ks_shift]. change (mkPepper (ct_bounds se) _ _ _ _ _ _ _ _) with (co_mpc se). fold (mpc y).
    destruct (mg_update junk (ct_bounds se) (lp_motions (mpc y)) (lp_model (mpc y)) (lp_mg (mpc y))) as [(b & g')| |]; cbn [bind fst snd]; [|split; [discriminate|intros (X & _); discriminate]..].
    destruct b; [|split; [discriminate|intros (X & _); discriminate]]. split.
    - destruct (kp_form (co_mpc se) (es n) g' (co_pepper y)) as [((f2 & p2) & r2)| |] eqn:EQ; cbn [bind fst snd]; try discriminate. intros X. injection X as <- <- <- <- <-. auto.
    - intros (X & Y & Z). injection X as <-. rewrite Y, Z. reflexivity. }
  destruct (poses_pepper junk (co_mpc se) gain par (wd_live w) s0 Pp Two TL (es n) n (co_pepper y) G) as [(La & g & z & f & p & r & l0 & l1 & k0 & k1 & KP)|(La & Pre)].
  2:{ left. rewrite <- EN. split; [exact La|]. pose proof (plan_iterate junk se (es n) (co_pepper y)) as PI. unfold kp_iterate in PI. rewrite Pre in PI. cbn [bind] in PI.
      split; [destruct (co_plan junk se (es n) (co_pepper y)) as [[k|]| |]; cbn [bind option_map] in PI; try discriminate PI; reflexivity|].
      intros k (x1 & y1 & g & f & p & r & t & A1 & B1 & U1 & F1 & _). rewrite A in A1. injection A1 as <-. rewrite <- (begins_unique n x y y1 B B1) in *.
      rewrite (proj2 (PRE g _ f p r) (conj U1 (conj F1 eq_refl))) in Pre. discriminate Pre. }
  right. pose proof (ko_prepare _ _ _ _ _ _ _ _ _ _ _ _ _ _ _ _ KP) as Pre. destruct (proj1 (PRE g z f p r) Pre) as (U & F & Z).
  assert (PL : co_plan junk se (es n) (co_pepper y) = match sv_solve (kp_call (co_mpc se) (es n) f p r) (kp_solver (co_pepper y)) (kp_world (co_pepper y)) with
    | Returned t => kp_finish (co_mpc se) g (lp_motions (mpc y)) f p t (co_pepper y) | Thrown _ => Throw | Undefined => UB end).
  { unfold co_plan. fold (mpc y). rewrite U. cbn [bind fst snd]. rewrite F. reflexivity. }
  destruct (solves_pepper junk (co_mpc se) gain par (wd_live w) s0 TL (es n) n (co_pepper y) g z f p r l0 l1 k0 k1 G KP) as (t & R & Ht & Pt & [(Mv & Th & Ca)|(Mv & k & Ef)]).
  - left. split; [apply EN; exact La|]. split; [exact Mv|]. split; [rewrite PL, Th; reflexivity|].
    intros k (x1 & y1 & g1 & f1 & p1 & r1 & t1 & A1 & B1 & U1 & F1 & R1 & C1). rewrite A in A1. injection A1 as <-. rewrite <- (begins_unique n x y y1 B B1) in *. rewrite U in U1. injection U1 as <-. rewrite F in F1. injection F1 as <- <- <-.
    rewrite Th in R1. destruct R1 as [R1|R1]; [discriminate R1|injection R1 as <-]. rewrite Ca in C1. apply (f_equal (@length _)) in C1. cbn [length] in C1. lia.
  - right. split; [apply EN; exact La|]. split; [exact Mv|]. exists k.
    assert (As : co_asked eig junk se es s n k) by (exists x, y, g, f, p, r, t; split; [exact A|]; split; [exact B|]; split; [exact U|]; split; [exact F|]; split; [exact R|exact (ef_calls _ _ _ _ _ _ _ _ Ef)]).
    split; [exact As|]. destruct R as [R|R]; rewrite R in Ef.
    + right. assert (Sc : pr_crash par = true -> an_code (en_library (es n) k) = CODE_SUCCESS) by (intros Cr; exact (ef_success _ _ _ _ _ _ _ _ Ef eq_refl Cr)).
      destruct (advances_pepper junk (co_mpc se) gain par (wd_live w) s0 Pp V Hs Ha' Two TL (es n) n (co_pepper y) g z f p r l0 l1 k0 k1 t k G La KP R Ht Pt Ef ltac:(cbn; discriminate)) as (x' & It & G' & Cy & Fi & _ & _ & _ & _ & _ & Ls & _).
      rewrite plan_iterate in It. destruct (co_plan junk se (es n) (co_pepper y)) as [[k'|]| |]; cbn [bind option_map] in It; try discriminate It. injection It as <-. exists k'. split; [reflexivity|].
      change (kp_last (kp_shifted se k')) with (kp_last k') in *.
      split; [exact As|exact G'| |exact Sc|exact Fi|exists g, z, f, p, r, l0, l1, k0, k1, t; auto].
      pose proof (kg_loop _ _ _ _ _ _ _ G) as (I1 & I2 & I3 & _). fold (mpc y) in *.
      destruct (cycle_cases junk (ct_bounds se) (Part (ct_subsampling se)) (co_shift se) (kp_last k') (mpc y)) as [(_ & l' & C & Ad)|(C & _)]; try (rewrite I1); try assumption; [|rewrite I1 in C; contradiction].
      cbn [co_mpc ks_bounds ks_advance ks_shift] in Cy. fold (mpc y) in Cy. rewrite C in Cy. assert (EL : l' = kp_loop (kp_shifted se k')) by congruence. rewrite <- EL. exact Ad.
    + left. split; [rewrite PL, R; reflexivity|]. destruct (proj2 (ef_plain _ _ _ _ _ _ _ _ Ef eq_refl) eq_refl) as (Cr & Co). split; [exact Cr|]. split; [exact Co|]. exists g, z, f, p, r, l0, l1, k0, k1, t. auto.
Qed.

(** ** iterations *)
Lemma planar_kinematics : kinematics (is_features ik) fk.
Proof. destruct Re as (_ & _ & _ & _ & _ & EF & K & _). rewrite EF. exact K. Qed.
Notation Refs x := (co_references (lp_model (mpc x))).
Lemma passed es n x x' : cgood n x -> co_passes eig junk se es s n x x' -> exists y k, co_begins eig se n x y /\ Good n (co_pepper y) /\ sound eig ik (co_ik y) /\ cplan es n x y (co_pepper x') k /\ enough n /\
  movable (ct_bounds se) /\ co_plan junk se (es n) (co_pepper y) = Ok (Some (co_pepper x')) /\ co_control ik (ct_tolerance se) (Refs x') (co_ik y) = Ok (co_command x', co_ik x') /\ cgood (S n) x'.
Proof.
  intros G (A & A'). pose proof Re as (Pp & V & Ha & TL & Ti & EF & K & PH & DT & HM & RC & St). destruct (begins n x G) as (y & B & GY & SY & _). cbn [co_after] in A'. rewrite A in A'. cbn [bind] in A'. rewrite (begins_iterate (es n) n x y B) in A'.
  destruct (plans es n x y A B GY) as [(_ & E & _)|[(_ & _ & E & _)|(En & Mv & k & _ & [(E & _)|(k' & E & CP)])]]; rewrite E in A'; cbn [bind] in A'; try discriminate A'.
  apply bind_ok in A'. destruct A' as ((c & i) & EC & A'). cbn [fst snd] in A'. injection A' as <-. exists y, k. split; [exact B|]. split; [exact GY|]. split; [exact SY|]. split; [exact CP|]. split; [exact En|]. split; [exact Mv|]. split; [exact E|]. split; [exact EC|].
  destruct (co_control_runs eig se _ planar_kinematics PH (co_ik y) c i SY DT EC) as (SO & m & j & st & sols & _ & _ & _ & _ & _ & P1 & P2 & _ & _ & EX).
  split; [|split; [exact SO|]].
  - intros m' M. exact (kgood_model _ _ _ _ _ _ _ m' (cp_good _ _ _ _ _ _ CP) M).
  - intros _. destruct EX as (E1 & E2 & _). cbn [co_command]. unfold robot. cbn [co_ik]. split; [|split; [exact E1|exact E2]]. rewrite E1. destruct (reachable_good eig _ _ _ planar_kinematics (proj1 SO)) as (file & _ & ((SZ & _) & _)). exact (proj2 SZ).
Qed.
Lemma reach es n x : co_after eig junk se es s n = Ok (Some x) -> cgood n x.
Proof.
  revert x. induction n as [|n IH]; intros x A.
  - cbn in A. injection A as <-. exact (proj1 start_cgood).
  - pose proof A as A'. cbn [co_after] in A. apply bind_ok in A. destruct A as ([x0|] & A & X); [|discriminate X]. destruct (passed es n x0 x (IH x0 A) (conj A A')) as (y & k & H). apply H.
Qed.
(** the inverse kinematics gives no command in the iteration [j] *)
Definition not_tracked (es : nat -> environment) (j n : nat) (y : coupled) : Prop :=
  exists k, co_plan junk se (es j) (co_pepper y) = Ok (Some k) /\ (forall r, co_control ik (ct_tolerance se) (co_references (lp_model (kp_loop k))) (co_ik y) <> Ok r) /\
    (co_control ik (ct_tolerance se) (co_references (lp_model (kp_loop k))) (co_ik y) = Throw -> co_after eig junk se es s n = Throw).
Lemma runs es n :
  (exists x, co_after eig junk se es s n = Ok (Some x) /\ ((n = 0)%nat \/ enough (n - 1)%nat)) \/
  (co_after eig junk se es s n = Ok None /\ (0 < n)%nat /\ ~ enough (n - 1)%nat) \/
  ((forall o, co_after eig junk se es s n <> Ok o) /\ exists j x y, (j < n)%nat /\ co_after eig junk se es s j = Ok (Some x) /\ co_begins eig se j x y /\ enough j /\
     ((co_after eig junk se es s n = Throw /\ ~ movable (ct_bounds se) /\ j = 0%nat) \/
      (co_after eig junk se es s n = Throw /\ pr_crash par = true /\ exists k, co_asked eig junk se es s j k /\ an_code (en_library (es j) k) <> CODE_SUCCESS) \/
      not_tracked es j n y)).
Proof.
  induction n as [|n IH]; [left; exists s; split; [reflexivity|left; reflexivity]|]. replace (S n - 1)%nat with n by lia.
  destruct IH as [(x & A & _)|[(A & L & Ne)|(A & j & x & y & L & Aj & B & En & CA)]].
  - pose proof (reach es n x A) as G. destruct (begins n x G) as (y & B & GY & SY & _). cbn [co_after]. rewrite A. cbn [bind]. rewrite (begins_iterate (es n) n x y B).
    destruct (plans es n x y A B GY) as [(Ne & E & _)|[(En & Mv & E & _)|(En & Mv & k & As & [(E & Cr & Co & _)|(k' & E & CP)])]]; rewrite E; cbn [bind].
    + right. left. split; [reflexivity|]. split; [lia|exact Ne].
    + right. right. split; [discriminate|]. exists n, x, y. split; [lia|]. split; [exact A|]. split; [exact B|]. split; [exact En|]. left. split; [reflexivity|]. split; [exact Mv|].
      destruct n as [|m]; [reflexivity|exfalso]. pose proof A as A'. cbn [co_after] in A'. apply bind_ok in A'. destruct A' as ([x0|] & A0 & X); [|discriminate X].
      destruct (passed es m x0 x (reach es m x0 A0) (conj A0 A)) as (y0 & k0 & _ & _ & _ & _ & _ & Mv0 & _). contradiction.
    + right. right. split; [discriminate|]. exists n, x, y. split; [lia|]. split; [exact A|]. split; [exact B|]. split; [exact En|]. right. left. split; [reflexivity|]. split; [exact Cr|]. exists k. auto.
    + destruct (co_control ik (ct_tolerance se) (co_references (lp_model (kp_loop k'))) (co_ik y)) as [(c & i)| |] eqn:EC; cbn [bind].
      * left. eexists. split; [reflexivity|]. right. exact En.
      * right. right. split; [discriminate|]. exists n, x, y. split; [lia|]. split; [exact A|]. split; [exact B|]. split; [exact En|]. right. right. exists k'. split; [exact E|]. rewrite EC. split; [discriminate|]. intros _. cbn [co_after]. rewrite A. cbn [bind]. rewrite (begins_iterate (es n) n x y B), E. cbn [bind]. rewrite EC. reflexivity.
      * right. right. split; [discriminate|]. exists n, x, y. split; [lia|]. split; [exact A|]. split; [exact B|]. split; [exact En|]. right. right. exists k'. split; [exact E|]. rewrite EC. split; [discriminate|]. discriminate.
  - right. left. cbn [co_after]. rewrite A. cbn [bind]. split; [reflexivity|]. split; [lia|]. intros [X|X]; apply Ne; [left; exact X|right]. pose proof Re as (_ & _ & Ha & _). unfold co_shift in *. nia.
  - right. right. assert (T : co_after eig junk se es s n = Throw -> co_after eig junk se es s (S n) = Throw) by (intros E; cbn [co_after]; rewrite E; reflexivity).
    split; [intros o X; cbn [co_after] in X; apply bind_ok in X; destruct X as (o' & X & _); exact (A o' X)|]. exists j, x, y. split; [lia|]. split; [exact Aj|]. split; [exact B|]. split; [exact En|].
    destruct CA as [(E & X)|[(E & X)|(k & E & X & Y)]]; [left; auto|right; left; auto|right; right; exists k; auto].
Qed.

(** ** the plan *)
Lemma optimal es n x x' y : pr_crash par = true -> co_library_is sound_answer eig junk se es s -> co_passes eig junk se es s n x x' -> co_begins eig se n x y ->
  let sol := kp_last (co_pepper x') in
  fits_problem N sol /\ finite N sol /\ exists Pl, planned (mpc y) sol Pl /\ respects (ct_bounds se) Q (co_shift se) n (mpc y) Pl /\
  forall sol', fits_problem N sol' -> (exists Pl', planned (mpc y) sol' Pl') /\
    forall Pl', planned (mpc y) sol' Pl' -> finite N sol' -> respects (ct_bounds se) Q (co_shift se) n (mpc y) Pl' -> plan_cost (co_mpc se) gain Q n (mpc y) sol Pl <= plan_cost (co_mpc se) gain Q n (mpc y) sol' Pl'.
Proof.
  intros Cr Li Ps B sol. pose proof Re as (Pp & _). destruct (passed es n x x' (reach es n x (proj1 Ps)) Ps) as (y' & k & B' & G & _ & CP & _). rewrite <- (begins_unique n x y y' B B') in *.
  destruct CP as [As G' Ad Sc Fi (g & z1 & f & p & r & l0 & l1 & k0 & k1 & t & K & Ef & Ls)].
  pose proof (kp_par (co_mpc se) par gain w s0 n (co_pepper y) G) as EP. destruct (kfeasible junk (co_mpc se) gain par s0 (es n) n (co_pepper y) g z1 f p r l0 l1 k0 k1 (kp_world (co_pepper y)) (Returned t) t k Pp EP K Ef) as (F1 & F2 & F3).
  destruct (Li n k As (Sc Cr)) as (z & Z & Mz). assert (Ez : forall i, (i < 4 * N)%nat -> z i = point sol i) by (intros i Hi; symmetry; exact (answer_point junk (co_mpc se) par gain s0 es n (co_pepper y) (co_pepper x') g z1 f p r l0 l1 k0 k1 t k K Ef Ls z Z i Hi)).
  fold sol in Fi. split; [exact Fi|]. destruct (ko_plans _ _ _ _ _ _ _ _ _ _ _ _ _ _ _ _ K sol Fi) as (Pl & HPl). destruct (ko_plans _ _ _ _ _ _ _ _ _ _ _ _ _ _ _ _ K (as_pepper N z) (as_pepper_fits N z)) as (Pz & HPz).
  pose proof (F2 z (proj1 Mz)) as Fz. apply (F1 _ _ (as_pepper_fits N z) HPz) in Fz. destruct Fz as [Rz Fnz].
  assert (SL : sol = as_pepper N z).
  { destruct Fi as [Fs Fl]. assert (X : sol_x sol = map z (seq 0 (4 * N))).
    { apply (nth_ext _ _ 0 (z 0%nat)); [rewrite map_length, seq_length; exact Fl|]. rewrite Fl. intros i Hi. rewrite map_nth, seq_nth by exact Hi. cbn [Nat.add]. symmetry. exact (Ez i Hi). }
    unfold as_pepper. rewrite <- X, <- Fs. destruct sol; reflexivity. }
  rewrite SL. rewrite SL in HPl, Ez, Fi. split; [exact Fnz|]. exists Pz. split; [exact HPz|]. split; [exact Rz|]. intros sol' Fi'. split; [exact (ko_plans _ _ _ _ _ _ _ _ _ _ _ _ _ _ _ _ K sol' Fi')|].
  intros Pl' HPl' Fn' Rs'. exact (F3 z Mz _ Pz sol' Pl' Fi HPz Ez Fi' HPl' Rs' Fn').
Qed.
Lemma planning_fails es n x y : pr_crash par = true -> co_library_is honest_answer eig junk se es s -> co_after eig junk se es s n = Ok (Some x) -> co_begins eig se n x y -> enough n ->
  (forall sol Pl, fits_problem N sol -> finite N sol -> planned (mpc y) sol Pl -> ~ respects (ct_bounds se) Q (co_shift se) n (mpc y) Pl) -> co_after eig junk se es s (S n) = Throw.
Proof.
  intros Cr Li A B En No. pose proof Re as (Pp & _). destruct (begins n x (reach es n x A)) as (y' & B' & G & _). rewrite <- (begins_unique n x y y' B B') in *. cbn [co_after]. rewrite A. cbn [bind]. rewrite (begins_iterate (es n) n x y B).
  destruct (plans es n x y A B G) as [(Ne & E & _)|[(_ & Mv & E & _)|(_ & Mv & k & As & [(E & _)|(k' & E & CP)])]]; [contradiction|rewrite E; reflexivity|rewrite E; reflexivity|].
  exfalso. destruct CP as [_ _ _ Sc _ (g & z1 & f & p & r & l0 & l1 & k0 & k1 & t & K & Ef & _)].
  pose proof (kp_par (co_mpc se) par gain w s0 n (co_pepper y) G) as EP. destruct (kfeasible junk (co_mpc se) gain par s0 (es n) n (co_pepper y) g z1 f p r l0 l1 k0 k1 (kp_world (co_pepper y)) (Returned t) t k Pp EP K Ef) as (F1 & F2 & F3).
  destruct (Li n k As (Sc Cr)) as (z & _ & Fz). apply F2 in Fz. destruct (ko_plans _ _ _ _ _ _ _ _ _ _ _ _ _ _ _ _ K (as_pepper N z) (as_pepper_fits N z)) as (Pz & HPz).
  apply (F1 _ _ (as_pepper_fits N z) HPz) in Fz. destruct Fz as [Rz Fnz]. exact (No _ _ (as_pepper_fits N z) Fnz HPz Rz).
Qed.
Lemma planning_succeeds es n x y : co_library_is capable_answer eig junk se es s -> co_after eig junk se es s n = Ok (Some x) -> co_begins eig se n x y -> enough n ->
  (exists sol Pl, fits_problem N sol /\ finite N sol /\ planned (mpc y) sol Pl /\ respects (ct_bounds se) Q (co_shift se) n (mpc y) Pl) ->
  exists k, co_plan junk se (es n) (co_pepper y) = Ok (Some k).
Proof.
  intros Li A B En (sol & Pl & Fi & Fn & HP & Rs). pose proof Re as (Pp & _). destruct (begins n x (reach es n x A)) as (y' & B' & G & _). rewrite <- (begins_unique n x y y' B B') in *.
  pose proof (kp_par (co_mpc se) par gain w s0 n (co_pepper y) G) as EP. fold (mpc y) in EP.
  assert (Mv : movable (ct_bounds se)).
  { intros a. destruct HP as [_ H]. rewrite EP in H. assert (HN : (0 < N)%nat) by apply Pp. exists (base_command sol 0 a). destruct (H 0%nat a HN) as (_ & E & _). specialize (Rs 0%nat a). rewrite EP in Rs. specialize (Rs HN). rewrite E in Rs. split; [apply Rs|].
    change (base_command sol 0 a) with (point sol (2 * 0 + axis_index a)). apply Fn. destruct a; cbn [axis_index]; lia. }
  destruct (plans es n x y A B G) as [(Ne & E & _)|[(_ & Nm & E & _)|(_ & _ & k & As & [(E & _ & Co & g & z1 & f & p & r & l0 & l1 & k0 & k1 & t & K & Ef)|(k' & E & _)])]]; try contradiction.
  - exfalso. apply Co, (Li n k As). destruct (kfeasible junk (co_mpc se) gain par s0 (es n) n (co_pepper y) g z1 f p r l0 l1 k0 k1 (kp_world (co_pepper y)) (Thrown t) t k Pp EP K Ef) as (F1 & _).
    exists (point sol). apply (F1 sol Pl Fi HP). split; assumption.
  - exists k'. exact E.
Qed.
Lemma planned_motion es n x x' y : co_passes eig junk se es s n x x' -> co_begins eig se n x y ->
  let T := seconds (sampling_ms P) in let t := seconds (Z.of_nat (ct_subsampling se)) in let sol := kp_last (co_pepper x') in
  exists v p om, commanded Q (Z.of_nat n * co_shift se + sampling_ms P - 1) = Some (v, p, om) /\
  (forall a, moved3 (base_of (mpc y) a) (base_of (mpc x') a) (vel_jerk (base_of (mpc y) a) (base_command sol 0 a) T) t /\ moved3 (body_of (mpc y) a) (body_of (mpc x') a) (body_command N sol 0 a) t) /\
  heading_of (mpc x') = heading_of (mpc y) + om * t /\ base_height_of (mpc x') = base_height_of (mpc y) /\ body_height_of (mpc x') = body_height_of (mpc y).
Proof.
  intros Ps B. cbv zeta. pose proof Re as (Pp & _). destruct (passed es n x x' (reach es n x (proj1 Ps)) Ps) as (y' & k & B' & G & _ & CP & _). rewrite <- (begins_unique n x y y' B B') in *.
  pose proof (kg_loop _ _ _ _ _ _ _ G) as (I1 & _ & I3 & _). fold (mpc y) in *. pose proof (cp_advanced _ _ _ _ _ _ CP) as (_ & _ & _ & v & m & M & p & A). rewrite I1 in A. destruct A as (_ & _ & _ & _ & A1 & _ & A2 & A3 & A4 & A5 & _).
  exists (mo_velocity m), (mo_position m), (mo_angular m). split; [|split; [exact A2|split; [exact A5|split; [exact A3|exact A4]]]].
  assert (HT : (0 < sampling_ms P)%Z) by apply Pp. replace (Z.of_nat n * co_shift se + sampling_ms P - 1)%Z with (Z.of_nat n * co_shift se + (sampling_ms P - 1))%Z by lia. cbn [co_mpc ks_shift] in I3. rewrite <- I3 by lia. unfold commanded. rewrite A1. reflexivity.
Qed.
Lemma begun es n x : co_after eig junk se es s n = Ok (Some x) -> exists y, co_begins eig se n x y /\ reachable eig ROOT_PLANAR fk (robot y) /\ synced eig (robot y) (lp_model (mpc x)) (lp_model (mpc y)) /\
  ((n = 0)%nat -> robot y = m0 /\ mpc x = s0) /\
  ((0 < n)%nat -> moved (co_command x) d (ik_gc (robot x)) (ik_gc (robot y)) /\ forall j, angle ROOT_PLANAR (ik_gc (robot y)) j = angle_in ROOT_PLANAR (cmd_joints (co_command x)) j) /\
  forall u, (0 <= u)%Z -> commanded (as_queue (lp_motions (mpc y))) u = commanded Q (Z.of_nat n * co_shift se + u).
Proof.
  intros A. pose proof (reach es n x A) as G. destruct (begins n x G) as (y & B & GY & SY & Sn & R0 & R1). exists y. split; [exact B|]. pose proof (proj1 SY) as RY. destruct Re as (_ & _ & _ & _ & _ & EF & _). rewrite EF in RY. split; [exact RY|]. split; [exact Sn|].
  split; [|split; [|exact (proj1 (proj2 (proj2 (kg_loop _ _ _ _ _ _ _ GY))))]].
  - intros Z. rewrite (R0 Z). subst n. cbn in A. injection A as <-. exact (proj2 start_cgood).
  - intros L. destruct (R1 L) as (M & AN). split; [exact M|]. intros j. rewrite AN. destruct G as (_ & _ & CM). destruct (CM L) as (_ & E & _). rewrite E. reflexivity.
Qed.

(** ** the inverse kinematics *)
Lemma references_refer m : refers (co_references m) m.
Proof.
  split; [reflexivity|]. split; [reflexivity|]. cbn [co_references mp_base_rpy]. unfold rotation_zyx, Rx, Ry, Rz, m3mul; cbn [vx vy vz m00 m01 m02 m10 m11 m12 m20 m21 m22]. rewrite cos_0, sin_0. f_equal; ring.
Qed.
Lemma tracked es n x x' y : co_passes eig junk se es s n x x' -> co_begins eig se n x y ->
  exists mp m j st sols, refers mp (lp_model (mpc x')) /\ saveCurrentState (robot y) = Ok m /\ (j < wp_iterations (is_wbc ik))%nat /\ steps_of ik mp (ik_with_model m (co_ik y)) st sols (S j) /\
    co_stops se mp st sols j /\ co_ik x' = st (S j) /\ (forall i reg, (i <= j)%nat -> solvable ik mp reg (ip_loop (st i)) -> best_step ik mp reg (ip_loop (st i)) (sols i)) /\
    exists A A', getBasePosition (robot y) = Ok A /\ getBasePosition (robot x') = Ok A' /\ executes ROOT_PLANAR fk (wp_interval (is_wbc ik)) (co_command x') (ip_loop (co_ik y)) (ip_loop (co_ik x')) A A'.
Proof.
  intros Ps B. pose proof Re as (Pp & V & Ha & TL & Ti & EF & K & PH & DT & HM & RC & St). destruct (passed es n x x' (reach es n x (proj1 Ps)) Ps) as (y' & k & B' & G & SY & _ & _ & _ & _ & EC & _). rewrite <- (begins_unique n x y y' B B') in *.
  destruct (co_control_runs eig se _ planar_kinematics PH (co_ik y) (co_command x') (co_ik x') SY DT EC) as (SO & m & j & st & sols & EM & L & ST & CS & EI & P1 & P2 & E1 & E2 & EX).
  exists (Refs x'), m, j, st, sols. split; [apply references_refer|]. split; [exact EM|]. split; [exact L|]. split; [exact ST|]. split; [exact CS|]. split; [exact EI|]. split.
  - intros i reg I SV. assert (SI : sound eig ik (st i)) by (apply (steps_sound eig ik (Refs x') _ st sols (S j) planar_kinematics PH (save_sound eig ik (co_ik y) m SY EM) ST); lia).
    destruct (sound_step eig ik (Refs x') reg (st i) planar_kinematics PH SI SV) as (sol & s1 & E & _ & _ & _ & BS). destruct ST as (_ & ST). specialize (ST i ltac:(lia)). rewrite E in ST. apply ok_pair in ST. destruct ST as (<- & _). exact BS.
  - exists P1, P2. rewrite EF in EX. auto.
Qed.
Lemma tracking es n x y k reg : co_after eig junk se es s n = Ok (Some x) -> co_begins eig se n x y -> co_plan junk se (es n) (co_pepper y) = Ok (Some k) ->
  exists mp, refers mp (lp_model (kp_loop k)) /\
  ((forall m, saveCurrentState (robot y) = Ok m -> forall i st sols, (i < wp_iterations (is_wbc ik))%nat -> steps_of ik mp (ik_with_model m (co_ik y)) st sols i -> co_goes_on se mp st sols i -> solvable ik mp reg (ip_loop (st i))) ->
   exists m st sols, saveCurrentState (robot y) = Ok m /\
    ((exists j, (j < wp_iterations (is_wbc ik))%nat /\ steps_of ik mp (ik_with_model m (co_ik y)) st sols (S j) /\ co_stops se mp st sols j /\
        co_after eig junk se es s (S n) = bind (getRobotCommand (wp_interval (is_wbc ik)) (lk_model (ip_loop (st (S j))))) (fun c => Ok (Some (mkCo k (st (S j)) c)))) \/
     (steps_of ik mp (ik_with_model m (co_ik y)) st sols (wp_iterations (is_wbc ik)) /\ co_goes_on se mp st sols (wp_iterations (is_wbc ik)) /\ co_after eig junk se es s (S n) = Throw))).
Proof.
  intros A B EP. pose proof Re as (Pp & V & Ha & TL & Ti & EF & K & PH & DT & HM & RC & St). destruct (begins n x (reach es n x A)) as (y' & B' & _ & SY & _). rewrite <- (begins_unique n x y y' B B') in *.
  exists (co_references (lp_model (kp_loop k))). split; [apply references_refer|]. intros SV. cbn [co_after]. rewrite A. cbn [bind]. rewrite (begins_iterate (es n) n x y B), EP. cbn [bind].
  destruct (co_control_total eig se _ planar_kinematics PH reg (co_ik y) SY SV) as (m & EM & [(j & st & sols & L & ST & CS & E)|(st & sols & ST & GO & E)]); exists m, st, sols; (split; [exact EM|]); rewrite E.
  - left. exists j. split; [exact L|]. split; [exact ST|]. split; [exact CS|]. destruct (getRobotCommand _ _); reflexivity.
  - right. split; [exact ST|]. split; [exact GO|]. reflexivity.
Qed.
(** one turn of the whole loop *)
Lemma turns es n x x' y y' : base_is_root fk -> co_passes eig junk se es s n x x' -> co_begins eig se n x y -> co_begins eig se (S n) x' y' ->
  let dt := wp_interval (is_wbc ik) in let q := ik_gc (robot y) in let q' := ik_gc (robot y') in let c := co_command x' in
  root_at q' 0 = root_at q 0 + (dt + d) * vx (cmd_base c) /\ root_at q' 1 = root_at q 1 + (dt + d) * vy (cmd_base c) /\
  (exists turn, root_at q' 2 = root_at q 2 + turn + d * vz (cmd_base c) /\ sin turn = dt * vz (cmd_base c)) /\
  (forall j, angle ROOT_PLANAR q' j = angle_in ROOT_PLANAR (cmd_joints c) j) /\ almost_within ROOT_PLANAR 1e-7 q' /\ slow_enough ROOT_PLANAR q q' dt /\ wheels_slow (cmd_wheels c).
Proof.
  intros BR Ps B B'. cbv zeta. pose proof Re as (Pp & V & Ha & TL & Ti & EF & K & PH & DT & HM & RC & St).
  destruct (tracked es n x x' y Ps B) as (mp & m & j & st & sols & _ & _ & _ & _ & _ & _ & _ & A & A' & EA & EA' & (E1 & E2 & E3 & E4 & E5 & E6 & E7 & E8)). destruct (E8 eq_refl BR) as (E9 & _). fold (robot y) in *. fold (robot x') in *.
  destruct (begun es n x (proj1 Ps)) as (y1 & B1 & RY & _). rewrite <- (begins_unique n x y y1 B B1) in *. destruct (begun es (S n) x' (proj2 Ps)) as (y2 & B2 & RY' & _ & _ & MV & _). rewrite <- (begins_unique (S n) x' y' y2 B' B2) in *.
  destruct (MV ltac:(lia)) as ((_ & M0 & M1 & M2 & _) & MA). pose proof (reach es (S n) x' (proj2 Ps)) as (_ & (RX' & _) & _). rewrite EF in RX'. fold (robot x') in RX'.
  destruct (base_pose_root eig fk (robot y) K RY BR) as (z & PZ & _). destruct (base_pose_root eig fk (robot x') K RX' BR) as (z' & PZ' & _). rewrite PZ in EA. apply ok_inj in EA. subst A. rewrite PZ' in EA'. apply ok_inj in EA'. subst A'. cbn [vx vy] in E6, E7.
  assert (AN : forall j, angle ROOT_PLANAR (ik_gc (robot y')) j = angle ROOT_PLANAR (ik_gc (robot x')) j) by (intros i; rewrite MA, E1; reflexivity).
  split; [rewrite M0, E6; ring|]. split; [rewrite M1, E7; ring|]. split; [exists (root_at (ik_gc (robot x')) 2 - root_at (ik_gc (robot y)) 2); split; [rewrite M2; ring|exact E9]|]. split; [exact MA|].
  split; [intros i; rewrite AN; apply E3|]. split; [intros i; rewrite AN; apply E4|exact E5].
Qed.
Lemma heading es n x y : documented_eulerAngles eig -> base_is_root fk -> co_after eig junk se es s n = Ok (Some x) -> co_begins eig se n x y -> 0 < root_at (ik_gc (robot y)) 2 < PI ->
  heading_of (mpc y) = root_at (ik_gc (robot y)) 2.
Proof.
  intros D BR A B YA. pose proof Re as (_ & _ & _ & _ & _ & EF & K & _). destruct (begun es n x A) as (y1 & B1 & RY & Sn & _). rewrite <- (begins_unique n x y y1 B B1) in *. destruct (base_pose_root eig fk (robot y) K RY BR) as (z & _ & PO).
  pose proof (base_yaw eig (robot y) _ D PO YA) as E. destruct Sn as (_ & _ & E' & _). rewrite E in E'. apply ok_inj in E'. symmetry. exact E'.
Qed.
End Run.
