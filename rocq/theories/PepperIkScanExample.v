(** * C107: cases in which the hypotheses hold *)
From Coq Require Import String List Reals Arith Bool ZArith Lra Lia.
From Verif Require Import Base BaseFacts RSum Matrix Mat3 ConstraintType Constraints ConstraintsSpec QP QPSpec Solution PepperTasksSpec QpoasesBridge QpoasesBridgeSpec Backends BackendsSpec SolverLife SolverLifeSpec WalkProgram WalkProgramSpec
  RotarySpec Rotary Euler EulerSpec Rbdl RbdlSpec PepperProgramSpec PepperIk PepperIkSpec PepperIkFacts PepperIkExample PepperIkTasks PepperIkTasksSpec PepperIkTasksFacts PepperIkCommandFacts PepperIkMotion PepperIkTasksExample PepperIkTasksWitness
  PepperIkLoop PepperIkLoopSpec PepperIkLoopFacts PepperIkLoopRun PepperIkLoopWitness Solver PepperIkProgram PepperIkProgramSpec PepperIkProgramFacts2 PepperIkProgramRun PepperIkProgramExample PepperIkScan PepperIkScanSpec PepperIkScanRun.
Import ListNotations.
Local Open Scope R_scope.

(** the base stays at its place, the arms are fixed, the joints are within their limits; the head must be turned *)
Definition ex_scan (turn : R) : scan_settings :=
  mkScan ROOT_PLANAR ex_pepper wbc_parameters_default 1e-2 ([JointsBounds; FixArms; BaseCoM 1 1], [JointsReference 1 1 (ex_reference turn)]).
Definition ex_qparams : qparams := mkQParams true true 1000 0 [].
Lemma ex_scan_hierarchy turn : scan_hierarchy (sc_hierarchy (ex_scan turn)).
Proof.
  split; [discriminate|]. split; [discriminate|]. split; [constructor; [exact I|constructor; [exact I|constructor; [exact I|constructor]]]|]. split; [constructor; [apply ex_reference_length|constructor]|].
  constructor; [cbn; lra|constructor; [cbn; lra|constructor; [cbn; lra|constructor]]].
Qed.
(** the library gives [ex_sols turn k] in the iteration [k] *)
Definition ex_environment (turn : R) (k : nat) : environment :=
  mkEnv (fun _ _ _ => 0) (fun _ => 0) (fun _ => mkAnswer CODE_SUCCESS 1 (Some (point (ex_sols turn k))) (fun _ => 0) (fun _ => 0)) (empty_objective, empty_ILU_ALU) ([], []).
Lemma turn_rate turn j : joint_rate ROOT_PLANAR (point (ex_turn turn)) j = match j with HeadYaw => turn | _ => 0 end.
Proof. destruct j; reflexivity. Qed.
Lemma turn_bounded turn : Rabs turn <= 1 -> bounded (DOF_NUMBER ROOT_PLANAR) (point (ex_turn turn)).
Proof.
  intros T i Hi. change (DOF_NUMBER ROOT_PLANAR) with 18%nat in Hi. unfold point. rewrite ex_turn_x by exact Hi. assert (- 1 <= turn <= 1) by (unfold Rabs in T; destruct Rcase_abs in T; lra). unfold g_infinity.
  destruct (i =? 6)%nat; lra.
Qed.
(** what the first level asks for and what the second level wants *)
Lemma turn_permitted eig m mp a t turn : reachable eig ROOT_PLANAR ex_pepper m -> mp_base_com mp = v3zero -> (forall i, (i < 3)%nat -> root_at (ik_gc m) i = 0) ->
  (forall j, angle ROOT_PLANAR (ik_gc m) j = rest_angle j + match j with HeadYaw => a | _ => 0 end) -> a + t = turn -> Rabs turn <= 1 ->
  exists M MS, moving ROOT_PLANAR ex_pepper m M MS (point (ex_turn t)) /\ permitted ROOT_PLANAR m mp MS (point (ex_turn t)) (fst (sc_hierarchy (ex_scan turn))) /\
    costs ROOT_PLANAR m mp MS (point (ex_turn t)) (snd (sc_hierarchy (ex_scan turn))) 0.
Proof.
  intros RC MB RT AN AT TB. destruct (pepper_moving eig m (point (ex_turn t)) RC) as (MS & MV). eexists. exists MS. split; [exact MV|].
  assert (BT : - 1 <= turn <= 1) by (unfold Rabs in TB; destruct Rcase_abs in TB; lra). split; [split|].
  - intros u IU NU. cbn in IU. destruct IU as [<- |[<- |[<- |[]]]]; [contradiction| |].
    + eexists. split; [reflexivity|]. cbn [map]. rewrite !turn_rate. repeat (constructor; [reflexivity|]). constructor.
    + set (P := fun s => V3 (nth 0 (asVector (ik_gc m)) 0 + s * point (ex_turn t) 0) (nth 1 (asVector (ik_gc m)) 0 + s * point (ex_turn t) 1) (1 / 2)).
      eexists. split; [exists P, (V3 (point (ex_turn t) 0) (point (ex_turn t) 1) 0); split; [exact (base_com_path eig m _ MS RC MV)|split; [apply path_velocity|reflexivity]]|].
      destruct (reachable_good eig _ _ m pepper_kinematics RC) as (file & D & GD). pose proof GD as ((SZ & _) & _).
      assert (R0 : forall i, (i < 3)%nat -> nth i (asVector (ik_gc m)) 0 = 0) by (intros i Hi; transitivity (root_at (ik_gc m) i); [unfold asVector, root_at; apply app_nth1; rewrite (proj1 SZ); exact Hi|exact (RT i Hi)]).
      rewrite MB. unfold P. cbn [axes map component vx vy v3zero]. rewrite !R0 by lia. change (point (ex_turn t) 0) with 0. change (point (ex_turn t) 1) with 0.
      constructor; [ring|constructor; [ring|constructor]].
  - intros _ j. rewrite turn_rate, AN. pose proof (rest_within j) as RW. destruct j; cbn -[IZR] in *; lra.
  - exists [0]. split; [|cbn; ring]. constructor; [|constructor]. eexists. exists 1. split; [reflexivity|]. split; [reflexivity|].
    assert (Z : forall j, joint_rate ROOT_PLANAR (point (ex_turn t)) j - 1 * (angle_in ROOT_PLANAR (ex_reference turn) j - angle ROOT_PLANAR (ik_gc m) j) = 0).
    { intros j. rewrite turn_rate, ex_reference_angle, AN. destruct j; lra. }
    rewrite map_map, (map_ext _ (fun _ => 0)) by (intros j; rewrite Z; ring). cbn. ring.
Qed.
Lemma answers_point f sol sol' : answers f sol -> answers f sol' -> (forall i, (i < DOF_NUMBER f)%nat -> point sol i = point sol' i) -> sol = sol'.
Proof. apply answers_ext. Qed.

(** the program turns the head in two iterations; the answers of the library are right *)
Theorem ex_scan_turn (eig : m3 -> euler_type -> v3) (turn : R) (p : v3) : 1e-2 <= Rabs turn <= 0.07 ->
  let se := ex_scan turn in
  let mp := mkMP v3zero p v3zero in
  let es := ex_environment turn in
  exists s s' fl, scanning eig se ex_qparams s /\ sc_point se mp es s = Ok (fl, s') /\ (fl = SMALL \/ fl = REACHED) /\
    (forall j, angle ROOT_PLANAR (ik_gc (lk_model (sp_loop s'))) j = angle ROOT_PLANAR (ik_gc (lk_model (sp_loop s))) j + match j with HeadYaw => turn | _ => 0 end) /\
    within_limits ROOT_PLANAR (ik_gc (lk_model (sp_loop s'))) /\
    exists s1 s2, sc_step se mp (es 0%nat) s1 = Ok (Stepped (ex_sols turn 0) s2) /\ sc_step se mp (es 1%nat) s2 = Ok (Stepped (ex_sols turn 1) s') /\
      (exists k, sc_asked se mp (es 0%nat) s1 k) /\ (exists k, sc_asked se mp (es 1%nat) s2 k) /\
      forall m k st sols, saveCurrentState (lk_model (sp_loop s)) = Ok m -> scan_steps se mp es (sc_with_model m s) st sols k -> answering sound_answer se mp (es k) (st k).
Proof.
  intros T se mp es. assert (T1 : Rabs turn <= 1) by lra. pose proof pepper_kinematics as K. pose proof (ex_scan_hierarchy turn) as PH. fold se in PH.
  destruct (pepper_at eig (gc_default (fun _ => 0) ROOT_PLANAR) (proj1 (ik_default (fun _ => 0) ROOT_PLANAR HeadYaw))) as (m & RC & EG).
  assert (REST : forall j, angle ROOT_PLANAR (ik_gc m) j = rest_angle j) by (intros j; rewrite EG; apply ik_default).
  assert (ROOT0 : forall i, (i < 3)%nat -> root_at (ik_gc m) i = 0) by (intros i Hi; rewrite EG; destruct i as [|[|[|i]]]; [reflexivity|reflexivity|reflexivity|lia]).
  set (w := mkWbc true 0 mp [] [] structure_reset). destruct (scan_starts eig se ex_qparams None m w (fun _ => mzero 0 0) (mkWorld [] 0 [])) as (s & ES & SC & EL & _); [exact RC|intros a []|].
  destruct (state_saved eig _ _ m K RC) as (m1 & _ & _ & EM & _ & _ & _ & G1 & _).
  assert (RC1 : reachable eig ROOT_PLANAR ex_pepper m1) by (apply (rc_save eig ROOT_PLANAR ex_pepper m); assumption).
  assert (REST1 : forall j, angle ROOT_PLANAR (ik_gc m1) j = rest_angle j) by (intros j; rewrite G1; apply REST).
  set (s1 := sc_with_model m1 s). assert (EM1 : saveCurrentState (lk_model (sp_loop s)) = Ok m1) by (rewrite EL; exact EM).
  assert (SC1 : scanning eig se ex_qparams s1) by (apply sg_save; assumption).
  assert (A0 : forall k st, scanning eig se ex_qparams st -> (forall i, (i < 3)%nat -> root_at (ik_gc (lk_model (sp_loop st))) i = 0) ->
     (forall j, angle ROOT_PLANAR (ik_gc (lk_model (sp_loop st))) j = rest_angle j + match j with HeadYaw => match k with O => 0 | _ => turn end | _ => 0 end) ->
     exists st', sc_step se mp (es k) st = Ok (Stepped (ex_sols turn k) st') /\ (exists c, sc_asked se mp (es k) st c) /\ answering sound_answer se mp (es k) st /\
       (forall i, (i < 3)%nat -> root_at (ik_gc (lk_model (sp_loop st'))) i = 0) /\
       (forall j, angle ROOT_PLANAR (ik_gc (lk_model (sp_loop st'))) j = rest_angle j + match j with HeadYaw => turn | _ => 0 end)).
  { intros k st SK RK AK. assert (RS : reachable eig ROOT_PLANAR ex_pepper (lk_model (sp_loop st))) by (destruct (scanning_fit eig se ex_qparams st K PH eq_refl SK) as (L & F); apply F).
    assert (X : exists M MS, moving ROOT_PLANAR ex_pepper (lk_model (sp_loop st)) M MS (point (ex_sols turn k)) /\ permitted ROOT_PLANAR (lk_model (sp_loop st)) mp MS (point (ex_sols turn k)) (fst (sc_hierarchy se)) /\
      costs ROOT_PLANAR (lk_model (sp_loop st)) mp MS (point (ex_sols turn k)) (snd (sc_hierarchy se)) 0).
    { destruct k as [|k]; [apply (turn_permitted eig _ mp 0 turn turn RS eq_refl RK AK ltac:(lra) T1)|apply (turn_permitted eig _ mp turn 0 turn RS eq_refl RK AK ltac:(lra) T1)]. }
    destruct X as (M & MS & MV & PE & CO). assert (BO : bounded (DOF_NUMBER ROOT_PLANAR) (point (ex_sols turn k))) by (destruct k; apply turn_bounded; [exact T1|rewrite Rabs_R0; lra]).
    assert (SA : answering sound_answer se mp (es k) st).
    { intros c AC _. exists (point (ex_sols turn k)). split; [reflexivity|]. destruct (scan_asks eig se ex_qparams mp (es k) st c K PH eq_refl SK AC) as (_ & AF). destruct (AF M MS _ MV) as (_ & B). apply (B BO PE). exact CO. }
    destruct (scan_iteration eig se ex_qparams mp (es k) st K PH eq_refl SK) as [(sol & st' & c & E & AN & EI & WC & PX & _)|(st' & _ & _ & _ & D)].
    - assert (sol = ex_sols turn k) as ->. { apply (answers_ext ROOT_PLANAR); [exact AN|apply ex_sols_answers|]. exact (PX _ eq_refl). }
      exists st'. split; [exact E|]. split; [exists c, (Stepped (ex_sols turn k) st'); split; [exact E|exact WC]|]. split; [exact SA|].
      destruct (iteration_ok eig ROOT_PLANAR ex_pepper mp (ex_sols turn k) (sp_loop st) K RS AN) as (lp & EI' & RC' & _ & NX & _). cbn [sc_features sc_kinematics se ex_scan] in EI. rewrite EI in EI'. apply ok_inj in EI'. subst lp.
      destruct (reachable_good eig _ _ _ K RS) as (file & DD & GD). pose proof GD as ((SZ & _) & _).
      destruct (next_ok ROOT_PLANAR mp (lk_wbc (sp_loop st)) (ex_sols turn k) (lk_model (sp_loop st)) SZ (AN mp (lk_wbc (sp_loop st)))) as (g & w' & E1 & _ & RT & JT). rewrite NX in E1. injection E1 as EG1 _. rewrite EG1. split.
      + intros i Hi. unfold root_at in *. rewrite RT by exact Hi. rewrite RK by exact Hi. unfold ex_sols. rewrite ex_turn_x by lia. destruct i as [|[|[|i]]]; [cbn; lra|cbn; lra|cbn; lra|lia].
      + intros j. rewrite JT, AK. unfold ex_sols. change (ROOT_DOF_NUMBER ROOT_PLANAR) with 3%nat. rewrite ex_turn_x by (pose proof (joint_id_lt ROOT_PLANAR j) as JL; unfold JOINTS_DOF_NUMBER in JL; lia). destruct j, k; cbn -[IZR Rplus]; lra.
    - exfalso. destruct D as [(_ & IM)|(_ & c & _ & NC)]; [exact (IM M MS _ MV BO PE)|apply NC; reflexivity]. }
  destruct (A0 0%nat s1 SC1) as (s2 & E1 & AS1 & SA1 & R2 & J2).
  { intros i Hi. change (lk_model (sp_loop s1)) with m1. rewrite G1. apply ROOT0, Hi. }
  { intros j. change (lk_model (sp_loop s1)) with m1. rewrite REST1. destruct j; ring. }
  assert (SC2 : scanning eig se ex_qparams s2) by exact (sg_step eig se ex_qparams mp (es 0%nat) s1 _ SC1 E1).
  destruct (A0 1%nat s2 SC2 R2) as (s3 & E2 & AS2 & SA2 & R3 & J3); [exact J2|].
  assert (W : within_limits ROOT_PLANAR (ik_gc (lk_model (sp_loop s3)))).
  { intros j. rewrite J3. pose proof (rest_within j) as RW. assert (- 1 <= turn <= 1) by (unfold Rabs in T1; destruct Rcase_abs in T1; lra). destruct j; cbn -[IZR] in *; lra. }
  pose proof (ex_first turn 1e-2 ltac:(lra) ltac:(lra)) as (F1 & F2).
  assert (RUN : sc_steps se mp es (wp_iterations (sc_wbc se)) 0 s1 = Ok (SMALL, s3)).
  { change (wp_iterations (sc_wbc se)) with 3%nat. cbn [sc_steps]. rewrite E1. cbn [bind]. change (wp_tolerance (sc_wbc se)) with 1e-2.
    destruct Rlt_dec as [R|R]; rewrite (small_norm _ _ _ (ex_sols_answers turn 0)) in R; [destruct (F2 0%nat ltac:(lia) R)|]. rewrite E2. cbn [bind].
    destruct Rlt_dec as [R'|R']; rewrite (small_norm _ _ _ (ex_sols_answers turn 1)) in R'; [reflexivity|contradiction]. }
  destruct (scan_flags eig se ex_qparams mp es s K PH eq_refl SC) as (fl & s' & _ & _ & _ & _ & _ & EP & _).
  assert (Q : s' = s3 /\ (fl = SMALL \/ fl = REACHED)).
  { unfold sc_point in EP. rewrite EM1 in EP. cbn [bind] in EP. fold s1 in EP. rewrite RUN in EP. cbn [bind fst snd] in EP.
    assert (CH : checkCurrentState (lk_model (sp_loop s3)) = Ok tt).
    { assert (RS : reachable eig ROOT_PLANAR ex_pepper (lk_model (sp_loop s3))) by (destruct (scanning_fit eig se ex_qparams s3 K PH eq_refl (sg_step eig se ex_qparams mp (es 1%nat) s2 _ SC2 E2)) as (L & F); apply F).
      destruct (reachable_good eig _ _ _ K RS) as (file & DD & GD). pose proof GD as (RD & _). apply (ik_check _ _ _ RD). intros j. specialize (W j). lra. }
    rewrite CH in EP. cbn [bind] in EP. destruct (getStateError mp _) as [er| |]; cbn [bind] in EP; try discriminate EP. apply ok_pair in EP. destruct EP as (<- & <-). split; [reflexivity|]. destruct Rlt_dec; auto. }
  destruct Q as (-> & Q). exists s, s3, fl. split; [exact SC|]. split; [exact EP|]. split; [exact Q|]. split; [intros j; rewrite J3, EL; cbn [lk_model]; rewrite REST; reflexivity|]. split; [exact W|].
  exists s1, s2. split; [exact E1|]. split; [exact E2|]. split; [exact AS1|]. split; [exact AS2|].
  intros m1' k st sols EM' (S0 & SS). rewrite EM1 in EM'. apply ok_inj in EM'. subst m1'. fold s1 in S0.
  assert (X : forall i, (i <= k)%nat -> scanning eig se ex_qparams (st i) /\ (forall n, (n < 3)%nat -> root_at (ik_gc (lk_model (sp_loop (st i)))) n = 0) /\
    (forall j, angle ROOT_PLANAR (ik_gc (lk_model (sp_loop (st i)))) j = rest_angle j + match j with HeadYaw => match i with O => 0 | _ => turn end | _ => 0 end)).
  { induction i as [|i IH]; intros Hi.
    - rewrite S0. split; [exact SC1|]. split; [intros n Hn; change (lk_model (sp_loop s1)) with m1; rewrite G1; apply ROOT0, Hn|]. intros j. change (lk_model (sp_loop s1)) with m1. rewrite REST1. destruct j; ring.
    - destruct IH as (I1 & I2 & I3); [lia|]. destruct (A0 i (st i) I1 I2 I3) as (st' & E & _ & _ & B1 & B2). pose proof (SS i Hi) as E'. rewrite E in E'. apply ok_inj in E'. injection E' as _ <-.
      split; [exact (sg_step eig se ex_qparams mp (es i) (st i) _ I1 E)|]. split; [exact B1|exact B2]. }
  destruct (X k (le_n k)) as (I1 & I2 & I3). destruct (A0 k (st k) I1 I2 I3) as (_ & _ & _ & SA & _). exact SA.
Qed.

(** an arm which is fixed outside of its limits: there is nothing to do *)
Theorem ex_scan_outside (eig : m3 -> euler_type -> v3) (turn : R) (g : gcoord) (mp : motion_parameters) (es : nat -> environment) :
  PepperIkSpec.sized ROOT_PLANAR g -> upper_limit LShoulderPitch + 1e-7 < angle ROOT_PLANAR g LShoulderPitch ->
  exists s, scanning eig (ex_scan turn) ex_qparams s /\ ik_gc (lk_model (sp_loop s)) = g /\
    ((forall m, saveCurrentState (lk_model (sp_loop s)) = Ok m -> answering honest_answer (ex_scan turn) mp (es 0%nat) (sc_with_model m s)) ->
     exists fl s', sc_point (ex_scan turn) mp es s = Ok (fl, s') /\ ik_gc (lk_model (sp_loop s')) = g /\ (fl = BOUNDS \/ fl = REACHED)).
Proof.
  intros SG UP. set (se := ex_scan turn). pose proof pepper_kinematics as K. pose proof (ex_scan_hierarchy turn) as PH. fold se in PH. destruct (pepper_at eig g SG) as (m & RC & EG).
  destruct (scan_starts eig se ex_qparams None m (mkWbc true 0 mp [] [] structure_reset) (fun _ => mzero 0 0) (mkWorld [] 0 [])) as (s & ES & SC & EL & _); [exact RC|intros a []|].
  exists s. split; [exact SC|]. split; [rewrite EL; exact EG|]. intros HO.
  destruct (scan_flags eig se ex_qparams mp es s K PH eq_refl SC) as (fl & s' & m1 & n & st & sols & why & EP & EM & ST & EN & FM). exists fl, s'. split; [exact EP|].
  assert (G1 : ik_gc m1 = g). { rewrite EL in EM. cbn [lk_model] in EM. destruct (state_saved eig _ _ m K RC) as (m1' & _ & _ & EM' & _ & _ & _ & G1 & _). rewrite EM in EM'. apply ok_inj in EM'. subst m1'. congruence. }
  assert (SC1 : scanning eig se ex_qparams (sc_with_model m1 s)) by (apply sg_save; assumption).
  assert (RC1 : reachable eig ROOT_PLANAR ex_pepper m1) by (apply (rc_save eig ROOT_PLANAR ex_pepper (lk_model (sp_loop s))); [rewrite EL; exact RC|exact EM]).
  assert (FA : exists s'', sc_step se mp (es 0%nat) (sc_with_model m1 s) = Ok (Failed s'') /\ lk_model (sp_loop s'') = m1).
  { destruct (scan_iteration eig se ex_qparams mp (es 0%nat) (sc_with_model m1 s) K PH eq_refl SC1) as [(sol & st' & c & E & AN & EI & WC & PX & H)|(st' & E & EQ & _)]; [exfalso|exists st'; auto].
    destruct (H (or_introl eq_refl)) as (_ & HA & _). destruct HA as (PE & _); [apply (HO m1 EM); exists (Stepped sol st'); auto|]. change (lk_model (sp_loop (sc_with_model m1 s))) with m1 in PE.
    destruct (pepper_moving eig m1 (point sol) RC1) as (MS & MV). destruct (PE _ MS MV) as (P1 & P2).
    destruct (P1 FixArms ltac:(cbn; auto) ltac:(discriminate)) as (er & -> & Z). cbn [map] in Z. inversion Z as [|? ? Z0 _]. specialize (P2 ltac:(cbn; auto) LShoulderPitch). change (sc_features se) with ROOT_PLANAR in P2, Z0. rewrite G1 in P2.
    cbn [sc_features se ex_scan] in *. rewrite Z0 in P2. lra. }
  destruct FA as (s'' & EF & EQ). destruct ST as (S0 & SS). assert (N0 : n = 0%nat). { destruct n as [|n]; [reflexivity|]. pose proof (SS 0%nat ltac:(lia)) as E. rewrite S0, EF in E. discriminate E. }
  subst n. assert (Q : s' = s''). { destruct why; cbn [scan_ends] in EN; try contradiction; [destruct EN as (N & _); discriminate N| |destruct EN as (k & N & _); discriminate N]. destruct EN as (_ & _ & E). rewrite S0, EF in E. apply ok_inj in E. injection E as <-. reflexivity. }
  subst s'. rewrite EQ. split; [exact G1|]. destruct FM as (b & p & o & e & _ & _ & _ & _ & FR & FB). rewrite EQ, G1 in FB.
  destruct (Rlt_dec (v3norm (v3sub (mp_base_com mp) b) + v3norm e + v3norm (v3sub (mp_body_com mp) p)) (sc_tolerance se)) as [R|R]; [right; apply FR, R|left]. apply (FB R). intros AW. specialize (AW LShoulderPitch). cbn [sc_features se ex_scan] in AW. lra.
Qed.
