(** * The program which finds reachable positions of the body of Pepper: points and flags *)
From Coq Require Import String List Reals Arith Bool ZArith Lra Lia Permutation.
From Verif Require Import Base BaseFacts RSum Matrix Mat3 ActiveSet ConstraintType HierarchyLevel HierarchySpec Constraints ConstraintsSpec QP QPSpec Problem ProblemSpec ProblemFacts
  Solution PepperTasksSpec QpoasesBridge QpoasesBridgeSpec Backends BackendsSpec SolverLife SolverLifeSpec SolverLifeFacts WalkProgram WalkProgramSpec WalkProgramFacts WalkProgramFacts2 RotarySpec Rotary Euler EulerSpec Rbdl RbdlSpec PepperProgramSpec PepperIk PepperIkSpec PepperIkFacts PepperIkTasks PepperIkTasksSpec PepperIkTasksFacts PepperIkCommandFacts PepperIkLoop
  PepperIkLoopSpec PepperIkLoopFacts Solver PepperIkProgram PepperIkProgramSpec PepperIkProgramFacts PepperIkProgramFacts2 PepperIkProgramFacts3 PepperIkProgramRun PepperIkScan PepperIkScanSpec PepperIkScanFacts PepperIkScanFacts2.
Import ListNotations.
Local Open Scope nat_scope.

(** ** states *)
Lemma start_fit eig se par details m w a wd : reachable eig (sc_features se) (sc_kinematics se) m -> tidy wd ->
  exists s, sc_start se par details m w a wd = Ok s /\ fit eig se par (wd_live wd) s /\ sp_loop s = mkIkloop m w /\ sp_world s = wd.
Proof.
  intros RC TD. destruct (setup_shape (sc_hierarchy se) pb_new pr_new) as (p & l0 & l1 & E & SH). unfold sc_start. rewrite E. cbn [bind]. eexists. split; [reflexivity|].
  split; [|split; reflexivity]. split; [exact RC|]. split; [exists l0, l1; exact SH|]. split; [split; [exact TD|reflexivity]|reflexivity].
Qed.
Lemma save_fit eig se par L s m : fit eig se par L s -> saveCurrentState (lk_model (sp_loop s)) = Ok m -> fit eig se par L (sc_with_model m s).
Proof. intros (RC & R) E. split; [exact (rc_save _ _ _ _ _ RC E)|exact R]. Qed.
Lemma scanning_fit eig se par s : kinematics (sc_features se) (sc_kinematics se) -> scan_hierarchy (sc_hierarchy se) -> pr_two_levels par = true -> scanning eig se par s -> exists L, fit eig se par L s.
Proof.
  intros K PH TL. induction 1 as [details m w a wd s RC TD E|mp e s r A (L & IH) E|s m A (L & IH) E].
  - destruct (start_fit eig se par details m w a wd RC TD) as (s0 & E0 & F & _). rewrite E in E0. apply ok_inj in E0. subst s0. eauto.
  - exists L. destruct (step_all eig se par L K PH TL mp e s IH) as (r0 & E0 & F & _). rewrite E in E0. apply ok_inj in E0. subst r0. exact F.
  - exists L. exact (save_fit eig se par L s m IH E).
Qed.
Theorem scan_starts (eig : m3 -> euler_type -> v3) (se : scan_settings) (par : qparams) (details : option (backend_code * Z)) (m : ikmodel) (w : wbc) (a : nat -> mat) (wd : world) :
  reachable eig (sc_features se) (sc_kinematics se) m -> tidy wd -> exists s, sc_start se par details m w a wd = Ok s /\ scanning eig se par s /\ sp_loop s = mkIkloop m w /\ sp_world s = wd.
Proof. intros RC TD. destruct (start_fit eig se par details m w a wd RC TD) as (s & E & _ & R). exists s. split; [exact E|]. split; [exact (sg_start eig se par details m w a wd s RC TD E)|exact R]. Qed.

(** ** one iteration *)
Theorem scan_iteration (eig : m3 -> euler_type -> v3) (se : scan_settings) (par : qparams) (mp : motion_parameters) (e : environment) (s : scan_program) :
  kinematics (sc_features se) (sc_kinematics se) -> scan_hierarchy (sc_hierarchy se) -> pr_two_levels par = true -> scanning eig se par s ->
  (exists sol s' k, sc_step se mp e s = Ok (Stepped sol s') /\ answers (sc_features se) sol /\ ik_iteration (sc_features se) (sc_kinematics se) mp sol (sp_loop s) = Ok (sp_loop s') /\
     wd_calls (sp_world s') = k :: wd_calls (sp_world s) /\
     (forall x, an_primal (en_library e k) = Some x -> forall i, i < DOF_NUMBER (sc_features se) -> point sol i = x i) /\
     (pr_crash par = true \/ an_code (en_library e k) = CODE_SUCCESS ->
        an_code (en_library e k) = CODE_SUCCESS /\
        (honest_answer (lc_problem k) (en_library e k) -> permitted_step se mp (lk_model (sp_loop s)) sol /\
          (In JointsBounds (fst (sc_hierarchy se)) -> within_limits (sc_features se) (ik_gc (lk_model (sp_loop s'))))) /\
        (sound_answer (lc_problem k) (en_library e k) -> least_step se mp (lk_model (sp_loop s)) sol))) \/
  (exists s', sc_step se mp e s = Ok (Failed s') /\ lk_model (sp_loop s') = lk_model (sp_loop s) /\ (answering capable_answer se mp e s -> impossible_step se mp (lk_model (sp_loop s))) /\
     ((wd_calls (sp_world s') = wd_calls (sp_world s) /\ impossible_step se mp (lk_model (sp_loop s))) \/
      (pr_crash par = true /\ exists k, wd_calls (sp_world s') = k :: wd_calls (sp_world s) /\ an_code (en_library e k) <> CODE_SUCCESS))).
Proof.
  intros K PH TL SC. destruct (scanning_fit eig se par s K PH TL SC) as (L & F). destruct (step_all eig se par L K PH TL mp e s F) as ([sol s'|s'] & E & _ & P).
  - destruct P as (AN & EI & k & WC & _ & PX & CR & HO & SO). left. exists sol, s', k. split; [exact E|]. split; [exact AN|]. split; [exact EI|]. split; [exact WC|]. split; [exact PX|].
    intros D. assert (OK : an_code (en_library e k) = CODE_SUCCESS) by (destruct D; auto). auto.
  - destruct P as (EM & D). right. exists s'. split; [exact E|]. split; [exact EM|]. destruct D as [(WC & IM)|(k & WC & _ & CR & NO & CA)].
    + split; [intros _; exact IM|left; auto].
    + split; [intros A; apply CA, A; exists (Failed s'); auto|right; eauto].
Qed.

(** what the library is asked for *)
Theorem scan_asks (eig : m3 -> euler_type -> v3) (se : scan_settings) (par : qparams) (mp : motion_parameters) (e : environment) (s : scan_program) (k : libcall) :
  kinematics (sc_features se) (sc_kinematics se) -> scan_hierarchy (sc_hierarchy se) -> pr_two_levels par = true -> scanning eig se par s -> sc_asked se mp e s k ->
  asks_for se mp (lk_model (sp_loop s)) (lc_problem k).
Proof.
  intros K PH TL SC (r & E & W). destruct (scanning_fit eig se par s K PH TL SC) as (L & F). destruct (step_all eig se par L K PH TL mp e s F) as (r' & E' & _ & P). rewrite E in E'. apply ok_inj in E'. subst r'.
  destruct r as [sol s'|s']; cbn [step_state] in W.
  - destruct P as (_ & _ & k' & W' & PO & _). rewrite W in W'. injection W' as <-. exact PO.
  - destruct P as (_ & [(W' & _)|(k' & W' & PO & _)]); rewrite W in W'; [|injection W' as <-; exact PO]. exfalso. apply (f_equal (@length _)) in W'. cbn in W'. lia.
Qed.

(** ** one point *)
Section Point.
Variables (eig : m3 -> euler_type -> v3) (se : scan_settings) (par : qparams) (L : list nat) (mp : motion_parameters) (es : nat -> environment).
Hypotheses (K : kinematics (sc_features se) (sc_kinematics se)) (PH : scan_hierarchy (sc_hierarchy se)) (TL : pr_two_levels par = true).
Let eps := wp_tolerance (sc_wbc se).

Lemma steps_fit s st sols n : fit eig se par L s -> scan_steps se mp es s st sols n -> forall k, k <= n -> fit eig se par L (st k).
Proof.
  intros F (S0 & H) k. induction k as [|k IH]; intros Q; [rewrite S0; exact F|].
  destruct (step_all eig se par L K PH TL mp (es k) (st k) (IH ltac:(lia))) as (r & E & F' & _). rewrite (H k Q) in E. apply ok_inj in E. subst r. exact F'.
Qed.
Lemma scan_snoc s st sols n sol s' : scan_steps se mp es s st sols n -> sc_step se mp (es n) (st n) = Ok (Stepped sol s') ->
  scan_steps se mp es s (fun k => if k <=? n then st k else s') (fun k => if k <? n then sols k else sol) (S n).
Proof.
  intros (S0 & H) E. split; [exact S0|]. intros k Q. destruct (Nat.ltb_spec k n) as [Q1|Q1].
  - destruct (Nat.leb_spec k n); [|lia]. destruct (Nat.leb_spec (S k) n); [|lia]. apply H, Q1.
  - replace k with n by lia. destruct (Nat.leb_spec n n); [|lia]. destruct (Nat.leb_spec (S n) n); [lia|]. exact E.
Qed.
Lemma steps_end s : fit eig se par L s -> forall left n st sols, scan_steps se mp es s st sols n -> (forall k, k < n -> ~ small eps (sols k)) -> n + left = wp_iterations (sc_wbc se) ->
  exists n' st' sols' why s', sc_steps se mp es left n (st n) = Ok (why, s') /\ scan_steps se mp es s st' sols' n' /\ scan_ends se mp es st' sols' n' why s' /\ fit eig se par L s'.
Proof.
  intros F. induction left as [|left IH]; intros n st sols ST NS TOT.
  - exists n, st, sols, ITERATIONS, (st n). split; [reflexivity|]. split; [exact ST|]. split; [split; [lia|split; [exact NS|reflexivity]]|]. apply (steps_fit s st sols n F ST); lia.
  - pose proof (steps_fit s st sols n F ST n (le_n n)) as FN. destruct (step_all eig se par L K PH TL mp (es n) (st n) FN) as ([sol s'|s'] & E & F' & P).
    + destruct P as (AN & _). cbn [sc_steps]. rewrite E. cbn [bind]. pose proof (scan_snoc s st sols n sol s' ST E) as ST'.
      set (st' := fun k => if k <=? n then st k else s') in *. set (sols' := fun k => if k <? n then sols k else sol) in *.
      assert (EL : st' (S n) = s') by (unfold st'; destruct (Nat.leb_spec (S n) n); [lia|reflexivity]). assert (EN : sols' n = sol) by (unfold sols'; rewrite Nat.ltb_irrefl; reflexivity).
      assert (EB : forall k, k < n -> sols' k = sols k) by (intros k Q; unfold sols'; destruct (Nat.ltb_spec k n); [reflexivity|lia]).
      destruct Rlt_dec as [R|R]; rewrite (small_norm _ sol _ AN) in R.
      * exists (S n), st', sols', SMALL, s'. split; [reflexivity|]. split; [exact ST'|]. split; [|exact F']. exists n. split; [reflexivity|]. split; [lia|]. split; [|symmetry; exact EL].
        split; [rewrite EN; exact R|intros k Q; rewrite (EB k Q); apply NS, Q].
      * rewrite <- EL. apply (IH (S n) st' sols' ST'); [|lia]. intros k Q. destruct (Nat.eq_dec k n) as [-> |Q1]; [rewrite EN; exact R|rewrite EB by lia; apply NS; lia].
    + cbn [sc_steps]. rewrite E. cbn [bind]. exists n, st, sols, ERROR, s'. split; [reflexivity|]. split; [exact ST|]. split; [split; [lia|split; [exact NS|exact E]]|exact F'].
Qed.
Lemma point_runs s : fit eig se par L s -> exists fl s' m n st sols why, sc_point se mp es s = Ok (fl, s') /\ fit eig se par L s' /\ saveCurrentState (lk_model (sp_loop s)) = Ok m /\ ik_gc m = ik_gc (lk_model (sp_loop s)) /\
  scan_steps se mp es (sc_with_model m s) st sols n /\ scan_ends se mp es st sols n why s' /\ flag_means se mp why s' fl.
Proof.
  intros F. pose proof F as (RC & _). destruct (reachable_good eig _ _ _ K RC) as (file & D & GD). destruct (good_save _ _ file _ K D GD) as (m & EM & _ & EG & _).
  pose proof (save_fit eig se par L s m F EM) as FM.
  destruct (steps_end (sc_with_model m s) FM (wp_iterations (sc_wbc se)) 0 (fun _ => sc_with_model m s) (fun _ => mkSolution structure_reset [])) as (n & st & sols & why & s' & E & ST & EN & F'); [split; [reflexivity|intros k Q; lia]|intros k Q; lia|reflexivity|].
  pose proof F' as (RC' & _). destruct (reachable_good eig _ _ _ K RC') as (file' & D' & GD'). pose proof GD' as (RD' & _).
  destruct (ik_check _ _ _ RD') as (CH & CI). destruct (state_error eig _ _ mp _ K RC') as (b & p & o & er & E1 & E2 & E3 & E4 & E5).
  unfold sc_point. rewrite EM. cbn [bind]. rewrite E. cbn [bind fst snd]. rewrite E5.
  set (total := (v3norm (v3sub (mp_base_com mp) b) + v3norm er + v3norm (v3sub (mp_body_com mp) p))%R).
  destruct (Rlt_dec total (sc_tolerance se)) as [RL|RL].
  - exists REACHED, s', m, n, st, sols, why. split.
    { destruct CH as [-> | ->]; cbn [bind]; unfold sc_error; cbn [mp_base_com mp_base_rpy mp_body_com]; fold total; destruct Rlt_dec; (reflexivity || contradiction). }
    split; [exact F'|]. split; [reflexivity|]. split; [exact EG|]. split; [exact ST|]. split; [exact EN|]. exists b, p, o, er. do 4 (split; [assumption|]). fold total. cbv zeta. split; [split; auto|contradiction].
  - assert (NR : why <> REACHED /\ why <> BOUNDS) by (destruct why; cbn in EN; try contradiction; split; discriminate). destruct NR as (NR & NB).
    destruct CH as [CH|CH]; rewrite CH in *; cbn [bind]; unfold sc_error; cbn [mp_base_com mp_base_rpy mp_body_com]; fold total; destruct Rlt_dec as [Q|_]; try contradiction.
    + exists why, s', m, n, st, sols, why. split; [reflexivity|]. split; [exact F'|]. split; [reflexivity|]. split; [exact EG|]. split; [exact ST|]. split; [exact EN|]. exists b, p, o, er. do 4 (split; [assumption|]). fold total. cbv zeta.
      split; [split; intros X; contradiction|]. intros _. pose proof (proj1 CI eq_refl) as AW. split; [split; intros X; contradiction|auto].
    + exists BOUNDS, s', m, n, st, sols, why. split; [reflexivity|]. split; [exact F'|]. split; [reflexivity|]. split; [exact EG|]. split; [exact ST|]. split; [exact EN|]. exists b, p, o, er. do 4 (split; [assumption|]). fold total. cbv zeta.
      split; [split; intros X; [discriminate X|contradiction]|]. intros _. assert (NW : ~ almost_within (sc_features se) 1e-7 (ik_gc (lk_model (sp_loop s')))) by (intros X; apply CI in X; discriminate X).
      split; [split; auto|contradiction].
Qed.
End Point.
Theorem scan_flags (eig : m3 -> euler_type -> v3) (se : scan_settings) (par : qparams) (mp : motion_parameters) (es : nat -> environment) (s : scan_program) :
  kinematics (sc_features se) (sc_kinematics se) -> scan_hierarchy (sc_hierarchy se) -> pr_two_levels par = true -> scanning eig se par s ->
  exists fl s' m n st sols why, sc_point se mp es s = Ok (fl, s') /\ saveCurrentState (lk_model (sp_loop s)) = Ok m /\
    scan_steps se mp es (sc_with_model m s) st sols n /\ scan_ends se mp es st sols n why s' /\ flag_means se mp why s' fl.
Proof.
  intros K PH TL SC. destruct (scanning_fit eig se par s K PH TL SC) as (L & F). destruct (point_runs eig se par L mp es K PH TL s F) as (fl & s' & m & n & st & sols & why & A & _ & B & _ & R).
  exists fl, s', m, n, st, sols, why. auto.
Qed.

(** limits of joints *)
Lemma limits_run eig se par L mp es s s' fl : kinematics (sc_features se) (sc_kinematics se) -> scan_hierarchy (sc_hierarchy se) -> pr_two_levels par = true -> fit eig se par L s ->
  In JointsBounds (fst (sc_hierarchy se)) -> pr_crash par = true ->
  (forall m k st sols, saveCurrentState (lk_model (sp_loop s)) = Ok m -> scan_steps se mp es (sc_with_model m s) st sols k -> answering honest_answer se mp (es k) (st k)) ->
  sc_point se mp es s = Ok (fl, s') ->
  within_limits (sc_features se) (ik_gc (lk_model (sp_loop s'))) \/
  (ik_gc (lk_model (sp_loop s')) = ik_gc (lk_model (sp_loop s)) /\
   (wp_iterations (sc_wbc se) = 0 \/ exists m, saveCurrentState (lk_model (sp_loop s)) = Ok m /\ sc_step se mp (es 0) (sc_with_model m s) = Ok (Failed s'))).
Proof.
  intros K PH TL F IB CR HO E. destruct (point_runs eig se par L mp es K PH TL s F) as (fl' & s1 & m & n & st & sols & why & A & _ & EM & EG & ST & EN & _). rewrite E in A. apply ok_pair in A. destruct A as (<- & <-).
  pose proof (save_fit eig se par L s m F EM) as FM. pose proof ST as (S0 & SS).
  assert (LIM : forall k, k < n -> within_limits (sc_features se) (ik_gc (lk_model (sp_loop (st (S k)))))).
  { intros k Q. pose proof (steps_fit eig se par L mp es K PH TL _ _ _ _ FM ST k ltac:(lia)) as FK. destruct (step_all eig se par L K PH TL mp (es k) (st k) FK) as (r & E1 & _ & P). pose proof (SS k Q) as E2. rewrite E2 in E1. apply ok_inj in E1. subst r.
    destruct P as (_ & _ & c & WC & _ & _ & CS & HA & _). apply HA; [apply CS, CR| |exact IB]. apply (HO m k st sols EM); [split; [exact S0|intros i Qi; apply SS; lia]|]. exists (Stepped (sols k) (st (S k))). split; [exact E2|exact WC]. }
  assert (G0 : ik_gc (lk_model (sp_loop (st 0))) = ik_gc (lk_model (sp_loop s))) by (rewrite S0; exact EG).
  destruct why; cbn [scan_ends] in EN; try contradiction.
  - destruct EN as (N & _ & ->). destruct n as [|n]; [right; split; [exact G0|left; symmetry; exact N]|left; apply LIM; lia].
  - destruct EN as (N & _ & EF). pose proof (steps_fit eig se par L mp es K PH TL _ _ _ _ FM ST n ltac:(lia)) as FK. destruct (step_all eig se par L K PH TL mp (es n) (st n) FK) as (r & E1 & _ & P). rewrite EF in E1. apply ok_inj in E1. subst r.
    destruct P as (EQ & _). rewrite EQ. destruct n as [|n]; [right; split; [exact G0|right; exists m; split; [exact EM|rewrite <- S0; exact EF]]|left; apply LIM; lia].
  - destruct EN as (k & -> & _ & _ & ->). left. apply LIM. lia.
Qed.
Theorem scan_limits (eig : m3 -> euler_type -> v3) (se : scan_settings) (par : qparams) (mp : motion_parameters) (es : nat -> environment) (s s' : scan_program) (fl : flag) :
  kinematics (sc_features se) (sc_kinematics se) -> scan_hierarchy (sc_hierarchy se) -> pr_two_levels par = true -> scanning eig se par s ->
  In JointsBounds (fst (sc_hierarchy se)) -> pr_crash par = true ->
  (forall m k st sols, saveCurrentState (lk_model (sp_loop s)) = Ok m -> scan_steps se mp es (sc_with_model m s) st sols k -> answering honest_answer se mp (es k) (st k)) ->
  sc_point se mp es s = Ok (fl, s') ->
  (within_limits (sc_features se) (ik_gc (lk_model (sp_loop s'))) \/
   (ik_gc (lk_model (sp_loop s')) = ik_gc (lk_model (sp_loop s)) /\
    (wp_iterations (sc_wbc se) = 0 \/ exists m, saveCurrentState (lk_model (sp_loop s)) = Ok m /\ sc_step se mp (es 0) (sc_with_model m s) = Ok (Failed s')))) /\
  (almost_within (sc_features se) 1e-7 (ik_gc (lk_model (sp_loop s))) -> fl <> BOUNDS).
Proof.
  intros K PH TL SC IB CR HO E. destruct (scanning_fit eig se par s K PH TL SC) as (L & F). pose proof (limits_run eig se par L mp es s s' fl K PH TL F IB CR HO E) as D. split; [exact D|].
  intros AW. destruct (point_runs eig se par L mp es K PH TL s F) as (fl' & s1 & m & n & st & sols & why & A & _ & _ & _ & _ & EN & FM). rewrite E in A. apply ok_pair in A. destruct A as (<- & <-).
  destruct FM as (b & p & o & e & _ & _ & _ & _ & FR & FB). intros ->.
  assert (NR : ~ (v3norm (v3sub (mp_base_com mp) b) + v3norm e + v3norm (v3sub (mp_body_com mp) p) < sc_tolerance se)%R) by (intros X; apply FR in X; discriminate X).
  destruct (FB NR) as (B & _). apply (proj1 B eq_refl). destruct D as [D|(D & _)]; [intros j; specialize (D j); lra|rewrite D; exact AW].
Qed.

(** ** all points *)
Theorem scan_points (eig : m3 -> euler_type -> v3) (se : scan_settings) (par : qparams) (details : option (backend_code * Z)) (pts : list scan_point) (wd : world) :
  kinematics (sc_features se) (sc_kinematics se) -> scan_hierarchy (sc_hierarchy se) -> pr_two_levels par = true -> tidy wd ->
  Forall (fun q => reachable eig (sc_features se) (sc_kinematics se) (pt_model q)) pts ->
  exists fls wd', sc_scan se par details pts wd = Ok (fls, wd') /\ tidy wd' /\ wd_live wd' = wd_live wd /\
    Forall2 (fun q fl => exists wd0 s s', tidy wd0 /\ wd_live wd0 = wd_live wd /\ sc_start se par details (pt_model q) (pt_wbc q) (pt_matrices q) wd0 = Ok s /\
      scanning eig se par s /\ sc_point se (pt_motion q) (pt_environment q) s = Ok (fl, s')) pts fls.
Proof.
  intros K PH TL TD A. assert (G : forall wd1, tidy wd1 -> wd_live wd1 = wd_live wd -> exists fls wd', sc_scan se par details pts wd1 = Ok (fls, wd') /\ tidy wd' /\ wd_live wd' = wd_live wd /\
    Forall2 (fun q fl => exists wd0 s s', tidy wd0 /\ wd_live wd0 = wd_live wd /\ sc_start se par details (pt_model q) (pt_wbc q) (pt_matrices q) wd0 = Ok s /\
      scanning eig se par s /\ sc_point se (pt_motion q) (pt_environment q) s = Ok (fl, s')) pts fls); [|exact (G wd TD eq_refl)].
  induction A as [|q rest RC _ IH]; intros wd1 T1 L1.
  - exists [], wd1. split; [reflexivity|]. split; [exact T1|]. split; [exact L1|constructor].
  - destruct (start_fit eig se par details (pt_model q) (pt_wbc q) (pt_matrices q) wd1 RC T1) as (s & E & F & _).
    destruct (point_runs eig se par (wd_live wd1) (pt_motion q) (pt_environment q) K PH TL s F) as (fl & s' & _ & _ & _ & _ & _ & EP & (_ & _ & HO & _) & _).
    destruct (reset_holds _ _ _ HO) as (sr & wr & ER & WL & _ & _ & TW & _). destruct (IH wr TW) as (fls & wd' & ES & TD' & LV & FF); [congruence|].
    exists (fl :: fls), wd'. cbn [sc_scan]. rewrite E. cbn [bind]. rewrite EP. cbn [bind fst snd]. unfold sv_destroy. rewrite ER, ES. cbn [bind fst snd]. split; [reflexivity|]. split; [exact TD'|]. split; [exact LV|].
    constructor; [|exact FF]. exists wd1, s, s'. split; [exact T1|]. split; [exact L1|]. split; [exact E|]. split; [exact (sg_start eig se par details _ _ _ _ s RC T1 E)|exact EP].
Qed.

(** ** the grid *)
Local Open Scope R_scope.
Lemma grid_from last step : 0 < step -> forall n x, x + INR n * step <= last < x + INR (S n) * step ->
  exists l, (forall fuel, (S n < fuel)%nat -> grid_values fuel x last step = Some l) /\ length l = S n /\ forall i, (i <= n)%nat -> nth i l 0 = x + INR i * step.
Proof.
  intros P n. induction n as [|n IH]; intros x (A & B).
  - exists [x]. split; [|split; [reflexivity|intros i I; replace i with 0%nat by lia; cbn; lra]]. intros fuel Q. destruct fuel as [|[|fuel]]; try lia. cbn [grid_values]. cbn [INR] in A, B.
    destruct Rle_dec as [C|C]; [|lra]. destruct Rle_dec as [C'|C']; [lra|reflexivity].
  - destruct (IH (x + step)) as (l & G & LN & NT). { rewrite !S_INR in *. lra. } exists (x :: l). split; [|split; [cbn; congruence|]].
    + intros fuel Q. destruct fuel as [|fuel]; [lia|]. cbn [grid_values]. destruct Rle_dec as [C|C]; [rewrite G by lia; reflexivity|]. exfalso. apply C. pose proof (pos_INR (S n)). nra.
    + intros [|i] I; cbn [nth]; [cbn; lra|]. rewrite NT by lia. rewrite S_INR. lra.
Qed.
Theorem scan_grid (first last step : R) : 0 < step -> first <= last ->
  exists n l, (forall fuel, (n < fuel)%nat -> grid_values fuel first last step = Some l) /\ length l = n /\ (Z.of_nat n <= grid_places first last step)%Z /\
    (forall i, (i < n)%nat -> nth i l 0 = first + INR i * step /\ nth i l 0 <= last) /\ last < first + INR n * step /\
    (forall k, last = first + INR k * step -> n = S k /\ Z.of_nat n = grid_places first last step).
Proof.
  intros P Q. set (q := (last - first) / step). assert (Q0 : 0 <= q) by (unfold q, Rdiv; apply Rmult_le_pos; [lra|left; apply Rinv_0_lt_compat, P]).
  assert (EQ : last = first + q * step) by (unfold q; field; lra).
  destruct (base_Int_part q) as (B1 & B2). set (z := Int_part q) in *. assert (Z0 : (0 <= z)%Z) by (destruct (Z.lt_ge_cases z 0) as [C|C]; [|lia]; assert (z <= -1)%Z by lia; apply IZR_le in H; lra).
  assert (EZ : IZR z = INR (Z.to_nat z)) by (rewrite INR_IZR_INZ, Z2Nat.id by exact Z0; reflexivity). set (k := Z.to_nat z) in *.
  destruct (grid_from last step P k first) as (l & G & LN & NT). { rewrite S_INR, <- EZ, EQ. split; nra. }
  assert (PL : (Z.of_nat (S k) <= grid_places first last step)%Z).
  { unfold grid_places. fold q. destruct (base_Int_part (q + / 2)) as (C1 & C2). assert (z <= Int_part (q + / 2))%Z; [|lia]. destruct (Z.lt_ge_cases (Int_part (q + / 2)) z) as [C|C]; [|lia]. assert (Int_part (q + / 2) + 1 <= z)%Z as D by lia. apply IZR_le in D. rewrite plus_IZR in D. lra. }
  exists (S k), l. split; [exact G|]. split; [exact LN|]. split; [exact PL|]. split; [|split].
  - intros i I. rewrite NT by lia. split; [reflexivity|]. assert (IN : (i <= k)%nat) by lia. apply le_INR in IN. rewrite <- EZ in IN. rewrite EQ. nra.
  - rewrite S_INR, <- EZ, EQ. nra.
  - intros j EJ. assert (QJ : q = INR j) by (unfold q; rewrite EJ; field; lra). assert (ZJ : z = Z.of_nat j).
    { rewrite QJ, INR_IZR_INZ in B1, B2. assert (z <= Z.of_nat j)%Z by (apply le_IZR; lra). assert (Z.of_nat j < z + 1)%Z by (apply lt_IZR; rewrite plus_IZR; lra). lia. }
    assert (KJ : k = j) by lia. split; [congruence|]. unfold grid_places. fold q. destruct (base_Int_part (q + / 2)) as (C1 & C2).
    rewrite QJ, INR_IZR_INZ in C1, C2. assert (Int_part (IZR (Z.of_nat j) + / 2) = Z.of_nat j) as D; [|rewrite QJ, INR_IZR_INZ, D; lia].
    assert (Int_part (IZR (Z.of_nat j) + / 2) < Z.of_nat j + 1)%Z by (apply lt_IZR; rewrite plus_IZR; lra). assert (Z.of_nat j < Int_part (IZR (Z.of_nat j) + / 2) + 1)%Z by (apply lt_IZR; rewrite plus_IZR; lra). lia.
Qed.
Theorem scan_index (nx ny nz i j k : nat) : (i < nx)%nat -> (j < ny)%nat -> (k < nz)%nat ->
  (grid_index ny nz i j k < nx * ny * nz)%nat /\
  forall i' j' k', (j' < ny)%nat -> (k' < nz)%nat -> grid_index ny nz i j k = grid_index ny nz i' j' k' -> i = i' /\ j = j' /\ k = k'.
Proof.
  intros I J Q. unfold grid_index. split.
  - assert (i * ny + j + 1 <= nx * ny)%nat by nia. nia.
  - intros i' j' k' J' Q' E. assert (k = k') by (apply (f_equal (fun v => v mod nz)%nat) in E; rewrite !(Nat.add_comm _ k), !(Nat.add_comm _ k'), !Nat.mod_add, !Nat.mod_small in E by lia; exact E). subst k'.
    assert (E2 : (i * ny + j = i' * ny + j')%nat) by nia. assert (j = j') by (apply (f_equal (fun v => v mod ny)%nat) in E2; rewrite !(Nat.add_comm _ j), !(Nat.add_comm _ j'), !Nat.mod_add, !Nat.mod_small in E2 by lia; exact E2). subst j'.
    split; [nia|auto].
Qed.
