(** * Property C107: the program which finds reachable positions of the body of Pepper. Vocabulary in PepperIkScanSpec.v, PepperIkProgramSpec.v, PepperIkLoopSpec.v, PepperIkTasksSpec.v, WalkProgramSpec.v. *)
From Coq Require Import String List Reals Arith Bool ZArith Lra Lia.
From Verif Require Import Base BaseFacts RSum Matrix Mat3 ConstraintType Constraints ConstraintsSpec QP QPSpec Problem Solution PepperTasksSpec QpoasesBridge QpoasesBridgeSpec Backends BackendsSpec SolverLife SolverLifeSpec WalkProgram WalkProgramSpec
  RotarySpec Rotary Euler EulerSpec Rbdl RbdlSpec PepperProgramSpec PepperIk PepperIkSpec PepperIkExample PepperIkTasks PepperIkTasksSpec PepperIkLoop PepperIkLoopSpec PepperIkLoopWitness Solver PepperIkProgram PepperIkProgramSpec PepperIkScan PepperIkScanSpec PepperIkScanRun PepperIkScanExample.
Import ListNotations.
Local Open Scope nat_scope.

(** The objects of a point can be made *)
Theorem C107_starts : forall (eig : m3 -> euler_type -> v3) (se : scan_settings) (par : qparams) (details : option (backend_code * Z)) (m : ikmodel) (w : wbc) (a : nat -> mat) (wd : world),
  reachable eig (sc_features se) (sc_kinematics se) m -> tidy wd -> exists s, sc_start se par details m w a wd = Ok s /\ scanning eig se par s /\ sp_loop s = mkIkloop m w /\ sp_world s = wd.
Proof. exact scan_starts. Qed.
(** An iteration moves the model by a permitted, best step, or it fails and the model stays; it fails for a reason *)
Theorem C107_iteration : forall (eig : m3 -> euler_type -> v3) (se : scan_settings) (par : qparams) (mp : motion_parameters) (e : environment) (s : scan_program),
  kinematics (sc_features se) (sc_kinematics se) -> scan_hierarchy (sc_hierarchy se) -> pr_two_levels par = true -> scanning eig se par s ->
  (exists sol s' k, sc_step se mp e s = Ok (Stepped sol s') /\ answers (sc_features se) sol /\ ik_iteration (sc_features se) (sc_kinematics se) mp sol (sp_loop s) = Ok (sp_loop s') /\
     wd_calls (sp_world s') = k :: wd_calls (sp_world s) /\
     (forall x, an_primal (en_library e k) = Some x -> forall i, i < DOF_NUMBER (sc_features se) -> point sol i = x i) /\
     (pr_crash par = true \/ an_code (en_library e k) = CODE_SUCCESS ->
        an_code (en_library e k) = CODE_SUCCESS /\
        (honest_answer (lc_problem k) (en_library e k) -> permitted_step se mp (lk_model (sp_loop s)) sol /\
          (In JointsBounds (fst (sc_hierarchy se)) -> within_limits (sc_features se) (ik_gc (lk_model (sp_loop s'))))) /\
        (sound_answer (lc_problem k) (en_library e k) -> least_step se mp (lk_model (sp_loop s)) sol))) \/
  (exists s', sc_step se mp e s = Ok (Failed s') /\ lk_model (sp_loop s') = lk_model (sp_loop s) /\ (answering capable_answer se mp e s -> impossible_step se mp (lk_model (sp_loop s))) /\
     ((wd_calls (sp_world s') = wd_calls (sp_world s) /\ impossible_step se mp (lk_model (sp_loop s))) \/
      (pr_crash par = true /\ exists k, wd_calls (sp_world s') = k :: wd_calls (sp_world s) /\ an_code (en_library e k) <> CODE_SUCCESS))).
Proof. exact scan_iteration. Qed.
(** What the library is asked for *)
Theorem C107_asks : forall (eig : m3 -> euler_type -> v3) (se : scan_settings) (par : qparams) (mp : motion_parameters) (e : environment) (s : scan_program) (k : libcall),
  kinematics (sc_features se) (sc_kinematics se) -> scan_hierarchy (sc_hierarchy se) -> pr_two_levels par = true -> scanning eig se par s -> sc_asked se mp e s k ->
  asks_for se mp (lk_model (sp_loop s)) (lc_problem k).
Proof. exact scan_asks. Qed.
(** A point always gets a flag, which means what it says *)
Theorem C107_flags : forall (eig : m3 -> euler_type -> v3) (se : scan_settings) (par : qparams) (mp : motion_parameters) (es : nat -> environment) (s : scan_program),
  kinematics (sc_features se) (sc_kinematics se) -> scan_hierarchy (sc_hierarchy se) -> pr_two_levels par = true -> scanning eig se par s ->
  exists fl s' m n st sols why, sc_point se mp es s = Ok (fl, s') /\ saveCurrentState (lk_model (sp_loop s)) = Ok m /\
    scan_steps se mp es (sc_with_model m s) st sols n /\ scan_ends se mp es st sols n why s' /\ flag_means se mp why s' fl.
Proof. exact scan_flags. Qed.
(** Limits of joints *)
Theorem C107_limits : forall (eig : m3 -> euler_type -> v3) (se : scan_settings) (par : qparams) (mp : motion_parameters) (es : nat -> environment) (s s' : scan_program) (fl : flag),
  kinematics (sc_features se) (sc_kinematics se) -> scan_hierarchy (sc_hierarchy se) -> pr_two_levels par = true -> scanning eig se par s ->
  In JointsBounds (fst (sc_hierarchy se)) -> pr_crash par = true ->
  (forall m k st sols, saveCurrentState (lk_model (sp_loop s)) = Ok m -> scan_steps se mp es (sc_with_model m s) st sols k -> answering honest_answer se mp (es k) (st k)) ->
  sc_point se mp es s = Ok (fl, s') ->
  (within_limits (sc_features se) (ik_gc (lk_model (sp_loop s'))) \/
   (ik_gc (lk_model (sp_loop s')) = ik_gc (lk_model (sp_loop s)) /\
    (wp_iterations (sc_wbc se) = 0 \/ exists m, saveCurrentState (lk_model (sp_loop s)) = Ok m /\ sc_step se mp (es 0) (sc_with_model m s) = Ok (Failed s')))) /\
  (almost_within (sc_features se) 1e-7 (ik_gc (lk_model (sp_loop s))) -> fl <> BOUNDS).
Proof. exact scan_limits. Qed.
(** All points, one after another: each of them gets its own flag, objects of the library are not left behind *)
Theorem C107_points : forall (eig : m3 -> euler_type -> v3) (se : scan_settings) (par : qparams) (details : option (backend_code * Z)) (pts : list scan_point) (wd : world),
  kinematics (sc_features se) (sc_kinematics se) -> scan_hierarchy (sc_hierarchy se) -> pr_two_levels par = true -> tidy wd ->
  Forall (fun q => reachable eig (sc_features se) (sc_kinematics se) (pt_model q)) pts ->
  exists fls wd', sc_scan se par details pts wd = Ok (fls, wd') /\ tidy wd' /\ wd_live wd' = wd_live wd /\
    Forall2 (fun q fl => exists wd0 s s', tidy wd0 /\ wd_live wd0 = wd_live wd /\ sc_start se par details (pt_model q) (pt_wbc q) (pt_matrices q) wd0 = Ok s /\
      scanning eig se par s /\ sc_point se (pt_motion q) (pt_environment q) s = Ok (fl, s')) pts fls.
Proof. exact scan_points. Qed.
Local Open Scope R_scope.
(** The grid of the points fits into the place which is allotted for the results, and the points have different places *)
Theorem C107_grid : forall (first last step : R),
  0 < step -> first <= last ->
  exists n l, (forall fuel, (n < fuel)%nat -> grid_values fuel first last step = Some l) /\ length l = n /\ (Z.of_nat n <= grid_places first last step)%Z /\
    (forall i, (i < n)%nat -> nth i l 0 = first + INR i * step /\ nth i l 0 <= last) /\ last < first + INR n * step /\
    (forall k, last = first + INR k * step -> n = S k /\ Z.of_nat n = grid_places first last step).
Proof. exact scan_grid. Qed.
Theorem C107_index : forall (nx ny nz i j k : nat),
  (i < nx)%nat -> (j < ny)%nat -> (k < nz)%nat ->
  (grid_index ny nz i j k < nx * ny * nz)%nat /\
  forall i' j' k', (j' < ny)%nat -> (k' < nz)%nat -> grid_index ny nz i j k = grid_index ny nz i' j' k' -> i = i' /\ j = j' /\ k = k'.
Proof. exact scan_index. Qed.

(** cases which meet the hypotheses: the head is turned; an arm outside of its limits *)
Theorem C107_case_turn : forall (eig : m3 -> euler_type -> v3) (turn : R) (p : v3),
  1e-2 <= Rabs turn <= 0.07 ->
  let se := ex_scan turn in
  let mp := mkMP v3zero p v3zero in
  let es := ex_environment turn in
  exists s s' fl, scanning eig se ex_qparams s /\ sc_point se mp es s = Ok (fl, s') /\ (fl = SMALL \/ fl = REACHED) /\
    (forall j, angle ROOT_PLANAR (ik_gc (lk_model (sp_loop s'))) j = angle ROOT_PLANAR (ik_gc (lk_model (sp_loop s))) j + match j with HeadYaw => turn | _ => 0 end) /\
    within_limits ROOT_PLANAR (ik_gc (lk_model (sp_loop s'))) /\
    exists s1 s2, sc_step se mp (es 0%nat) s1 = Ok (Stepped (ex_sols turn 0) s2) /\ sc_step se mp (es 1%nat) s2 = Ok (Stepped (ex_sols turn 1) s') /\
      (exists k, sc_asked se mp (es 0%nat) s1 k) /\ (exists k, sc_asked se mp (es 1%nat) s2 k) /\
      forall m k st sols, saveCurrentState (lk_model (sp_loop s)) = Ok m -> scan_steps se mp es (sc_with_model m s) st sols k -> answering sound_answer se mp (es k) (st k).
Proof. exact ex_scan_turn. Qed.
Theorem C107_case_outside : forall (eig : m3 -> euler_type -> v3) (turn : R) (g : gcoord) (mp : motion_parameters) (es : nat -> environment),
  PepperIkSpec.sized ROOT_PLANAR g -> upper_limit LShoulderPitch + 1e-7 < angle ROOT_PLANAR g LShoulderPitch ->
  exists s, scanning eig (ex_scan turn) ex_qparams s /\ ik_gc (lk_model (sp_loop s)) = g /\
    ((forall m, saveCurrentState (lk_model (sp_loop s)) = Ok m -> answering honest_answer (ex_scan turn) mp (es 0%nat) (sc_with_model m s)) ->
     exists fl s', sc_point (ex_scan turn) mp es s = Ok (fl, s') /\ ik_gc (lk_model (sp_loop s')) = g /\ (fl = BOUNDS \/ fl = REACHED)).
Proof. exact ex_scan_outside. Qed.

Print Assumptions C107_starts. Print Assumptions C107_iteration. Print Assumptions C107_asks. Print Assumptions C107_flags. Print Assumptions C107_limits. Print Assumptions C107_points. Print Assumptions C107_grid. Print Assumptions C107_index. Print Assumptions C107_case_turn. Print Assumptions C107_case_outside.
