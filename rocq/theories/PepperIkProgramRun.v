(** * The program of the inverse kinematics of Pepper: steps, control intervals *)
From Coq Require Import String List Reals Arith Bool ZArith Lra Lia Permutation.
From Verif Require Import Base BaseFacts RSum Matrix Mat3 ConstraintType HierarchyLevel HierarchySpec HierarchyFacts Constraints ConstraintsSpec ConstraintsFacts QP QPSpec Problem ProblemSpec ProblemFacts
  Solution PepperTasksSpec WalkProgram WalkProgramFacts WalkProgramFacts2 RotarySpec Rotary Euler EulerSpec Rbdl RbdlSpec PepperIk PepperIkSpec PepperIkFacts PepperIkTasks PepperIkTasksSpec PepperIkTasksFacts PepperIkLoop
  PepperIkCommandFacts PepperIkLoopSpec PepperIkLoopFacts PepperIkLoopRun Solver KKT KKTSpec KKTFacts KKTPosedSpec KKTPosedFacts PepperIkProgram PepperIkProgramSpec PepperIkProgramFacts PepperIkProgramFacts2 PepperIkProgramFacts3.
Import ListNotations.
Local Open Scope nat_scope.

Definition sound (eig : m3 -> euler_type -> v3) (se : ik_settings) (s : ik_program) : Prop :=
  reachable eig (is_features se) (is_kinematics se) (lk_model (ip_loop s)) /\ exists l0 l1, ishape (is_hierarchy se) (ip_problem s) l0 l1.
Lemma start_sound eig se m w a q : reachable eig (is_features se) (is_kinematics se) m -> exists s, ik_start se m w a q = Ok s /\ ip_loop s = mkIkloop m w /\ sound eig se s.
Proof.
  intros RC. unfold ik_start. destruct (setup_shape (is_hierarchy se) pb_new pr_new) as (p & l0 & l1 & E & S). rewrite E. cbn [bind]. eexists. split; [reflexivity|]. split; [reflexivity|]. split; [exact RC|eauto].
Qed.
Lemma solver_length p llt lin q nv x : kkt_solveHierarchy p llt lin q nv = Ok x -> vlen x = nv.
Proof.
  destruct q as (o & q). cbn. assert (D : solveDirect lin (o_H o) (o_g o) (ab_A q) (ab_b q) nv = Ok x -> vlen x = nv).
  { unfold solveDirect. intros E. apply assert_ok in E. destruct E as (_ & E). apply assert_ok in E. destruct E as (_ & E). injection E as <-. reflexivity. }
  destruct (solution_method p); try discriminate; auto. destruct (o_type o); try discriminate. unfold solveWithElimination. intros E. apply assert_ok in E. destruct E as (_ & E). apply assert_ok in E. destruct E as (_ & E). injection E as <-. reflexivity.
Qed.
Lemma ok_pair {A B} (a c : A) (b d : B) : Ok (a, b) = Ok (c, d) -> a = c /\ b = d.
Proof. intros E. injection E as -> ->. auto. Qed.
Lemma step_sound eig se mp s sol s' : kinematics (is_features se) (is_kinematics se) -> proper_hierarchy (is_hierarchy se) -> sound eig se s -> ik_step se mp s = Ok (sol, s') ->
  answers (is_features se) sol /\ ik_iteration (is_features se) (is_kinematics se) mp sol (ip_loop s) = Ok (ip_loop s') /\ sound eig se s'.
Proof.
  intros K PH (RC & l0 & l1 & SH) E. destruct (form_step eig se mp s l0 l1 K RC PH SH) as (cs & p & l0' & l1' & EF & _ & S2 & _).
  unfold ik_step in E. rewrite EF in E. cbn [bind fst snd] in E. apply bind_ok in E. destruct E as ((sol' & q) & ES & E). cbn [fst snd] in E. apply bind_ok in E. destruct E as (l & EI & E). injection E as -> <-. cbn [ip_loop].
  unfold ik_solve in ES. apply bind_ok in ES. destruct ES as (q' & _ & ES). apply bind_ok in ES. destruct ES as (x & EX & ES). apply ok_pair in ES. destruct ES as (<- & _). apply solver_length in EX. rewrite next_nvars in EX.
  assert (AN : answers (is_features se) (mkSolution (w_structure (wbc_update (is_features se) mp (lk_wbc (ip_loop s)))) (map (vget x) (seq 0 (vlen x))))) by (intros mp' w'; split; [reflexivity|cbn; rewrite map_length, seq_length; exact EX]).
  split; [exact AN|]. split; [exact EI|]. destruct (iteration_ok eig _ _ mp _ (ip_loop s) K RC AN) as (l' & EI' & RL & _). rewrite EI' in EI. apply ok_inj in EI. subst l'. split; [exact RL|]. eauto.
Qed.
Lemma save_sound eig se s m : sound eig se s -> saveCurrentState (lk_model (ip_loop s)) = Ok m -> sound eig se (ik_with_model m s).
Proof. intros (RC & SH) E. split; [exact (rc_save _ _ _ _ _ RC E)|exact SH]. Qed.
Lemma arrives_sound eig se s : kinematics (is_features se) (is_kinematics se) -> proper_hierarchy (is_hierarchy se) -> arrives eig se s -> sound eig se s.
Proof.
  intros K PH. induction 1 as [m w a q s RC E|mp s sol s' A IH E|s m A IH E].
  - destruct (start_sound eig se m w a q RC) as (s0 & E0 & _ & S). rewrite E in E0. injection E0 as <-. exact S.
  - apply (step_sound eig se mp s sol s' K PH IH E).
  - exact (save_sound eig se s m IH E).
Qed.
Theorem program_starts (eig : m3 -> euler_type -> v3) (se : ik_settings) (m : ikmodel) (w : wbc) (a : nat -> mat) (q : objective * contAB) :
  reachable eig (is_features se) (is_kinematics se) m -> exists s, ik_start se m w a q = Ok s /\ ip_loop s = mkIkloop m w.
Proof. intros RC. destruct (start_sound eig se m w a q RC) as (s & E & L & _). eauto. Qed.

Lemma sound_step eig se mp reg s : kinematics (is_features se) (is_kinematics se) -> proper_hierarchy (is_hierarchy se) -> sound eig se s -> solvable se mp reg (ip_loop s) ->
  exists sol s', ik_step se mp s = Ok (sol, s') /\ answers (is_features se) sol /\ ik_iteration (is_features se) (is_kinematics se) mp sol (ip_loop s) = Ok (ip_loop s') /\
    minimal_step se mp reg (ip_loop s) sol /\ best_step se mp reg (ip_loop s) sol.
Proof.
  intros K PH (RC & l0 & l1 & SH) SV. destruct (form_step eig se mp s l0 l1 K RC PH SH) as (cs & p & l0' & l1' & EF & FU & S2 & E0 & E1). destruct (fully_split se mp s cs FU) as (cs0 & cs1 & EC & M0 & M1).
  assert (D : does eig se mp s reg).
  { destruct SV as [((ME & LI) & -> & PO)|((ME & RG & LL & SI) & -> & PO)].
    - exact (direct_does eig se mp s l0 l1 K RC PH SH cs p l0' l1' cs0 cs1 EF FU S2 E0 E1 EC M0 M1 ME LI PO).
    - exact (elimination_does eig se mp s l0 l1 K RC PH SH cs p l0' l1' cs0 cs1 EF FU S2 E0 E1 EC M0 M1 ME RG LL SI PO). }
  destruct D as (sol & s' & c0 & c1 & A & B & C & _ & _ & D0 & D1 & MN & BS). exists sol, s'. split; [exact A|]. split; [exact B|]. split; [exact C|]. split; [|exact BS]. exists c0, c1. split; [exact D0|]. split; [exact D1|exact MN].
Qed.
Theorem program_step (eig : m3 -> euler_type -> v3) (se : ik_settings) (mp : motion_parameters) (reg : R) (s : ik_program) :
  kinematics (is_features se) (is_kinematics se) -> proper_hierarchy (is_hierarchy se) -> arrives eig se s -> solvable se mp reg (ip_loop s) ->
  exists sol s', ik_step se mp s = Ok (sol, s') /\ answers (is_features se) sol /\ ik_iteration (is_features se) (is_kinematics se) mp sol (ip_loop s) = Ok (ip_loop s') /\
    minimal_step se mp reg (ip_loop s) sol /\ best_step se mp reg (ip_loop s) sol.
Proof. intros K PH A SV. exact (sound_step eig se mp reg s K PH (arrives_sound eig se s K PH A) SV). Qed.
Theorem program_refuses (eig : m3 -> euler_type -> v3) (se : ik_settings) (mp : motion_parameters) (s : ik_program) :
  kinematics (is_features se) (is_kinematics se) -> proper_hierarchy (is_hierarchy se) -> arrives eig se s ->
  solution_method (is_solver se) = KKT_UNDEFINED \/ (solution_method (is_solver se) = CONSTRAINT_ELIMINATION_LLT /\ ~ Forall simple_class (snd (is_hierarchy se))) -> ik_step se mp s = Throw.
Proof.
  intros K PH A C. destruct (arrives_sound eig se s K PH A) as (RC & l0 & l1 & SH). destruct (form_step eig se mp s l0 l1 K RC PH SH) as (cs & p & l0' & l1' & EF & FU & S2 & E0 & E1). destruct (fully_split se mp s cs FU) as (cs0 & cs1 & EC & _).
  destruct C as [ME|(ME & NS)].
  - exact (undefined_throws se mp s l0 l1 PH SH cs p l0' l1' cs0 cs1 EF FU S2 E0 E1 EC ME).
  - assert (X : exists t, In t (snd (is_hierarchy se)) /\ ~ simple_class t).
    { clear - NS. induction (snd (is_hierarchy se)) as [|t r IH]; [destruct NS; constructor|]. assert (D : simple_class t \/ ~ simple_class t) by (destruct t; cbn; tauto). destruct D as [D|D].
      - destruct IH as (u & I & N); [intros F; apply NS; constructor; assumption|]. exists u. split; [right; exact I|exact N].
      - exists t. split; [left; reflexivity|exact D]. }
    destruct X as (t & I & N). exact (elimination_throws se mp s l0 l1 PH SH cs p l0' l1' cs0 cs1 EF FU S2 E0 E1 EC t ME I N).
Qed.

(** ** control intervals *)
Lemma steps_sound eig se mp s st sols n : kinematics (is_features se) (is_kinematics se) -> proper_hierarchy (is_hierarchy se) -> sound eig se s -> steps_of se mp s st sols n ->
  forall k, k <= n -> sound eig se (st k).
Proof.
  intros K PH S (ST & H) k. induction k as [|k IH]; intros L; [rewrite ST; exact S|]. apply (step_sound eig se mp (st k) (sols k) (st (Datatypes.S k)) K PH (IH ltac:(lia)) (H k ltac:(lia))).
Qed.
(** sequences which begin with one element more *)
Definition scons {A} (a : A) (g : nat -> A) (k : nat) : A := match k with 0 => a | S k => g k end.
Lemma steps_cons se mp s sol s' st sols n : ik_step se mp s = Ok (sol, s') -> steps_of se mp s' st sols n -> steps_of se mp s (scons s st) (scons sol sols) (S n).
Proof.
  intros E (ST & H). split; [reflexivity|]. intros [|k] L; cbn [scons]; [rewrite ST; exact E|apply H; lia].
Qed.
Lemma steps_runs eig se mp : kinematics (is_features se) (is_kinematics se) -> proper_hierarchy (is_hierarchy se) -> forall left j s r, sound eig se s ->
  ik_steps se mp left j s = Ok r -> exists n st sols, n < left /\ steps_of se mp s st sols (S n) /\ first_small (wp_tolerance (is_wbc se)) sols n /\ r = (S (j + n), st (S n)).
Proof.
  intros K PH. induction left as [|left IH]; intros j s r SO E; cbn [ik_steps] in E; [discriminate|]. apply bind_ok in E. destruct E as ((sol & s') & ES & E). cbn [fst snd] in E.
  destruct (step_sound eig se mp s sol s' K PH SO ES) as (AN & _ & SO').
  destruct Rlt_dec as [H|H]; rewrite (small_norm _ sol _ AN) in H.
  - injection E as <-. exists 0, (scons s (fun _ => s')), (scons sol (fun _ => sol)). split; [lia|]. split; [apply (steps_cons se mp s sol s'); [exact ES|split; [reflexivity|intros k L; lia]]|].
    split; [split; [exact H|intros k L; lia]|]. rewrite Nat.add_0_r. reflexivity.
  - destruct (IH (S j) s' r SO' E) as (n & st & sols & N & ST & (F1 & F2) & ->). exists (S n), (scons s st), (scons sol sols). split; [lia|]. split; [exact (steps_cons se mp s sol s' st sols _ ES ST)|].
    split; [split; [exact F1|intros [|k] L; cbn [scons]; [exact H|apply F2; lia]]|]. cbn [scons]. f_equal. lia.
Qed.
Lemma steps_iterations eig se mp s st sols n : kinematics (is_features se) (is_kinematics se) -> proper_hierarchy (is_hierarchy se) -> sound eig se s ->
  steps_of se mp s st sols (S n) -> exists sols', (forall k, answers (is_features se) (sols' k)) /\ (forall k, k <= n -> sols' k = sols k) /\
    forall k, k <= n -> ik_iteration (is_features se) (is_kinematics se) mp (sols' k) (ip_loop (st k)) = Ok (ip_loop (st (S k))).
Proof.
  intros K PH SO ST. pose proof (steps_sound eig se mp s st sols (S n) K PH SO ST) as SS. destruct ST as (S0 & H).
  assert (A : forall k, k <= n -> answers (is_features se) (sols k) /\ ik_iteration (is_features se) (is_kinematics se) mp (sols k) (ip_loop (st k)) = Ok (ip_loop (st (S k)))).
  { intros k L. destruct (step_sound eig se mp (st k) (sols k) (st (S k)) K PH (SS k ltac:(lia)) (H k ltac:(lia))) as (B & C & _). auto. }
  exists (fun k => if k <=? n then sols k else sols 0). split; [intros k; destruct (Nat.leb_spec k n); apply A; lia|].
  split; intros k L; (destruct (Nat.leb_spec k n); [|lia]); [reflexivity|apply A, L].
Qed.
Lemma iterations_same se mp sols : forall left j s n st, (forall k, answers (is_features se) (sols k)) -> n < left -> st 0 = s ->
  (forall k, k <= n -> ik_iteration (is_features se) (is_kinematics se) mp (sols (j + k)) (st k) = Ok (st (S k))) ->
  small (wp_tolerance (is_wbc se)) (sols (j + n)) -> (forall k, k < n -> ~ small (wp_tolerance (is_wbc se)) (sols (j + k))) ->
  ik_iterations (is_features se) (is_kinematics se) (wp_tolerance (is_wbc se)) mp sols left j s = Ok (S (j + n), st (S n)).
Proof.
  induction left as [|left IH]; intros j s n st AN N S0 H SM NS; [lia|]. cbn [ik_iterations]. pose proof (H 0 ltac:(lia)) as E. rewrite Nat.add_0_r, S0 in E. rewrite E. cbn [bind].
  destruct n as [|n].
  - destruct Rlt_dec as [R|R]; rewrite (small_norm _ _ _ (AN j)) in R; [rewrite Nat.add_0_r; reflexivity|]. rewrite Nat.add_0_r in SM. contradiction.
  - destruct Rlt_dec as [R|R]; rewrite (small_norm _ _ _ (AN j)) in R; [specialize (NS 0 ltac:(lia)); rewrite Nat.add_0_r in NS; contradiction|].
    replace (S (j + S n)) with (S (S j + n)) by lia. apply (IH (S j) (st 1) n (fun k => st (S k)) AN ltac:(lia) eq_refl).
    + intros k L. replace (S j + k) with (j + S k) by lia. apply H. lia.
    + replace (S j + n) with (j + S n) by lia. exact SM.
    + intros k L. replace (S j + k) with (j + S k) by lia. apply NS. lia.
Qed.
Lemma control_runs eig se mp s c s' : kinematics (is_features se) (is_kinematics se) -> proper_hierarchy (is_hierarchy se) -> sound eig se s -> ik_control se mp s = Ok (c, s') ->
  sound eig se s' /\ exists m n st sols, saveCurrentState (lk_model (ip_loop s)) = Ok m /\ n < wp_iterations (is_wbc se) /\ steps_of se mp (ik_with_model m s) st sols (S n) /\
    first_small (wp_tolerance (is_wbc se)) sols n /\ s' = st (S n) /\ getRobotCommand (wp_interval (is_wbc se)) (lk_model (ip_loop s')) = Ok c /\
    exists sols', (forall k, answers (is_features se) (sols' k)) /\ ik_interval (is_features se) (is_kinematics se) (is_wbc se) mp sols' (ip_loop s) = Ok (c, ip_loop s').
Proof.
  intros K PH SO E. unfold ik_control in E. apply bind_ok in E. destruct E as (m & EM & E). apply bind_ok in E. destruct E as (r & ER & E). apply bind_ok in E. destruct E as (c' & EC & E). injection E as -> <-.
  pose proof (save_sound eig se s m SO EM) as SM. destruct (steps_runs eig se mp K PH _ _ _ r SM ER) as (n & st & sols & N & ST & FS & ->). cbn [fst snd] in *.
  split; [apply (steps_sound eig se mp _ st sols (S n) K PH SM ST); lia|]. exists m, n, st, sols. split; [exact EM|]. split; [exact N|]. split; [exact ST|]. split; [exact FS|]. split; [reflexivity|]. split; [exact EC|].
  destruct (steps_iterations eig se mp _ st sols n K PH SM ST) as (sols' & AN & EQ & IT). exists sols'. split; [exact AN|].
  unfold ik_interval. rewrite EM. cbn [bind]. rewrite (iterations_same se mp sols' (wp_iterations (is_wbc se)) 0 (mkIkloop m (lk_wbc (ip_loop s))) n (fun k => ip_loop (st k)) AN N).
  - cbn [bind fst snd]. rewrite EC. reflexivity.
  - rewrite (proj1 ST). reflexivity.
  - exact IT.
  - cbn [plus]. rewrite EQ by lia. apply FS.
  - intros k L. cbn [plus]. rewrite EQ by lia. apply FS, L.
Qed.
Theorem program_interval (eig : m3 -> euler_type -> v3) (se : ik_settings) (mp : motion_parameters) (s s' : ik_program) (c : command) :
  kinematics (is_features se) (is_kinematics se) -> proper_hierarchy (is_hierarchy se) -> arrives eig se s -> ik_control se mp s = Ok (c, s') ->
  exists m n st sols, saveCurrentState (lk_model (ip_loop s)) = Ok m /\ n < wp_iterations (is_wbc se) /\ steps_of se mp (ik_with_model m s) st sols (S n) /\
    first_small (wp_tolerance (is_wbc se)) sols n /\ s' = st (S n) /\ getRobotCommand (wp_interval (is_wbc se)) (lk_model (ip_loop s')) = Ok c.
Proof.
  intros K PH A E. destruct (control_runs eig se mp s c s' K PH (arrives_sound eig se s K PH A) E) as (_ & m & n & st & sols & H1 & H2 & H3 & H4 & H5 & H6 & _). exists m, n, st, sols. auto 10.
Qed.

(** all steps of an interval, and what stops it *)
Lemma steps_snoc se mp s st sols n sol s' : steps_of se mp s st sols n -> ik_step se mp (st n) = Ok (sol, s') ->
  steps_of se mp s (fun k => if k <=? n then st k else s') (fun k => if k <? n then sols k else sol) (S n).
Proof.
  intros (S0 & H) E. split; [exact S0|]. intros k L. destruct (Nat.ltb_spec k n) as [Q|Q].
  - destruct (Nat.leb_spec k n); [|lia]. destruct (Nat.leb_spec (S k) n); [|lia]. apply H, Q.
  - replace k with n by lia. destruct (Nat.leb_spec n n); [|lia]. destruct (Nat.leb_spec (S n) n); [lia|]. exact E.
Qed.
Lemma steps_total eig se mp reg s : kinematics (is_features se) (is_kinematics se) -> proper_hierarchy (is_hierarchy se) -> sound eig se s -> forall left n st sols, steps_of se mp s st sols n ->
  (forall k, k < n -> ~ small (wp_tolerance (is_wbc se)) (sols k)) ->
  (forall k st sols, k < n + left -> steps_of se mp s st sols k -> (forall i, i < k -> ~ small (wp_tolerance (is_wbc se)) (sols i)) -> solvable se mp reg (ip_loop (st k))) ->
  (exists n' st' sols', n' < n + left /\ steps_of se mp s st' sols' (S n') /\ first_small (wp_tolerance (is_wbc se)) sols' n' /\ ik_steps se mp left n (st n) = Ok (S n', st' (S n'))) \/
  (exists st' sols', steps_of se mp s st' sols' (n + left) /\ (forall k, k < n + left -> ~ small (wp_tolerance (is_wbc se)) (sols' k)) /\ ik_steps se mp left n (st n) = Throw).
Proof.
  intros K PH SO. induction left as [|left IH]; intros n st sols ST NS SV.
  - right. exists st, sols. rewrite Nat.add_0_r. auto.
  - destruct (sound_step eig se mp reg (st n) K PH (steps_sound eig se mp s st sols n K PH SO ST n (le_n n)) (SV n st sols ltac:(lia) ST NS)) as (sol & s' & E & AN & _).
    cbn [ik_steps]. rewrite E. cbn [bind fst snd]. pose proof (steps_snoc se mp s st sols n sol s' ST E) as ST'. set (st' := fun k => if k <=? n then st k else s') in *. set (sols' := fun k => if k <? n then sols k else sol) in *.
    assert (EL : st' (S n) = s') by (unfold st'; destruct (Nat.leb_spec (S n) n); [lia|reflexivity]). assert (EN : sols' n = sol) by (unfold sols'; rewrite Nat.ltb_irrefl; reflexivity).
    assert (EB : forall k, k < n -> sols' k = sols k) by (intros k L; unfold sols'; destruct (Nat.ltb_spec k n); [reflexivity|lia]).
    destruct Rlt_dec as [R|R]; rewrite (small_norm _ sol _ AN) in R.
    + left. exists n, st', sols'. split; [lia|]. split; [exact ST'|]. split; [split; [rewrite EN; exact R|intros k L; rewrite (EB k L); apply NS, L]|]. rewrite EL. reflexivity.
    + specialize (IH (S n) st' sols' ST'). rewrite EL in IH. replace (S n + left) with (n + S left) in IH by lia. apply IH.
      * intros k L. destruct (Nat.eq_dec k n) as [-> |Q]; [rewrite EN; exact R|rewrite EB by lia; apply NS; lia].
      * exact SV.
Qed.
Theorem program_control (eig : m3 -> euler_type -> v3) (se : ik_settings) (mp : motion_parameters) (reg : R) (s : ik_program) :
  kinematics (is_features se) (is_kinematics se) -> proper_hierarchy (is_hierarchy se) -> arrives eig se s ->
  (forall m k st sols, saveCurrentState (lk_model (ip_loop s)) = Ok m -> k < wp_iterations (is_wbc se) -> steps_of se mp (ik_with_model m s) st sols k ->
     (forall i, i < k -> ~ small (wp_tolerance (is_wbc se)) (sols i)) -> solvable se mp reg (ip_loop (st k))) ->
  exists m st sols, saveCurrentState (lk_model (ip_loop s)) = Ok m /\
    ((exists n, n < wp_iterations (is_wbc se) /\ steps_of se mp (ik_with_model m s) st sols (S n) /\ first_small (wp_tolerance (is_wbc se)) sols n /\
        ik_control se mp s = bind (getRobotCommand (wp_interval (is_wbc se)) (lk_model (ip_loop (st (S n))))) (fun c => Ok (c, st (S n)))) \/
     (steps_of se mp (ik_with_model m s) st sols (wp_iterations (is_wbc se)) /\ (forall k, k < wp_iterations (is_wbc se) -> ~ small (wp_tolerance (is_wbc se)) (sols k)) /\ ik_control se mp s = Throw)).
Proof.
  intros K PH A SV. pose proof (arrives_sound eig se s K PH A) as SO. destruct (state_saved eig _ _ (lk_model (ip_loop s)) K (proj1 SO)) as (m & _ & _ & EM & _).
  pose proof (save_sound eig se s m SO EM) as SM. set (d := mkSolution structure_reset []).
  destruct (steps_total eig se mp reg (ik_with_model m s) K PH SM (wp_iterations (is_wbc se)) 0 (fun _ => ik_with_model m s) (fun _ => d)) as [(n & st & sols & N & ST & FS & E)|(st & sols & ST & NS & E)].
  - split; [reflexivity|intros k L; lia].
  - intros k L. lia.
  - intros k st sols L. apply SV; assumption.
  - exists m, st, sols. split; [exact EM|]. left. exists n. split; [exact N|]. split; [exact ST|]. split; [exact FS|]. unfold ik_control. rewrite EM. cbn [bind]. rewrite E. reflexivity.
  - exists m, st, sols. split; [exact EM|]. right. split; [exact ST|]. split; [exact NS|]. unfold ik_control. rewrite EM. cbn [bind]. rewrite E. reflexivity.
Qed.

(** ** the tasks of the first level when the loop stops *)
Theorem program_stopped (eig : m3 -> euler_type -> v3) (se : ik_settings) (mp : motion_parameters) (reg tolerance : R) (s s' : ik_program) (sol : solution) (t : ik_task) :
  kinematics (is_features se) (is_kinematics se) -> proper_hierarchy (is_hierarchy se) -> arrives eig se s -> solvable se mp reg (ip_loop s) ->
  ik_step se mp s = Ok (sol, s') -> small tolerance sol -> In t (fst (is_hierarchy se)) -> gain_of t <> 0%R ->
  almost_done (is_features se) mp tolerance (lk_model (ip_loop s)) t.
Proof.
  intros K PH A SV E SM I G. destruct (program_step eig se mp reg s K PH A SV) as (sol' & s2 & E' & AN & _ & (cs0 & cs1 & C0 & _ & ((SAT & _) & _)) & _). rewrite E in E'. injection E' as <- _.
  destruct (arrives_sound eig se s K PH A) as (RC & _). set (f := is_features se) in *. set (m := lk_model (ip_loop s)) in *. set (w := wbc_update f mp (lk_wbc (ip_loop s))) in *.
  assert (X : exists c old, In c cs0 /\ ik_form_task f t old m w = Ok c).
  { clear - C0 I. unfold constraints_of in C0. fold f m w in C0. induction C0 as [|u c us cs (old & E) F IH]; [destruct I|]. destruct I as [-> |I]; [exists c, old; split; [left; reflexivity|exact E]|].
    destruct (IH I) as (d & o & J & E'). exists d, o. split; [right; exact J|exact E']. }
  destruct X as (c & old & IC & EC). specialize (SAT c IC). assert (PP : prepared f w) by (exists mp, (lk_wbc (ip_loop s)); reflexivity).
  assert (PT : proper_task t) by (destruct PH as (_ & _ & P & _); rewrite Forall_forall in P; apply P, I).
  destruct t as [gain k|gain k flag|gain k|gain k ref| | |]; cbn [gain_of ik_form_task almost_done proper_task] in *; try exact Logic.I.
  - destruct (stopped_base_com eig f _ gain k tolerance old m w c sol K RC PP AN SM G EC SAT) as (J & P & H1 & H2 & H3). exists old, J, P. split; [exact H1|]. split; [exact H2|]. intros i Hi. apply H3. unfold axes in Hi. destruct f; cbn in Hi; lia.
  - exact (stopped_body_com eig f _ gain k tolerance flag old m w c sol K RC PP AN SM G EC SAT).
  - exact (stopped_base_orientation eig f _ gain k tolerance m w c sol K RC PP AN SM G EC SAT).
  - apply ok_inj in EC. subst c. pose proof (size_ok eig f _ m K RC) as SZ. destruct (next_ok f mp (lk_wbc (ip_loop s)) sol m SZ (AN _ _)) as (g & w' & NX & _ & _ & NA).
    destruct (ik_reference f m mp (lk_wbc (ip_loop s)) sol g w' gain k ref SZ (AN _ _) NX PT) as (_ & _ & _ & _ & RF). apply (proj1 (RF G)) in SAT || pose proof (proj1 (RF G) SAT) as SAT'.
    intros j. pose proof (small_point f sol tolerance AN SM (ROOT_DOF_NUMBER f + joint_id f j)) as B. unfold point in B. specialize (B ltac:(pose proof (joint_id_lt f j); unfold DOF_NUMBER; lia)).
    match goal with H : forall j, angle f g j = _ |- _ => specialize (H j); rewrite (NA j) in H; apply Rlt_le; replace (k * (angle_in f ref j - angle f (ik_gc m) j))%R with (nth (ROOT_DOF_NUMBER f + joint_id f j) (sol_x sol) 0%R) by lra; exact B end.
Qed.

(** ** many intervals *)
Theorem program_intervals (eig : m3 -> euler_type -> v3) (se : ik_settings) (mps : nat -> motion_parameters) (n : nat) (s s' : ik_program) (cs : list command) :
  kinematics (is_features se) (is_kinematics se) -> proper_hierarchy (is_hierarchy se) -> arrives eig se s -> wp_interval (is_wbc se) <> 0%R -> ik_controls se mps n s = Ok (cs, s') ->
  length cs = n /\ exists st P, st 0 = s /\ st n = s' /\ (forall i, i <= n -> getBasePosition (lk_model (ip_loop (st i))) = Ok (P i)) /\
    (forall i c, nth_error cs i = Some c -> ik_control se (mps i) (st i) = Ok (c, st (S i)) /\ executes (is_features se) (is_kinematics se) (wp_interval (is_wbc se)) c (ip_loop (st i)) (ip_loop (st (S i))) (P i) (P (S i))) /\
    forall c0, (vx (P n) = vx (P 0%nat) + wp_interval (is_wbc se) * Rsum n (fun i => vx (cmd_base (nth i cs c0))) /\
                vy (P n) = vy (P 0%nat) + wp_interval (is_wbc se) * Rsum n (fun i => vy (cmd_base (nth i cs c0))))%R.
Proof.
  intros K PH A DT. pose proof (arrives_sound eig se s K PH A) as SO.
  cut (forall cs s', ik_controls se mps n s = Ok (cs, s') -> sound eig se s' /\ length cs = n /\ exists st P, st 0 = s /\ st n = s' /\ (forall i, i <= n -> getBasePosition (lk_model (ip_loop (st i))) = Ok (P i)) /\
    (forall i c, nth_error cs i = Some c -> ik_control se (mps i) (st i) = Ok (c, st (S i)) /\ executes (is_features se) (is_kinematics se) (wp_interval (is_wbc se)) c (ip_loop (st i)) (ip_loop (st (S i))) (P i) (P (S i))) /\
    forall c0, (vx (P n) = vx (P 0%nat) + wp_interval (is_wbc se) * Rsum n (fun i => vx (cmd_base (nth i cs c0))) /\
                vy (P n) = vy (P 0%nat) + wp_interval (is_wbc se) * Rsum n (fun i => vy (cmd_base (nth i cs c0))))%R).
  { intros H E. destruct (H cs s' E) as (_ & R). exact R. }
  clear cs s'. induction n as [|n IH]; intros cs s' E; cbn [ik_controls] in E.
  - injection E as <- <-. split; [exact SO|]. split; [reflexivity|]. destruct (state_saved eig _ _ (lk_model (ip_loop s)) K (proj1 SO)) as (_ & p0 & _ & _ & EP & _).
    exists (fun _ => s), (fun _ => p0). split; [reflexivity|]. split; [reflexivity|]. split; [intros i _; exact EP|]. split; [intros [|i] c H; discriminate|]. intros c0. cbn [Rsum]. split; ring.
  - apply bind_ok in E. destruct E as ((cs1 & s1) & E1 & E). cbn [fst snd] in E. apply bind_ok in E. destruct E as ((c & s2) & E2 & E). cbn [fst snd] in E. injection E as <- <-.
    destruct (IH cs1 s1 E1) as (SO1 & L & st & P & S0 & SN & BP & EX & SUM).
    destruct (control_runs eig se (mps n) s1 c s2 K PH SO1 E2) as (SO2 & m & n' & st' & sols & _ & _ & _ & _ & _ & _ & sols' & AN & EI).
    pose proof (BP n (le_n n)) as BN. rewrite SN in BN. destruct (interval_executes eig _ _ (is_wbc se) (mps n) sols' (ip_loop s1) c (ip_loop s2) (P n) K (proj1 SO1) AN DT BN EI) as (P' & _ & EP' & XC).
    split; [exact SO2|]. split; [rewrite app_length, L; cbn; lia|].
    set (st2 := fun i => if i <=? n then st i else s2). set (P2 := fun i => if i <=? n then P i else P').
    assert (B2 : forall i, i <= n -> st2 i = st i /\ P2 i = P i) by (intros i Hi; unfold st2, P2; destruct (Nat.leb_spec i n); [auto|lia]).
    assert (T2 : st2 (S n) = s2 /\ P2 (S n) = P') by (unfold st2, P2; destruct (Nat.leb_spec (S n) n); [lia|auto]).
    exists st2, P2. split; [rewrite (proj1 (B2 0 ltac:(lia))); exact S0|]. split; [apply T2|]. split; [|split].
    + intros i Hi. destruct (Nat.eq_dec i (S n)) as [-> |Q]; [destruct T2 as (-> & ->); exact EP'|]. destruct (B2 i ltac:(lia)) as (-> & ->). apply BP. lia.
    + intros i d Hd. destruct (Nat.lt_trichotomy i n) as [Q|[-> |Q]].
      * rewrite nth_error_app1 in Hd by lia. destruct (B2 i ltac:(lia)) as (-> & ->). destruct (B2 (S i) ltac:(lia)) as (-> & ->). exact (EX i d Hd).
      * rewrite nth_error_app2 in Hd by lia. rewrite L, Nat.sub_diag in Hd. cbn in Hd. injection Hd as <-. destruct (B2 n ltac:(lia)) as (-> & ->). destruct T2 as (-> & ->). rewrite SN. auto.
      * assert (nth_error (cs1 ++ [c]) i = None) by (apply nth_error_None; rewrite app_length, L; cbn; lia). congruence.
    + intros c0. destruct T2 as (_ & ->). destruct (B2 0 ltac:(lia)) as (_ & ->). destruct (SUM c0) as (SX & SY). destruct XC as (_ & _ & _ & _ & _ & VX & VY & _). cbn [Rsum].
      assert (LA : nth n (cs1 ++ [c]) c0 = c) by (rewrite app_nth2 by lia; rewrite L, Nat.sub_diag; reflexivity).
      assert (FA : forall i, i < n -> nth i (cs1 ++ [c]) c0 = nth i cs1 c0) by (intros i Hi; apply app_nth1; lia).
      rewrite LA, (Rsum_ext n (fun i => vx (cmd_base (nth i (cs1 ++ [c]) c0))) (fun i => vx (cmd_base (nth i cs1 c0)))) by (intros i Hi; rewrite FA by exact Hi; reflexivity).
      rewrite (Rsum_ext n (fun i => vy (cmd_base (nth i (cs1 ++ [c]) c0))) (fun i => vy (cmd_base (nth i cs1 c0)))) by (intros i Hi; rewrite FA by exact Hi; reflexivity).
      split; lra.
Qed.
