(** * The program which plans and executes: iterations of the inverse kinematics *)
From Coq Require Import String List Reals Arith Bool ZArith Lra Lia.
From Verif Require Import Base BaseFacts RSum Matrix Mat3 Solution WalkProgramFacts2 RotarySpec Rotary Euler EulerSpec EulerFacts Rbdl RbdlSpec PepperIk PepperIkSpec PepperIkFacts PepperIkTasks PepperIkTasksSpec PepperIkTasksFacts
  PepperIkLoop PepperIkCommandFacts PepperIkLoopSpec PepperIkLoopFacts PepperIkLoopRun KKT PepperIkProgram PepperIkProgramSpec PepperIkProgramFacts2 PepperIkProgramFacts3 PepperIkProgramRun PepperCoupled PepperCoupledSpec.
Import ListNotations.
Local Open Scope nat_scope.

Lemma norm_distance a b : v3norm (v3sub a b) = distance a b.
Proof. destruct a, b. reflexivity. Qed.
Lemma norm_zero a : v3norm a = distance a (V3 0 0 0).
Proof. destruct a as [x y z]. unfold v3norm, distance, v3dot. cbn [vx vy vz]. rewrite !Rminus_0_r. reflexivity. Qed.
Lemma closeness eig f fk tol mp m : kinematics f fk -> reachable eig f fk m -> exists e, getStateError mp m = Ok e /\ ((co_error e < tol)%R <-> close tol mp m).
Proof.
  intros K RC. destruct (state_error eig f fk mp m K RC) as (b & p & o & e & EB & EP & EO & OE & ES). eexists. split; [exact ES|]. unfold co_error. cbn [mp_base_com mp_base_rpy mp_body_com]. rewrite !norm_distance, norm_zero. split.
  - intros H. exists b, p, o, e. auto 6.
  - intros (b' & p' & o' & e' & EB' & EP' & EO' & OE' & H). rewrite EB in EB'. apply ok_inj in EB'. subst b'. rewrite EP in EP'. apply ok_inj in EP'. subst p'. rewrite EO in EO'. apply ok_inj in EO'. subst o'.
    rewrite (error_unique _ _ _ _ OE OE'). exact H.
Qed.

Section Ik.
Variables (eig : m3 -> euler_type -> v3) (se : co_settings) (mp : motion_parameters).
Notation ik := (ct_ik se).
Notation f := (is_features ik).
Notation fk := (is_kinematics ik).
Notation tol := (ct_tolerance se).
Notation sm := (wp_tolerance (is_wbc ik)).
Hypothesis (K : kinematics f fk) (PH : proper_hierarchy (is_hierarchy ik)).

(** one iteration and its end *)
Lemma co_step s sol s' : sound eig ik s -> ik_step ik mp s = Ok (sol, s') -> exists e, getStateError mp (lk_model (ip_loop s')) = Ok e /\ ((co_error e < tol)%R <-> close tol mp (lk_model (ip_loop s'))) /\
  ((norm_inf (sol_x sol) < sm)%R <-> small sm sol) /\ sound eig ik s' /\ ik_saved (lk_model (ip_loop s')) = ik_saved (lk_model (ip_loop s)).
Proof.
  intros SO E. destruct (step_sound eig ik mp s sol s' K PH SO E) as (AN & EI & SO'). destruct (closeness eig f fk tol mp (lk_model (ip_loop s')) K (proj1 SO')) as (e & EE & CL). exists e. split; [exact EE|]. split; [exact CL|].
  split; [exact (small_norm f sol sm AN)|]. split; [exact SO'|]. destruct (iteration_ok eig f fk mp sol (ip_loop s) K (proj1 SO) AN) as (l & EI' & _ & SV & _). rewrite EI' in EI. apply ok_inj in EI. subst l. exact SV.
Qed.
Lemma co_steps_runs : forall left s r, sound eig ik s -> co_steps ik tol mp left s = Ok r ->
  exists n st sols, n < left /\ steps_of ik mp s st sols (S n) /\ co_stops se mp st sols n /\ r = st (S n).
Proof.
  induction left as [|left IH]; intros s r SO E; cbn [co_steps] in E; [discriminate|]. apply bind_ok in E. destruct E as ((sol & s') & ES & E). cbn [fst snd] in E.
  destruct (co_step s sol s' SO ES) as (e & EE & CL & SM & SO' & _). rewrite EE in E. cbn [bind] in E.
  assert (B : close tol mp (lk_model (ip_loop s')) \/ small sm sol -> r = s' -> exists n st sols, n < S left /\ steps_of ik mp s st sols (S n) /\ co_stops se mp st sols n /\ r = st (S n)).
  { intros D ->. exists 0, (scons s (fun _ => s')), (scons sol (fun _ => sol)). split; [lia|]. split; [apply (steps_cons ik mp s sol s'); [exact ES|split; [reflexivity|intros k L; lia]]|].
    split; [split; [exact D|intros k L; lia]|reflexivity]. }
  destruct Rlt_dec as [H|H]; [apply B; [left; apply CL, H|injection E as <-; reflexivity]|]. destruct Rlt_dec as [H2|H2]; [apply B; [right; apply SM, H2|injection E as <-; reflexivity]|].
  destruct (IH s' r SO' E) as (n & st & sols & N & ST & (F1 & F2) & ->). exists (S n), (scons s st), (scons sol sols). split; [lia|]. split; [exact (steps_cons ik mp s sol s' st sols _ ES ST)|].
  split; [|reflexivity]. split; [exact F1|]. intros [|k] L; [|exact (F2 k ltac:(lia))]. cbn [scons]. rewrite (proj1 ST). intros [X|X]; [apply H, CL, X|apply H2, SM, X].
Qed.
Lemma co_steps_total reg s : sound eig ik s -> forall left n st sols, steps_of ik mp s st sols n -> co_goes_on se mp st sols n ->
  (forall k st sols, k < n + left -> steps_of ik mp s st sols k -> co_goes_on se mp st sols k -> solvable ik mp reg (ip_loop (st k))) ->
  (exists n' st' sols', n' < n + left /\ steps_of ik mp s st' sols' (S n') /\ co_stops se mp st' sols' n' /\ co_steps ik tol mp left (st n) = Ok (st' (S n'))) \/
  (exists st' sols', steps_of ik mp s st' sols' (n + left) /\ co_goes_on se mp st' sols' (n + left) /\ co_steps ik tol mp left (st n) = Throw).
Proof.
  intros SO. induction left as [|left IH]; intros n st sols ST NS SV.
  - right. exists st, sols. rewrite Nat.add_0_r. auto.
  - pose proof (steps_sound eig ik mp s st sols n K PH SO ST n (le_n n)) as SN.
    destruct (sound_step eig ik mp reg (st n) K PH SN (SV n st sols ltac:(lia) ST NS)) as (sol & s' & E & AN & _).
    destruct (co_step (st n) sol s' SN E) as (e & EE & CL & SM & SO' & _).
    cbn [co_steps]. rewrite E. cbn [bind fst snd]. rewrite EE. cbn [bind].
    pose proof (steps_snoc ik mp s st sols n sol s' ST E) as ST'. set (st' := fun k => if k <=? n then st k else s') in *. set (sols' := fun k => if k <? n then sols k else sol) in *.
    assert (EL : st' (S n) = s') by (unfold st'; destruct (Nat.leb_spec (S n) n); [lia|reflexivity]). assert (EN : sols' n = sol) by (unfold sols'; rewrite Nat.ltb_irrefl; reflexivity).
    assert (EB : forall k, k < n -> sols' k = sols k /\ st' (S k) = st (S k)) by (intros k L; unfold sols', st'; destruct (Nat.ltb_spec k n), (Nat.leb_spec (S k) n); try lia; auto).
    assert (NS' : forall k, k < n -> ~ close tol mp (lk_model (ip_loop (st' (S k)))) /\ ~ small sm (sols' k)) by (intros k L; destruct (EB k L) as (-> & ->); apply NS, L).
    assert (B : close tol mp (lk_model (ip_loop s')) \/ small sm sol -> exists n' st' sols', n' < n + S left /\ steps_of ik mp s st' sols' (S n') /\ co_stops se mp st' sols' n' /\ Ok s' = Ok (st' (S n'))).
    { intros D. exists n, st', sols'. split; [lia|]. split; [exact ST'|]. split; [split; [rewrite EN, EL; exact D|intros k L [X|X]; [apply (proj1 (NS' k L)), X|apply (proj2 (NS' k L)), X]]|]. rewrite EL. reflexivity. }
    destruct Rlt_dec as [R1|R1]; [left; apply B; left; apply CL, R1|]. destruct Rlt_dec as [R2|R2]; [left; apply B; right; apply SM, R2|].
    specialize (IH (S n) st' sols' ST'). rewrite EL in IH. replace (S n + left) with (n + S left) in IH by lia. apply IH.
    + intros k L. destruct (Nat.eq_dec k n) as [-> |Q]; [|apply NS'; lia]. rewrite EN, EL. split; intros X; [apply R1, CL, X|apply R2, SM, X].
    + exact SV.
Qed.
Lemma steps_saved s st sols n : sound eig ik s -> steps_of ik mp s st sols n -> ik_saved (lk_model (ip_loop (st n))) = ik_saved (lk_model (ip_loop s)).
Proof.
  intros SO ST. assert (H : forall k, k <= n -> ik_saved (lk_model (ip_loop (st k))) = ik_saved (lk_model (ip_loop s))); [|apply H; lia].
  induction k as [|k IH]; intros L; [rewrite (proj1 ST); reflexivity|]. rewrite <- IH by lia. destruct (co_step (st k) (sols k) (st (S k)) (steps_sound eig ik mp s st sols n K PH SO ST k ltac:(lia)) (proj2 ST k ltac:(lia))) as (_ & _ & _ & _ & _ & E). exact E.
Qed.

(** the whole control interval *)
Lemma co_control_runs s c s' : sound eig ik s -> (wp_interval (is_wbc ik) <> 0)%R -> co_control ik tol mp s = Ok (c, s') ->
  sound eig ik s' /\ exists m n st sols, saveCurrentState (lk_model (ip_loop s)) = Ok m /\ n < wp_iterations (is_wbc ik) /\ steps_of ik mp (ik_with_model m s) st sols (S n) /\
    co_stops se mp st sols n /\ s' = st (S n) /\
    exists P P', getBasePosition (lk_model (ip_loop s)) = Ok P /\ getBasePosition (lk_model (ip_loop s')) = Ok P' /\ executes f fk (wp_interval (is_wbc ik)) c (ip_loop s) (ip_loop s') P P'.
Proof.
  intros SO DT E. unfold co_control in E. apply bind_ok in E. destruct E as (m & EM & E). apply bind_ok in E. destruct E as (r & ER & E). apply bind_ok in E. destruct E as (c' & EC & E). apply ok_pair in E. destruct E as (-> & ->).
  pose proof (save_sound eig ik s m SO EM) as SM. destruct (co_steps_runs _ _ s' SM ER) as (n & st & sols & N & ST & FS & EQ).
  assert (SO' : sound eig ik s') by (rewrite EQ; apply (steps_sound eig ik mp _ st sols (S n) K PH SM ST); lia). split; [exact SO'|].
  exists m, n, st, sols. do 5 (split; [assumption|]).
  destruct (state_saved eig f fk (lk_model (ip_loop s)) K (proj1 SO)) as (m1 & p0 & o0 & ES & EP0 & EO0 & SV & EG & _). rewrite EM in ES. apply ok_inj in ES. subst m1.
  pose proof (steps_saved _ st sols (S n) SM ST) as SS. rewrite <- EQ in SS. cbn [ik_with_model ip_loop lk_model] in SS. rewrite SV in SS.
  destruct (command_ok eig f fk _ _ (wp_interval (is_wbc ik)) K (proj1 SO') SS DT) as (pp & o & e & c' & EP' & EO' & OE & CJ & CI & CB & CW & [(E' & AL)|(E' & _)]); rewrite E' in EC; [|discriminate]. apply ok_inj in EC. subst c'.
  exists p0, pp. split; [exact EP0|]. split; [exact EP'|]. destruct AL as (A1 & A2 & A3). cbn [sv_gc sv_position sv_orientation] in *.
  unfold executes. split; [exact CJ|]. split; [exact CI|]. split; [exact A1|]. split; [exact A2|]. split; [exact A3|]. rewrite CB. cbn [vx vy vz].
  split; [field; exact DT|]. split; [field; exact DT|]. intros EF BR. pose proof K as K'. pose proof (proj1 SO') as RC'. pose proof (proj1 SO) as RC. rewrite EF in K', RC', RC.
  destruct (base_pose_root eig _ _ K' RC' BR) as (z & _ & EO). rewrite EO' in EO. apply ok_inj in EO.
  destruct (base_pose_root eig _ _ K' RC BR) as (z2 & _ & EO2). rewrite EO0 in EO2. apply ok_inj in EO2.
  split.
  - rewrite EO, EO2 in OE. rewrite (error_unique _ _ _ _ OE (error_is _ _)), error_yaw. cbn [vz]. field. exact DT.
  - specialize (CW _ EO). rewrite CB in CW. cbn [vx vy vz] in CW. exact CW.
Qed.
Lemma co_control_total reg s : sound eig ik s ->
  (forall m, saveCurrentState (lk_model (ip_loop s)) = Ok m -> forall k st sols, k < wp_iterations (is_wbc ik) -> steps_of ik mp (ik_with_model m s) st sols k -> co_goes_on se mp st sols k -> solvable ik mp reg (ip_loop (st k))) ->
  exists m, saveCurrentState (lk_model (ip_loop s)) = Ok m /\
  ((exists n st sols, n < wp_iterations (is_wbc ik) /\ steps_of ik mp (ik_with_model m s) st sols (S n) /\ co_stops se mp st sols n /\
      co_control ik tol mp s = bind (getRobotCommand (wp_interval (is_wbc ik)) (lk_model (ip_loop (st (S n))))) (fun c => Ok (c, st (S n)))) \/
   (exists st sols, steps_of ik mp (ik_with_model m s) st sols (wp_iterations (is_wbc ik)) /\ co_goes_on se mp st sols (wp_iterations (is_wbc ik)) /\ co_control ik tol mp s = Throw)).
Proof.
  intros SO SV. destruct (state_saved eig f fk (lk_model (ip_loop s)) K (proj1 SO)) as (m & _ & _ & EM & _). exists m. split; [exact EM|]. pose proof (save_sound eig ik s m SO EM) as SM.
  assert (S0 : steps_of ik mp (ik_with_model m s) (fun _ => ik_with_model m s) (fun _ => mkSolution structure_reset []) 0) by (split; [reflexivity|intros k L; lia]).
  destruct (co_steps_total reg _ SM (wp_iterations (is_wbc ik)) 0 _ _ S0 ltac:(intros k L; lia)) as [(n & st & sols & N & ST & FS & E)|(st & sols & ST & GO & E)].
  - intros k st sols L ST GO. exact (SV m EM k st sols L ST GO).
  - left. exists n, st, sols. split; [exact N|]. split; [exact ST|]. split; [exact FS|]. unfold co_control. rewrite EM. cbn [bind]. cbn beta in E. rewrite E. reflexivity.
  - right. exists st, sols. split; [exact ST|]. split; [exact GO|]. unfold co_control. rewrite EM. cbn [bind]. cbn beta in E. rewrite E. reflexivity.
Qed.
End Ik.
