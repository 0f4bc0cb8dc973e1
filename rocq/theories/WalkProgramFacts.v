(** * The walking program: the hierarchy *)
From Coq Require Import String List Reals Arith Bool ZArith Lra Lia.
From Verif Require Import Base BaseFacts RSum Matrix Mat2 Mat3 ActiveSet Mixins ConstraintType HierarchyLevel HierarchySpec HierarchyFacts Constraints ConstraintsSpec QP QPSpec Problem ProblemSpec ProblemFacts LeftRight FootParameters FootTrajectory
  PointMass6z PointMass6zSpec Solution Task MpcGuess MpcGuessFacts PepperTasks PepperTasksSpec PepperTasksFacts2 StanceFSM WalkPreview WalkMpc WalkModel WalkProfiles WalkProfilesSpec WalkTasks WalkTasksSpec WalkTasksFacts2 WalkLoop
  QpoasesBridge QpoasesBridgeSpec Backends BackendsSpec Solver SolverLife SolverLifeSpec WalkProgram.
Import ListNotations.
Local Open Scope nat_scope.

Definition ids0 : list (nat * ctype) := [(STEPS, ILU); (COPS, ILU)].
Definition ids1 : list (nat * ctype) := [(COPVEL, AB); (COMVEL, AB); (CENTERING, GIB0)].
Definition unguessed (l : level) : Prop := Forall (fun i => tk_guess (ti_task i) = []) (lv_tasks l).
(** the hierarchy of the program *)
Definition shape (p : problem) (l0 l1 : level) : Prop := pb_levels p = [l0; l1] /\ task_ids l0 = ids0 /\ task_ids l1 = ids1.
(** the active sets which the tasks of a level have received *)
Definition actuals (l : level) : list aset := map (fun i => tk_actual (ti_task i)) (lv_tasks l).
(** what the tasks keep of the previous iteration: [sa], [ca], [ce] are the active sets of the bounds on [m] steps, of the bounds on the CoP and of the
    centering of the CoP *)
Record keeps (hs : hotstart) (N m : nat) (l0 l1 : level) (sa ca ce : aset) : Prop := mkKeeps {
  ke_first : actuals l0 = [sa; ca];
  ke_second : exists a b, actuals l1 = [a; b; ce];
  ke_steps : length sa = 2 * m;
  ke_cop : ca = [] \/ length ca = 2 * N;
  ke_centering : ce = [] \/ length ce = 2 * N;
  ke_defined : ~ In UNDEFINED (sa ++ ca);
  ke_guess : hs_active hs = false -> unguessed l0 /\ unguessed l1;
  ke_report : hs_report hs = false -> sa = [] /\ ca = [] }.
Lemma setup_shape p : preach p -> exists p' l0 l1, setup_hierarchy p = Ok p' /\ preach p' /\ shape p' l0 l1 /\ forall hs N, keeps hs N 0 l0 l1 [] [] [].
Proof.
  intros H. unfold setup_hierarchy.
  set (q0 := pb_reset 2 p). assert (R0 : preach q0) by (apply pr_reset; exact H).
  assert (E0 : pb_levels q0 = [level_new; level_new]) by reflexivity. clearbody q0.
  assert (St : forall q a b t, preach q -> pb_levels q = [a; b] -> (exists q', pb_pushTask q t 0 = Ok q' /\ preach q' /\ pb_levels q' = [level_pushTask a t; b]) /\
    (exists q', pb_pushTask q t 1 = Ok q' /\ preach q' /\ pb_levels q' = [a; level_pushTask b t])).
  { intros q a b t R E. split.
    - assert (P : pb_pushTask q t 0 = Ok (mkProblem (update (pb_levels q) 0 (level_pushTask a t)) (pb_counts q))) by (unfold pb_pushTask; rewrite E; reflexivity).
      eexists. split; [exact P|]. split; [exact (pr_push _ _ _ _ R P)|]. cbn [pb_levels]. rewrite E. reflexivity.
    - assert (P : pb_pushTask q t 1 = Ok (mkProblem (update (pb_levels q) 1 (level_pushTask b t)) (pb_counts q))) by (unfold pb_pushTask; rewrite E; reflexivity).
      eexists. split; [exact P|]. split; [exact (pr_push _ _ _ _ R P)|]. cbn [pb_levels]. rewrite E. reflexivity. }
  destruct (proj1 (St q0 _ _ (new_task STEPS ILU) R0 E0)) as (q1 & P1 & R1 & E1). rewrite P1. cbn [bind].
  destruct (proj1 (St q1 _ _ (new_task COPS ILU) R1 E1)) as (q2 & P2 & R2 & E2). rewrite P2. cbn [bind].
  destruct (proj2 (St q2 _ _ (new_task COMVEL AB) R2 E2)) as (q3 & P3 & R3 & E3). rewrite P3. cbn [bind].
  destruct (proj2 (St q3 _ _ (new_task COPVEL AB) R3 E3)) as (q4 & P4 & R4 & E4). rewrite P4. cbn [bind].
  destruct (proj2 (St q4 _ _ (new_task CENTERING GIB0) R4 E4)) as (q5 & P5 & R5 & E5). rewrite P5.
  eexists q5, _, _. split; [reflexivity|]. split; [exact R5|]. split; [split; [exact E5|]; split; reflexivity|]. intros hs N. split; try reflexivity.
  - eexists _, _. reflexivity.
  - left. reflexivity.
  - left. reflexivity.
  - intros [].
  - intros _. split; repeat constructor.
  - intros _. split; reflexivity.
Qed.

Lemma in_ids l i : In i (lv_tasks l) -> In (tk_id (ti_task i), tk_type (ti_task i)) (task_ids l).
Proof. intros H. unfold task_ids. apply in_map_iff. exists i. auto. Qed.
Lemma ids_in l x : In x (task_ids l) -> exists i, In i (lv_tasks l) /\ (tk_id (ti_task i), tk_type (ti_task i)) = x.
Proof. unfold task_ids. intros H. apply in_map_iff in H. destruct H as (i & E & H). exists i. auto. Qed.
Lemma satisfies_ids cs l x : satisfies_level cs l x <-> forall k, In k (task_ids l) -> satisfies (cs (fst k)) x.
Proof.
  split.
  - intros H k K. apply ids_in in K. destruct K as (i & I & <-). exact (H i I).
  - intros H i I. exact (H _ (in_ids l i I)).
Qed.
Lemma cost_ids cs l x : level_cost cs l x = sum_list (map (fun k => squared_residuals (cs (fst k)) x) (task_ids l)).
Proof. unfold level_cost, task_ids. rewrite map_map. reflexivity. Qed.

Lemma formed_same fo gu l l' : Forall2 (formed_from fo gu) (lv_tasks l) (lv_tasks l') -> task_ids l' = task_ids l /\ actuals l' = actuals l /\ (gu = false -> unguessed l -> unguessed l').
Proof.
  intros F. unfold unguessed, task_ids, actuals. induction F as [|i o a b H F (IH1 & IH2 & IH3)]; [split; [reflexivity|]; split; [reflexivity|intros; constructor]|].
  destruct (form_task_ok _ _ _ _ H) as (E1 & E2 & _ & E4 & _ & _ & _ & E3 & _). cbn [map]. rewrite E1, E2, E4, IH1, IH2. split; [reflexivity|]. split; [reflexivity|].
  intros G U. inversion U; subst. constructor; [rewrite E3 by reflexivity; assumption|apply IH3; [reflexivity|assumption]].
Qed.
Lemma two_tasks l x y : task_ids l = [x; y] -> exists i j, lv_tasks l = [i; j] /\ (tk_id (ti_task i), tk_type (ti_task i)) = x /\ (tk_id (ti_task j), tk_type (ti_task j)) = y.
Proof. unfold task_ids. destruct (lv_tasks l) as [|i [|j [|k r]]]; intros E; try discriminate E. injection E as <- <-. exists i, j. auto. Qed.
Lemma three_tasks l x y z : task_ids l = [x; y; z] -> exists i j k, lv_tasks l = [i; j; k] /\ (tk_id (ti_task i), tk_type (ti_task i)) = x /\ (tk_id (ti_task j), tk_type (ti_task j)) = y /\ (tk_id (ti_task k), tk_type (ti_task k)) = z.
Proof. unfold task_ids. destruct (lv_tasks l) as [|i [|j [|k [|u r]]]]; intros E; try discriminate E. injection E as <- <- <-. exists i, j, k. auto. Qed.

(** ** guesses of the tasks of bounds *)
Definition guessed_cops (N : nat) (ca : aset) : aset := match ca with [] => repeat INACTIVE (2 * N) | _ => skipn 2 ca ++ [INACTIVE; INACTIVE] end.
Lemma steps_value N fixed m n t : length (tk_actual t) = 2 * m -> footstepBounds_guess fixed (structure_wpg N n) t = Ok (guessed_steps fixed m n (tk_actual t)).
Proof.
  intros L. pose proof (guess_steps_value N fixed m n t L) as E. unfold guess_footstepBounds in E. apply bind_ok in E. destruct E as (g & E & X). rewrite E.
  unfold set_guess in X. injection X as ->. reflexivity.
Qed.
Lemma guessed_steps_length fixed m n (sa : aset) : length sa = 2 * m -> m <= S n -> length (guessed_steps fixed m n sa) = 2 * n.
Proof.
  intros L H. unfold guessed_steps. destruct fixed; [apply repeat_length|]. destruct (Nat.eqb_spec m n) as [->|E]; [exact L|].
  destruct (Nat.ltb_spec n m); [rewrite skipn_length; lia|]. rewrite app_length, repeat_length. lia.
Qed.
Lemma skipn_in {A} (x : A) k l : In x (skipn k l) -> In x l.
Proof. intros H. rewrite <- (firstn_skipn k l). apply in_or_app. right. exact H. Qed.
Lemma firstn_in {A} (x : A) k l : In x (firstn k l) -> In x l.
Proof. intros H. rewrite <- (firstn_skipn k l). apply in_or_app. left. exact H. Qed.
Lemma guessed_steps_defined fixed m n sa : ~ In UNDEFINED sa -> ~ In UNDEFINED (guessed_steps fixed m n sa).
Proof.
  intros U H. unfold guessed_steps in H. destruct fixed; [apply repeat_spec in H; discriminate H|]. destruct (m =? n); [exact (U H)|]. destruct (n <? m); [exact (U (skipn_in _ _ _ H))|].
  apply in_app_or in H. destruct H as [H|H]; [exact (U H)|]. apply repeat_spec in H. discriminate H.
Qed.
Lemma cops_value N n t : 1 < N -> tk_actual t = [] \/ length (tk_actual t) = 2 * N -> copBounds_guess (structure_wpg N n) t = Ok (guessed_cops N (tk_actual t)).
Proof.
  intros HN L. unfold copBounds_guess. rewrite (proj1 (loc_wpg N n)). cbn [len]. destruct L as [-> | L].
  - unfold shifted_guess, guessed_cops. cbn [length Nat.eqb]. unfold as_initialize_type. replace (N * 2) with (2 * N) by lia. reflexivity.
  - destruct (PepperTasksFacts2.shifted_guess_next (N * 2) (tk_actual t) ltac:(lia) ltac:(lia)) as (g & E & LG & G1 & G2). rewrite E. f_equal. unfold guessed_cops.
    destruct (tk_actual t) as [|u v] eqn:Ea; [cbn in L; lia|]. rewrite <- Ea in *. clear u v Ea. apply nth_error_ext. intros j.
    destruct (Nat.ltb_spec j (N * 2)) as [J|J].
    + destruct (Nat.ltb_spec (j + 2) (N * 2)) as [K|K].
      * rewrite G1 by exact K. rewrite nth_error_app1 by (rewrite skipn_length; lia). rewrite nth_error_skipn. f_equal. lia.
      * rewrite G2 by lia. rewrite nth_error_app2 by (rewrite skipn_length; lia). rewrite skipn_length. assert (X : j - (length (tk_actual t) - 2) = 0 \/ j - (length (tk_actual t) - 2) = 1) by lia.
        destruct X as [-> | ->]; reflexivity.
    + rewrite !(proj2 (nth_error_None _ _)); [reflexivity| |lia]. rewrite app_length, skipn_length. cbn [length]. lia.
Qed.
Lemma guessed_cops_length N ca : 1 < N -> ca = [] \/ length ca = 2 * N -> length (guessed_cops N ca) = 2 * N.
Proof.
  intros HN L. unfold guessed_cops. destruct ca as [|u v]; [apply repeat_length|]. destruct L as [L|L]; [discriminate L|]. rewrite app_length, skipn_length. cbn [length] in *. lia.
Qed.
Lemma guessed_cops_defined N ca : ~ In UNDEFINED ca -> ~ In UNDEFINED (guessed_cops N ca).
Proof.
  intros U H. unfold guessed_cops in H. destruct ca as [|u v]; [apply repeat_spec in H; discriminate H|]. apply in_app_or in H. destruct H as [H|H]; [exact (U (skipn_in _ _ _ H))|].
  cbn in H. destruct H as [H|[H|[]]]; discriminate H.
Qed.

Lemma Forall2_two {A B} (P : A -> B -> Prop) a b l : Forall2 P [a; b] l -> exists c d, l = [c; d] /\ P a c /\ P b d.
Proof. intros H. inversion H as [|? c ? r X Y]; subst. inversion Y as [|? d ? r' X' Y']; subst. inversion Y'; subst. exists c, d. auto. Qed.
Lemma Forall2_three {A B} (P : A -> B -> Prop) a b c l : Forall2 P [a; b; c] l -> exists x y z, l = [x; y; z] /\ P a x /\ P b y /\ P c z.
Proof. intros H. inversion H as [|? x ? r X Y]; subst. apply Forall2_two in Y. destruct Y as (y & z & -> & Y & Z). exists x, y, z. auto. Qed.
(** forming the hierarchy of the program *)
Lemma form_shape se N n m f p l0 l1 sa ca ce : let hs := se_start se in let fo := formed_of se (structure_wpg N n) f in
  preach p -> shape p l0 l1 -> keeps hs N m l0 l1 sa ca ce -> 1 < N -> m <= S n -> (forall k, In k (map fst (ids0 ++ ids1)) -> f_consistent (fo k) = true) ->
  getNumberOfConstraints (ft_steps f) = 2 * n -> getNumberOfConstraints (ft_cop f) = 2 * N -> getNumberOfConstraints (zt_constr (ft_centering f)) = 2 * N ->
  exists p' l0' l1', pb_formHierarchy fo (hs_active hs) p = Ok p' /\ preach p' /\ shape p' l0' l1' /\ keeps hs N m l0' l1' sa ca ce /\
    Forall2 (formed_from fo (hs_active hs)) (lv_tasks l0) (lv_tasks l0') /\
    (exists i j, lv_tasks l0' = [i; j] /\ tk_id (ti_task i) = STEPS /\ tk_id (ti_task j) = COPS /\ ti_loc i = mkLoc 0 (2 * n) /\ ti_loc j = mkLoc (2 * n) (2 * N)) /\
    (exists i j k, lv_tasks l1' = [i; j; k] /\ len (ti_loc k) = 2 * N) /\
    level_getNumberOfConstraints l0' = 2 * n + 2 * N /\
    (hs_active hs = true -> exists a1, pb_guessActiveSet p' = Ok [guessed_steps (se_fixed se) m n sa ++ guessed_cops N ca; a1] /\ length a1 = level_getNumberOfConstraints l1').
Proof.
  intros hs fo R (E & I0 & I1) K HN Hm C N0 N1 N2. pose proof K as [K1 (a & b & K2) K3 K4 K5 K6 K7 K8].
  destruct (two_tasks _ _ _ I0) as (t0 & t1 & T0 & J0 & J1). destruct (three_tasks _ _ _ _ I1) as (t2 & t3 & t4 & T1 & J2 & J3 & J4).
  unfold actuals in K1, K2. rewrite T0 in K1. rewrite T1 in K2. cbn [map] in K1, K2. injection K1 as A0 A1. injection K2 as A2 A3 A4.
  injection J0 as D0 _. injection J1 as D1 _. injection J2 as D2 _. injection J3 as D3 _. injection J4 as D4 _.
  assert (G0 : forall t, tk_actual t = sa -> footstepBounds_guess (se_fixed se) (structure_wpg N n) t = Ok (guessed_steps (se_fixed se) m n sa)).
  { intros t Et. rewrite (steps_value N (se_fixed se) m n t) by (rewrite Et; exact K3). rewrite Et. reflexivity. }
  assert (G1 : forall t, tk_actual t = ca -> copBounds_guess (structure_wpg N n) t = Ok (guessed_cops N ca)).
  { intros t Et. rewrite (cops_value N n t HN) by (rewrite Et; exact K4). rewrite Et. reflexivity. }
  assert (LF0 : level_formable fo (hs_active hs) l0).
  { split.
    - rewrite T0. constructor; [|constructor; [|constructor]]; (split; [|split]).
      + rewrite D0. apply C. cbn; auto.
      + intros Hg. destruct (K7 Hg) as [U _]. unfold unguessed in U. rewrite T0 in U. inversion U; subst. left. rewrite H1. reflexivity.
      + intros _. rewrite D0. cbn [fo formed_of f_guess Nat.eqb STEPS]. exists (guessed_steps (se_fixed se) m n sa). split; [apply G0; exact A0|]. right. transitivity (2 * n); [apply guessed_steps_length; assumption|symmetry; exact N0].
      + rewrite D1. apply C. cbn; auto.
      + intros Hg. destruct (K7 Hg) as [U _]. unfold unguessed in U. rewrite T0 in U. inversion U as [|? ? _ U']; subst. inversion U'; subst. left. rewrite H1. reflexivity.
      + intros _. rewrite D1. cbn [fo formed_of f_guess Nat.eqb COPS STEPS]. exists (guessed_cops N ca). split; [apply G1; exact A1|]. right. transitivity (2 * N); [apply guessed_cops_length; assumption|symmetry; exact N1].
    - rewrite T0. cbn [map]. change (list_sum [?x; ?y]) with (x + (y + 0)). rewrite D1. change (f_n (fo COPS)) with (getNumberOfConstraints (ft_cop f)). lia. }
  assert (LF1 : level_formable fo (hs_active hs) l1).
  { split.
    - rewrite T1. assert (X : forall t, In t [t2; t3; t4] -> tk_id (ti_task t) = COPVEL \/ tk_id (ti_task t) = COMVEL \/ tk_id (ti_task t) = CENTERING /\ tk_actual (ti_task t) = ce).
      { intros t [<-|[<-|[<-|[]]]]; auto. }
      apply Forall_forall. intros t It. assert (It' : In t (lv_tasks l1)) by (rewrite T1; exact It). apply X in It. split; [|split].
      + apply C. cbn. destruct It as [->|[->|[-> _]]]; auto 8.
      + intros Hg. destruct (K7 Hg) as [_ U]. unfold unguessed in U. rewrite Forall_forall in U. left. rewrite (U _ It'). reflexivity.
      + intros _. destruct It as [->|[->|[-> ->]]]; cbn [fo formed_of f_guess f_unmodified f_n constraints_of Nat.eqb COPVEL COMVEL CENTERING STEPS COPS]; try discriminate.
        intros _. destruct K5 as [->|K5]; [left; reflexivity|right; etransitivity; [exact K5|symmetry; exact N2]].
    - rewrite T1. cbn [map]. change (list_sum [?x; ?y; ?z]) with (x + (y + (z + 0))). rewrite D4. change (f_n (fo CENTERING)) with (getNumberOfConstraints (zt_constr (ft_centering f))). lia. }
  destruct (problem_form_accepted fo (hs_active hs) p R) as [[_ A] _]. destruct A as (p' & P).
  { unfold pb_getNumberOfLevels. rewrite E. split; [cbn; lia|]. repeat constructor; try apply LF0; apply LF1. }
  destruct (formed_levels fo (hs_active hs) p p' R P) as (F & Ct & R'). rewrite E in F. destruct (preach_wf p R) as [W _]. rewrite E in W. assert (W0 : lreach l0) by (inversion W; assumption). assert (W1 : lreach l1) by (inversion W as [|? ? _ W']; inversion W'; assumption).
  destruct (Forall2_two _ _ _ _ F) as (l0' & l1' & E' & F0 & F1).
  destruct (form_ok _ _ _ _ (lreach_gf _ W0) F0) as (X0 & Lo0 & Nc0 & _). destruct (form_ok _ _ _ _ (lreach_gf _ W1) F1) as (X1 & Lo1 & Nc1 & _).
  destruct (formed_same _ _ _ _ X0) as (S0 & V0 & U0). destruct (formed_same _ _ _ _ X1) as (S1 & V1 & U1).
  exists p', l0', l1'. split; [exact P|]. split; [exact R'|]. split; [split; [exact E'|]; split; congruence|]. split.
  { split; try assumption.
    - rewrite V0. exact (ke_first _ _ _ _ _ _ _ _ K).
    - rewrite V1. exact (ke_second _ _ _ _ _ _ _ _ K).
    - intros Hg. destruct (K7 Hg). split; [apply U0; assumption|apply U1; assumption]. }
  split; [exact X0|].
  rewrite T0 in X0. rewrite T1 in X1.
  destruct (Forall2_two _ _ _ _ X0) as (y0 & y1 & Q0 & Y0 & Y1). destruct (Forall2_three _ _ _ _ _ X1) as (y2 & y3 & y4 & Q2 & Y2 & Y3 & Y4). symmetry in Q0, Q2.
  destruct (form_task_ok _ _ _ _ Y0) as (H00 & _ & H01 & _ & _ & _ & _ & _ & _ & _ & H02). destruct (form_task_ok _ _ _ _ Y1) as (H10 & _ & H11 & _ & _ & _ & _ & _ & _ & _ & H12).
  destruct (form_task_ok _ _ _ _ Y4) as (H40 & _ & H41 & _ & _ & _ & _ & _ & H42 & H43 & _).
  rewrite D0 in H01, H02. rewrite D1 in H11, H12. rewrite D4 in H41, H42, H43.
  cbn [fo formed_of f_n f_guess constraints_of Nat.eqb STEPS COPS CENTERING] in H01, H02, H11, H12, H41, H42, H43.
  rewrite N0 in H01. rewrite N1 in H11. rewrite N2 in H41.
  rewrite <- Q0 in Lo0, Nc0. rewrite <- Q2 in Lo1, Nc1. cbn [locs_from] in Lo0, Lo1. rewrite !sumn_cons in Nc0. rewrite !sumn_cons in Nc1. change (sumn []) with 0 in Nc0, Nc1.
  split. { exists y0, y1. split; [symmetry; exact Q0|]. split; [congruence|]. split; [congruence|]. destruct Lo0 as (L1 & L2 & _). rewrite L1, L2, H01, H11. split; reflexivity. }
  split. { exists y2, y3, y4. split; [symmetry; exact Q2|]. destruct Lo1 as (_ & _ & L3 & _). rewrite L3. cbn [len]. exact H41. }
  split; [lia|].
  intros Hg. rewrite Hg in *. specialize (H02 eq_refl _ eq_refl). specialize (H12 eq_refl _ eq_refl).
  rewrite G0 in H02 by exact A0. rewrite G1 in H12 by exact A1. injection H02 as H02. injection H12 as H12.
  assert (Full : forall t t', formed_from fo true t t' -> f_guess (fo (tk_id (ti_task t))) = None -> length (tk_guess (ti_task t')) = tk_n (ti_task t')).
  { intros t t' Ft Gt. destruct (form_task_ok _ _ _ _ Ft) as (_ & _ & _ & _ & _ & _ & X & _). apply X; [reflexivity|]. intros g u v Eg. rewrite Gt in Eg. discriminate Eg. }
  unfold pb_guessActiveSet. rewrite pb_counts_len by exact Ct. cbn [bind]. rewrite over_levels_eq by (rewrite map_length; reflexivity). rewrite E'. cbn [map zipM].
  unfold level_guessActiveSet. rewrite <- Q0, <- Q2.
  assert (I0' : length (as_initialize (level_getNumberOfConstraints l0')) = level_getNumberOfConstraints l0') by apply repeat_length.
  assert (I1' : length (as_initialize (level_getNumberOfConstraints l1')) = level_getNumberOfConstraints l1') by apply repeat_length.
  rewrite (guess_loop_spec [y0; y1] 0).
  2:{ exact Lo0. }
  2:{ constructor; [rewrite <- H02, H01; apply guessed_steps_length; assumption|constructor; [rewrite <- H12, H11; apply guessed_cops_length; assumption|constructor]]. }
  2:{ rewrite I0', Nc0. rewrite !sumn_cons. change (sumn []) with 0. lia. }
  cbn [bind]. rewrite (guess_loop_spec [y2; y3; y4] 0).
  2:{ exact Lo1. }
  2:{ constructor; [apply (Full _ _ Y2); rewrite D2; reflexivity|constructor; [apply (Full _ _ Y3); rewrite D3; reflexivity|constructor; [apply (Full _ _ Y4); rewrite D4; reflexivity|constructor]]]. }
  2:{ rewrite I1', Nc1. rewrite !sumn_cons. change (sumn []) with 0. lia. }
  cbn [bind firstn app map concat Nat.add]. rewrite <- H02, <- H12.
  assert (Sk : forall l (y : list tinfo), level_getNumberOfConstraints l = sumn y -> skipn (sumn y) (as_initialize (level_getNumberOfConstraints l)) = []).
  { intros l y Ey. apply skipn_all2. unfold as_initialize. rewrite ?repeat_length. lia. }
  rewrite (Sk l0') by (rewrite Nc0, !sumn_cons; reflexivity). rewrite (Sk l1') by (rewrite Nc1, !sumn_cons; reflexivity). rewrite !app_nil_r.
  eexists. split; [reflexivity|]. rewrite !app_length, Nc1. rewrite (Full _ _ Y2), (Full _ _ Y3), (Full _ _ Y4) by (rewrite ?D2, ?D3, ?D4; reflexivity). lia.
Qed.
Lemma shape_qp p l0 l1 : shape p l0 l1 -> qp_hierarchy p l0 l1.
Proof.
  intros (E & I0 & I1). split; [exact E|]. split.
  - intros i I. apply in_ids in I. rewrite I1 in I. cbn in I. destruct I as [I|[I|[I|[]]]]; injection I as _ <-; split; (reflexivity || discriminate).
  - intros i I. apply in_ids in I. rewrite I0 in I. cbn in I. destruct I as [I|[I|[]]]; injection I as _ <-; reflexivity.
Qed.
Lemma shape_described cs fo nv p l0 l1 : shape p l0 l1 ->
  (forall k, In k (ids0 ++ ids1) -> getType (cs (fst k)) = snd k /\ f_n (fo (fst k)) = getNumberOfConstraints (cs (fst k)) /\ usable nv (cs (fst k))) ->
  described_problem cs fo nv p.
Proof.
  intros (E & I0 & I1) H. unfold described_problem. rewrite E. constructor; [|constructor; [|constructor]].
  - intros i I. apply in_ids in I. rewrite I0 in I. exact (H _ (in_or_app _ _ _ (or_introl I))).
  - intros i I. apply in_ids in I. rewrite I1 in I. exact (H _ (in_or_app _ _ _ (or_intror I))).
Qed.
(** the active set of the solver is given to the tasks *)
Lemma process_shape fo gu hs N n m p q k0 k1 sa ca ce v0 v1 : preach p -> pb_formHierarchy fo gu p = Ok q -> shape q k0 k1 -> keeps hs N m k0 k1 sa ca ce -> hs_report hs = true ->
  (exists i j, lv_tasks k0 = [i; j] /\ ti_loc i = mkLoc 0 (2 * n) /\ ti_loc j = mkLoc (2 * n) (2 * N)) -> (exists i j k, lv_tasks k1 = [i; j; k] /\ len (ti_loc k) = 2 * N) ->
  level_getNumberOfConstraints k0 = 2 * n + 2 * N -> fits [v0; v1] q -> ~ In UNDEFINED v0 ->
  exists q' j0 j1 e, pb_processActiveSet q [v0; v1] = Ok q' /\ preach q' /\ shape q' j0 j1 /\ keeps hs N n j0 j1 (firstn (2 * n) v0) (skipn (2 * n) v0) e.
Proof.
  intros Pp Ef (Eq & I0 & I1) K Hr (i & j & T0 & L0 & L1) (u & v & w & T1 & L2) Nc (FL & F) U.
  destruct (formed_levels fo gu p q Pp Ef) as (Fl & _ & Pq). rewrite Eq in Fl. destruct (preach_wf p Pp) as [W _].
  assert (X : exists a b, pb_levels p = [a; b] /\ level_form fo gu a = Ok k0 /\ level_form fo gu b = Ok k1).
  { inversion Fl as [|a ? r ? A B C D]; subst. inversion B as [|b ? r' ? A' B' C' D']; subst. inversion B'; subst. exists a, b. auto. }
  destruct X as (a & b & Ep & Fa & Fb). rewrite Ep in W. assert (Wa : lreach a) by (inversion W; assumption). assert (Wb : lreach b) by (inversion W as [|? ? _ W']; inversion W'; assumption).
  assert (N0 : length v0 = level_getNumberOfConstraints k0) by (apply (F 0); [rewrite Eq|]; reflexivity). assert (N1 : length v1 = level_getNumberOfConstraints k1) by (apply (F 1); [rewrite Eq|]; reflexivity).
  assert (E : pb_processActiveSet q [v0; v1] = Ok (mkProblem [distributed k0 v0; distributed k1 v1] (pb_counts q))).
  { rewrite process_eq, Eq. cbn [length Nat.eqb zipM]. rewrite (process_spec _ _ _ _ v0 (lreach_gf _ Wa) Fa N0). cbn [bind]. rewrite (process_spec _ _ _ _ v1 (lreach_gf _ Wb) Fb N1). reflexivity. }
  exists (mkProblem [distributed k0 v0; distributed k1 v1] (pb_counts q)), (distributed k0 v0), (distributed k1 v1), (segment v1 (Base.offset (ti_loc w)) (len (ti_loc w))).
  split; [exact E|]. split; [exact (pr_process _ _ _ Pq E)|].
  assert (Id : forall l s, task_ids (distributed l s) = task_ids l) by (intros l s; unfold task_ids, distributed; cbn [lv_tasks]; rewrite map_map; reflexivity).
  assert (Ug : forall l s, unguessed l -> unguessed (distributed l s)).
  { intros l s Hu. unfold unguessed, distributed in *. cbn [lv_tasks]. apply Forall_map. exact Hu. }
  split; [split; [reflexivity|]; rewrite !Id; split; assumption|].
  assert (Lw : len (ti_loc w) = 2 * N) by exact L2.
  assert (L1w : Base.offset (ti_loc w) + len (ti_loc w) <= length v1).
  { destruct (form_ok _ _ _ _ (lreach_gf _ Wb) Fb) as (_ & Lo & Nc1 & _). rewrite T1 in Lo, Nc1. cbn [locs_from] in Lo. rewrite !sumn_cons in Nc1. change (sumn []) with 0 in Nc1. destruct Lo as (_ & _ & Lw' & _). rewrite Lw'. cbn [Base.offset len]. lia. }
  split.
  - unfold actuals, distributed. cbn [lv_tasks]. rewrite T0. cbn [map ti_task set_actual tk_actual ti_loc]. rewrite L0, L1. cbn [Base.offset len]. unfold segment. cbn [skipn]. f_equal. f_equal. apply firstn_all2. rewrite skipn_length. lia.
  - unfold actuals, distributed. cbn [lv_tasks]. rewrite T1. eexists _, _. reflexivity.
  - rewrite firstn_length. lia.
  - right. rewrite skipn_length. lia.
  - right. unfold segment. rewrite firstn_length, skipn_length. lia.
  - rewrite firstn_skipn. exact U.
  - intros Hg. destruct (ke_guess _ _ _ _ _ _ _ _ K Hg). split; apply Ug; assumption.
  - intros Hg. congruence.
Qed.
