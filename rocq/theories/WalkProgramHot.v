(** * The walking program: what the solver is told about the previous iteration *)
From Coq Require Import String List Reals Arith Bool ZArith Lra Lia.
From Verif Require Import Base BaseFacts RSum BoxMinimum Matrix Mat2 Mat3 ActiveSet Mixins ConstraintType HierarchyLevel HierarchySpec Constraints ConstraintsSpec RowsSpec QP QPSpec Problem ProblemSpec LeftRight FootParameters FootTrajectory
  PointMass6z PointMass6zSpec Solution Task MpcGuess MpcGuessSpec MpcGuessFacts PepperTasksSpec StanceFSM StanceSpec StanceFSMFacts StanceFSMFacts2 StanceTimeFacts WalkPreview WalkPreviewSpec WalkPreviewFacts WalkMpc WalkModel WalkModelSpec WalkProfiles WalkProfilesSpec WalkTasks WalkTasksSpec WalkTasksFacts2
  QpoasesBridge QpoasesBridgeSpec Backends BackendsSpec Solver SolverLife SolverLifeSpec SolverLifeFacts WalkLoop WalkLoopSpec WalkLoopFacts WalkLoopFacts2
  WalkProgram WalkProgramSpec WalkProgramHotSpec WalkProgramFacts WalkProgramFacts2 WalkProgramFacts3 WalkProgramFacts4 WalkProgramFacts5 WalkProgramFacts6 WalkProgramFacts7 WalkProgramUnique.
Import ListNotations.
Local Open Scope nat_scope.

(** ** lists *)
Lemma nth_drop {A} (l : list A) d n i : nth i (skipn n l) d = nth (n + i) l d.
Proof. revert l. induction n as [|n IH]; intros l; [reflexivity|]. destruct l as [|a l]; [destruct i; reflexivity|]. cbn [skipn Nat.add nth]. apply IH. Qed.
Lemma nth_keep {A} (l : list A) d n i : i < n -> nth i (firstn n l) d = nth i l d.
Proof. revert l i. induction n as [|n IH]; intros l i L; [lia|]. destruct l as [|a l]; [reflexivity|]. destruct i as [|i]; [reflexivity|]. cbn [firstn nth]. apply IH. lia. Qed.
Lemma error_drop {A} (l : list A) n i : nth_error (skipn n l) i = nth_error l (n + i).
Proof. revert l. induction n as [|n IH]; intros l; [reflexivity|]. destruct l as [|a l]; [destruct i; reflexivity|]. cbn [skipn Nat.add nth_error]. apply IH. Qed.
Lemma error_keep {A} (l : list A) n i : i < n -> nth_error (firstn n l) i = nth_error l i.
Proof. revert l i. induction n as [|n IH]; intros l i L; [lia|]. destruct l as [|a l]; [reflexivity|]. destruct i as [|i]; [reflexivity|]. cbn [firstn nth_error]. apply IH. lia. Qed.
Lemma error_repeat {A} (a : A) n i : i < n -> nth_error (repeat a n) i = Some a.
Proof. revert i. induction n as [|n IH]; intros i L; [lia|]. destruct i as [|i]; [reflexivity|]. apply IH. lia. Qed.
Lemma axis_small a : axis_index a < 2.
Proof. destruct a; cbn [axis_index]; lia. Qed.

(** ** the guess of the solution *)
Lemma moved_guess N m m' sol v : 0 < N -> fitting N m sol -> m <= S m' -> m' <= S m -> guessSolution_wpg (structure_wpg N m') sol = Ok v -> moved_solution N m m' (point sol) (vector_of (sol_x v)).
Proof.
  intros HN [S L] K1 K2 G. destruct sol as [st x]. cbn [sol_structure sol_x] in S, L. subst st. rewrite <- (firstn_skipn (N * 2) x) in G.
  assert (L1 : length (firstn (N * 2) x) = N * 2) by (rewrite firstn_length; lia). assert (L2 : length (skipn (N * 2) x) = m * 2) by (rewrite skipn_length; lia).
  rewrite (guess_wpg N m' m _ _ HN L1 L2) in G.
  assert (Ls : length (shifted (firstn (N * 2) x)) = N * 2) by (unfold shifted; rewrite app_length, skipn_length; cbn [length]; lia).
  assert (X : exists rest, sol_x v = shifted (firstn (N * 2) x) ++ rest /\ length rest = 2 * m' /\
    (m = Datatypes.S m' -> rest = skipn 2 (skipn (N * 2) x)) /\ (m = m' -> rest = skipn (N * 2) x) /\ (m' = Datatypes.S m -> rest = skipn (N * 2) x ++ [0; 0]%R)).
  { destruct (Nat.eqb_spec m' m) as [E|E].
    { injection G as <-. exists (skipn (N * 2) x). split; [reflexivity|]. split; [lia|]. repeat split; intros; try lia; reflexivity. }
    destruct (Nat.eqb_spec (Datatypes.S m') m) as [E1|E1].
    { injection G as <-. exists (skipn 2 (skipn (N * 2) x)). split; [reflexivity|]. split; [rewrite skipn_length; lia|]. repeat split; intros; try lia; reflexivity. }
    destruct (Nat.eqb_spec m' (Datatypes.S m)) as [E2|E2]; [|discriminate G].
    injection G as <-. exists (skipn (N * 2) x ++ [0; 0]%R). split; [reflexivity|]. split; [rewrite app_length; cbn [length]; lia|]. repeat split; intros; try lia; reflexivity. }
  destruct X as (rest & -> & Lr & R1 & R2 & R3).
  assert (C : forall i, i + 2 < 2 * N -> nth i (shifted (firstn (N * 2) x) ++ rest) 0%R = nth (2 + i) x 0%R).
  { intros i Hi. rewrite app_nth1 by lia. unfold shifted. rewrite app_nth1 by (rewrite skipn_length; lia). rewrite nth_drop, nth_keep by lia. reflexivity. }
  assert (D : forall i, 2 * N <= i -> nth i (shifted (firstn (N * 2) x) ++ rest) 0%R = nth (i - 2 * N) rest 0%R) by (intros i Hi; rewrite app_nth2 by lia; f_equal; lia).
  split; unfold cop_at, step_at, point; cbn [vector_of vlen vget sol_x].
  - rewrite app_length. lia.
  - split; assumption.
  - intros k a Hk. pose proof (axis_small a). rewrite C by lia. f_equal. lia.
  - intros a. pose proof (axis_small a). rewrite app_nth1 by lia. unfold shifted. rewrite app_nth2 by (rewrite skipn_length; lia). rewrite skipn_length, L1.
    replace (2 * (N - 1) + axis_index a - (N * 2 - 2)) with (axis_index a) by lia. destruct a; reflexivity.
  - intros E j a Hj. pose proof (axis_small a). rewrite D by lia. rewrite (R1 E), !nth_drop. f_equal. lia.
  - intros E j a Hj. pose proof (axis_small a). rewrite D by lia. destruct (Nat.eq_dec m m') as [E'|E'].
    + rewrite (R2 E'), nth_drop. f_equal. lia.
    + rewrite (R3 ltac:(lia)), app_nth1 by lia. rewrite nth_drop. f_equal. lia.
  - intros j a Hj. pose proof (axis_small a). rewrite D by lia. rewrite (R3 ltac:(lia)), app_nth2 by lia. rewrite L2. replace (2 * N + 2 * j + axis_index a - 2 * N - m * 2) with (axis_index a) by lia. destruct a; reflexivity.
Qed.

(** ** the guess of the active set *)
Lemma cops_none N k : k < 2 * N -> nth_error (guessed_cops N []) k = Some INACTIVE.
Proof. apply error_repeat. Qed.
Lemma cops_moved N ca i : length ca = 2 * N -> i + 2 < 2 * N -> nth_error (guessed_cops N ca) i = nth_error ca (2 + i).
Proof.
  intros L H. unfold guessed_cops. destruct ca as [|u v]; [cbn [length] in L; lia|]. rewrite nth_error_app1 by (rewrite skipn_length; lia). apply error_drop.
Qed.
Lemma cops_last N ca a : 0 < N -> length ca = 2 * N -> nth_error (guessed_cops N ca) (cop_at (N - 1) a) = Some INACTIVE.
Proof.
  intros HN L. unfold guessed_cops, cop_at. destruct ca as [|u v]; [cbn [length] in L; lia|]. rewrite nth_error_app2 by (rewrite skipn_length; lia). rewrite skipn_length, L.
  replace (2 * (N - 1) + axis_index a - (2 * N - 2)) with (axis_index a) by lia. destruct a; reflexivity.
Qed.
Lemma row_of c j y x : bounds_variable c j y -> y < c_nvars c -> row_value c j x = x y.
Proof.
  unfold bounds_variable, row_value, coef. destruct (c_body c) as [|? ?|ix|? ?]; try contradiction. intros E L. apply nth_error_nth with (d := 0) in E. rewrite E.
  rewrite (Rsum_single _ y) by solve [exact L|intros i _ D; apply Nat.eqb_neq in D; rewrite D; ring]. rewrite Nat.eqb_refl. ring.
Qed.
Lemma means_status ws t q : act_of ws t -> (ws = -1 \/ ws = 0 \/ ws = 1)%R -> guess_means t q -> qstatus_of ws q.
Proof.
  intros (A & B & C) [W|[W|W]] G; subst ws; (split; [|split]); intros E; try (exfalso; lra).
  - rewrite (A eq_refl) in G. exact G.
  - rewrite (B eq_refl) in G. exact G.
  - rewrite (C eq_refl) in G. exact G.
Qed.

(** the statuses which are given to the library *)
Lemma told N n f k0 k1 nv sv cv g : placed N n k0 k1 -> nv = 2 * N + 2 * n ->
  (forall j y, bounds_variable (ft_steps f) j y <-> j < 2 * n /\ y = 2 * N + j) -> (forall j y, bounds_variable (ft_cop f) j y <-> j < 2 * N /\ y = j) ->
  length sv = 2 * n -> length cv = 2 * N -> same_active_set (constraints_of f) nv k0 (sv ++ cv) g ->
  length (fst g) = nv /\ (forall y, y < 2 * N -> exists q t, nth_error (fst g) y = Some q /\ nth_error cv y = Some t /\ guess_means t q) /\
  (forall y, y < 2 * n -> exists q t, nth_error (fst g) (2 * N + y) = Some q /\ nth_error sv y = Some t /\ guess_means t q).
Proof.
  intros ((i & j & T & D0 & D1 & L0 & L1) & _) -> Bs Bc Ls Lc (Lg & _ & La). split; [exact Lg|].
  assert (X : forall i', In i' (lv_tasks k0) -> i' = i \/ i' = j) by (rewrite T; cbn; intros i' [<-|[<-|[]]]; auto).
  assert (Ii : In i (lv_tasks k0)) by (rewrite T; left; reflexivity). assert (Ij : In j (lv_tasks k0)) by (rewrite T; right; left; reflexivity).
  assert (Y0 : forall y, nth_error (sv ++ cv) (Base.offset (ti_loc j) + y) = nth_error cv y) by (intros y; rewrite L1; cbn [Base.offset]; rewrite nth_error_app2 by lia; f_equal; lia).
  assert (Y1 : forall y, y < 2 * n -> nth_error (sv ++ cv) (Base.offset (ti_loc i) + y) = nth_error sv y) by (intros y Hy; rewrite L0; cbn [Base.offset]; apply nth_error_app1; lia).
  split; intros y Hy.
  - destruct (La y ltac:(lia)) as (q & Q & [(i' & j' & t & I' & B & E & _ & G & _)|(B & ->)]).
    + exists q, t. split; [exact Q|]. destruct (X i' I') as [-> | ->]; [rewrite D0 in B; apply Bs in B; lia|]. rewrite D1 in B. apply Bc in B. destruct B as [_ ->]. rewrite Y0 in E. split; assumption.
    + exists ST_INACTIVE, INACTIVE. split; [exact Q|]. split; [|reflexivity]. rewrite <- Y0. apply B; [exact Ij|]. rewrite D1. apply Bc. split; [exact Hy|reflexivity].
  - destruct (La (2 * N + y) ltac:(lia)) as (q & Q & [(i' & j' & t & I' & B & E & _ & G & _)|(B & ->)]).
    + exists q, t. split; [exact Q|]. destruct (X i' I') as [-> | ->]; [|rewrite D1 in B; apply Bc in B; lia]. rewrite D0 in B. apply Bs in B. destruct B as [_ B]. assert (y = j') by lia. subst j'. rewrite Y1 in E by exact Hy. split; assumption.
    + exists ST_INACTIVE, INACTIVE. split; [exact Q|]. split; [|reflexivity]. rewrite <- (Y1 y Hy). apply B; [exact Ii|]. rewrite D0. apply Bs. split; [exact Hy|reflexivity].
Qed.

(** the bounds of each variable are in one row: the statuses of rows are those of the working set *)
Section Rows.
Variables (fuel : nat) (junk : nat -> nat -> nat -> R) (nan : R) (se : settings) (centering : R) (mp : mpc_params) (ly ry inc : R) (fs : fsm) (pr : primary).
Variables (h : horizon) (H : R) (rs : list nat) (support cstate : vec) (M : walk_matrices) (f : formed_tasks) (p : problem) (l0 l1 : level).
Notation N := (horizon_length mp).
Notation n := (length (h_steps h)).
Hypothesis (F : form fuel mp ly ry inc fs = Finished (Ok (Some h))) (WF : well_formed junk nan se centering N h H rs support cstate M f) (Sh : shape p l0 l1)
  (Sen : WalkLoopSpec.sensible pr) (Mo : moderate pr) (Fe : se_feet se = finalize pr).
Definition mine (k j y : nat) : Prop := (k = STEPS \/ k = COPS) /\ bounds_variable (constraints_of f k) j y.
Lemma mine_spec k j y : mine k j y -> y < 2 * N + 2 * n /\ j < getNumberOfConstraints (constraints_of f k) /\ c_nvars (constraints_of f k) = 2 * N + 2 * n.
Proof.
  intros [[-> | ->] B]; destruct (wf_indices _ _ _ _ _ _ _ _ _ _ _ _ WF) as [I0 I1]; destruct (wf_rows _ _ _ _ _ _ _ _ _ _ _ _ WF) as (R1 & R2 & R3).
  - apply I0 in B. split; [lia|]. split; [change (constraints_of f STEPS) with (ft_steps f); rewrite R3; lia|]. apply (wf_nvars junk nan se centering mp h H rs support cstate M f WF (STEPS, ILU)). left. reflexivity.
  - apply I1 in B. split; [lia|]. split; [change (constraints_of f COPS) with (ft_cop f); rewrite R1; lia|]. apply (wf_nvars junk nan se centering mp h H rs support cstate M f WF (COPS, ILU)). right. left. reflexivity.
Qed.
Lemma mine_once k j k' j' y : mine k j y -> mine k' j' y -> k = k' /\ j = j'.
Proof.
  intros [A B] [A' B']. destruct (wf_indices _ _ _ _ _ _ _ _ _ _ _ _ WF) as [I0 I1].
  change (constraints_of f STEPS) with (ft_steps f) in *. destruct A as [-> | ->], A' as [-> | ->]; (apply I0 in B || apply I1 in B); (apply I0 in B' || apply I1 in B'); try (exfalso; lia); (split; [reflexivity|lia]).
Qed.
(** the level is satisfied by each of the corners of its box; so is it if one of the bounds of a row takes the place of a coordinate *)
Lemma row_bounds k j y : mine k j y -> (- g_infinity <= lower_or_inf (constraints_of f k) j /\ upper_or_inf (constraints_of f k) j <= g_infinity)%R.
Proof.
  intros Mi. destruct (level_box fuel junk nan se centering mp ly ry inc fs pr h H rs support cstate M f p l0 l1 F WF Sh Sen Mo Fe) as [O B].
  set (lo := side_value false (se_fixed se) N (h_steps h) (indices_of h) (bounds_of nan (se_feet se) h)) in *. set (hi := side_value true (se_fixed se) N (h_steps h) (indices_of h) (bounds_of nan (se_feet se) h)) in *.
  destruct (mine_spec k j y Mi) as (Ly & Lj & Nv). destruct (O y Ly) as (O1 & O2 & O3).
  assert (Sat : forall x, satisfies_level (constraints_of f) l0 x <-> forall k' j' y', mine k' j' y' -> at_least (x y') (lower (constraints_of f k') j') /\ at_most (x y') (upper (constraints_of f k') j')).
  { intros x. rewrite (satisfies_two f p l0 l1 x Sh). destruct (wf_indices _ _ _ _ _ _ _ _ _ _ _ _ WF) as [I0 I1]. destruct (wf_rows _ _ _ _ _ _ _ _ _ _ _ _ WF) as (R1 & R2 & R3). split.
    - intros [S0 S1] k' j' y' Mi'. destruct (mine_spec _ _ _ Mi') as (Ly' & Lj' & Nv'). rewrite <- (row_of (constraints_of f k') j' y' x (proj2 Mi')) by (rewrite Nv'; exact Ly').
      destruct Mi' as [[-> | ->] _]; [exact (S0 j' Lj')|exact (S1 j' Lj')].
    - intros S. split; intros i Hi.
      + assert (Mi' : mine STEPS i (2 * N + i)) by (split; [left; reflexivity|apply I0; rewrite R3 in Hi; split; [exact Hi|reflexivity]]). destruct (mine_spec _ _ _ Mi') as (Ly' & _ & Nv').
        change (ft_steps f) with (constraints_of f STEPS). rewrite (row_of (constraints_of f STEPS) i (2 * N + i) x (proj2 Mi')) by (rewrite Nv'; exact Ly'). exact (S _ _ _ Mi').
      + assert (Mi' : mine COPS i i) by (split; [right; reflexivity|apply I1; rewrite R1 in Hi; split; [exact Hi|reflexivity]]). destruct (mine_spec _ _ _ Mi') as (Ly' & _ & Nv').
        change (ft_cop f) with (constraints_of f COPS). rewrite (row_of (constraints_of f COPS) i i x (proj2 Mi')) by (rewrite Nv'; exact Ly'). exact (S _ _ _ Mi'). }
  assert (Sl : satisfies_level (constraints_of f) l0 lo) by (apply B; intros i Hi; destruct (O i Hi); split; lra).
  assert (Sh' : satisfies_level (constraints_of f) l0 hi) by (apply B; intros i Hi; destruct (O i Hi); split; lra).
  destruct (proj1 (Sat lo) Sl _ _ _ Mi) as [A1 A2]. destruct (proj1 (Sat hi) Sh' _ _ _ Mi) as [A3 A4].
  assert (Put : forall x b, satisfies_level (constraints_of f) l0 x -> at_least b (lower (constraints_of f k) j) -> at_most b (upper (constraints_of f k) j) -> (lo y <= b <= hi y)%R).
  { intros x b Sx B1 B2. set (z := fun i => if i =? y then b else x i). assert (Sz : satisfies_level (constraints_of f) l0 z).
    { apply Sat. intros k' j' y' Mi'. unfold z. destruct (Nat.eqb_spec y' y) as [->|D]; [|exact (proj1 (Sat x) Sx _ _ _ Mi')]. destruct (mine_once _ _ _ _ _ Mi Mi') as [<- <-]. split; assumption. }
    apply B in Sz. specialize (Sz y Ly). unfold z in Sz. rewrite Nat.eqb_refl in Sz. exact Sz. }
  unfold lower_or_inf, upper_or_inf. destruct (lower (constraints_of f k) j) as [b|], (upper (constraints_of f k) j) as [u|]; cbn [at_least at_most] in *.
  all: generalize dependent g_infinity; intros gi; intros; split; try lra.
  - pose proof (Put lo b Sl ltac:(lra) ltac:(lra)). lra.
  - pose proof (Put lo u Sl ltac:(lra) ltac:(lra)). lra.
  - pose proof (Put lo b Sl ltac:(lra) I). lra.
  - pose proof (Put lo u Sl I ltac:(lra)). lra.
Qed.
Lemma reported_status k0 wsb wsc i j y t : task_ids k0 = ids0 -> In i (lv_tasks k0) -> bounds_variable (constraints_of f (tk_id (ti_task i))) j y ->
  (wsb y = -1 \/ wsb y = 0 \/ wsb y = 1)%R -> reports (constraints_of f) k0 wsb wsc i j t -> act_of (wsb y) t.
Proof.
  intros T0 Ii Bv W (T & _ & R1).
  assert (Id : forall i', In i' (lv_tasks k0) -> tk_id (ti_task i') = STEPS \/ tk_id (ti_task i') = COPS).
  { intros i' I'. apply in_ids in I'. rewrite T0 in I'. cbn in I'. destruct I' as [I'|[I'|[]]]; injection I' as I' _; [left|right]; symmetry; exact I'. }
  assert (Mi : mine (tk_id (ti_task i)) j y) by (split; [exact (Id i Ii)|exact Bv]). destruct (row_bounds _ _ _ Mi) as [G1 G2].
  assert (On : forall i' j', In i' (lv_tasks k0) -> bounds_variable (constraints_of f (tk_id (ti_task i'))) j' y -> tk_id (ti_task i) = tk_id (ti_task i') /\ j = j').
  { intros i' j' I' B'. apply (mine_once _ _ _ _ y Mi). split; [exact (Id i' I')|exact B']. }
  destruct (R1 y Bv) as [RL RU].
  assert (LL : largest_lower (constraints_of f) k0 y (lower_or_inf (constraints_of f (tk_id (ti_task i))) j)).
  { split; [exact G1|]. intros i' j' I' B'. destruct (On i' j' I' B') as [-> ->]. apply Rle_refl. }
  assert (SU : smallest_upper (constraints_of f) k0 y (upper_or_inf (constraints_of f (tk_id (ti_task i))) j)).
  { split; [exact G2|]. intros i' j' I' B'. destruct (On i' j' I' B') as [-> ->]. apply Rle_refl. }
  split; [|split]; intros E.
  - apply RL. split; [exact E|exact LL].
  - destruct T as [T|[T|T]]; [apply RL in T; lra|exact T|apply RU in T; lra].
  - apply RU. split; [exact E|exact SU].
Qed.
End Rows.

Section Hot.
Variables (p : params) (s0 : wloop) (fuel : nat) (junk : nat -> nat -> nat -> R) (nan : R) (se : settings) (pr : primary) (par : qparams) (centering : R) (details : option (backend_code * Z)) (w : world) (s : program) (es : nat -> environment).
Hypothesis (FU : stances_left (wl_fsm s0) + 1 <= fuel) (La : launched p s0 pr se par centering details w s) (Un : understood fuel junk nan se es s).
Notation mp := (wg_par (wl_wpg s0)).
Notation N := (horizon_length mp).
Notation H := (height_of (wl_model s0)).
Notation theta := (yaw nan (wl_model s0) (first_foot p) + INR (turns p) * se_inc se)%R.
Notation Good := (good (se_start se) mp (wl_fsm s0) nan (se_inc se) H theta centering par (wd_live w)).
Notation Turn := (turn p s0 fuel junk nan se pr par centering w s es).

Lemma asked_turn n k : asked fuel junk nan se es s n k -> exists x g f q r h rs M l0 l1 t,
  pg_after fuel junk nan se es s n = Finished (Ok (Some x)) /\ Good x /\ Turn n x g f q r h rs M l0 l1 t k.
Proof.
  intros As. pose proof As as (x & g & f & q & so & t & A & P & R1 & C). pose proof (good_at p s0 fuel junk nan se pr par centering details w s FU La es Un n x A) as G.
  destruct (takes p s0 fuel junk nan se pr par centering details w s FU La es Un n x A G) as [(_ & _ & _ & No)|(g' & f' & q' & so' & h & rs & M & l0 & l1 & t' & k' & T)]; [destruct (No k As)|].
  assert (k' = k). { eapply asked_effect; [exact A|exact P|exact R1|exact C|apply T]. } subst k'.
  exists x, g', f', q', so', h, rs, M, l0, l1, t'. split; [exact A|]. split; [exact G|exact T].
Qed.
Lemma asked_size n x g f q r h rs M l0 l1 t k : Turn n x g f q r h rs M l0 l1 t k -> qa_nV (lc_problem k) = 2 * N + 2 * length (h_steps h) /\ so_nv (rq_solution r) = 2 * N + 2 * length (h_steps h).
Proof.
  intros (P & _ & _ & _ & Ef & _). destruct P as (_ & _ & _ & _ & _ & _ & _ & _ & _ & _ & _ & NV & _). split; [|exact NV].
  destruct (ef_gets _ _ _ _ _ _ _ _ Ef) as [_ _ _ _ _ _ _ _ _ (X & _) _]. rewrite X. exact NV.
Qed.
(** the parts of a request *)
Lemma request_parts e x g f q r st : pg_prepare fuel junk nan se e x = Finished (Ok (Some (g, f, q, r))) -> st = structure_wpg (horizon_length (wg_par g)) (length (h_steps (wg_horizon g))) ->
  pb_formHierarchy (formed_of se st f) (hs_active (se_start se)) (pg_problem x) = Ok q /\
  (if hs_solution (se_start se) then exists v, guessSolution_wpg st (pg_old x) = Ok v /\ rq_guess r = Some (vector_of (sol_x v)) else rq_guess r = None) /\
  (if hs_active (se_start se) then exists a, pb_guessActiveSet q = Ok a /\ rq_active r = Some a else rq_active r = None).
Proof.
  intros Pp ->. unfold pg_prepare in Pp. apply rbind_ok in Pp. destruct Pp as ((u & g') & _ & Pp). cbn [fst snd] in Pp. destruct u; [|discriminate Pp]. injection Pp as Pp.
  apply bind_ok in Pp. destruct Pp as (((f', q'), r') & Pf & E). cbn [fst snd] in E. injection E as -> -> -> ->. unfold pg_form in Pf. cbv zeta in Pf.
  set (st := structure_wpg (horizon_length (wg_par g)) (length (h_steps (wg_horizon g)))) in *. unfold assert_then in Pf. destruct (isNonEmpty st); [|discriminate Pf].
  apply bind_ok in Pf. destruct Pf as (f0 & _ & Pf). apply bind_ok in Pf. destruct Pf as (q0 & Fq & Pf). apply bind_ok in Pf. destruct Pf as (v & V & Pf). apply bind_ok in Pf. destruct Pf as (a & A & Pf).
  injection Pf as -> -> <-. split; [exact Fq|]. cbn [rq_guess rq_active]. split.
  - destruct (hs_solution (se_start se)); [|injection V as <-; reflexivity]. apply bind_ok in V. destruct V as (v' & V & E). injection E as <-. exists v'. split; [exact V|reflexivity].
  - destruct (hs_active (se_start se)); [|injection A as <-; reflexivity]. apply bind_ok in A. destruct A as (a' & A & E). injection E as <-. exists a'. split; [exact A|reflexivity].
Qed.

Lemma moved_same m m' x v g : 0 < N -> moved_solution N m m' x v -> vlen g = 2 * N + 2 * m' -> (forall i, i < 2 * N + 2 * m' -> vget g i = vget v i) -> moved_solution N m m' x g.
Proof.
  intros HN [A B C D E F G] L X. split; [exact L|exact B| | | | |]; unfold cop_at, step_at in *.
  - intros k a Hk. rewrite X by (pose proof (axis_small a); lia). apply C. exact Hk.
  - intros a. rewrite X by (pose proof (axis_small a); lia). apply D.
  - intros Hm j a Hj. rewrite X by (pose proof (axis_small a); lia). apply E; assumption.
  - intros Hm j a Hj. rewrite X by (pose proof (axis_small a); lia). apply F; assumption.
  - intros j a Hj. rewrite X by (pose proof (axis_small a); lia). apply G; assumption.
Qed.
Lemma two_intervals : 1 < N.
Proof. destruct La as (Reg & _). destruct Reg as (_ & _ & X & _). lia. Qed.

(** *** the guess of the solution *)
Lemma guess_not_given n k : hs_solution (se_start se) = false -> asked fuel junk nan se es s n k -> lc_guess k = None.
Proof.
  intros Hs As. destruct (asked_turn n k As) as (x & g & f & q & r & h & rs & M & l0 & l1 & t & A & G & P & _ & _ & _ & Ef & _).
  destruct P as (_ & G1 & G2 & _ & _ & _ & _ & Pp & _). destruct (request_parts _ _ _ _ _ _ _ Pp eq_refl) as (_ & Rg & _). rewrite Hs in Rg.
  apply (gt_no_guess _ _ _ _ _ _ (ef_gets _ _ _ _ _ _ _ _ Ef)). cbn [pg_call cl_guess]. rewrite Rg. reflexivity.
Qed.
Lemma guess_given n x g f q r h rs M l0 l1 t k : hs_solution (se_start se) = true -> Turn n x g f q r h rs M l0 l1 t k ->
  exists v y, guessSolution_wpg (structure_wpg N (length (h_steps h))) (pg_old x) = Ok v /\ lc_guess k = Some y /\ vlen y = 2 * N + 2 * length (h_steps h) /\
    forall i, i < 2 * N + 2 * length (h_steps h) -> vget y i = vget (vector_of (sol_x v)) i.
Proof.
  intros Hs T. destruct (asked_size _ _ _ _ _ _ _ _ _ _ _ _ _ T) as (_ & NV). destruct T as (P & _ & _ & _ & Ef & _). destruct P as (_ & G1 & G2 & _ & _ & _ & _ & Pp & _).
  destruct (request_parts _ _ _ _ _ _ _ Pp eq_refl) as (_ & Rg & _). rewrite Hs, G1, G2 in Rg. destruct Rg as (v & V & Rg). exists v.
  destruct (gt_guess _ _ _ _ _ _ (ef_gets _ _ _ _ _ _ _ _ Ef) 0) as (v' & y & E1 & E2 & E3 & E4); [cbn [pg_call cl_guess]; rewrite Rg; reflexivity|]. cbn [pg_call cl_memory cl_solution] in E1, E3, E4. rewrite Rg in E1. injection E1 as <-.
  rewrite NV in E3, E4. exists y. split; [exact V|]. split; [exact E2|]. split; [exact E3|exact E4].
Qed.
Lemma guess_first k : hs_solution (se_start se) = true -> asked fuel junk nan se es s 0 k -> exists m g, qa_nV (lc_problem k) = 2 * N + 2 * m /\ lc_guess k = Some g /\ vlen g = 2 * N + 2 * m /\
  forall i, i < 2 * N + 2 * m -> vget g i = 0%R.
Proof.
  intros Hs As. destruct (asked_turn 0 k As) as (x & g & f & q & r & h & rs & M & l0 & l1 & t & A & G & T). destruct (asked_size _ _ _ _ _ _ _ _ _ _ _ _ _ T) as (Nk & _).
  destruct (guess_given _ _ _ _ _ _ _ _ _ _ _ _ _ Hs T) as (v & y & V & Y1 & Y2 & Y3). cbn [pg_after] in A. injection A as <-.
  assert (Ol : pg_old s = mkSolution structure_reset []).
  { destruct La as (_ & _ & _ & _ & _ & _ & _ & _ & St). unfold pg_start in St. apply bind_ok in St. destruct St as (z & _ & St). injection St as <-. reflexivity. }
  rewrite Ol, guess_wpg_first in V. injection V as <-. exists (length (h_steps h)), y. split; [exact Nk|]. split; [exact Y1|]. split; [exact Y2|]. intros i Hi. rewrite (Y3 i Hi). cbn [vector_of vget sol_x]. unfold zeros. apply nth_repeat.
Qed.
Lemma guess_next n x x' k k' : hs_solution (se_start se) = true -> steps_to fuel junk nan se es s n x x' -> asked fuel junk nan se es s n k -> asked fuel junk nan se es s (S n) k' ->
  exists m m' g, qa_nV (lc_problem k) = 2 * N + 2 * m /\ qa_nV (lc_problem k') = 2 * N + 2 * m' /\ lc_guess k' = Some g /\ moved_solution N m m' (point (last_solution x')) g /\
    forall y, an_primal (en_library (es n) k) = Some y -> forall i, i < 2 * N + 2 * m -> point (last_solution x') i = y i.
Proof.
  intros Hs St As As'. destruct (asked_turn n k As) as (x1 & g & f & q & r & h & rs & M & l0 & l1 & t & A & G & T). destruct (asked_turn (S n) k' As') as (x2 & g' & f' & q' & r' & h' & rs' & M' & l0' & l1' & t' & A' & G' & T').
  pose proof St as [B B']. rewrite A in B. injection B as ->. rewrite A' in B'. injection B' as ->.
  destruct (asked_size _ _ _ _ _ _ _ _ _ _ _ _ _ T) as (Nk & NV). destruct (asked_size _ _ _ _ _ _ _ _ _ _ _ _ _ T') as (Nk' & _).
  destruct (guess_given _ _ _ _ _ _ _ _ _ _ _ _ _ Hs T') as (v & y & V & Y1 & Y2 & Y3).
  destruct T as (P & _ & _ & _ & Ef & [(_ & E & _)|(R1 & _ & z & pf & E & _ & _ & _ & Fi & _ & _ & _ & _ & Ls & Ca & _)]); [congruence|]. rewrite A' in E. injection E as <-.
  rewrite Hs in Ca. rewrite Ca in V.
  destruct T' as (P' & _). destruct P' as (_ & _ & _ & _ & F' & _).
  assert (Cl : length (h_steps h) <= S (length (h_steps h')) /\ length (h_steps h') <= S (length (h_steps h))).
  { destruct (go_old _ _ _ _ _ _ _ _ _ _ _ G') as [O|(k1 & O & K)].
    - rewrite Ca in O. destruct Fi as [X _]. rewrite O in X. cbn [sol_structure] in X. exfalso. destruct (loc_wpg N (length (h_steps h))) as (_ & _ & _ & Y). rewrite <- X in Y. discriminate Y.
    - specialize (K _ _ _ _ F'). rewrite Ca in O. destruct O as [_ O]. destruct Fi as [_ Fi]. assert (k1 = length (h_steps h)) by lia. subst k1. exact K. }
  exists (length (h_steps h)), (length (h_steps h')), y. split; [exact Nk|]. split; [exact Nk'|]. split; [exact Y1|]. pose proof two_intervals as HN. split.
  - apply (moved_same _ _ _ (vector_of (sol_x v))); [lia| |exact Y2|exact Y3]. apply moved_guess; [lia|exact Fi|apply Cl|apply Cl|exact V].
  - intros z Z i Hi. destruct P as (_ & _ & _ & _ & _ & _ & _ & _ & _ & _ & _ & _ & VL & _). rewrite R1 in Ef. rewrite Ls. symmetry.
    apply (written_point s0 se par (es n) f q r (pg_world x) l0 l1 t k h z _ Ef NV VL Z i Hi).
Qed.

(** *** the guess of the active set *)
Lemma active_not_given n k : hs_active (se_start se) = false -> asked fuel junk nan se es s n k -> lc_active k = None.
Proof.
  intros Hs As. destruct (asked_turn n k As) as (x & g & f & q & r & h & rs & M & l0 & l1 & t & A & G & P & _ & _ & _ & Ef & _).
  destruct P as (_ & G1 & G2 & _ & _ & _ & _ & Pp & _). destruct (request_parts _ _ _ _ _ _ _ Pp eq_refl) as (_ & _ & Ra). rewrite Hs in Ra.
  apply (gt_no_active _ _ _ _ _ _ (ef_gets _ _ _ _ _ _ _ _ Ef)). exact Ra.
Qed.
Lemma active_given n x g f q r h rs M l0 l1 t k m sa ca ce j0 j1 : hs_active (se_start se) = true -> Good x -> Turn n x g f q r h rs M l0 l1 t k ->
  shape (pg_problem x) j0 j1 -> keeps (se_start se) N m j0 j1 sa ca ce ->
  m <= S (length (h_steps h)) /\ exists gb, option_map fst (lc_active k) = Some gb /\ length gb = 2 * N + 2 * length (h_steps h) /\
    (forall y, y < 2 * N -> exists u z, nth_error gb y = Some u /\ nth_error (guessed_cops N ca) y = Some z /\ guess_means z u) /\
    (forall y, y < 2 * length (h_steps h) -> exists u z, nth_error gb (2 * N + y) = Some u /\ nth_error (guessed_steps (se_fixed se) m (length (h_steps h)) sa) y = Some z /\ guess_means z u).
Proof.
  intros Hs G T Sj Kj. destruct (asked_size _ _ _ _ _ _ _ _ _ _ _ _ _ T) as (_ & NV). destruct T as (P & _ & _ & _ & Ef & _). set (n' := length (h_steps h)) in *.
  destruct P as (_ & G1 & G2 & _ & F & _ & _ & Pp & WF & (k0 & k1 & Q2 & Q3 & Pl & _) & Sh & _). pose proof two_intervals as HN.
  destruct (go_problem _ _ _ _ _ _ _ _ _ _ _ G) as (PR & i0 & i1 & Si & m2 & sa2 & ca2 & ce2 & K2 & Km). specialize (Km _ _ _ _ F).
  assert (i0 = j0 /\ i1 = j1) as [-> ->] by (destruct Si as (X & _); destruct Sj as (Y & _); rewrite X in Y; injection Y as <- <-; split; reflexivity).
  pose proof (ke_first _ _ _ _ _ _ _ _ K2) as X1. rewrite (ke_first _ _ _ _ _ _ _ _ Kj) in X1. injection X1 as X1 X2. subst sa2 ca2.
  assert (m2 = m) by (pose proof (ke_steps _ _ _ _ _ _ _ _ K2); pose proof (ke_steps _ _ _ _ _ _ _ _ Kj); lia). subst m2. split; [exact Km|].
  destruct (wf_rows _ _ _ _ _ _ _ _ _ _ _ _ WF) as (R1 & R2 & R3). destruct (wf_indices _ _ _ _ _ _ _ _ _ _ _ _ WF) as [I0 I1].
  destruct (request_parts _ _ _ _ _ _ _ Pp eq_refl) as (Fq & _ & Ra). rewrite Hs in Ra. rewrite G1, G2 in Fq. destruct Ra as (a & A1 & Ra).
  assert (Fc : forall k, In k (map fst (ids0 ++ ids1)) -> f_consistent (formed_of se (structure_wpg N n') f k) = true).
  { intros k' I'. apply in_map_iff in I'. destruct I' as (z & <- & I'). destruct (wf_objects _ _ _ _ _ _ _ _ _ _ _ _ WF z I') as (_ & _ & X & _). exact X. }
  destruct (form_shape se N n' m f (pg_problem x) j0 j1 sa ca ce PR Sj Kj HN Km Fc R3 R1 R2) as (q2 & k2 & k3 & E1 & _ & _ & _ & _ & _ & _ & _ & Q8).
  unfold n' in E1. rewrite Fq in E1. injection E1 as <-. destruct (Q8 Hs) as (a1 & A2 & _). rewrite A1 in A2. injection A2 as ->.
  destruct (gt_active _ _ _ _ _ _ (ef_gets _ _ _ _ _ _ _ _ Ef) _ Ra) as (l & v & gg & L1 & L2 & L3 & L4). cbn [pg_call cl_problem cl_cs cl_solution] in L1, L4. destruct Q3 as (Eq & _). rewrite Eq in L1. injection L1 as <-. cbn [nth_error] in L2. injection L2 as <-.
  destruct (told N n' f k0 k1 _ _ _ gg Pl NV I0 I1 (guessed_steps_length _ _ _ _ (ke_steps _ _ _ _ _ _ _ _ Kj) Km) (guessed_cops_length _ _ HN (ke_cop _ _ _ _ _ _ _ _ Kj)) L4) as (T1 & T2 & T3).
  exists (fst gg). split; [rewrite L3; reflexivity|]. split; [rewrite T1; exact NV|]. split; [exact T2|exact T3].
Qed.
(** nothing is kept: the first iteration, or the active set of the solver is not given to the hierarchy *)
Lemma active_unknown n k : hs_active (se_start se) = true -> n = 0 \/ hs_report (se_start se) = false -> asked fuel junk nan se es s n k ->
  exists m gb, qa_nV (lc_problem k) = 2 * N + 2 * m /\ option_map fst (lc_active k) = Some gb /\ no_statuses (se_fixed se) N m gb.
Proof.
  intros Hs Hn As. destruct (asked_turn n k As) as (x & g & f & q & r & h & rs & M & l0 & l1 & t & A & G & T). destruct (asked_size _ _ _ _ _ _ _ _ _ _ _ _ _ T) as (Nk & _).
  assert (X : exists j0 j1 ce, shape (pg_problem x) j0 j1 /\ keeps (se_start se) N 0 j0 j1 [] [] ce).
  { destruct Hn as [->|Hr].
    - cbn [pg_after] in A. injection A as <-. destruct La as (_ & _ & _ & _ & _ & _ & _ & _ & St). unfold pg_start in St. destruct (setup_shape pb_new pr_new) as (z & i0 & i1 & E & _ & S & Ke).
      rewrite E in St. injection St as <-. exists i0, i1, []. split; [exact S|apply Ke].
    - destruct (go_problem _ _ _ _ _ _ _ _ _ _ _ G) as (_ & i0 & i1 & Si & m2 & sa2 & ca2 & ce2 & K2 & _). destruct (ke_report _ _ _ _ _ _ _ _ K2 Hr) as [E1 E2]. pose proof (ke_steps _ _ _ _ _ _ _ _ K2) as L. rewrite E1 in L. cbn [length] in L.
      assert (m2 = 0) by lia. subst m2 sa2 ca2. exists i0, i1, ce2. split; assumption. }
  destruct X as (j0 & j1 & ce & Sj & Kj). destruct (active_given _ _ _ _ _ _ _ _ _ _ _ _ _ _ _ _ _ _ _ Hs G T Sj Kj) as (_ & gb & B1 & B2 & B3 & B4).
  exists (length (h_steps h)), gb. split; [exact Nk|]. split; [exact B1|]. split; [exact B2|]. unfold cop_at, step_at. split.
  - intros c a Hc. pose proof (axis_small a). destruct (B3 (2 * c + axis_index a) ltac:(lia)) as (u & z & U & Z & Me). rewrite cops_none in Z by lia. injection Z as <-. cbn in Me. subst u. exact U.
  - intros j a Hj. pose proof (axis_small a). destruct (B4 (2 * j + axis_index a) ltac:(lia)) as (u & z & U & Z & Me). rewrite Nat.add_assoc in U. rewrite U. f_equal. unfold guessed_steps in Z. destruct (se_fixed se).
    + rewrite error_repeat in Z by lia. injection Z as <-. exact Me.
    + destruct (Nat.eqb_spec 0 (length (h_steps h))); [lia|]. destruct (Nat.ltb_spec (length (h_steps h)) 0); [lia|]. cbn [app] in Z. rewrite error_repeat in Z by lia. injection Z as <-. exact Me.
Qed.
Lemma active_next n k k' : hs_active (se_start se) = true -> hs_report (se_start se) = true -> asked fuel junk nan se es s n k -> asked fuel junk nan se es s (S n) k' ->
  exists m m' gb, qa_nV (lc_problem k) = 2 * N + 2 * m /\ qa_nV (lc_problem k') = 2 * N + 2 * m' /\ option_map fst (lc_active k') = Some gb /\ moved_statuses (se_fixed se) N m m' (an_wsb (en_library (es n) k)) gb.
Proof.
  intros Hs Hr As As'. destruct (asked_turn n k As) as (x & g & f & q & r & h & rs & M & l0 & l1 & t & A & G & T). destruct (asked_turn (S n) k' As') as (x' & g' & f' & q' & r' & h' & rs' & M' & l0' & l1' & t' & A' & G' & T').
  destruct (asked_size _ _ _ _ _ _ _ _ _ _ _ _ _ T) as (Nk & _). destruct (asked_size _ _ _ _ _ _ _ _ _ _ _ _ _ T') as (Nk' & _). pose proof La as (_ & _ & _ & Sen & Mo & Fe & _). pose proof two_intervals as HN.
  assert (Wo : forall y, y < 2 * N + 2 * length (h_steps h) -> (an_wsb (en_library (es n) k) y = -1 \/ an_wsb (en_library (es n) k) y = 0 \/ an_wsb (en_library (es n) k) y = 1)%R).
  { intros y Hy. apply (proj2 (Un Hr n k As)). rewrite Nk. exact Hy. }
  destruct T as (P & _ & _ & _ & Ef & [(_ & E & _)|(R1 & _ & z & pf & E & _ & _ & _ & _ & _ & _ & _ & _ & _ & _ & Ca)]); [congruence|]. rewrite A' in E. injection E as <-.
  destruct (Ca Hr) as (k0 & k1 & j0 & j1 & v0 & ce & Sq & Pl & Sj & Kj & Lv & Rp).
  destruct (active_given _ _ _ _ _ _ _ _ _ _ _ _ _ _ _ _ _ _ _ Hs G' T' Sj Kj) as (Km & gb & B1 & B2 & B3 & B4). clear T'.
  destruct P as (_ & _ & _ & _ & F & _ & _ & _ & WF & _ & Sh & _). destruct (wf_indices _ _ _ _ _ _ _ _ _ _ _ _ WF) as [I0 I1].
  set (m := length (h_steps h)) in *. set (m' := length (h_steps h')) in *. set (ws := an_wsb (en_library (es n) k)) in *.
  destruct Pl as ((i & j & T0 & D0 & D1 & L0 & L1) & _).
  assert (Rs : forall y, y < 2 * m -> exists u, nth_error v0 y = Some u /\ act_of (ws (2 * N + y)) u).
  { intros y Hy. destruct (Rp i y) as (u & U1 & U2); [rewrite T0; left; reflexivity|rewrite L0; exact Hy|]. rewrite L0 in U1. exists u. split; [exact U1|].
    apply (reported_status fuel junk nan se centering mp _ _ _ _ pr h H rs _ _ M f (pg_problem x) l0 l1 F WF Sh Sen Mo Fe k0 ws (an_wsc (en_library (es n) k)) i y (2 * N + y) u); [apply Sq|rewrite T0; left; reflexivity| |apply Wo; unfold m in Hy; lia|exact U2].
    rewrite D0. apply I0. split; [exact Hy|reflexivity]. }
  assert (Rc : forall y, y < 2 * N -> exists u, nth_error v0 (2 * m + y) = Some u /\ act_of (ws y) u).
  { intros y Hy. destruct (Rp j y) as (u & U1 & U2); [rewrite T0; right; left; reflexivity|rewrite L1; exact Hy|]. rewrite L1 in U1. exists u. split; [exact U1|].
    apply (reported_status fuel junk nan se centering mp _ _ _ _ pr h H rs _ _ M f (pg_problem x) l0 l1 F WF Sh Sen Mo Fe k0 ws (an_wsc (en_library (es n) k)) j y y u); [apply Sq|rewrite T0; right; left; reflexivity| |apply Wo; lia|exact U2].
    rewrite D1. apply I1. split; [exact Hy|reflexivity]. }
  assert (Lc : length (skipn (2 * m) v0) = 2 * N) by (rewrite skipn_length; lia).
  assert (Lf : length (firstn (2 * m) v0) = 2 * m) by (rewrite firstn_length; lia).
  exists m, m', gb. split; [exact Nk|]. split; [exact Nk'|]. split; [exact B1|]. split.
  - exact B2.
  - exact Km.
  - intros c a Hc. unfold cop_at. pose proof (axis_small a). destruct (B3 (2 * c + axis_index a) ltac:(lia)) as (u & z & U & Z & Me). exists u. split; [exact U|].
    rewrite cops_moved, error_drop in Z by lia. destruct (Rc (2 * S c + axis_index a) ltac:(lia)) as (z' & Z' & Ac). replace (2 * m + (2 + (2 * c + axis_index a))) with (2 * m + (2 * S c + axis_index a)) in Z by lia. rewrite Z' in Z. injection Z as ->.
    apply (means_status _ z); [exact Ac|apply Wo; lia|exact Me].
  - intros a. unfold cop_at. pose proof (axis_small a). destruct (B3 (2 * (N - 1) + axis_index a) ltac:(lia)) as (u & z & U & Z & Me). pose proof (cops_last N (skipn (2 * m) v0) a ltac:(lia) Lc) as Z'. unfold cop_at in Z'. rewrite Z' in Z. injection Z as <-. cbn in Me. subst u. exact U.
  - intros Fx j' a Hj. unfold step_at. pose proof (axis_small a). destruct (B4 (2 * j' + axis_index a) ltac:(lia)) as (u & z & U & Z & Me). rewrite Nat.add_assoc in U. unfold guessed_steps in Z. rewrite Fx in Z. rewrite error_repeat in Z by lia. injection Z as <-. cbn in Me. subst u. exact U.
  - intros Fx Em j' a Hj. unfold step_at. pose proof (axis_small a). destruct (B4 (2 * j' + axis_index a) ltac:(lia)) as (u & z & U & Z & Me). rewrite Nat.add_assoc in U. exists u. split; [exact U|]. unfold guessed_steps in Z. rewrite Fx in Z.
    destruct (Nat.eqb_spec m m'); [lia|]. destruct (Nat.ltb_spec m' m); [|lia]. rewrite error_drop, error_keep in Z by lia. destruct (Rs (2 * S j' + axis_index a) ltac:(lia)) as (z' & Z' & Ac).
    replace (2 + (2 * j' + axis_index a)) with (2 * S j' + axis_index a) in Z by lia. rewrite Z' in Z. injection Z as ->. rewrite Nat.add_assoc in Ac. apply (means_status _ z); [exact Ac|apply Wo; lia|exact Me].
  - intros Fx Em j' a Hj. unfold step_at. pose proof (axis_small a). destruct (B4 (2 * j' + axis_index a) ltac:(lia)) as (u & z & U & Z & Me). rewrite Nat.add_assoc in U. exists u. split; [exact U|]. unfold guessed_steps in Z. rewrite Fx in Z.
    assert (Z2 : nth_error (firstn (2 * m) v0) (2 * j' + axis_index a) = Some z).
    { destruct (Nat.eqb_spec m m'); [exact Z|]. destruct (Nat.ltb_spec m' m); [lia|]. rewrite nth_error_app1 in Z by lia. exact Z. }
    rewrite error_keep in Z2 by lia. destruct (Rs (2 * j' + axis_index a) ltac:(lia)) as (z' & Z' & Ac). rewrite Z' in Z2. injection Z2 as ->. rewrite Nat.add_assoc in Ac. apply (means_status _ z); [exact Ac|apply Wo; lia|exact Me].
  - intros Fx j' a Hj. unfold step_at. pose proof (axis_small a). destruct (B4 (2 * j' + axis_index a) ltac:(lia)) as (u & z & U & Z & Me). rewrite Nat.add_assoc in U. unfold guessed_steps in Z. rewrite Fx in Z.
    destruct (Nat.eqb_spec m m'); [lia|]. destruct (Nat.ltb_spec m' m); [lia|]. rewrite nth_error_app2 in Z by lia. rewrite error_repeat in Z by lia. injection Z as <-. cbn in Me. subst u. exact U.
Qed.
End Hot.

(** ** theorems *)
(** nothing is guessed if it was not asked for *)
Theorem hot_nothing : forall p s0, exists F, forall fuel junk nan se pr par centering details w s es, F <= fuel -> launched p s0 pr se par centering details w s -> understood fuel junk nan se es s ->
  forall n k, asked fuel junk nan se es s n k -> (hs_solution (se_start se) = false -> lc_guess k = None) /\ (hs_active (se_start se) = false -> lc_active k = None).
Proof.
  intros p s0. exists (stances_left (wl_fsm s0) + 1). intros fuel junk nan se pr par centering details w s es FU La Un n k As. split; intros Hs.
  - eapply guess_not_given; eassumption.
  - eapply active_not_given; eassumption.
Qed.
(** the guess of the solution: zero in the first iteration, the previous solution one interval later in the others *)
Theorem hot_solution : forall p s0, exists F, forall fuel junk nan se pr par centering details w s es, F <= fuel -> launched p s0 pr se par centering details w s -> understood fuel junk nan se es s ->
  hs_solution (se_start se) = true -> let N := horizon_length (wg_par (wl_wpg s0)) in
  (forall k, asked fuel junk nan se es s 0 k -> exists m g, qa_nV (lc_problem k) = 2 * N + 2 * m /\ lc_guess k = Some g /\ vlen g = 2 * N + 2 * m /\ forall i, i < 2 * N + 2 * m -> vget g i = 0%R) /\
  (forall n x x' k k', steps_to fuel junk nan se es s n x x' -> asked fuel junk nan se es s n k -> asked fuel junk nan se es s (S n) k' ->
    exists m m' g, qa_nV (lc_problem k) = 2 * N + 2 * m /\ qa_nV (lc_problem k') = 2 * N + 2 * m' /\ lc_guess k' = Some g /\ moved_solution N m m' (point (last_solution x')) g /\
      forall y, an_primal (en_library (es n) k) = Some y -> forall i, i < 2 * N + 2 * m -> point (last_solution x') i = y i).
Proof.
  intros p s0. exists (stances_left (wl_fsm s0) + 1). intros fuel junk nan se pr par centering details w s es FU La Un Hs N. split.
  - intros k As. eapply guess_first; eassumption.
  - intros n x x' k k' St As As'. eapply guess_next; eassumption.
Qed.
(** the guess of the active set: nothing is known in the first iteration, or if the active set found by the solver is not processed; otherwise it is the
    previous working set one interval later *)
Theorem hot_active : forall p s0, exists F, forall fuel junk nan se pr par centering details w s es, F <= fuel -> launched p s0 pr se par centering details w s -> understood fuel junk nan se es s ->
  hs_active (se_start se) = true -> let N := horizon_length (wg_par (wl_wpg s0)) in
  (forall n k, n = 0 \/ hs_report (se_start se) = false -> asked fuel junk nan se es s n k ->
    exists m g, qa_nV (lc_problem k) = 2 * N + 2 * m /\ option_map fst (lc_active k) = Some g /\ no_statuses (se_fixed se) N m g) /\
  (hs_report (se_start se) = true -> forall n k k', asked fuel junk nan se es s n k -> asked fuel junk nan se es s (S n) k' ->
    exists m m' g, qa_nV (lc_problem k) = 2 * N + 2 * m /\ qa_nV (lc_problem k') = 2 * N + 2 * m' /\ option_map fst (lc_active k') = Some g /\
      moved_statuses (se_fixed se) N m m' (an_wsb (en_library (es n) k)) g).
Proof.
  intros p s0. exists (stances_left (wl_fsm s0) + 1). intros fuel junk nan se pr par centering details w s es FU La Un Hs N. split.
  - intros n k Hn As. eapply active_unknown; eassumption.
  - intros Hr n k k' As As'. eapply active_next; eassumption.
Qed.
(** the walk is the same, whatever is used of the previous iteration *)
Theorem hot_same : forall p s0, exists F, forall fuel junk nan se hs pr par par' centering details details' w w' s s' es es', F <= fuel ->
  launched p s0 pr se par centering details w s -> launched p s0 pr (with_start se hs) par' centering details' w' s' -> pr_crash par = true -> pr_crash par' = true ->
  library_is right_answer fuel junk nan se es s -> library_is sensible_answer fuel junk nan se es s ->
  library_is right_answer fuel junk nan (with_start se hs) es' s' -> library_is sensible_answer fuel junk nan (with_start se hs) es' s' -> se_copvel se <> 0%R -> centering <> 0%R ->
  forall n, (pg_after fuel junk nan se es s n = Finished (Ok None) /\ pg_after fuel junk nan (with_start se hs) es' s' n = Finished (Ok None)) \/
    exists x y, pg_after fuel junk nan se es s n = Finished (Ok (Some x)) /\ pg_after fuel junk nan (with_start se hs) es' s' n = Finished (Ok (Some y)) /\
      pg_loop x = pg_loop y /\ (0 < n -> last_solution x = last_solution y).
Proof.
  intros p s0. destruct (program_complete p s0) as [F1 K1]. destruct (program_determined p s0) as [F2 K2]. exists (F1 + F2 + (stances_left (wl_fsm s0) + 1)).
  intros fuel junk nan se hs pr par par' centering details details' w w' s s' es es' FU La La' Cr Cr' Li Se Li' Se' G1 G2 n.
  assert (Un : understood fuel junk nan se es s) by (intros _; exact Se). assert (Un' : understood fuel junk nan (with_start se hs) es' s') by (intros _; exact Se').
  destruct (K1 fuel junk nan se pr par centering details w s es ltac:(lia) La Un Li n) as (o & A & B). destruct (K1 fuel junk nan _ pr par' centering details' w' s' es' ltac:(lia) La' Un' Li' n) as (o' & A' & B').
  assert (FU' : stances_left (wl_fsm s0) + 1 <= fuel) by lia.
  destruct o as [x|], o' as [y|].
  - right. exists x, y. split; [exact A|]. split; [exact A'|].
    apply (K2 fuel junk nan se hs pr par par' centering details details' w w' s s' es es' ltac:(lia) La La' Un Un' Cr Cr'
      (right_sound p s0 fuel junk nan se pr par centering details w s es FU' La Un Li) (right_sound p s0 fuel junk nan _ pr par' centering details' w' s' es' FU' La' Un' Li') G1 G2 n x y A A').
  - exfalso. apply (proj2 B'); [apply B; discriminate|reflexivity].
  - exfalso. apply (proj2 B); [apply B'; discriminate|reflexivity].
  - left. split; assumption.
Qed.
