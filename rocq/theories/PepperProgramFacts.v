(** * The Pepper program: the hierarchy *)
From Coq Require Import String List Reals Arith Bool ZArith Lra Lia.
From Verif Require Import Base BaseFacts RSum Matrix Mat2 Mat3 ActiveSet Mixins ConstraintType HierarchyLevel HierarchySpec HierarchyFacts Constraints ConstraintsSpec QP QPSpec Problem ProblemSpec ProblemFacts
  PointMass6z PointMass6zSpec Solution Task MpcGuess MpcGuessFacts PepperTasksFacts2
  QpoasesBridge QpoasesBridgeSpec Backends BackendsSpec Solver SolverLife SolverLifeSpec WalkProgram WalkProgramFacts
  PepperPreview PepperModel PepperMpc PepperMpcSpec PepperTasks PepperTasksSpec PepperLoop PepperLoopSpec PepperProgram.
Import ListNotations.
Local Open Scope nat_scope.

Definition kids0 : list (nat * ctype) := [(ACCELERATION, ASLU); (PRESSURE, ALU); (BODY, ALU); (VELOCITY, ILU)].
Definition kids1 (position : bool) : list (nat * ctype) := [(CENTER, AB); (BASE_JERK, ASB); (REFERENCE, if position then ASB else GIB); (BODYJERK, GIB0)].
(** the hierarchy of the program *)
Definition kshape (position : bool) (p : problem) (l0 l1 : level) : Prop := pb_levels p = [l0; l1] /\ task_ids l0 = kids0 /\ task_ids l1 = kids1 position.
(** what the tasks keep of the previous iteration *)
Record kkeeps (hs : hotstart) (rows : nat) (l0 l1 : level) : Prop := mkKK {
  kk_sizes : forall a, In a (actuals l0 ++ actuals l1) -> a = [] \/ length a = rows;
  kk_defined : forall a, In a (actuals l0) -> ~ In UNDEFINED a;
  kk_guess : hs_active hs = false -> unguessed l0 /\ unguessed l1;
  kk_report : hs_report hs = false -> forall a, In a (actuals l0) -> a = [] }.

Lemma kp_setup_shape position p : preach p -> exists p' l0 l1, kp_setup position p = Ok p' /\ preach p' /\ kshape position p' l0 l1 /\ forall hs rows, kkeeps hs rows l0 l1.
Proof.
  intros H. unfold kp_setup.
  set (q0 := pb_reset 2 p). assert (R0 : preach q0) by (apply pr_reset; exact H).
  assert (E0 : pb_levels q0 = [level_new; level_new]) by reflexivity. clearbody q0.
  assert (St : forall q a b t, preach q -> pb_levels q = [a; b] -> (exists q', pb_pushTask q t 0 = Ok q' /\ preach q' /\ pb_levels q' = [level_pushTask a t; b]) /\
    (exists q', pb_pushTask q t 1 = Ok q' /\ preach q' /\ pb_levels q' = [a; level_pushTask b t])).
  { intros q a b t R E. split.
    - assert (P : pb_pushTask q t 0 = Ok (mkProblem (update (pb_levels q) 0 (level_pushTask a t)) (pb_counts q))) by (unfold pb_pushTask; rewrite E; reflexivity).
      eexists. split; [exact P|]. split; [exact (pr_push _ _ _ _ R P)|]. cbn [pb_levels]. rewrite E. reflexivity.
    - assert (P : pb_pushTask q t 1 = Ok (mkProblem (update (pb_levels q) 1 (level_pushTask b t)) (pb_counts q))) by (unfold pb_pushTask; rewrite E; reflexivity).
      eexists. split; [exact P|]. split; [exact (pr_push _ _ _ _ R P)|]. cbn [pb_levels]. rewrite E. reflexivity. }
  destruct (proj1 (St q0 _ _ (new_task VELOCITY ILU) R0 E0)) as (q1 & P1 & R1 & E1). rewrite P1. cbn [bind].
  destruct (proj1 (St q1 _ _ (new_task BODY ALU) R1 E1)) as (q2 & P2 & R2 & E2). rewrite P2. cbn [bind].
  destruct (proj1 (St q2 _ _ (new_task PRESSURE ALU) R2 E2)) as (q3 & P3 & R3 & E3). rewrite P3. cbn [bind].
  destruct (proj1 (St q3 _ _ (new_task ACCELERATION ASLU) R3 E3)) as (q4 & P4 & R4 & E4). rewrite P4. cbn [bind].
  destruct (proj2 (St q4 _ _ (new_task REFERENCE (if position then ASB else GIB)) R4 E4)) as (q5 & P5 & R5 & E5). rewrite P5. cbn [bind].
  destruct (proj2 (St q5 _ _ (new_task BASE_JERK ASB) R5 E5)) as (q6 & P6 & R6 & E6). rewrite P6. cbn [bind].
  destruct (proj2 (St q6 _ _ (new_task BODYJERK GIB0) R6 E6)) as (q7 & P7 & R7 & E7). rewrite P7. cbn [bind].
  destruct (proj2 (St q7 _ _ (new_task CENTER AB) R7 E7)) as (q8 & P8 & R8 & E8). rewrite P8.
  eexists q8, _, _. split; [reflexivity|]. split; [exact R8|]. split; [split; [exact E8|]; split; destruct position; reflexivity|].
  intros hs rows. destruct position; split.
  1,5: intros a I; left; cbn in I; repeat (destruct I as [<-|I]; [reflexivity|]); destruct I.
  1,4: intros a I; cbn in I; repeat (destruct I as [<-|I]; [intros []|]); destruct I.
  1,3: intros _; split; repeat constructor.
  all: intros _ a I; cbn in I; repeat (destruct I as [<-|I]; [reflexivity|]); destruct I.
Qed.

Lemma four_tasks l x y z u : task_ids l = [x; y; z; u] -> exists i j k m, lv_tasks l = [i; j; k; m] /\ (tk_id (ti_task i), tk_type (ti_task i)) = x /\ (tk_id (ti_task j), tk_type (ti_task j)) = y /\
  (tk_id (ti_task k), tk_type (ti_task k)) = z /\ (tk_id (ti_task m), tk_type (ti_task m)) = u.
Proof. unfold task_ids. destruct (lv_tasks l) as [|i [|j [|k [|m [|n r]]]]]; intros E; try discriminate E. injection E as <- <- <- <-. exists i, j, k, m. auto 8. Qed.
Lemma in_actuals l i : In i (lv_tasks l) -> In (tk_actual (ti_task i)) (actuals l).
Proof. intros H. unfold actuals. apply in_map_iff. exists i. auto. Qed.
Lemma same_sum (ts : list tinfo) rows : (forall i, In i ts -> tk_n (ti_task i) = rows) -> sumn ts = length ts * rows.
Proof.
  intros H. induction ts as [|i r IH]; [reflexivity|]. rewrite sumn_cons, IH by (intros j J; apply H; right; exact J). rewrite (H i) by (left; reflexivity). cbn [length]. lia.
Qed.
Lemma same_locs rows ts : forall start, (forall i, In i ts -> tk_n (ti_task i) = rows) -> locs_from start ts -> map ti_loc ts = map (fun j => mkLoc (start + j * rows) rows) (seq 0 (length ts)).
Proof.
  induction ts as [|i r IH]; intros start H L; [reflexivity|]. cbn [locs_from] in L. destruct L as [L1 L2]. rewrite (H i) in L1, L2 by (left; reflexivity). cbn [map length seq]. f_equal.
  - rewrite L1. f_equal. lia.
  - rewrite (IH _ (fun j J => H j (or_intror J)) L2). rewrite <- seq_shift, map_map. apply map_ext. intros j. f_equal. lia.
Qed.
Lemma concat_length_same (l : list aset) rows : (forall a, In a l -> length a = rows) -> length (concat l) = length l * rows.
Proof. induction l as [|a l IH]; intros H; [reflexivity|]. cbn [concat length]. rewrite app_length, IH by (intros b B; apply H; right; exact B). rewrite (H a) by (left; reflexivity). lia. Qed.

Section Form.
Variables (position : bool) (fo : nat -> formed) (hs : hotstart) (rows : nat) (G : aset -> aset) (p : problem) (l0 l1 : level).
Hypothesis (R : preach p) (S : kshape position p l0 l1) (K : kkeeps hs rows l0 l1) (Ro : 0 < rows).
Hypothesis (C : forall k, In k (kids0 ++ kids1 position) -> f_consistent (fo (fst k)) = true /\ f_n (fo (fst k)) = rows).
Hypothesis (H0 : forall k, In k kids0 -> f_unmodified (fo (fst k)) = false /\ exists h, f_guess (fo (fst k)) = Some h /\
  (hs_active hs = true -> forall t, tk_n t = rows -> tk_modified t = true -> ct_isEquality (tk_type t) = false -> In (tk_actual t) (actuals l0) -> h t = Ok (G (tk_actual t)))).
Hypothesis (H1 : forall k, In k (kids1 position) -> f_guess (fo (fst k)) = None).
Hypothesis (HG : forall a, In a (actuals l0) -> length (G a) = rows).

Lemma kids_case l : (l = l0 \/ l = l1) -> forall i, In i (lv_tasks l) -> In (tk_id (ti_task i), tk_type (ti_task i)) (kids0 ++ kids1 position).
Proof. intros L i I. apply in_ids in I. destruct S as (_ & I0 & I1). apply in_or_app. destruct L as [-> | ->]; [left; rewrite I0 in I|right; rewrite I1 in I]; exact I. Qed.
Lemma two_sided i : In i (lv_tasks l0) -> ct_isEquality (tk_type (ti_task i)) = false.
Proof. intros I. apply in_ids in I. destruct S as (_ & I0 & _). rewrite I0 in I. cbn in I. destruct I as [I|[I|[I|[I|[]]]]]; injection I as _ <-; reflexivity. Qed.

Lemma kformable : Forall (level_formable fo (hs_active hs)) [l0; l1].
Proof.
  assert (P : forall l, (l = l0 \/ l = l1) -> 0 < list_sum (map (fun i => f_n (fo (tk_id (ti_task i)))) (lv_tasks l))).
  { intros l L. assert (X : exists i r, lv_tasks l = i :: r).
    { destruct S as (_ & I0 & I1). unfold task_ids in I0, I1. destruct L as [-> | ->]; [destruct (lv_tasks l0) as [|i r]; [discriminate I0|eauto]|destruct (lv_tasks l1) as [|i r]; [discriminate I1|eauto]]. }
    destruct X as (i & r & X). pose proof (kids_case l L i) as Y. rewrite X in *. specialize (Y (or_introl eq_refl)). destruct (C _ Y) as [_ Z]. cbn [fst] in Z. cbn [map list_sum fold_right]. rewrite Z. lia. }
  constructor; [|constructor; [|constructor]]; split; try (apply P; auto).
  - apply Forall_forall. intros i I. pose proof (kids_case l0 (or_introl eq_refl) i I) as Y. destruct (C _ Y) as [Y1 Y2]. cbn [fst] in Y1, Y2. split; [exact Y1|]. split.
    + intros Hg. left. destruct (kk_guess _ _ _ _ K Hg) as [U _]. unfold unguessed in U. rewrite Forall_forall in U. rewrite (U i I). reflexivity.
    + intros Hg. assert (I' : In (tk_id (ti_task i), tk_type (ti_task i)) kids0) by (apply in_ids in I; destruct S as (_ & I0 & _); rewrite I0 in I; exact I).
      destruct (H0 _ I') as (Um & h & Eh & V). cbn [fst] in Um, Eh. rewrite Eh. exists (G (tk_actual (ti_task i))). split.
      * apply (V Hg (userForm (fo (tk_id (ti_task i))) (preForm (ti_task i)))); cbn [userForm preForm tk_n tk_modified tk_type tk_actual]; [exact Y2|rewrite Um; reflexivity|apply two_sided; exact I|apply in_actuals; exact I].
      * right. rewrite Y2. apply HG. apply in_actuals. exact I.
  - apply Forall_forall. intros i I. pose proof (kids_case l1 (or_intror eq_refl) i I) as Y. destruct (C _ Y) as [Y1 Y2]. cbn [fst] in Y1, Y2. split; [exact Y1|]. split.
    + intros Hg. left. destruct (kk_guess _ _ _ _ K Hg) as [_ U]. unfold unguessed in U. rewrite Forall_forall in U. rewrite (U i I). reflexivity.
    + intros Hg. assert (I' : In (tk_id (ti_task i), tk_type (ti_task i)) (kids1 position)) by (apply in_ids in I; destruct S as (_ & _ & I1); rewrite I1 in I; exact I).
      pose proof (H1 _ I') as Y3. cbn [fst] in Y3. rewrite Y3. intros _. rewrite Y2. destruct (kk_sizes _ _ _ _ K (tk_actual (ti_task i))) as [-> | X]; [apply in_or_app; right; apply in_actuals; exact I|left; reflexivity|right; exact X].
Qed.
Lemma formed_rows l l' : (l = l0 \/ l = l1) -> Forall2 (formed_from fo (hs_active hs)) (lv_tasks l) (lv_tasks l') -> forall i, In i (lv_tasks l') -> tk_n (ti_task i) = rows.
Proof.
  intros L F. assert (X : forall i, In i (lv_tasks l) -> In (tk_id (ti_task i), tk_type (ti_task i)) (kids0 ++ kids1 position)) by (apply kids_case; exact L).
  revert X. induction F as [|a b r r' Y F IH]; intros X i I; [destruct I|]. destruct I as [<-|I].
  - destruct (form_task_ok _ _ _ _ Y) as (_ & _ & Z & _). rewrite Z. apply (C (_, _) (X a (or_introl eq_refl))).
  - apply IH; [|assumption]. intros j J. apply X. right. exact J.
Qed.
Lemma formed_guesses l0' : hs_active hs = true -> Forall2 (formed_from fo (hs_active hs)) (lv_tasks l0) (lv_tasks l0') -> map (fun i => tk_guess (ti_task i)) (lv_tasks l0') = map G (actuals l0).
Proof.
  intros Hg F. rewrite Hg in F. unfold actuals. rewrite map_map.
  assert (Y : forall ts ts', Forall2 (formed_from fo true) ts ts' -> (forall i, In i ts -> In i (lv_tasks l0)) -> map (fun i => tk_guess (ti_task i)) ts' = map (fun x => G (tk_actual (ti_task x))) ts);
    [|apply (Y _ _ F); auto]. clear F l0'. intros ts ts' F. induction F as [|a b r r' Y F IH]; intros X; [reflexivity|].
  cbn [map]. rewrite IH by (intros j J; apply X; right; exact J). f_equal. destruct (form_task_ok _ _ _ _ Y) as (_ & _ & _ & _ & _ & _ & _ & _ & _ & _ & Z).
  pose proof (X a (or_introl eq_refl)) as I. assert (I' : In (tk_id (ti_task a), tk_type (ti_task a)) kids0) by (apply in_ids in I; destruct S as (_ & I0 & _); rewrite I0 in I; exact I).
  destruct (H0 _ I') as (Um & h & Eh & V). cbn [fst] in Um, Eh. specialize (Z eq_refl h Eh). rewrite (V Hg) in Z; [injection Z as Z; symmetry; exact Z|..]; cbn [userForm preForm tk_n tk_modified tk_type tk_actual].
  - destruct (C (_, _) (in_or_app _ _ _ (or_introl I'))) as [_ Y2]. exact Y2.
  - rewrite Um. reflexivity.
  - apply two_sided. exact I.
  - apply in_actuals. exact I.
Qed.
Lemma formed_full l1' : hs_active hs = true -> Forall2 (formed_from fo (hs_active hs)) (lv_tasks l1) (lv_tasks l1') -> Forall (fun i => length (tk_guess (ti_task i)) = tk_n (ti_task i)) (lv_tasks l1').
Proof.
  intros Hg F. rewrite Hg in F. assert (X : forall i, In i (lv_tasks l1) -> In (tk_id (ti_task i), tk_type (ti_task i)) (kids1 position)).
  { intros i I. apply in_ids in I. destruct S as (_ & _ & I1). rewrite I1 in I. exact I. }
  revert X. induction F as [|a b r r' Y F IH]; intros X; [constructor|]. constructor; [|apply IH; intros j J; apply X; right; exact J].
  destruct (form_task_ok _ _ _ _ Y) as (_ & _ & _ & _ & _ & _ & Z & _). apply Z; [reflexivity|]. intros g u v Eg. pose proof (H1 _ (X a (or_introl eq_refl))) as N. cbn [fst] in N. rewrite N in Eg. discriminate Eg.
Qed.
Lemma Forall2_four {A B} (P : A -> B -> Prop) a b l : Forall2 P [a; b] l -> exists c d, l = [c; d] /\ P a c /\ P b d.
Proof. apply Forall2_two. Qed.

Lemma kform_shape : exists p' l0' l1', pb_formHierarchy fo (hs_active hs) p = Ok p' /\ preach p' /\ kshape position p' l0' l1' /\ kkeeps hs rows l0' l1' /\ actuals l0' = actuals l0 /\
  map ti_loc (lv_tasks l0') = map (fun j => mkLoc (j * rows) rows) (seq 0 4) /\ map ti_loc (lv_tasks l1') = map (fun j => mkLoc (j * rows) rows) (seq 0 4) /\
  level_getNumberOfConstraints l0' = 4 * rows /\ level_getNumberOfConstraints l1' = 4 * rows /\
  (hs_active hs = true -> exists a1, pb_guessActiveSet p' = Ok [concat (map G (actuals l0)); a1] /\ length a1 = 4 * rows).
Proof.
  destruct S as (E & I0 & I1). destruct (problem_form_accepted fo (hs_active hs) p R) as [[_ A] _]. destruct A as (p' & P).
  { unfold pb_getNumberOfLevels. rewrite E. split; [cbn; lia|exact kformable]. }
  destruct (formed_levels fo (hs_active hs) p p' R P) as (F & Ct & R'). rewrite E in F. destruct (preach_wf p R) as [W _]. rewrite E in W. assert (W0 : lreach l0) by (inversion W; assumption). assert (W1 : lreach l1) by (inversion W as [|? ? _ W']; inversion W'; assumption).
  destruct (Forall2_two _ _ _ _ F) as (l0' & l1' & E' & F0 & F1).
  destruct (form_ok _ _ _ _ (lreach_gf _ W0) F0) as (X0 & Lo0 & Nc0 & _). destruct (form_ok _ _ _ _ (lreach_gf _ W1) F1) as (X1 & Lo1 & Nc1 & _).
  destruct (formed_same _ _ _ _ X0) as (S0 & V0 & U0). destruct (formed_same _ _ _ _ X1) as (S1 & V1 & U1).
  pose proof (formed_rows l0 l0' (or_introl eq_refl) X0) as N0. pose proof (formed_rows l1 l1' (or_intror eq_refl) X1) as N1.
  assert (L0 : length (lv_tasks l0') = 4). { rewrite I0 in S0. unfold task_ids in S0. apply (f_equal (@length _)) in S0. rewrite map_length in S0. exact S0. }
  assert (L1 : length (lv_tasks l1') = 4). { rewrite I1 in S1. unfold task_ids in S1. apply (f_equal (@length _)) in S1. rewrite map_length in S1. exact S1. }
  pose proof (same_sum _ _ N0) as M0. pose proof (same_sum _ _ N1) as M1. rewrite L0 in M0. rewrite L1 in M1.
  exists p', l0', l1'. split; [exact P|]. split; [exact R'|]. split; [split; [exact E'|]; split; congruence|]. split.
  { split.
    - intros a. rewrite V0, V1. apply (kk_sizes _ _ _ _ K).
    - intros a. rewrite V0. apply (kk_defined _ _ _ _ K).
    - intros Hg. destruct (kk_guess _ _ _ _ K Hg). split; [apply U0; assumption|apply U1; assumption].
    - intros Hr a. rewrite V0. apply (kk_report _ _ _ _ K Hr). }
  split; [exact V0|]. split; [rewrite (same_locs rows _ 0 N0 Lo0), L0; reflexivity|]. split; [rewrite (same_locs rows _ 0 N1 Lo1), L1; reflexivity|]. split; [lia|]. split; [lia|].
  intros Hg. pose proof (formed_guesses l0' Hg X0) as Q0. pose proof (formed_full l1' Hg X1) as Q1.
  unfold pb_guessActiveSet. rewrite pb_counts_len by exact Ct. cbn [bind]. rewrite over_levels_eq by (rewrite map_length; reflexivity). rewrite E'. cbn [map zipM].
  unfold level_guessActiveSet.
  assert (J0 : length (as_initialize (level_getNumberOfConstraints l0')) = 4 * rows) by (unfold as_initialize, as_initialize_type; rewrite repeat_length; lia).
  assert (J1 : length (as_initialize (level_getNumberOfConstraints l1')) = 4 * rows) by (unfold as_initialize, as_initialize_type; rewrite repeat_length; lia).
  assert (Y0 : Forall (fun i => length (tk_guess (ti_task i)) = tk_n (ti_task i)) (lv_tasks l0')).
  { apply Forall_forall. intros i I. rewrite (N0 i I). assert (Z : In (tk_guess (ti_task i)) (map G (actuals l0))) by (rewrite <- Q0; apply in_map_iff; exists i; auto).
    apply in_map_iff in Z. destruct Z as (a & <- & Z). apply HG. exact Z. }
  rewrite (guess_loop_spec _ 0 _ Lo0 Y0) by lia. cbn [bind]. rewrite (guess_loop_spec _ 0 _ Lo1 Q1) by lia. cbn [bind firstn app Nat.add].
  rewrite !skipn_all2 by lia. rewrite !app_nil_r, Q0. eexists. split; [reflexivity|].
  rewrite (concat_length_same _ rows); [rewrite map_length, L1; reflexivity|]. intros a Ia. apply in_map_iff in Ia. destruct Ia as (i & <- & I). rewrite Forall_forall in Q1. rewrite (Q1 i I). apply N1. exact I.
Qed.
End Form.

Lemma kshape_qp position p l0 l1 : kshape position p l0 l1 -> qp_hierarchy p l0 l1.
Proof.
  intros (E & I0 & I1). split; [exact E|]. split.
  - intros i I. apply in_ids in I. rewrite I1 in I. cbn in I. destruct I as [I|[I|[I|[I|[]]]]]; injection I as _ <-; destruct position; split; (reflexivity || discriminate).
  - intros i I. apply in_ids in I. rewrite I0 in I. cbn in I. destruct I as [I|[I|[I|[I|[]]]]]; injection I as _ <-; reflexivity.
Qed.
Lemma kshape_described position cs fo nv p l0 l1 : kshape position p l0 l1 ->
  (forall k, In k (kids0 ++ kids1 position) -> getType (cs (fst k)) = snd k /\ f_n (fo (fst k)) = getNumberOfConstraints (cs (fst k)) /\ usable nv (cs (fst k))) ->
  described_problem cs fo nv p.
Proof.
  intros (E & I0 & I1) H. unfold described_problem. rewrite E. constructor; [|constructor; [|constructor]].
  - intros i I. apply in_ids in I. rewrite I0 in I. exact (H _ (in_or_app _ _ _ (or_introl I))).
  - intros i I. apply in_ids in I. rewrite I1 in I. exact (H _ (in_or_app _ _ _ (or_intror I))).
Qed.

(** the active set of the solver is given to the tasks *)
Definition parts (rows : nat) (v : aset) : list aset := map (fun j => segment v (j * rows) rows) (seq 0 4).
Lemma parts_concat rows v : length v = 4 * rows -> concat (parts rows v) = v.
Proof.
  intros L. unfold parts. cbn [seq map concat]. unfold segment.
  rewrite app_nil_r. cbn [Nat.mul skipn Nat.add].
  rewrite (firstn_all2 (skipn (rows + (rows + (rows + 0))) v)) by (rewrite skipn_length; lia).
  replace (rows + (rows + (rows + 0))) with (rows + (rows + rows)) by lia. replace (rows + 0) with rows by lia.
  assert (Sk : forall a b (x : aset), skipn (a + b) x = skipn b (skipn a x)) by (intros; rewrite skipn_skipn; f_equal; lia).
  rewrite (Sk rows (rows + rows)), (Sk rows rows (skipn rows v)), (Sk rows rows v), !firstn_skipn. reflexivity.
Qed.
Lemma parts_length rows v : length v = 4 * rows -> forall a, In a (parts rows v) -> length a = rows.
Proof.
  intros L a I. unfold parts in I. apply in_map_iff in I. destruct I as (j & <- & J). apply in_seq in J. unfold segment. rewrite firstn_length, skipn_length. nia.
Qed.
Lemma process_kshape position fo gu hs rows p q k0 k1 v0 v1 : preach p -> pb_formHierarchy fo gu p = Ok q -> kshape position q k0 k1 -> kkeeps hs rows k0 k1 -> hs_report hs = true ->
  map ti_loc (lv_tasks k0) = map (fun j => mkLoc (j * rows) rows) (seq 0 4) -> map ti_loc (lv_tasks k1) = map (fun j => mkLoc (j * rows) rows) (seq 0 4) ->
  level_getNumberOfConstraints k0 = 4 * rows -> level_getNumberOfConstraints k1 = 4 * rows -> fits [v0; v1] q -> ~ In UNDEFINED v0 ->
  exists q' j0 j1, pb_processActiveSet q [v0; v1] = Ok q' /\ preach q' /\ kshape position q' j0 j1 /\ kkeeps hs rows j0 j1 /\ actuals j0 = parts rows v0.
Proof.
  intros Pp Ef (Eq & I0 & I1) K Hr T0 T1 C0 C1 (FL & F) U.
  destruct (formed_levels fo gu p q Pp Ef) as (Fl & _ & Pq). rewrite Eq in Fl. destruct (preach_wf p Pp) as [W _].
  assert (X : exists a b, pb_levels p = [a; b] /\ level_form fo gu a = Ok k0 /\ level_form fo gu b = Ok k1).
  { inversion Fl as [|a ? r ? A B C D]; subst. inversion B as [|b ? r' ? A' B' C' D']; subst. inversion B'; subst. exists a, b. auto. }
  destruct X as (a & b & Ep & Fa & Fb). rewrite Ep in W. assert (Wa : lreach a) by (inversion W; assumption). assert (Wb : lreach b) by (inversion W as [|? ? _ W']; inversion W'; assumption).
  assert (N0 : length v0 = level_getNumberOfConstraints k0) by (apply (F 0); [rewrite Eq|]; reflexivity). assert (N1 : length v1 = level_getNumberOfConstraints k1) by (apply (F 1); [rewrite Eq|]; reflexivity).
  assert (E : pb_processActiveSet q [v0; v1] = Ok (mkProblem [distributed k0 v0; distributed k1 v1] (pb_counts q))).
  { rewrite process_eq, Eq. cbn [length Nat.eqb zipM]. rewrite (process_spec _ _ _ _ v0 (lreach_gf _ Wa) Fa N0). cbn [bind]. rewrite (process_spec _ _ _ _ v1 (lreach_gf _ Wb) Fb N1). reflexivity. }
  exists (mkProblem [distributed k0 v0; distributed k1 v1] (pb_counts q)), (distributed k0 v0), (distributed k1 v1).
  split; [exact E|]. split; [exact (pr_process _ _ _ Pq E)|].
  assert (Id : forall l s, task_ids (distributed l s) = task_ids l) by (intros l s; unfold task_ids, distributed; cbn [lv_tasks]; rewrite map_map; reflexivity).
  assert (Ug : forall l s, unguessed l -> unguessed (distributed l s)).
  { intros l s Hu. unfold unguessed, distributed in *. cbn [lv_tasks]. apply Forall_map. exact Hu. }
  assert (Ac : forall l v, map ti_loc (lv_tasks l) = map (fun j => mkLoc (j * rows) rows) (seq 0 4) -> actuals (distributed l v) = parts rows v).
  { intros l v T. unfold actuals, distributed, parts. cbn [lv_tasks]. rewrite map_map. cbn [ti_task set_actual tk_actual].
    rewrite <- (map_map ti_loc (fun x => segment v (Base.offset x) (len x))), T, map_map. reflexivity. }
  split; [split; [reflexivity|]; rewrite !Id; split; assumption|]. split; [|apply Ac; exact T0].
  split.
  - intros x. rewrite !Ac by assumption. intros I. right. apply in_app_or in I. destruct I as [I|I]; revert I; apply parts_length; lia.
  - intros x. rewrite Ac by assumption. intros I V. apply U. rewrite <- (parts_concat rows v0) by lia. apply in_concat. exists x. split; assumption.
  - intros Hg. destruct (kk_guess _ _ _ _ K Hg). split; apply Ug; assumption.
  - intros Hg. congruence.
Qed.

(** ** guesses of the tasks of bounds *)
Definition guessed_bounds (sampling subsampling : Z) (N : nat) (a : aset) : aset := if (subsampling <? sampling)%Z then repeat INACTIVE (2 * N) else guessed_cops N a.
Lemma guessed_bounds_length sampling subsampling N a : a = [] \/ (length a = 2 * N /\ ((subsampling < sampling)%Z \/ 1 < N)) -> length (guessed_bounds sampling subsampling N a) = 2 * N.
Proof.
  intros H. unfold guessed_bounds. destruct (Z.ltb_spec subsampling sampling); [apply repeat_length|]. destruct H as [-> | [L [H|H]]]; [apply repeat_length|lia|]. apply guessed_cops_length; [exact H|right; exact L].
Qed.
Lemma guessed_bounds_defined sampling subsampling N a : ~ In UNDEFINED a -> ~ In UNDEFINED (guessed_bounds sampling subsampling N a).
Proof. intros U. unfold guessed_bounds. destruct (subsampling <? sampling)%Z; [intros X; apply repeat_spec in X; discriminate X|apply guessed_cops_defined; exact U]. Qed.
Lemma bounds_value sampling subsampling N l t : tk_n t = 2 * N -> tk_modified t = true -> ct_isEquality (tk_type t) = false -> length l = N ->
  tk_actual t = [] \/ (length (tk_actual t) = 2 * N /\ ((subsampling < sampling)%Z \/ 1 < N)) ->
  bind (guess_pepper sampling subsampling l t) (fun t' => Ok (tk_guess t')) = Ok (guessed_bounds sampling subsampling N (tk_actual t)).
Proof.
  intros Hn Hm Hq L H. unfold guessed_bounds. destruct (Z.ltb_spec subsampling sampling) as [Q|Q].
  - unfold guess_pepper. replace (subsampling <? sampling)%Z with true by lia. unfold guessActiveSet. rewrite Hm, Hq, Hn. reflexivity.
  - unfold guess_pepper. replace (subsampling <? sampling)%Z with false by lia. rewrite L. destruct H as [H|[H [H'|H']]]; [rewrite H; cbn [bind shifted_guess length Nat.eqb]| lia |].
    + unfold shifted_guess. cbn [length Nat.eqb bind set_guess tk_guess]. unfold guessed_cops, as_initialize_type. replace (N * 2) with (2 * N) by lia. reflexivity.
    + pose proof (cops_value N 0 t H' (or_intror H)) as X. unfold WalkTasks.copBounds_guess in X. rewrite (proj1 (MpcGuessFacts.loc_wpg N 0)) in X. cbn [len] in X. rewrite X. reflexivity.
Qed.
