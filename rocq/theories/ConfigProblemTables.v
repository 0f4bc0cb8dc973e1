(** * Optimization problems in configuration files: the tasks of the modules *)
From Coq Require Import String List ZArith Arith Reals Bool Lia.
From Verif Require Import Base BaseFacts Config ConfigSpec ConfigFacts ConfigProblem ConfigProblemSpec ConfigProblemFacts.
Import ListNotations.
Open Scope list_scope.

(** entries without member classes and matrices *)
Fixpoint simple_entry (e : entry) : bool :=
  match e with EMember _ _ _ _ | EMatrix _ => false | EParent es => forallb simple_entry es | _ => true end.
Lemma simple_accepted fmt e : forall v, simple_entry e = true -> has_type e v -> accepted fmt e v /\ matrix_free v.
Proof.
  induction e as [n kd|n|n s|n kd|n|es IH|n es f d IH] using entry_rect'; intros v S T; destruct v; try (cbn in T; contradiction); try discriminate; try (split; exact I).
  rewrite has_type_parent in T. rewrite accepted_parent. cbn [simple_entry] in S.
  revert l T. induction es as [|e es IHe]; intros [|v l] T; cbn in T; try contradiction; [split; exact I|].
  cbn [forallb] in S. apply andb_prop in S as [S1 S2]. destruct T as [T1 T2].
  destruct (IH e (or_introl eq_refl) v S1 T1) as [A B]. destruct (IHe (fun e' i => IH e' (or_intror i)) S2 l T2) as [C D].
  split; [split; assumption|]. cbn. split; assumption.
Qed.
Lemma simple_list fmt es : forallb simple_entry es = true -> forall vs, have_types es vs -> all_accepted fmt es vs /\ forall v, In v vs -> matrix_free v.
Proof.
  induction es as [|e es IH]; intros S [|v vs] T; cbn in T; try contradiction; [split; [exact I|intros v []]|].
  cbn [forallb] in S. apply andb_prop in S as [S1 S2]. destruct T as [T1 T2]. destruct (IH S2 vs T2) as [A B]. destruct (simple_accepted fmt e v S1 T1) as [C D].
  split; [split; assumption|]. intros w [<-|I]; auto.
Qed.
Definition fit_task (t : ctask) : Prop :=
  wf_class (t_class t) /\ have_types (c_entries (t_class t)) (t_values t) /\
  forall vs, have_types (c_entries (t_class t)) vs -> (forall fmt, readable fmt (t_class t) vs) /\ forall v, In v vs -> matrix_free v.
Lemma fit_simple c desc vs : c_finalize c = always -> forallb simple_entry (c_entries c) = true -> NoDup (class_names (c_entries c)) ->
  (forall l, have_types (c_entries c) l -> have_types (c_entries c) (c_defaults c l)) -> have_types (c_entries c) vs -> fit_task (mkTask c desc vs).
Proof.
  intros F S ND DF T. split; [|split; [exact T|]].
  - split; [exact ND|]. split; [exact DF|]. apply wf_all. intros e I. rewrite forallb_forall in S. specialize (S e I).
    clear - S. induction e as [n kd|n|n s|n kd|n|es IH|n es f d IH] using entry_rect'; try exact I; [|discriminate].
    cbn [wf_entry]. apply wf_all. intros e I. cbn [simple_entry] in S. rewrite forallb_forall in S. exact (IH e I (S e I)).
  - intros l Tl. split; [|apply (simple_list (fun x => x) _ S l Tl)]. intros fmt. split; [exact Tl|]. split; [apply (simple_list fmt _ S l Tl)|].
    cbn. rewrite F. split; [reflexivity|]. intros _ l'. reflexivity.
Qed.
Ltac distinct := repeat (constructor; [cbn; intuition discriminate|]); constructor.
Ltac typed := cbn; intuition auto.
Lemma fit_plain_gain d g : fit_task (plain_gain_task d g).
Proof. apply fit_simple; [reflexivity|reflexivity|distinct|intros l _; typed|typed]. Qed.
Lemma fit_base d : fit_task (base_task d).
Proof. apply fit_simple; [reflexivity|reflexivity|constructor|auto|exact I]. Qed.
Lemma fit_regained g d : fit_task (regained_task g d).
Proof. apply fit_simple; [reflexivity|reflexivity|distinct|intros l _; typed|typed]. Qed.
Lemma have_types_tl e es l : have_types (e :: es) l -> have_types es (tl l).
Proof. destruct l; cbn; tauto. Qed.
Lemma fit_gain es dflt d g vs : forallb simple_entry es = true -> NoDup ("gain"%string :: class_names es) ->
  (forall l, have_types es l -> have_types es (dflt l)) -> have_types es vs -> fit_task (gain_task es dflt d g vs).
Proof.
  intros S ND DF T. apply fit_simple; cbn [gain_class c_entries c_finalize c_defaults]; [reflexivity|exact S|exact ND| |].
  - intros l Tl. apply have_types_tl in Tl. cbn. split; [|apply DF; exact Tl]. auto.
  - cbn. split; [|exact T]. auto.
Qed.
Lemma fit_simple_task es dflt d vs : forallb simple_entry es = true -> NoDup (class_names es) ->
  (forall l, have_types es l -> have_types es (dflt l)) -> have_types es vs -> fit_task (simple_task es dflt d vs).
Proof.
  intros S ND DF T. apply fit_simple; cbn [c_entries c_finalize c_defaults]; [reflexivity|exact S|exact ND| |].
  - intros l Tl. apply have_types_tl in Tl. cbn. split; [exact I|apply DF; exact Tl].
  - cbn. split; [exact I|exact T].
Qed.
Lemma zero_first_types k es l : have_types (EScalar k KReal :: es) l -> have_types (EScalar k KReal :: es) (zero_first l).
Proof. destruct l as [|v l]; cbn; [tauto|]. intros [_ T]. auto. Qed.
Ltac next := match goal with |- (if ?b then _ else _) = Some _ -> _ => destruct b; [intros E; injection E as <-|] end.
Lemma fit_core : fit core_tasks.
Proof.
  intros s t. unfold core_tasks. next; [apply fit_plain_gain|]. next; [apply fit_gain; [reflexivity|distinct|auto|typed]|].
  next; [apply fit_gain; [reflexivity|distinct|auto|typed]|]. discriminate.
Qed.
Lemma fit_wpg04 : fit wpg04_tasks.
Proof.
  intros s t. unfold wpg04_tasks. next; [apply fit_regained|].
  next; [apply fit_simple; [reflexivity|reflexivity|distinct|intros l _; typed|typed]|].
  next; [apply fit_regained|]. next; [apply fit_simple_task; [reflexivity|distinct|intros l _; typed|typed]|].
  next; [apply fit_simple_task; [reflexivity|distinct|intros l _; typed|typed]|]. next; [apply fit_regained|]. apply fit_core.
Qed.
Lemma fit_mpc : fit mpc_tasks.
Proof.
  intros s t. unfold mpc_tasks.
  next; [apply fit_plain_gain|]. next; [apply fit_plain_gain|]. next; [apply fit_plain_gain|]. next; [apply fit_base|]. next; [apply fit_plain_gain|].
  next; [apply fit_gain; [reflexivity|distinct|auto|typed]|].
  next; [apply fit_plain_gain|]. next; [apply fit_plain_gain|]. next; [apply fit_plain_gain|]. next; [apply fit_plain_gain|]. apply fit_core.
Qed.
Lemma fit_tag k d : k <> "gain"%string -> k <> "tag_string_id"%string -> fit_task (tag_class_task k d).
Proof.
  intros N1 N2. apply fit_gain; [reflexivity| |intros l; apply zero_first_types|typed].
  cbn. constructor; [cbn; intuition (congruence || discriminate)|]. constructor; [cbn; intuition congruence|]. distinct.
Qed.
Lemma fit_ik (n : nat) (angles : list R) (axes : Z) : length angles = n -> fit (ik_tasks n angles axes).
Proof.
  intros L s t. unfold ik_tasks.
  next; [apply fit_gain; [reflexivity|distinct|intros l; apply zero_first_types|typed]|].
  next; [apply fit_gain; [reflexivity|distinct|intros l; apply zero_first_types|typed]|].
  next; [apply fit_gain; [reflexivity|distinct|intros l; apply zero_first_types|typed]|].
  next; [apply fit_simple_task; [reflexivity|constructor|auto|exact I]|].
  next; [apply fit_simple_task; [reflexivity|constructor|auto|exact I]|].
  next; [apply fit_base|].
  next; [apply fit_gain; [reflexivity|distinct|intros l _; cbn; rewrite L; auto|cbn; rewrite L; auto]|].
  next; [apply fit_gain; [reflexivity|distinct|intros l; apply zero_first_types|typed]|].
  next; [apply fit_tag; discriminate|]. next; [apply fit_tag; discriminate|]. next; [apply fit_tag; discriminate|]. next; [apply fit_tag; discriminate|].
  apply fit_core.
Qed.
Lemma tables_fit (n : nat) (angles : list R) (axes : Z) : length angles = n ->
  fit core_tasks /\ fit wpg04_tasks /\ fit mpc_tasks /\ fit (ik_tasks n angles axes).
Proof. intros L. split; [exact fit_core|]. split; [exact fit_wpg04|]. split; [exact fit_mpc|exact (fit_ik n angles axes L)]. Qed.

(** ** files written and read by these modules *)
Lemma fit_storable get fmt p : fit get -> consistent p -> cp_levels p <> [] -> distinct_sections p -> made_from get p -> storable get fmt p.
Proof.
  intros F C NE D M. split; [exact C|]. split; [exact NE|]. split; [exact D|].
  intros name t I. destruct (M name t I) as (t0 & G & CE & T). destruct (F name t0 G) as (W & T0 & RD). rewrite CE in *.
  split; [exists t0; auto|]. split; [exact W|]. apply RD. exact T.
Qed.
Lemma finds_yaml name sec : finds (problem_yaml name sec) name sec.
Proof. cbn. exists [], []. auto. Qed.
Lemma finds_msgpack name sec : finds (problem_msgpack name sec) name sec.
Proof. cbn. exists [], []. split; [reflexivity|]. intros h []. Qed.
Lemma in_named p t : consistent p -> In t (all_tasks p) -> exists name, In (name, t) (named_tasks p).
Proof.
  intros [_ F] I. unfold named_tasks, all_tasks in *. revert I.
  assert (L : length (concat (cp_names p)) = length (concat (cp_levels p))).
  { induction F as [|a b l l' E F IH]; cbn; [reflexivity|]. rewrite !app_length. lia. }
  revert L. generalize (concat (cp_names p)) as a, (concat (cp_levels p)) as b. induction a as [|x a IH]; intros [|y b] L I; cbn in L; try discriminate; [destruct I|].
  destruct I as [->|I]; [exists x; left; reflexivity|]. destruct (IH b ltac:(lia) I) as [n J]. exists n. right. exact J.
Qed.
Lemma kept_id get p : fit get -> consistent p -> made_from get p -> kept (fun x => x) p = p.
Proof.
  intros F C M. destruct p as [ls ns is]. unfold kept. cbn [cp_levels cp_names cp_ids]. f_equal.
  rewrite <- (map_id ls) at 2. apply map_ext_in. intros l I. rewrite <- (map_id l) at 2. apply map_ext_in. intros t J.
  destruct (in_named (mkCP ls ns is) t C) as [n K]; [unfold all_tasks; cbn; apply in_concat; exists l; auto|].
  destruct (M n t K) as (t0 & G & CE & T). destruct (F n t0 G) as (_ & _ & RD). rewrite CE in RD. destruct (RD _ T) as [_ MF].
  unfold kept_task. rewrite stored_fix_list; [destruct t; reflexivity|exact MF|auto].
Qed.
Lemma problem_msgpack_back (get : factory) (p : cproblem) (p0 : cproblem) (name : string) (crash : bool) :
  fit get -> consistent p -> cp_levels p <> [] -> distinct_sections p -> made_from get p ->
  exists sec, cp_write (fun x => x) p = Ok sec /\
    cp_readConfig get name crash p0 (problem_msgpack name sec) = (problem_msgpack name sec, p, Ok tt).
Proof.
  intros F C NE D M. pose proof (problem_written (fun x => x) p C) as W. destruct (cp_write (fun x => x) p) as [sec| |] eqn:E; try contradiction.
  exists sec. split; [reflexivity|]. rewrite (problem_round_trip get (fun x => x) p sec p0 name crash _ (fit_storable get _ p F C NE D M) E (finds_msgpack name sec)).
  rewrite (kept_id get p F C M). reflexivity.
Qed.
Lemma problem_yaml_back (get : factory) (fmt : R -> R) (p : cproblem) (p0 : cproblem) (name : string) (crash : bool) :
  fit get -> consistent p -> cp_levels p <> [] -> distinct_sections p -> made_from get p ->
  exists sec, cp_write fmt p = Ok sec /\
    cp_readConfig get name crash p0 (problem_yaml name sec) = (problem_yaml name sec, kept fmt p, Ok tt).
Proof.
  intros F C NE D M. pose proof (problem_written fmt p C) as W. destruct (cp_write fmt p) as [sec| |] eqn:E; try contradiction.
  exists sec. split; [reflexivity|]. exact (problem_round_trip get fmt p sec p0 name crash _ (fit_storable get _ p F C NE D M) E (finds_yaml name sec)).
Qed.

(** ** the names *)
Definition core_names : list string := ["TaskInfeasibleInequality"; "TaskZeroVariables"; "TaskZeroSelectedVariables"]%string.
Definition wpg04_names : list string :=
  ["TaskCoMVelocity"; "TaskCoPPosition"; "TaskCoPVelocity"; "TaskFootstepBounds"; "TaskCoPBounds"; "TaskTerminalConstraint"]%string.
Definition mpc_names : list string :=
  ["TaskBaseAccelerationBounds"; "TaskBaseJerkMinimization"; "TaskBasePositionReference"; "TaskBaseVelocityBounds"; "TaskBaseVelocityReference";
   "TaskBodyJerkMinimization"; "TaskBodyPositionBounds"; "TaskBodyPositionReference"; "TaskCoPCentering"; "TaskCoPPositionBounds"]%string.
Definition ik_names : list string :=
  ["TaskBaseCoMTracking"; "TaskBaseOrientation"; "TaskBodyCoMTracking"; "TaskFixArms"; "TaskFixHead"; "TaskJointsBounds"; "TaskJointsReference";
   "TaskTagOrientation"; "TaskTagAngularVelocity"; "TaskTagCompleteVelocity"; "TaskTagPose"; "TaskTagPose3Dof"]%string.
Ltac name_case s := match goal with |- context [String.eqb s ?n] => destruct (String.eqb_spec s n) as [->|?]; [split; [intros _; cbn; tauto|intros _; discriminate]|] end.
Ltac name_rest := split; [congruence|intros I; exfalso; cbn in I; repeat (destruct I as [I|I]; [congruence|]); exact I].
Lemma core_known s : core_tasks s <> None <-> In s core_names.
Proof. unfold core_tasks. repeat name_case s. name_rest. Qed.
Lemma wpg04_known s : wpg04_tasks s <> None <-> In s (wpg04_names ++ core_names).
Proof. unfold wpg04_tasks, core_tasks. repeat name_case s. name_rest. Qed.
Lemma mpc_known s : mpc_tasks s <> None <-> In s (mpc_names ++ core_names).
Proof. unfold mpc_tasks, core_tasks. repeat name_case s. name_rest. Qed.
Lemma ik_known n angles axes s : ik_tasks n angles axes s <> None <-> In s (ik_names ++ core_names).
Proof. unfold ik_tasks, core_tasks. repeat name_case s. name_rest. Qed.
Lemma tables_known (n : nat) (angles : list R) (axes : Z) (s : string) :
  (core_tasks s <> None <-> In s core_names) /\ (wpg04_tasks s <> None <-> In s (wpg04_names ++ core_names)) /\
  (mpc_tasks s <> None <-> In s (mpc_names ++ core_names)) /\ (ik_tasks n angles axes s <> None <-> In s (ik_names ++ core_names)).
Proof. split; [apply core_known|]. split; [apply wpg04_known|]. split; [apply mpc_known|apply ik_known]. Qed.
