(** * Optimization problems in configuration files: proofs *)
From Coq Require Import String List ZArith Arith Reals Bool Lia.
From Verif Require Import Base BaseFacts Config ConfigSpec ConfigFacts ConfigProblem ConfigProblemSpec.
Import ListNotations.
Open Scope list_scope.

(** ** building *)
Lemma update_same {A} (l : list A) i x : nth_error l i = Some x -> update l i x = l.
Proof. revert i. induction l as [|a l IH]; intros [|i] E; cbn in *; try discriminate; [congruence|]. rewrite IH by exact E. reflexivity. Qed.
Lemma update_twice {A} (l : list A) i x y : update (update l i x) i y = update l i y.
Proof. revert i. induction l as [|a l IH]; intros [|i]; cbn; try reflexivity. rewrite IH. reflexivity. Qed.
Lemma map_update {A B} (f : A -> B) (l : list A) i x : map f (update l i x) = update (map f l) i (f x).
Proof. revert i. induction l as [|a l IH]; intros [|i]; cbn; try reflexivity. rewrite IH. reflexivity. Qed.
Lemma update_middle {A} (a : list A) x b y : update (a ++ x :: b) (length a) y = a ++ y :: b.
Proof. induction a as [|z a IH]; cbn; [reflexivity|]. rewrite IH. reflexivity. Qed.
Lemma Forall2_length {A B} (P : A -> B -> Prop) a b : Forall2 P a b -> length a = length b.
Proof. induction 1; cbn; congruence. Qed.
Lemma nth_error_repeat {A} (x : A) n i : (i < n)%nat -> nth_error (repeat x n) i = Some x.
Proof. revert i. induction n as [|n IH]; intros [|i] H; cbn; try lia; [reflexivity|]. apply IH. lia. Qed.

Definition built (p : cproblem) (acc : nat * list (nat * ctask * string)) : Prop :=
  length (cp_levels p) = fst acc /\ length (cp_names p) = fst acc /\ length (cp_ids p) = fst acc /\
  forall i, (i < fst acc)%nat ->
    nth_error (cp_levels p) i = Some (map (fun x => snd (fst x)) (on_level i (snd acc))) /\
    nth_error (cp_names p) i = Some (map snd (on_level i (snd acc))) /\
    nth_error (cp_ids p) i = Some (map (fun x => t_desc (snd (fst x))) (on_level i (snd acc))).
Lemma built_consistent p acc : built p acc -> consistent p.
Proof.
  intros (L & N & I & H). split.
  - apply nth_error_ext. intros i. rewrite nth_error_map. destruct (Nat.lt_ge_cases i (fst acc)) as [lt|ge].
    + destruct (H i lt) as (E1 & _ & E3). rewrite E1, E3. cbn. rewrite map_map. reflexivity.
    + rewrite (proj2 (nth_error_None _ _)) by lia. rewrite (proj2 (nth_error_None (cp_levels p) i)) by lia. reflexivity.
  - assert (G : forall (a : list (list string)) (b : list (list ctask)), length a = length b ->
      (forall i x y, nth_error a i = Some x -> nth_error b i = Some y -> length x = length y) -> Forall2 (fun x y => length x = length y) a b).
    { induction a as [|x a IH]; intros [|y b] E F; cbn in E; try discriminate; constructor; [exact (F 0%nat x y eq_refl eq_refl)|].
      apply IH; [lia|]. intros i. exact (F (S i)). }
    apply G; [congruence|]. intros i x y E1 E2.
    assert (lt : (i < fst acc)%nat) by (rewrite <- N; apply nth_error_Some; congruence).
    destruct (H i lt) as (F1 & F2 & _). rewrite F1 in E2. rewrite F2 in E1. injection E1 as <-. injection E2 as <-. rewrite !map_length. reflexivity.
Qed.
Lemma built_reset n p : built (cp_reset n p) (n, []).
Proof.
  unfold built, cp_reset. cbn. rewrite !repeat_length. repeat split; auto; apply nth_error_repeat; assumption.
Qed.
Lemma on_level_app i a b : on_level i (a ++ b) = on_level i a ++ on_level i b.
Proof. apply filter_app. Qed.
Lemma append_at_ok {A} (v : list (list A)) i x l : nth_error v i = Some l -> append_at v i x = Ok (update v i (l ++ [x])).
Proof. unfold append_at. intros ->. reflexivity. Qed.
Lemma built_push p acc t i name : built p acc ->
  if (i <? fst acc)%nat then exists p', cp_pushTask p t i name = Ok p' /\ built p' (fst acc, snd acc ++ [(i, t, name)])
  else cp_pushTask p t i name = Throw.
Proof.
  intros (L & N & I & H). destruct (Nat.ltb_spec i (fst acc)) as [lt|ge].
  - destruct (H i lt) as (E1 & E2 & E3). unfold cp_pushTask, base_pushTask. rewrite E1. cbn [bind cp_names cp_ids].
    rewrite (append_at_ok _ _ _ _ E2). cbn [bind]. rewrite (append_at_ok _ _ _ _ E3). cbn [bind]. eexists. split; [reflexivity|].
    unfold built. cbn [cp_levels cp_names cp_ids fst snd]. rewrite !update_length. repeat split; try assumption;
      rewrite nth_error_update, on_level_app; cbn [on_level filter fst snd];
      rewrite ?L, ?N, ?I; rewrite (proj2 (Nat.ltb_lt i (fst acc)) lt), andb_true_r;
      destruct (H _ H0) as (F1 & F2 & F3); destruct (Nat.eqb_spec i i0) as [->|D]; rewrite ?F1, ?F2, ?F3; rewrite ?map_app, ?app_nil_r; reflexivity.
  - unfold cp_pushTask, base_pushTask. rewrite (proj2 (nth_error_None _ _)) by lia. reflexivity.
Qed.
Lemma pushed_app a b acc : pushed (a ++ b) acc = pushed b (pushed a acc).
Proof. revert acc. induction a as [|[n|t i name] a IH]; intros acc; cbn; auto. Qed.
Lemma run_built cs : forall p acc, built p acc ->
  match run p cs with
  | Ok p' => built p' (pushed cs acc)
  | Throw => exists pre t i name post, cs = pre ++ Push t i name :: post /\ (fst (pushed pre acc) <= i)%nat
  | UB => False
  end.
Proof.
  induction cs as [|[n|t i name] cs IH]; intros p acc B; cbn [run run1 bind pushed].
  - exact B.
  - specialize (IH (cp_reset n p) (n, []) (built_reset n p)). destruct (run (cp_reset n p) cs); try assumption.
    destruct IH as (pre & t & i & name & post & -> & H). exists (Reset n :: pre), t, i, name, post. split; [reflexivity|]. exact H.
  - pose proof (built_push p acc t i name B) as P. destruct (Nat.ltb_spec i (fst acc)) as [lt|ge].
    + destruct P as (p' & -> & B'). cbn [bind]. specialize (IH p' _ B'). destruct (run p' cs); try assumption.
      destruct IH as (pre & t' & i' & name' & post & -> & H). exists (Push t i name :: pre), t', i', name', post. split; [reflexivity|]. exact H.
    + rewrite P. cbn [bind]. exists [], t, i, name, cs. split; [reflexivity|]. exact ge.
Qed.
Lemma built_new : built cp_new (0%nat, []).
Proof. split; [reflexivity|]. split; [reflexivity|]. split; [reflexivity|]. cbn. intros i H. lia. Qed.
Lemma problem_built (cs : list call) :
  match run cp_new cs with
  | Ok p => consistent p /\ length (cp_levels p) = fst (pushed cs (0%nat, [])) /\
            forall i, (i < length (cp_levels p))%nat ->
              nth_error (cp_levels p) i = Some (map (fun x => snd (fst x)) (on_level i (snd (pushed cs (0%nat, []))))) /\
              nth_error (cp_names p) i = Some (map snd (on_level i (snd (pushed cs (0%nat, [])))))
  | Throw => exists pre t i name post, cs = pre ++ Push t i name :: post /\ (fst (pushed pre (0%nat, [])) <= i)%nat
  | UB => False
  end.
Proof.
  pose proof (run_built cs cp_new _ built_new) as B. destruct (run cp_new cs) as [p| |]; try assumption.
  split; [exact (built_consistent _ _ B)|]. destruct B as (L & _ & _ & H). split; [exact L|].
  intros i lt. rewrite L in lt. destruct (H i lt) as (E1 & E2 & _). split; assumption.
Qed.

(** ** writing *)
Lemma sections_length fmt (ls : list (list ctask)) : length (flat_map (map (task_section fmt)) ls) = list_sum (map (@length ctask) ls).
Proof. induction ls as [|l ls IH]; cbn; [reflexivity|]. rewrite app_length, map_length, IH. reflexivity. Qed.
Lemma names_nonempty p : consistent p -> cp_levels p <> [] -> cp_names p <> [].
Proof. intros [_ F] N E. rewrite E in F. inversion F as [Q|]; subst. apply N. symmetry. assumption. Qed.
Lemma problem_written (fmt : R -> R) (p : cproblem) : consistent p ->
  match cp_write fmt p with
  | Ok sec => cp_levels p <> [] /\ length sec = cp_getNumberOfEntries p
  | Throw => cp_levels p = []
  | UB => False
  end.
Proof.
  intros C. unfold cp_write. destruct (cp_names p) as [|n ns] eqn:E.
  - destruct C as [_ F]. rewrite E in F. inversion F. reflexivity.
  - split.
    + destruct C as [_ F]. rewrite E in F. inversion F. discriminate.
    + rewrite app_length, sections_length. reflexivity.
Qed.
Lemma section_names fmt (ls : list (list ctask)) : map fst (flat_map (map (task_section fmt)) ls) = map t_desc (concat ls).
Proof. induction ls as [|l ls IH]; cbn; [reflexivity|]. rewrite !map_app, map_map, IH. reflexivity. Qed.

(** ** reading back *)
Lemma convert_rows_strings l : convert_rows (map (map SStr) l) = Some l.
Proof.
  induction l as [|r l IH]; cbn; [reflexivity|]. rewrite convert_all_kind, IH.
  - rewrite map_map. cbn. rewrite map_id. reflexivity.
  - intros s I. apply in_map_iff in I as [x [<- _]]. reflexivity.
Qed.
Lemma read_rows_found name crash keep r top rest l :
  stack r = top :: rest -> child name top = Some (rows_node l) -> read_rows name crash keep r = (r, Done l).
Proof.
  intros S C. unfold read_rows. eapply within_found; [exact S|exact C|]. cbn. rewrite convert_rows_strings. reflexivity.
Qed.
Lemma lookup_finds h name l sec st :
  NoDup (map fst sec) -> In (name, NMap l) sec -> finds (mkReader h (NMap sec :: st)) name l.
Proof.
  intros ND I. unfold finds. cbn [stack]. apply in_split in I as (pre & post & ->). exists pre, post. split; [reflexivity|].
  rewrite map_app in ND. cbn in ND. exact (NoDup_middle _ _ _ ND).
Qed.
Definition storable_task (get : factory) (fmt : R -> R) (r : reader) (name : string) (t : ctask) : Prop :=
  creates get name t /\ wf_class (t_class t) /\ readable fmt (t_class t) (t_values t) /\ finds r (t_desc t) (section_of fmt (t_class t) (t_values t)).
Lemma read_tasks_back get fmt crash i r : forall names ts p l,
  length names = length ts -> nth_error (cp_levels p) i = Some l ->
  (forall name t, In (name, t) (combine names ts) -> storable_task get fmt r name t) ->
  read_tasks get crash i names (map t_desc ts) p r =
    (r, mkCP (update (cp_levels p) i (l ++ map (kept_task fmt) ts)) (cp_names p) (cp_ids p), Ok tt).
Proof.
  induction names as [|n names IH]; intros [|t ts] p l L E H; cbn in L; try discriminate; cbn [read_tasks map].
  - rewrite app_nil_r, update_same by exact E. destruct p. reflexivity.
  - destruct (H n t (or_introl eq_refl)) as ((t0 & G & CE & T0) & W & RD & F).
    unfold read_task. rewrite G, CE. rewrite (round_trip_at fmt _ (t_values t) _ crash _ _ W RD T0 F).
    unfold base_pushTask. rewrite E. rewrite (IH ts _ (l ++ [kept_task fmt t])).
    + cbn [cp_levels cp_names cp_ids]. rewrite update_twice, <- app_assoc. reflexivity.
    + lia.
    + cbn [cp_levels]. rewrite nth_error_update, Nat.eqb_refl. rewrite (proj2 (Nat.ltb_lt _ _)); [reflexivity|]. apply nth_error_Some. congruence.
    + intros name t' I. apply H. right. exact I.
Qed.
Lemma combine_app {A B} (a a' : list A) (b b' : list B) : length a = length b -> combine (a ++ a') (b ++ b') = combine a b ++ combine a' b'.
Proof. revert b. induction a as [|x a IH]; intros [|y b] L; cbn in *; try discriminate; [reflexivity|]. rewrite IH by lia. reflexivity. Qed.
Lemma read_levels_back get fmt crash r : forall names tss done nms ids,
  Forall2 (fun n ts => length n = length ts) names tss ->
  (forall name t, In (name, t) (combine (concat names) (concat tss)) -> storable_task get fmt r name t) ->
  read_levels get crash (length done) names (map (map t_desc) tss) (mkCP (done ++ repeat [] (length names)) nms ids) r =
    (r, mkCP (done ++ map (map (kept_task fmt)) tss) nms ids, Ok tt).
Proof.
  induction names as [|n names IH]; intros tss done nms ids F H; inversion F as [|? ts ? tss' F1 F2]; subst; cbn [read_levels map length].
  - reflexivity.
  - rewrite map_length. rewrite (proj2 (Nat.eqb_eq _ _) F1). cbn [concat] in H. rewrite (combine_app _ _ _ _ F1) in H.
    rewrite (read_tasks_back get fmt crash (length done) r n ts _ []).
    + cbn [cp_levels cp_names cp_ids repeat app]. rewrite update_middle.
      replace (done ++ map (kept_task fmt) ts :: repeat [] (length names)) with ((done ++ [map (kept_task fmt) ts]) ++ repeat [] (length names)) by (rewrite <- app_assoc; reflexivity).
      replace (S (length done)) with (length (done ++ [map (kept_task fmt) ts])) by (rewrite app_length; cbn; lia).
      rewrite IH; [rewrite <- app_assoc; reflexivity|exact F2|]. intros name t I. apply H. apply in_or_app. right. exact I.
    + exact F1.
    + cbn [cp_levels repeat]. rewrite nth_error_app2 by lia. rewrite Nat.sub_diag. reflexivity.
    + intros name t I. apply H. apply in_or_app. left. exact I.
Qed.
Lemma in_combine_tasks (names : list (list string)) (tss : list (list ctask)) name t :
  In (name, t) (combine (concat names) (concat tss)) -> In t (concat tss).
Proof. apply in_combine_r. Qed.
Lemma problem_round_trip (get : factory) (fmt : R -> R) (p : cproblem) (sec : list (string * node)) (p0 : cproblem) (name : string) (crash : bool) (r : reader) :
  storable get fmt p -> cp_write fmt p = Ok sec -> finds r name sec ->
  cp_readConfig get name crash p0 r = (r, kept fmt p, Ok tt).
Proof.
  intros (C & NE & D & T) W F. pose proof (names_nonempty p C NE) as NN. unfold cp_write in W.
  assert (E : sec = [("task_class_names"%string, rows_node (cp_names p)); ("task_ids"%string, rows_node (cp_ids p))] ++ flat_map (map (task_section fmt)) (cp_levels p)).
  { destruct (cp_names p); [congruence|]. injection W as <-. reflexivity. }
  clear W. assert (ND : NoDup (map fst sec)) by (rewrite E, map_app, section_names; exact D).
  unfold cp_readConfig. rewrite (finds_descend _ _ _ F). set (r1 := mkReader (handles r) (NMap sec :: stack r)).
  unfold cp_read. cbn [cp_names cp_ids cp_levels].
  assert (C1 : child "task_class_names" (NMap sec) = Some (rows_node (cp_names p))) by (apply lookup_in; [exact ND|rewrite E; left; reflexivity]).
  assert (C2 : child "task_ids" (NMap sec) = Some (rows_node (cp_ids p))) by (apply lookup_in; [exact ND|rewrite E; right; left; reflexivity]).
  rewrite (read_rows_found "task_class_names" crash _ r1 _ _ _ eq_refl C1), (read_rows_found "task_ids" crash _ r1 _ _ _ eq_refl C2).
  destruct C as [CI CN].
  assert (RL : read_levels get crash 0 (cp_names p) (cp_ids p) (mkCP (repeat [] (length (cp_names p))) (cp_names p) (cp_ids p)) r1 = (r1, kept fmt p, Ok tt)).
  { rewrite CI at 1. apply (read_levels_back get fmt crash r1 (cp_names p) (cp_levels p) [] (cp_names p) (cp_ids p) CN).
    intros n t I. destruct (T n t I) as (A & B & G). split; [exact A|]. split; [exact B|]. split; [exact G|].
    apply lookup_finds; [exact ND|]. rewrite E. apply in_or_app. right. apply in_combine_tasks in I. apply in_concat in I as (ts & I1 & I2).
    apply in_flat_map. exists ts. split; [exact I1|]. apply in_map_iff. exists t. split; [reflexivity|exact I2]. }
  assert (LL : length (cp_names p) = length (cp_ids p)) by (rewrite CI, map_length; exact (Forall2_length _ _ _ CN)).
  rewrite (proj2 (Nat.eqb_eq _ _) LL). rewrite RL. destruct (cp_names p); [congruence|]. unfold ascend. cbn. rewrite reader_eta. reflexivity.
Qed.

(** ** what a successful read gives *)
Lemma read_rows_tidy name crash keep r : tidy r (read_rows name crash keep r).
Proof. apply within_tidy. intros r1 _. apply pure_tidy. Qed.
Lemma readConfig_tidy c name crash old r : tidy r (readConfig c name crash old r).
Proof.
  rewrite readConfig_shape. pose proof (within_tidy name crash (c_defaults c old) r (member_body crash (c_entries c) (c_finalize c) (c_defaults c old))
    (fun r1 _ => member_body_tidy _ _ _ _ r1)) as T. destruct (within _ _ _ _ _) as [r1 [a|]]; exact T.
Qed.
Lemma read_task_levels get crash i name id p r r' p' : read_task get crash i name id p r = (r', p', Ok tt) ->
  r' = r /\ exists l t0 vs, nth_error (cp_levels p) i = Some l /\ get name = Some t0 /\
    readConfig (t_class t0) id crash (t_values t0) r = (r, Done vs) /\
    p' = mkCP (update (cp_levels p) i (l ++ [mkTask (t_class t0) id vs])) (cp_names p) (cp_ids p).
Proof.
  unfold read_task, base_pushTask. destruct (get name) as [t0|] eqn:G; [|discriminate].
  pose proof (readConfig_tidy (t_class t0) id crash (t_values t0) r) as T.
  destruct (readConfig (t_class t0) id crash (t_values t0) r) as [r1 [vs|]] eqn:RC; [|discriminate]. cbn in T. subst r1.
  destruct (nth_error (cp_levels p) i) as [l|] eqn:E; [|discriminate]. intros Q. injection Q as <- <-. split; [reflexivity|].
  exists l, t0, vs. auto.
Qed.
(** the task which the file describes *)
Definition read_as (get : factory) (crash : bool) (r : reader) (name id : string) (t : ctask) : Prop :=
  exists t0, get name = Some t0 /\ t_class t = t_class t0 /\ t_desc t = id /\
    readConfig (t_class t0) id crash (t_values t0) r = (r, Done (t_values t)).
Lemma read_tasks_sound get crash i : forall names ids p r r' p', length names = length ids ->
  read_tasks get crash i names ids p r = (r', p', Ok tt) ->
  r' = r /\ forall l, nth_error (cp_levels p) i = Some l ->
    exists ts, p' = mkCP (update (cp_levels p) i (l ++ ts)) (cp_names p) (cp_ids p) /\ map t_desc ts = ids /\
      Forall2 (fun nd t => read_as get crash r (fst nd) (snd nd) t) (combine names ids) ts.
Proof.
  induction names as [|n names IH]; intros [|d ids] p r r' p' L H; cbn in L; try discriminate; cbn [read_tasks] in H.
  - injection H as <- <-. split; [reflexivity|]. intros l E. exists []. rewrite app_nil_r, update_same by exact E. destruct p. repeat split. constructor.
  - destruct (read_task get crash i n d p r) as [[r1 p1] [[]| |]] eqn:RT; try discriminate.
    apply read_task_levels in RT as (-> & l0 & t0 & vs & E0 & G & RC & ->).
    apply IH in H as (-> & H); [|lia]. split; [reflexivity|]. intros l E. assert (l0 = l) by congruence. subst l0.
    cbn [cp_levels cp_names cp_ids] in H. destruct (H (l ++ [mkTask (t_class t0) d vs])) as (ts & -> & D & F).
    + rewrite nth_error_update, Nat.eqb_refl. rewrite (proj2 (Nat.ltb_lt _ _)); [reflexivity|]. apply nth_error_Some. congruence.
    + exists (mkTask (t_class t0) d vs :: ts). split; [rewrite update_twice, <- app_assoc; reflexivity|]. split; [cbn; rewrite D; reflexivity|].
      cbn [combine]. constructor; [|exact F]. exists t0. cbn. auto.
Qed.
Lemma read_levels_sound get crash : forall names ids done nms is r r' p', length names = length ids ->
  read_levels get crash (length done) names ids (mkCP (done ++ repeat [] (length names)) nms is) r = (r', p', Ok tt) ->
  r' = r /\ exists tss, p' = mkCP (done ++ tss) nms is /\ map (map t_desc) tss = ids /\ Forall2 (fun n ts => length n = length ts) names tss /\
    Forall2 (fun nd t => read_as get crash r (fst nd) (snd nd) t) (combine (concat names) (concat ids)) (concat tss).
Proof.
  induction names as [|n names IH]; intros [|d ids] done nms is r r' p' L H; cbn in L; try discriminate; cbn [read_levels] in H.
  - injection H as <- <-. split; [reflexivity|]. exists []. repeat split; constructor.
  - destruct (Nat.eqb_spec (length n) (length d)) as [LE|_]; [|discriminate].
    destruct (read_tasks get crash (length done) n d _ r) as [[r1 p1] [[]| |]] eqn:RT; try discriminate.
    apply read_tasks_sound in RT as (-> & RT); [|exact LE]. cbn [cp_levels cp_names cp_ids length repeat] in RT.
    destruct (RT []) as (ts & -> & D & F); [rewrite nth_error_app2 by lia; rewrite Nat.sub_diag; reflexivity|].
    cbn [app] in H. rewrite update_middle in H.
    replace (done ++ ts :: repeat [] (length names)) with ((done ++ [ts]) ++ repeat [] (length names)) in H by (rewrite <- app_assoc; reflexivity).
    replace (S (length done)) with (length (done ++ [ts])) in H by (rewrite app_length; cbn; lia).
    apply IH in H as (-> & tss & -> & D2 & F2 & F3); [|lia]. split; [reflexivity|]. exists (ts :: tss).
    split; [rewrite <- app_assoc; reflexivity|]. split; [cbn; rewrite D, D2; reflexivity|].
    assert (LT : length n = length ts) by (rewrite LE, <- D, map_length; reflexivity).
    split; [constructor; assumption|]. cbn [concat]. rewrite (combine_app _ _ _ _ LE). apply Forall2_app; assumption.
Qed.
Lemma problem_read (get : factory) (name : string) (crash : bool) (p0 : cproblem) (r r' : reader) (p : cproblem) (r1 : reader) :
  descend name r = Some r1 -> cp_readConfig get name crash p0 r = (r', p, Ok tt) ->
  r' = r /\ consistent p /\ cp_levels p <> [] /\
  read_rows "task_class_names" crash [] r1 = (r1, Done (cp_names p)) /\
  read_rows "task_ids" crash (cp_ids p0) r1 = (r1, Done (cp_ids p)) /\
  forall i j names ids ts n d, nth_error (cp_names p) i = Some names -> nth_error (cp_ids p) i = Some ids -> nth_error (cp_levels p) i = Some ts ->
    nth_error names j = Some n -> nth_error ids j = Some d ->
    exists t t0, nth_error ts j = Some t /\ get n = Some t0 /\ t_class t = t_class t0 /\ t_desc t = d /\
      readConfig (t_class t0) d crash (t_values t0) r1 = (r1, Done (t_values t)).
Proof.
  intros D H. unfold cp_readConfig in H. rewrite D in H. unfold cp_read in H. cbn [cp_names cp_ids cp_levels] in H.
  pose proof (read_rows_tidy "task_class_names" crash [] r1) as T1.
  destruct (read_rows "task_class_names" crash [] r1) as [r2 [names|]] eqn:R1; [|discriminate]. cbn in T1. subst r2.
  pose proof (read_rows_tidy "task_ids" crash (cp_ids p0) r1) as T2.
  destruct (read_rows "task_ids" crash (cp_ids p0) r1) as [r2 [ids|]] eqn:R2; [|discriminate]. cbn in T2. subst r2.
  destruct names as [|n0 names0] eqn:EN; [discriminate|]. rewrite <- EN in *.
  destruct (Nat.eqb_spec (length names) (length ids)) as [LE|_]; [|discriminate].
  destruct (read_levels get crash 0 names ids (mkCP (repeat [] (length names)) names ids) r1) as [[r2 p2] [[]| |]] eqn:RL; try discriminate.
  pose proof (read_levels_sound get crash names ids [] names ids r1 r2 p2 LE RL) as (-> & tss & -> & DD & F & RA).
  injection H as <- <-. cbn [cp_names cp_ids cp_levels app].
  split. { destruct (descend_spec _ _ _ D) as [nd ->]. unfold ascend. cbn. apply reader_eta. }
  split. { split; [symmetry; exact DD|exact F]. }
  split. { intros ->. inversion F. congruence. }
  split; [reflexivity|]. split; [reflexivity|].
  intros i j ns is ts n d E1 E2 E3 E4 E5.
  assert (G : forall (names ids : list (list string)) tss, map (map t_desc) tss = ids -> Forall2 (fun n ts => length n = length ts) names tss ->
     Forall2 (fun nd t => read_as get crash r1 (fst nd) (snd nd) t) (combine (concat names) (concat ids)) (concat tss) ->
     forall i, nth_error names i = Some ns -> nth_error ids i = Some is -> nth_error tss i = Some ts ->
     Forall2 (fun nd t => read_as get crash r1 (fst nd) (snd nd) t) (combine ns is) ts).
  { clear. induction names as [|a names IH]; intros ids tss DD F RA [|i] E1 E2 E3; cbn in E1; try discriminate;
      inversion F as [|? ts0 ? tss' F1 F2]; subst; cbn [map concat] in *.
    - cbn in E1, E2, E3. injection E1 as <-. injection E2 as <-. injection E3 as <-. rewrite combine_app in RA by (rewrite map_length; exact F1).
      apply Forall2_app_inv_l in RA as (u & v & A & B & EQ).
      assert (LU : length u = length ts0). { apply Forall2_length in A. rewrite combine_length, map_length in A. lia. }
      assert (u = ts0). { apply (f_equal (firstn (length ts0))) in EQ. rewrite firstn_app, Nat.sub_diag, firstn_all, app_nil_r in EQ.
        rewrite firstn_app, LU, Nat.sub_diag, app_nil_r in EQ. rewrite <- LU, firstn_all in EQ. congruence. }
      subst u. exact A.
    - cbn in E1, E2, E3. rewrite combine_app in RA by (rewrite map_length; exact F1).
      apply Forall2_app_inv_l in RA as (u & v & A & B & EQ).
      assert (LU : length u = length ts0). { apply Forall2_length in A. rewrite combine_length, map_length in A. lia. }
      assert (v = concat tss'). { apply (f_equal (skipn (length ts0))) in EQ. rewrite skipn_app, Nat.sub_diag, skipn_all in EQ. cbn in EQ.
        rewrite skipn_app, LU, Nat.sub_diag in EQ. rewrite <- LU, skipn_all in EQ. cbn in EQ. congruence. }
      subst v. exact (IH _ _ eq_refl F2 B i E1 E2 E3). }
  pose proof (G names ids tss DD F RA i E1 E2 E3) as FF. clear - FF E4 E5.
  revert ns is ts FF E4 E5. induction j as [|j IH]; intros ns is ts FF E4 E5; destruct ns as [|a ns], is as [|b is]; cbn in E4, E5; try discriminate;
    cbn [combine] in FF; inversion FF as [|? t ? ts' FA FB]; subst.
  - injection E4 as ->. injection E5 as ->. destruct FA as (t0 & A & B & C & D). cbn in A, C, D. exists t, t0. cbn. auto.
  - exact (IH ns is ts' FB E4 E5).
Qed.

(** ** undefined behaviour only for unknown names *)
Lemma read_tasks_ub get crash i : forall names ids p r r' p', (i < length (cp_levels p))%nat ->
  read_tasks get crash i names ids p r = (r', p', UB) -> (exists n, In n names /\ get n = None) /\ cp_names p' = cp_names p.
Proof.
  induction names as [|n names IH]; intros [|d ids] p r r' p' L H; cbn [read_tasks] in H; try discriminate.
  destruct (read_task get crash i n d p r) as [[r1 p1] o] eqn:RT. unfold read_task in RT. destruct (get n) as [t0|] eqn:G.
  - destruct (readConfig (t_class t0) d crash (t_values t0) r) as [r2 [vs|]]; [|injection RT as <- <- <-; discriminate].
    unfold base_pushTask in RT. destruct (nth_error (cp_levels p) i) as [l|] eqn:E; [|apply nth_error_None in E; lia].
    injection RT as <- <- <-. apply IH in H as ((m & I & N) & Q).
    + split; [exists m; split; [right; exact I|exact N]|exact Q].
    + cbn [cp_levels]. rewrite update_length. exact L.
  - injection RT as <- <- <-. injection H as <- <-. split; [exists n; split; [left; reflexivity|exact G]|reflexivity].
Qed.
Lemma read_tasks_length get crash i : forall names ids p r r' p' o, read_tasks get crash i names ids p r = (r', p', o) ->
  length (cp_levels p') = length (cp_levels p) /\ cp_names p' = cp_names p.
Proof.
  induction names as [|n names IH]; intros [|d ids] p r r' p' o H; cbn [read_tasks] in H; try (injection H as <- <- <-; auto).
  destruct (read_task get crash i n d p r) as [[r1 p1] o1] eqn:RT.
  assert (Q : length (cp_levels p1) = length (cp_levels p) /\ cp_names p1 = cp_names p).
  { unfold read_task in RT. destruct (get n) as [t0|]; [|injection RT as <- <- <-; auto].
    destruct (readConfig (t_class t0) d crash (t_values t0) r) as [r2 [vs|]]; [|injection RT as <- <- <-; auto].
    unfold base_pushTask in RT. destruct (nth_error (cp_levels p) i) as [l|]; injection RT as <- <- <-; auto. cbn. rewrite update_length. auto. }
  destruct o1 as [[]| |]; [|injection H as <- <- <-; exact Q|injection H as <- <- <-; exact Q].
  apply IH in H. destruct H, Q. split; congruence.
Qed.
Lemma read_levels_ub get crash : forall names ids i p r r' p', (i + length names <= length (cp_levels p))%nat ->
  read_levels get crash i names ids p r = (r', p', UB) -> (exists n, In n (concat names) /\ get n = None) /\ cp_names p' = cp_names p.
Proof.
  induction names as [|n names IH]; intros [|d ids] i p r r' p' L H; cbn [read_levels] in H; try discriminate. cbn [length] in L.
  destruct (length n =? length d)%nat; [|discriminate].
  destruct (read_tasks get crash i n d p r) as [[r1 p1] [[]| |]] eqn:RT; [|discriminate|].
  - pose proof (read_tasks_length _ _ _ _ _ _ _ _ _ _ RT) as [Q1 Q2]. apply IH in H as ((m & I & N) & Q); [|rewrite Q1; lia].
    split; [exists m; split; [cbn; apply in_or_app; right; exact I|exact N]|congruence].
  - injection H as <- <-. apply read_tasks_ub in RT as ((m & I & N) & Q); [|lia]. split; [exists m; split; [cbn; apply in_or_app; left; exact I|exact N]|exact Q].
Qed.
Lemma problem_read_ub (get : factory) (name : string) (crash : bool) (p0 : cproblem) (r r' : reader) (p : cproblem) :
  cp_readConfig get name crash p0 r = (r', p, UB) -> exists n, In n (concat (cp_names p)) /\ get n = None.
Proof.
  unfold cp_readConfig. destruct (descend name r) as [r1|]; [|destruct crash; discriminate].
  unfold cp_read. cbn [cp_names cp_ids cp_levels].
  destruct (read_rows "task_class_names" crash [] r1) as [r2 [names|]]; [|discriminate].
  destruct (read_rows "task_ids" crash (cp_ids p0) r2) as [r3 [ids|]]; [|discriminate].
  destruct names as [|n0 names0] eqn:EN; [discriminate|]. rewrite <- EN.
  destruct (length names =? length ids)%nat; [|discriminate].
  destruct (read_levels get crash 0 names ids (mkCP (repeat [] (length names)) names ids) r3) as [[r4 p4] [[]| |]] eqn:RL; try discriminate.
  intros H. injection H as <- <-. apply read_levels_ub in RL as ((n & I & N) & Q); [|cbn; rewrite repeat_length; lia]. exists n. rewrite Q. auto.
Qed.
