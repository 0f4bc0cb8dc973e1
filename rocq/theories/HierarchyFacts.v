(** Proofs for C08, C09, C62. *)
From Coq Require Import List Arith Bool Lia ZifyBool Permutation.
From Verif Require Import Base BaseFacts ActiveSet ActiveSetFacts ConstraintType HierarchyLevel HierarchySpec.
Import ListNotations.

(** ** pushes *)
Lemma pushed_gen ts : forall l,
  map ti_task (lv_tasks (fold_left level_pushTask ts l)) =
  rev (filter general_task ts) ++ map ti_task (lv_tasks l) ++ filter simple_task ts.
Proof.
  induction ts as [|t ts IH]; intros l; cbn [fold_left filter].
  - rewrite app_nil_r. reflexivity.
  - rewrite IH. unfold level_pushTask, general_task, simple_task. cbn [lv_tasks].
    destruct (ct_isSimple (tk_type t)); cbn [negb].
    + rewrite map_app. simpl. rewrite <- !app_assoc. reflexivity.
    + simpl. rewrite <- !app_assoc. reflexivity.
Qed.

Lemma pushed_order ts : map ti_task (lv_tasks (pushed ts)) = rev (filter general_task ts) ++ filter simple_task ts.
Proof. unfold pushed. rewrite pushed_gen. reflexivity. Qed.

(** ** forming one task *)
Ltac fin := repeat split; intros; try discriminate; try congruence; auto; try lia;
  try (match goal with H : _ \/ _ |- _ => destruct H; try discriminate; try congruence end).

Lemma form_task_ok fo gu t t' : form_task fo gu t = Ok t' ->
  tk_id t' = tk_id t /\ tk_type t' = tk_type t /\ tk_n t' = f_n (fo (tk_id t)) /\ tk_actual t' = tk_actual t /\
  f_consistent (fo (tk_id t)) = true /\ (length (tk_guess t') = 0 \/ length (tk_guess t') = tk_n t') /\
  (gu = true -> full_guess (fo (tk_id t)) -> length (tk_guess t') = tk_n t') /\
  (gu = false -> tk_guess t' = tk_guess t) /\
  (gu = true -> f_guess (fo (tk_id t)) = None -> f_unmodified (fo (tk_id t)) = true -> length (tk_actual t) <> 0 -> tk_guess t' = tk_actual t) /\
  (gu = true -> f_guess (fo (tk_id t)) = None -> (f_unmodified (fo (tk_id t)) = false \/ length (tk_actual t) = 0) ->
     tk_guess t' = repeat (if ct_isEquality (tk_type t) then EQUALITY else INACTIVE) (tk_n t')) /\
  (gu = true -> forall g, f_guess (fo (tk_id t)) = Some g -> g (userForm (fo (tk_id t)) (preForm t)) = Ok (tk_guess t')).
Proof.
  unfold form_task. set (f := fo (tk_id t)).
  destruct gu.
  - unfold virtual_guess. destruct (f_guess f) as [g|] eqn:FG.
    { destruct (g (userForm f (preForm t))) as [a| |] eqn:G; try discriminate. cbn [bind].
      unfold postForm, assert_then. destruct (f_consistent f) eqn:C; [|discriminate]. cbn [set_guess tk_guess tk_n userForm].
      destruct ((length a =? 0) || (length a =? f_n f)) eqn:L; [|discriminate].
      intros E; inversion E; subst; simpl. apply orb_prop in L. rewrite !Nat.eqb_eq in L.
      do 6 (split; [try reflexivity; auto; fail|]). split; [|fin].
      intros _ FU. exact (FU g _ a FG G). }
    unfold guessActiveSet. simpl.
    destruct (f_unmodified f) eqn:U; simpl.
    + destruct (length (tk_actual t)) as [|k] eqn:A.
      * simpl. unfold postForm, assert_then. destruct (f_consistent f) eqn:C; [|discriminate]. simpl.
        destruct (ct_isEquality (tk_type t)); simpl; unfold as_initialize_type; rewrite repeat_length;
          replace ((f_n f =? 0) || (f_n f =? f_n f)) with true by lia;
          intros E; inversion E; subst; simpl; rewrite ?repeat_length; fin.
      * simpl. unfold assert_then. destruct (Nat.eqb_spec (f_n f) (S k)) as [E1|]; [|discriminate]. simpl.
        unfold postForm, assert_then. destruct (f_consistent f) eqn:C; [|discriminate]. simpl.
        rewrite A. replace ((S k =? 0) || (S k =? f_n f)) with true by lia.
        intros E; inversion E; subst; simpl. rewrite A. fin.
    + unfold postForm, assert_then. destruct (f_consistent f) eqn:C; [|discriminate]. simpl.
      destruct (ct_isEquality (tk_type t)); simpl; unfold as_initialize_type; rewrite repeat_length;
        replace ((f_n f =? 0) || (f_n f =? f_n f)) with true by lia;
        intros E; inversion E; subst; simpl; rewrite ?repeat_length; fin.
  - simpl. unfold postForm, assert_then. destruct (f_consistent f) eqn:C; [|discriminate]. simpl.
    destruct ((length (tk_guess t) =? 0) || (length (tk_guess t) =? f_n f)) eqn:G; [|discriminate].
    intros E; inversion E; subst; simpl. fin.
Qed.

Lemma form_task_formable fo gu t : (exists t', form_task fo gu t = Ok t') <-> formable fo gu t.
Proof.
  unfold form_task, formable. set (f := fo (tk_id t)). destruct gu.
  - unfold virtual_guess. destruct (f_guess f) as [g|] eqn:FG.
    { destruct (g (userForm f (preForm t))) as [a| |] eqn:G; cbn [bind].
      - unfold postForm, assert_then. destruct (f_consistent f) eqn:C; cbn [set_guess tk_guess tk_n userForm].
        + destruct ((length a =? 0) || (length a =? f_n f)) eqn:L.
          * apply orb_prop in L. rewrite !Nat.eqb_eq in L. split; [intros _|eauto]. split; [reflexivity|]. split; [discriminate|]. intros _. exists a. auto.
          * split; [intros [? H]; discriminate|]. intros (_ & _ & H). destruct (H eq_refl) as (b & B & H1). inversion B; subst b.
            apply orb_false_elim in L. rewrite !Nat.eqb_neq in L. lia.
        + split; [intros [? H]; discriminate|intros [H _]; discriminate].
      - split; [intros [? H]; discriminate|]. intros (_ & _ & H). destruct (H eq_refl) as (b & B & H1). discriminate.
      - split; [intros [? H]; discriminate|]. intros (_ & _ & H). destruct (H eq_refl) as (b & B & H1). discriminate. }
    unfold guessActiveSet. simpl. destruct (f_unmodified f) eqn:U; simpl.
    + destruct (length (tk_actual t)) as [|k] eqn:A; simpl; unfold postForm, assert_then.
      * destruct (f_consistent f); simpl.
        -- split; [intros _; fin|]. intros _.
           destruct (ct_isEquality (tk_type t)); simpl; unfold as_initialize_type; rewrite repeat_length;
           replace ((f_n f =? 0) || (f_n f =? f_n f)) with true by lia; eauto.
        -- split; [intros [? H]; discriminate|intros [H _]; discriminate].
      * destruct (Nat.eqb_spec (f_n f) (S k)) as [E|E]; simpl; [destruct (f_consistent f); simpl|].
        -- rewrite A. replace ((S k =? 0) || (S k =? f_n f)) with true by lia.
           split; [intros _; fin|eauto].
        -- split; [intros [? H]; discriminate|intros [H _]; discriminate].
        -- split; [intros [? H]; discriminate|]. intros (_ & _ & H). specialize (H eq_refl eq_refl). lia.
    + unfold postForm, assert_then. destruct (f_consistent f); simpl.
      * split; [intros _; fin|]. intros _.
        destruct (ct_isEquality (tk_type t)); simpl; unfold as_initialize_type; rewrite repeat_length;
        replace ((f_n f =? 0) || (f_n f =? f_n f)) with true by lia; eauto.
      * split; [intros [? H]; discriminate|intros [H _]; discriminate].
  - simpl. unfold postForm, assert_then. destruct (f_consistent f); simpl.
    + destruct ((length (tk_guess t) =? 0) || (length (tk_guess t) =? f_n f)) eqn:G.
      * split; [intros _; fin|eauto].
      * split; [intros [? H]; discriminate|]. intros (_ & H & _). specialize (H eq_refl). lia.
    + split; [intros [? H]; discriminate|intros [H _]; discriminate].
Qed.

(** ** the loop *)
Fixpoint locs_from (start : nat) (ts : list tinfo) : Prop :=
  match ts with
  | [] => True
  | i :: r => ti_loc i = mkLoc start (tk_n (ti_task i)) /\ locs_from (start + tk_n (ti_task i)) r
  end.

Definition sumn (ts : list tinfo) : nat := list_sum (map (fun i => tk_n (ti_task i)) ts).

Lemma sumn_cons i ts : sumn (i :: ts) = tk_n (ti_task i) + sumn ts.
Proof. reflexivity. Qed.

Definition simp (i : tinfo) : bool := simple_task (ti_task i).
Definition formed_from fo gu (i o : tinfo) : Prop := form_task fo gu (ti_task i) = Ok (ti_task o).

Lemma form_loop_spec fo gu ts : forall g s e two l,
  form_loop fo gu g s e two ts = Ok l ->
  (exists a b, ts = a ++ b /\ forallb (fun i => negb (simp i)) a = true /\ forallb simp b = true) ->
  (s = 0 \/ forallb simp ts = true) ->
  Forall2 (formed_from fo gu) ts (lv_tasks l) /\
  locs_from (g + s) (lv_tasks l) /\
  n_general l = g + sumn (filter (fun i => negb (simp i)) (lv_tasks l)) /\
  n_simple l = s + sumn (filter simp (lv_tasks l)) /\
  n_equality l = e + sumn (filter (fun i => ct_isEquality (tk_type (ti_task i))) (lv_tasks l)) /\
  n_twosided l = two + sumn (filter (fun i => ct_isTwoSided (tk_type (ti_task i))) (lv_tasks l)).
Proof.
  induction ts as [|i rest IH]; intros g s e two l; cbn [form_loop].
  - intros E _ _. inversion E; subst; simpl. unfold sumn; simpl. repeat split; try constructor; lia.
  - intros E (a & b & Eab & Ha & Hb) Hs.
    apply bind_ok in E. destruct E as (t & Et & E).
    pose proof (form_task_ok _ _ _ _ Et) as (Fid & Fty & Fn & _).
    assert (ST : simple_task t = simp i). { unfold simp, simple_task. rewrite Fty. reflexivity. }
    change (ct_isSimple (tk_type t)) with (simple_task t) in E. rewrite ST in E.
    destruct (simp i) eqn:Si.
    + apply bind_ok in E. destruct E as (l' & E' & E). inversion E; subst l; clear E. cbn [lv_tasks n_general n_simple n_equality n_twosided].
      assert (AS : forallb simp rest = true).
      { destruct a as [|x a].
        - simpl in Eab. subst b. simpl in Hb. rewrite Si in Hb. exact Hb.
        - simpl in Eab. inversion Eab; subst x. simpl in Ha. rewrite Si in Ha. discriminate. }
      apply IH in E'; [|exists [], rest; auto|right; exact AS].
      destruct E' as (F & L & G & S & Q & T).
      split; [constructor; [exact Et|exact F]|].
      split; [cbn [locs_from ti_loc ti_task]; split; [f_equal; lia|replace (g + s + tk_n t) with (g + (s + tk_n t)) by lia; exact L]|].
      assert (X : simp (mkTInfo t (mkLoc (s + g) (tk_n t))) = true) by exact ST.
      cbn [filter]. rewrite X. cbn [negb ti_task].
      destruct (ct_isEquality (tk_type t)), (ct_isTwoSided (tk_type t)); rewrite ?sumn_cons; cbn [ti_task]; repeat split; lia.
    + apply bind_ok in E. destruct E as (l' & E' & E). inversion E; subst l; clear E. cbn [lv_tasks n_general n_simple n_equality n_twosided].
      destruct Hs as [->|Hs]; [|simpl in Hs; rewrite Si in Hs; discriminate].
      apply IH in E'; [| |left; reflexivity].
      2:{ destruct a as [|x a].
          - simpl in Eab. subst b. simpl in Hb. rewrite Si in Hb. discriminate.
          - simpl in Eab. inversion Eab; subst. simpl in Ha. exists a, b. apply andb_true_iff in Ha. tauto. }
      destruct E' as (F & L & G & S & Q & T).
      split; [constructor; [exact Et|exact F]|].
      split; [cbn [locs_from ti_loc ti_task]; split; [f_equal; lia|replace (g + 0 + tk_n t) with (g + tk_n t + 0) by lia; exact L]|].
      assert (X : simp (mkTInfo t (mkLoc g (tk_n t))) = false) by exact ST.
      cbn [filter]. rewrite X. cbn [negb ti_task].
      destruct (ct_isEquality (tk_type t)), (ct_isTwoSided (tk_type t)); rewrite ?sumn_cons; cbn [ti_task]; repeat split; lia.
Qed.

Lemma form_loop_total fo gu ts : forall g s e two,
  (exists l, form_loop fo gu g s e two ts = Ok l) <-> Forall (fun i => formable fo gu (ti_task i)) ts.
Proof.
  induction ts as [|i rest IH]; intros g s e two; cbn [form_loop].
  - split; [constructor|eauto].
  - split.
    + intros [l E]. apply bind_ok in E. destruct E as (t & Et & E). constructor.
      * apply form_task_formable. eauto.
      * destruct (ct_isSimple (tk_type t)); apply bind_ok in E; destruct E as (l' & E' & _); eapply IH; eauto.
    + intros F. inversion F; subst. apply form_task_formable in H1. destruct H1 as [t Et]. rewrite Et. simpl.
      destruct (ct_isSimple (tk_type t)).
      * destruct (proj2 (IH g (s + tk_n t) (if ct_isEquality (tk_type t) then e + tk_n t else e)
                (if ct_isTwoSided (tk_type t) then two + tk_n t else two)) H2) as [l' E']. rewrite E'. simpl. eauto.
      * destruct (proj2 (IH (g + tk_n t) s (if ct_isEquality (tk_type t) then e + tk_n t else e)
                (if ct_isTwoSided (tk_type t) then two + tk_n t else two)) H2) as [l' E']. rewrite E'. simpl. eauto.
Qed.

(** ** levels in which general tasks come first *)
Definition general_first (l : level) : Prop :=
  exists a b, lv_tasks l = a ++ b /\ forallb (fun i => negb (simp i)) a = true /\ forallb simp b = true.

Lemma push_general_first l t : general_first l -> general_first (level_pushTask l t).
Proof.
  intros (a & b & E & Ha & Hb). unfold level_pushTask. set (i := mkTInfo t (mkLoc 0 0)).
  destruct (ct_isSimple (tk_type t)) eqn:S.
  - exists a, (b ++ [i]). cbn [lv_tasks]. rewrite E, app_assoc. split; [reflexivity|]. split; [assumption|].
    rewrite forallb_app, Hb. simpl. unfold simp, simple_task. simpl. rewrite S. reflexivity.
  - exists (i :: a), b. cbn [lv_tasks]. rewrite E. split; [reflexivity|]. split; [|assumption].
    simpl. unfold simp, simple_task in *. simpl. rewrite S. exact Ha.
Qed.

Lemma pushed_general_first ts : general_first (pushed ts).
Proof.
  unfold pushed. assert (G : general_first level_new) by (exists [], []; auto). revert G. generalize level_new.
  induction ts as [|t ts IH]; intros l G; cbn [fold_left]; [exact G|]. apply IH, push_general_first, G.
Qed.

Lemma formed_map fo gu ts os : Forall2 (formed_from fo gu) ts os ->
  map (fun i => (tk_id (ti_task i), tk_type (ti_task i))) os = map (fun i => (tk_id (ti_task i), tk_type (ti_task i))) ts /\
  map (fun i => tk_n (ti_task i)) os = map (fun i => f_n (fo (tk_id (ti_task i)))) ts.
Proof.
  induction 1 as [|i o ts os F _ [IH1 IH2]]; [auto|]. simpl.
  apply form_task_ok in F. destruct F as (A & B & C & _). rewrite A, B, C, IH1, IH2. auto.
Qed.

Lemma form_general_first fo gu l l' : general_first l -> level_form fo gu l = Ok l' -> general_first l'.
Proof.
  intros G E. unfold level_form in E. apply assert_ok in E. destruct E as [_ E].
  apply bind_ok in E. destruct E as (r & Er & E). apply assert_ok in E. destruct E as [_ E]. inversion E; subst r.
  pose proof G as (a & b & Eab & Ha & Hb).
  apply form_loop_spec in Er; [|exact G|left; reflexivity]. destruct Er as (F & _).
  rewrite Eab in F. apply Forall2_app_inv_l in F. destruct F as (a' & b' & Fa & Fb & El).
  exists a', b'. split; [exact El|]. clear -Ha Hb Fa Fb. split.
  - revert Ha. induction Fa as [|i o ts os F Fa IH]; [auto|]. simpl. intros H. apply andb_true_iff in H.
    apply form_task_ok in F. destruct F as (_ & B & _). unfold simp, simple_task in *. rewrite B.
    apply andb_true_iff. tauto.
  - revert Hb. induction Fb as [|i o ts os F Fb IH]; [auto|]. simpl. intros H. apply andb_true_iff in H.
    apply form_task_ok in F. destruct F as (_ & B & _). unfold simp, simple_task in *. rewrite B.
    apply andb_true_iff. tauto.
Qed.

(** ** partition *)
Lemma locs_nth ts : forall start k i, locs_from start ts -> nth_error ts k = Some i ->
  ti_loc i = mkLoc (start + sumn (firstn k ts)) (tk_n (ti_task i)).
Proof.
  induction ts as [|h r IH]; intros start k i L E; [destruct k; discriminate|].
  destruct L as [L1 L2]. destruct k as [|k]; simpl in E.
  - inversion E; subst. rewrite L1. unfold sumn; simpl. f_equal; lia.
  - rewrite (IH _ _ _ L2 E). simpl. unfold sumn; simpl. f_equal; lia.
Qed.

Lemma sumn_app a b : sumn (a ++ b) = sumn a + sumn b.
Proof. unfold sumn. rewrite map_app, list_sum_app. reflexivity. Qed.

Lemma locs_app a b start : locs_from start (a ++ b) <-> locs_from start a /\ locs_from (start + sumn a) b.
Proof.
  revert start; induction a as [|i a IH]; intros start; simpl.
  - unfold sumn; simpl. rewrite Nat.add_0_r. tauto.
  - rewrite IH. unfold sumn; simpl. rewrite Nat.add_assoc. tauto.
Qed.

Lemma locs_cover ts : forall start r, locs_from start ts -> start <= r < start + sumn ts ->
  exists k i, nth_error ts k = Some i /\ offset (ti_loc i) <= r < offset (ti_loc i) + len (ti_loc i).
Proof.
  induction ts as [|h t IH]; intros start r L H; unfold sumn in *; simpl in H; [lia|].
  destruct L as [L1 L2]. destruct (Nat.lt_ge_cases r (start + tk_n (ti_task h))).
  - exists 0, h. rewrite L1; simpl. split; [reflexivity|lia].
  - destruct (IH _ r L2) as (k & i & E & B); [lia|]. exists (S k), i. auto.
Qed.

Lemma locs_range ts start k i : locs_from start ts -> nth_error ts k = Some i ->
  start <= offset (ti_loc i) /\ offset (ti_loc i) + len (ti_loc i) <= start + sumn ts.
Proof.
  intros L E. rewrite (locs_nth _ _ _ _ L E); simpl.
  assert (sumn ts = sumn (firstn k ts) + sumn (skipn k ts)) by (rewrite <- sumn_app, firstn_skipn; reflexivity).
  assert (tk_n (ti_task i) <= sumn (skipn k ts)).
  { clear L H. revert ts E; induction k as [|k IH]; intros [|h t] E; simpl in *; try discriminate.
    - inversion E; subst. unfold sumn; simpl; lia.
    - apply IH; assumption. }
  lia.
Qed.

Lemma sumn_firstn_lt ts : forall j k i, j < k -> nth_error ts j = Some i -> sumn (firstn j ts) + tk_n (ti_task i) <= sumn (firstn k ts).
Proof.
  induction ts as [|h t IH]; intros j k i H E; [destruct j; discriminate|].
  destruct k as [|k]; [lia|]. destruct j as [|j]; simpl in *.
  - inversion E; subst. unfold sumn; simpl; lia.
  - specialize (IH j k i ltac:(lia) E). unfold sumn in *; simpl. lia.
Qed.

Lemma locs_order ts start j k i i' : locs_from start ts -> j < k -> nth_error ts j = Some i -> nth_error ts k = Some i' ->
  offset (ti_loc i) + len (ti_loc i) <= offset (ti_loc i').
Proof.
  intros L H E E'. rewrite (locs_nth _ _ _ _ L E), (locs_nth _ _ _ _ L E'); simpl.
  pose proof (sumn_firstn_lt _ _ _ _ H E). lia.
Qed.

Lemma form_ok fo gu l l' : general_first l -> level_form fo gu l = Ok l' ->
  Forall2 (formed_from fo gu) (lv_tasks l) (lv_tasks l') /\ locs_from 0 (lv_tasks l') /\
  level_getNumberOfConstraints l' = sumn (lv_tasks l') /\ 0 < level_getNumberOfConstraints l' /\
  n_general l' = sumn (filter (fun i => negb (simp i)) (lv_tasks l')) /\
  n_simple l' = sumn (filter simp (lv_tasks l')) /\
  n_equality l' = sumn (filter (fun i => ct_isEquality (tk_type (ti_task i))) (lv_tasks l')) /\
  n_twosided l' = sumn (filter (fun i => ct_isTwoSided (tk_type (ti_task i))) (lv_tasks l')).
Proof.
  intros G E. unfold level_form in E. apply assert_ok in E. destruct E as [_ E].
  apply bind_ok in E. destruct E as (r & Er & E). apply assert_ok in E. destruct E as [P E]. inversion E; subst r.
  apply form_loop_spec in Er; [|exact G|left; reflexivity].
  destruct Er as (F & L & A & B & C & D). simpl in *.
  assert (Hs : forall ts, sumn ts = sumn (filter (fun i => negb (simp i)) ts) + sumn (filter simp ts)).
  { induction ts as [|i ts IH]; [reflexivity|]. unfold sumn in *. simpl. destruct (simp i); simpl; lia. }
  split; [assumption|]. split; [assumption|].
  split; [unfold level_getNumberOfConstraints; rewrite (Hs (lv_tasks l')); lia|].
  split; [lia|]. auto.
Qed.

Lemma form_iff fo gu l : (exists l', level_form fo gu l = Ok l') ->
  lv_tasks l <> [] /\ Forall (fun i => formable fo gu (ti_task i)) (lv_tasks l).
Proof.
  intros [l' E]. unfold level_form in E. apply assert_ok in E. destruct E as [N E].
  apply bind_ok in E. destruct E as (r & Er & E). split.
  - destruct (lv_tasks l); [discriminate|discriminate].
  - eapply form_loop_total; eauto.
Qed.

Lemma form_exists fo gu l : general_first l -> lv_tasks l <> [] ->
  Forall (fun i => formable fo gu (ti_task i)) (lv_tasks l) ->
  0 < list_sum (map (fun i => f_n (fo (tk_id (ti_task i)))) (lv_tasks l)) ->
  exists l', level_form fo gu l = Ok l'.
Proof.
  intros G N F P. unfold level_form.
  assert (X : negb (length (lv_tasks l) =? 0) = true) by (destruct (lv_tasks l); [congruence|reflexivity]).
  rewrite X. simpl. destruct (proj2 (form_loop_total fo gu (lv_tasks l) 0 0 0 0) F) as [r Er].
  rewrite Er. simpl.
  pose proof (form_loop_spec _ _ _ _ _ _ _ _ Er G (or_introl eq_refl)) as (F2 & L & A & B & _).
  assert (Hs : forall ts, sumn ts = sumn (filter (fun i => negb (simp i)) ts) + sumn (filter simp ts)).
  { induction ts as [|i ts IH]; [reflexivity|]. unfold sumn in *. simpl. destruct (simp i); simpl; lia. }
  assert (Q : level_getNumberOfConstraints r = sumn (lv_tasks r)).
  { unfold level_getNumberOfConstraints. rewrite (Hs (lv_tasks r)). lia. }
  rewrite Q. unfold sumn. rewrite (proj2 (formed_map _ _ _ _ F2)).
  unfold assert_then. rewrite (proj2 (Nat.ltb_lt _ _) P). eauto.
Qed.

Lemma owns_partition fo gu l l' : general_first l -> level_form fo gu l = Ok l' ->
  (forall r, r < level_getNumberOfConstraints l' -> exists! k, owns l' k r) /\
  (forall k r, owns l' k r -> r < level_getNumberOfConstraints l').
Proof.
  intros G E. destruct (form_ok _ _ _ _ G E) as (F & L & Q & _). rewrite Q. split.
  - intros r H. destruct (locs_cover _ 0 r L) as (k & i & Ek & B); [lia|].
    exists k. split; [exists i; auto|]. intros k' (i' & Ek' & B').
    destruct (Nat.lt_trichotomy k k') as [H'|[H'|H']]; [|assumption|].
    + pose proof (locs_order _ _ _ _ _ _ L H' Ek Ek'). lia.
    + pose proof (locs_order _ _ _ _ _ _ L H' Ek' Ek). lia.
  - intros k r (i & Ek & B). pose proof (locs_range _ _ _ _ L Ek). lia.
Qed.

Lemma general_before_simple fo gu l l' i j : general_first l -> level_form fo gu l = Ok l' ->
  In i (lv_tasks l') -> In j (lv_tasks l') -> simp i = false -> simp j = true ->
  offset (ti_loc i) + len (ti_loc i) <= offset (ti_loc j).
Proof.
  intros G E Ii Ij Si Sj. destruct (form_ok _ _ _ _ G E) as (F & L & Q & _).
  destruct (form_general_first _ _ _ _ G E) as (a & b & Eab & Ha & Hb). rewrite Eab in *.
  rewrite forallb_forall in Ha, Hb.
  apply in_app_or in Ii. apply in_app_or in Ij.
  destruct Ii as [Ii|Ii]; [|apply Hb in Ii; congruence].
  destruct Ij as [Ij|Ij]; [apply Ha in Ij; rewrite Sj in Ij; discriminate|].
  apply locs_app in L. destruct L as [La Lb].
  apply In_nth_error in Ii. destruct Ii as [k Ek]. apply In_nth_error in Ij. destruct Ij as [k' Ek'].
  pose proof (locs_range _ _ _ _ La Ek). pose proof (locs_range _ _ _ _ Lb Ek'). lia.
Qed.

(** ** statements about pushed tasks *)
Lemma filter_rev {A} (p : A -> bool) l : filter p (rev l) = rev (filter p l).
Proof.
  induction l as [|x l IH]; [reflexivity|]. simpl. rewrite filter_app, IH. simpl.
  destruct (p x); simpl; [reflexivity|apply app_nil_r].
Qed.

Lemma list_sum_rev l : list_sum (rev l) = list_sum l.
Proof. induction l as [|x l IH]; [reflexivity|]. simpl. rewrite list_sum_app, IH. simpl. lia. Qed.

Lemma filter_filter_sum fo (p q : task -> bool) ts :
  (list_sum (map (fun t => f_n (fo (tk_id t))) (filter p (filter q ts)))
   = list_sum (map (fun t => f_n (fo (tk_id t))) (filter (fun t => q t && p t) ts)))%nat.
Proof.
  induction ts as [|t ts IH]; [reflexivity|]. simpl. destruct (q t); simpl; [|exact IH].
  destruct (p t); simpl; lia.
Qed.

Lemma rows_pushed fo (p : task -> bool) ts :
  list_sum (map (fun t => f_n (fo (tk_id t))) (filter p (rev (filter general_task ts) ++ filter simple_task ts)))
  = rows fo p ts.
Proof.
  rewrite filter_app, map_app, list_sum_app, filter_rev, map_rev, list_sum_rev, !filter_filter_sum.
  unfold rows, general_task. induction ts as [|t ts IH]; [reflexivity|]. simpl.
  destruct (simple_task t), (p t); simpl; lia.
Qed.

Lemma sum_filter_formed fo gu (p : task -> bool) ts os :
  (forall a b, tk_type a = tk_type b -> p a = p b) -> Forall2 (formed_from fo gu) ts os ->
  sumn (filter (fun i => p (ti_task i)) os) =
  list_sum (map (fun t => f_n (fo (tk_id t))) (filter p (map ti_task ts))).
Proof.
  intros Hp. induction 1 as [|i o ts os F _ IH]; [reflexivity|]. simpl.
  apply form_task_ok in F. destruct F as (A & B & C & _). rewrite (Hp _ _ B).
  destruct (p (ti_task i)); [|exact IH]. unfold sumn in *. simpl. rewrite IH, C. reflexivity.
Qed.

Lemma numbers_pushed fo gu ts l' : level_form fo gu (pushed ts) = Ok l' ->
  level_getNumberOfConstraints l' = rows fo (fun _ => true) ts /\
  n_general l' = rows fo general_task ts /\ n_simple l' = rows fo simple_task ts /\
  n_equality l' = rows fo (fun t => ct_isEquality (tk_type t)) ts /\
  n_twosided l' = rows fo (fun t => ct_isTwoSided (tk_type t)) ts.
Proof.
  intros E. destruct (form_ok _ _ _ _ (pushed_general_first ts) E) as (F & L & Q & _ & A & B & C & D).
  rewrite Q, A, B, C, D.
  pose proof (fun p H => eq_trans (sum_filter_formed fo gu p _ _ H F)
     (eq_trans (f_equal (fun x => list_sum (map (fun t => f_n (fo (tk_id t))) (filter p x))) (pushed_order ts)) (rows_pushed fo p ts))) as K.
  repeat split.
  - rewrite <- (K (fun _ => true)); [|reflexivity]. f_equal. clear. induction (lv_tasks l') as [|x t IH]; [reflexivity|]. simpl. f_equal. exact IH.
  - apply (K general_task). unfold general_task, simple_task. intros ? ? ->; reflexivity.
  - apply (K simple_task). unfold simple_task. intros ? ? ->; reflexivity.
  - apply (K (fun t => ct_isEquality (tk_type t))). intros ? ? ->; reflexivity.
  - apply (K (fun t => ct_isTwoSided (tk_type t))). intros ? ? ->; reflexivity.
Qed.

Lemma tasks_of_pushed fo gu ts l' : level_form fo gu (pushed ts) = Ok l' ->
  map (fun i => (tk_id (ti_task i), tk_type (ti_task i), len (ti_loc i))) (lv_tasks l') =
  map (fun t => (tk_id t, tk_type t, f_n (fo (tk_id t)))) (rev (filter general_task ts) ++ filter simple_task ts).
Proof.
  intros E. destruct (form_ok _ _ _ _ (pushed_general_first ts) E) as (F & L & _).
  rewrite <- pushed_order. rewrite map_map. revert L. generalize 0. clear E.
  induction F as [|i o is os Fi F IH]; intros start L; [reflexivity|]. simpl.
  destruct L as [L1 L2]. rewrite L1. simpl. apply form_task_ok in Fi. destruct Fi as (A & B & C & _).
  rewrite A, B, C. f_equal. eapply IH; eauto.
Qed.

Lemma form_pushed_iff fo gu ts :
  (exists l', level_form fo gu (pushed ts) = Ok l') <->
  Forall (formable fo gu) ts /\ 0 < rows fo (fun _ => true) ts.
Proof.
  assert (PM : Permutation (map ti_task (lv_tasks (pushed ts))) ts).
  { rewrite pushed_order. unfold general_task. clear.
    induction ts as [|t ts IH]; [constructor|]. simpl. destruct (simple_task t); simpl.
    - apply Permutation_sym. eapply Permutation_trans; [apply perm_skip, Permutation_sym, IH|]. apply Permutation_middle.
    - rewrite <- app_assoc. simpl. apply Permutation_sym.
      eapply Permutation_trans; [apply perm_skip, Permutation_sym, IH|]. apply Permutation_middle. }
  assert (FM : Forall (fun i => formable fo gu (ti_task i)) (lv_tasks (pushed ts)) <-> Forall (formable fo gu) ts).
  { rewrite !Forall_forall. split; intros H x I.
    - apply (Permutation_in _ (Permutation_sym PM)) in I. apply in_map_iff in I. destruct I as (i & <- & I). auto.
    - apply H. apply (Permutation_in _ PM). apply in_map; assumption. }
  split.
  - intros [l' E]. split.
    + apply FM. apply (form_iff fo gu). eauto.
    + destruct (form_ok _ _ _ _ (pushed_general_first ts) E) as (_ & _ & _ & P & _).
      rewrite (proj1 (numbers_pushed _ _ _ _ E)) in P. exact P.
  - intros [F P]. apply form_exists.
    + apply pushed_general_first.
    + intros Z. apply (f_equal (map ti_task)) in Z. rewrite Z in PM. apply Permutation_nil in PM. subst ts. unfold rows in P; simpl in P; lia.
    + apply FM, F.
    + unfold rows in P.
      assert (X : list_sum (map (fun i => f_n (fo (tk_id (ti_task i)))) (lv_tasks (pushed ts)))
        = list_sum (map (fun t => f_n (fo (tk_id t))) (filter (fun _ => true) (map ti_task (lv_tasks (pushed ts)))))).
      { clear. induction (lv_tasks (pushed ts)) as [|x t IH]; [reflexivity|]. simpl. lia. }
      rewrite X, pushed_order, rows_pushed. exact P.
Qed.

(** ** C09: collecting *)
Lemma guess_loop_spec ts : forall start s,
  locs_from start ts -> Forall (fun i => length (tk_guess (ti_task i)) = tk_n (ti_task i)) ts ->
  start + sumn ts <= length s ->
  guess_loop ts s = Ok (firstn start s ++ concat (map (fun i => tk_guess (ti_task i)) ts) ++ skipn (start + sumn ts) s).
Proof.
  induction ts as [|i r IH]; intros start s L G H; cbn [guess_loop].
  - unfold sumn; simpl. rewrite Nat.add_0_r, firstn_skipn. reflexivity.
  - destruct L as [L1 L2]. inversion G; subst. unfold sumn in *; simpl in H.
    unfold as_copyTo. rewrite L1. cbn [offset len].
    unfold assert_then. rewrite (proj2 (checkLength_iff _ _)) by (simpl; lia).
    unfold copy_into. rewrite (proj2 (Nat.leb_le _ _)) by lia. simpl bind. rewrite (IH (start + tk_n (ti_task i))); [|assumption|assumption|].
    2:{ rewrite !app_length, firstn_length, skipn_length. lia. }
    f_equal. cbn [map concat list_sum fold_right]. rewrite H2.
    set (g := tk_guess (ti_task i)) in *.
    assert (FL : length (firstn start s) = start) by (rewrite firstn_length; lia).
    replace (firstn (start + tk_n (ti_task i)) (firstn start s ++ g ++ skipn (start + tk_n (ti_task i)) s))
      with (firstn start s ++ g).
    2:{ rewrite app_assoc. rewrite firstn_app. rewrite (firstn_all2 (firstn start s ++ g)) by (rewrite app_length; lia).
        rewrite app_length, FL, H2. replace (start + tk_n (ti_task i) - (start + tk_n (ti_task i))) with 0 by lia.
        simpl. rewrite app_nil_r. reflexivity. }
    rewrite <- !app_assoc. do 3 f_equal.
    change (fold_right Init.Nat.add 0 (map (fun i0 => tk_n (ti_task i0)) r)) with (sumn r).
    rewrite app_assoc. rewrite skipn_app. rewrite (skipn_all2 (firstn start s ++ g)) by (rewrite app_length; lia). simpl.
    rewrite app_length, FL, H2. rewrite skipn_skipn. f_equal. unfold sumn. simpl. lia.
Qed.

Lemma process_loop_spec ts : forall start s, locs_from start ts -> start + sumn ts <= length s ->
  process_loop ts s = Ok (map (fun i => mkTInfo (set_actual (ti_task i) (segment s (offset (ti_loc i)) (len (ti_loc i)))) (ti_loc i)) ts).
Proof.
  induction ts as [|i r IH]; intros start s L H; cbn [process_loop]; [reflexivity|].
  destruct L as [L1 L2]. unfold sumn in *; simpl in H.
  rewrite initialize_from_spec. rewrite L1. cbn [offset len].
  rewrite (proj2 (Nat.leb_le _ _)) by lia. cbn [bind].
  rewrite (IH (start + tk_n (ti_task i)) s L2) by lia. cbn [bind map]. rewrite L1. reflexivity.
Qed.

Lemma concat_segments ts : forall start (s : aset), locs_from start ts -> start + sumn ts <= length s ->
  concat (map (fun i => segment s (offset (ti_loc i)) (len (ti_loc i))) ts) = segment s start (sumn ts).
Proof.
  induction ts as [|i r IH]; intros start s L H; [reflexivity|].
  destruct L as [L1 L2]. unfold sumn in *; simpl in H. cbn [map concat].
  rewrite (IH _ s L2) by lia. rewrite L1. cbn [offset len list_sum fold_right].
  apply nth_error_ext. intros k. rewrite nth_error_app, !nth_error_segment, segment_length by lia.
  set (n := tk_n (ti_task i)). set (m := list_sum (map (fun i0 => tk_n (ti_task i0)) r)).
  change (fold_right Init.Nat.add 0 (map (fun i0 => tk_n (ti_task i0)) r)) with m in *.
  destruct (Nat.ltb_spec k n), (Nat.ltb_spec k (n + m)); try lia.
  - reflexivity.
  - rewrite (proj2 (Nat.ltb_lt _ _)) by lia. f_equal. lia.
  - rewrite (proj2 (Nat.ltb_ge _ _)) by lia. reflexivity.
Qed.

Definition distributed (l : level) (s : aset) : level :=
  mkLevel (n_general l) (n_simple l) (n_equality l) (n_twosided l)
    (map (fun i => mkTInfo (set_actual (ti_task i) (segment s (offset (ti_loc i)) (len (ti_loc i)))) (ti_loc i)) (lv_tasks l)).

Lemma distributed_gf l s : general_first l -> general_first (distributed l s).
Proof.
  intros (a & b & E & Ha & Hb). unfold distributed. rewrite E.
  eexists; eexists. cbn [lv_tasks]. rewrite map_app. split; [reflexivity|].
  split; [revert Ha; clear; induction a as [|x a IH]; [auto|]|revert Hb; clear; induction b as [|x b IH]; [auto|]];
    simpl; intros H; apply andb_true_iff in H; apply andb_true_iff; unfold simp, simple_task in *; simpl; tauto.
Qed.

Lemma process_spec fo gu l l' s : general_first l -> level_form fo gu l = Ok l' ->
  length s = level_getNumberOfConstraints l' -> level_processActiveSet l' s = Ok (distributed l' s).
Proof.
  intros G E H. destruct (form_ok _ _ _ _ G E) as (F & L & Q & _).
  unfold level_processActiveSet. rewrite (process_loop_spec _ 0 s L) by lia. reflexivity.
Qed.

Lemma process_short fo gu l l' s : general_first l -> level_form fo gu l = Ok l' ->
  length s < level_getNumberOfConstraints l' -> level_processActiveSet l' s = Throw.
Proof.
  intros G E H. destruct (form_ok _ _ _ _ G E) as (F & L & Q & _).
  unfold level_processActiveSet.
  assert (X : forall ts start, locs_from start ts -> start <= length s -> length s < start + sumn ts -> process_loop ts s = Throw).
  { clear. induction ts as [|i r IH]; intros start L H1 H2; unfold sumn in *; simpl in *; [lia|].
    destruct L as [L1 L2]. rewrite initialize_from_spec, L1. cbn [offset len].
    destruct (Nat.leb_spec (start + tk_n (ti_task i)) (length s)); [|reflexivity]. simpl.
    rewrite (IH (start + tk_n (ti_task i)) L2); [reflexivity|lia|lia]. }
  rewrite (X _ 0 L); [reflexivity|lia|lia].
Qed.

(** collecting writes every guess in its rows *)
Lemma guess_level fo l l' s : (forall k, full_guess (fo k)) -> general_first l -> level_form fo true l = Ok l' ->
  length s = level_getNumberOfConstraints l' ->
  exists r, level_guessActiveSet l' s = Ok r /\ length r = length s /\
    forall i, In i (lv_tasks l') -> segment r (offset (ti_loc i)) (len (ti_loc i)) = tk_guess (ti_task i).
Proof.
  intros FU G E H. destruct (form_ok _ _ _ _ G E) as (F & L & Q & _).
  assert (GL : Forall (fun i => length (tk_guess (ti_task i)) = tk_n (ti_task i)) (lv_tasks l')).
  { clear -F FU. induction F as [|i o is os Fi F IH]; constructor; [|assumption].
    apply form_task_ok in Fi. apply Fi; [reflexivity|apply FU]. }
  unfold level_guessActiveSet. rewrite (guess_loop_spec _ 0 s L GL) by lia. simpl.
  set (gs := concat (map (fun i => tk_guess (ti_task i)) (lv_tasks l'))).
  assert (LG : length gs = sumn (lv_tasks l')).
  { unfold gs. clear -GL. induction GL as [|i t H GL IH]; [reflexivity|]. simpl. rewrite app_length, IH, H. unfold sumn; simpl. reflexivity. }
  eexists. split; [reflexivity|]. rewrite <- Q, <- H, skipn_all, app_nil_r. split; [lia|].
  intros i I. apply In_nth_error in I. destruct I as [k Ek].
  rewrite (locs_nth _ _ _ _ L Ek). cbn [offset len]. simpl.
  unfold gs. clear -GL Ek. revert k Ek. induction GL as [|h t Hh GL IH]; intros k Ek; [destruct k; discriminate|].
  destruct k as [|k]; simpl in Ek.
  - inversion Ek; subst. unfold sumn; simpl. unfold segment. simpl. rewrite <- Hh.
    rewrite firstn_app, Nat.sub_diag, firstn_all. simpl. apply app_nil_r.
  - specialize (IH k Ek). rewrite <- IH. unfold segment, sumn. simpl. f_equal.
    rewrite <- Hh. rewrite skipn_app, skipn_all2 by lia. simpl. f_equal. unfold sumn; simpl. lia.
Qed.

(** distribute, form again with unmodified tasks, collect *)
Lemma Forall2_map_l {A B C} (f : A -> B) (P : B -> C -> Prop) l m : Forall2 P (map f l) m <-> Forall2 (fun a c => P (f a) c) l m.
Proof.
  split.
  - revert m. induction l as [|a l IH]; intros m H; simpl in H; inversion H; subst; constructor; auto.
  - induction 1; simpl; constructor; auto.
Qed.

Lemma roundtrip fo gu fo2 l l1 s s0 :
  general_first l -> level_form fo gu l = Ok l1 ->
  length s = level_getNumberOfConstraints l1 ->
  (forall i, In i (lv_tasks l1) -> let f := fo2 (tk_id (ti_task i)) in
      f_n f = tk_n (ti_task i) /\ f_consistent f = true /\ f_unmodified f = true /\ f_guess f = None) ->
  length s0 = length s ->
  exists l2 l3, level_processActiveSet l1 s = Ok l2 /\ level_form fo2 true l2 = Ok l3 /\ level_guessActiveSet l3 s0 = Ok s.
Proof.
  intros G E H U H0. exists (distributed l1 s).
  destruct (form_ok _ _ _ _ G E) as (F & L & Q & P & _).
  pose proof (form_general_first _ _ _ _ G E) as G1.
  pose proof (distributed_gf l1 s G1) as G2.
  assert (FB : Forall (fun i => formable fo2 true (ti_task i)) (lv_tasks (distributed l1 s))).
  { unfold distributed. cbn [lv_tasks]. apply Forall_forall. intros x I. apply in_map_iff in I. destruct I as (i & <- & I).
    pose proof (In_nth_error _ _ I) as [k Ek].
    specialize (U i I). cbn in U. destruct U as (U1 & U2 & U3 & U4).
    unfold formable. cbn [ti_task set_actual tk_id tk_actual tk_guess]. split; [assumption|]. split; [discriminate|].
    intros _. rewrite U4. intros _. right. rewrite U1. pose proof (locs_range _ _ _ _ L Ek).
    rewrite segment_length by lia. rewrite (locs_nth _ _ _ _ L Ek). reflexivity. }
  assert (SM : map (fun i => f_n (fo2 (tk_id (ti_task i)))) (lv_tasks (distributed l1 s)) = map (fun i => tk_n (ti_task i)) (lv_tasks l1)).
  { unfold distributed. cbn [lv_tasks]. rewrite map_map. apply map_ext_in. intros i I. cbn. apply (U i I). }
  destruct (form_exists fo2 true (distributed l1 s) G2) as [l3 E3].
  { intros Z. unfold distributed in Z. cbn [lv_tasks] in Z. destruct (lv_tasks l1); [|discriminate]. unfold sumn in Q; simpl in Q; lia. }
  { exact FB. }
  { rewrite SM. unfold sumn in Q. lia. }
  exists l3. split; [exact (process_spec fo gu l l1 s G E H)|]. split; [exact E3|].
  destruct (form_ok _ _ _ _ G2 E3) as (F3 & L3 & Q3 & _).
  assert (N3 : map (fun i => tk_n (ti_task i)) (lv_tasks l3) = map (fun i => tk_n (ti_task i)) (lv_tasks l1)).
  { rewrite (proj2 (formed_map _ _ _ _ F3)). exact SM. }
  assert (S3 : sumn (lv_tasks l3) = sumn (lv_tasks l1)) by (unfold sumn; rewrite N3; reflexivity).
  unfold level_guessActiveSet. rewrite (guess_loop_spec _ 0 s0 L3).
  - simpl. rewrite S3, <- Q, <- H, <- H0, skipn_all, app_nil_r. f_equal.
    transitivity (concat (map (fun i => segment s (offset (ti_loc i)) (len (ti_loc i))) (lv_tasks l1))).
    + f_equal. unfold distributed in F3. cbn [lv_tasks] in F3. apply (proj1 (Forall2_map_l _ _ _ _)) in F3.
      assert (F4 : Forall2 (fun a o => formed_from fo2 true (mkTInfo (set_actual (ti_task a) (segment s (offset (ti_loc a)) (len (ti_loc a)))) (ti_loc a)) o
           /\ ((f_unmodified (fo2 (tk_id (ti_task a))) = true /\ f_guess (fo2 (tk_id (ti_task a))) = None) /\ f_n (fo2 (tk_id (ti_task a))) = len (ti_loc a)) /\ len (ti_loc a) = length (segment s (offset (ti_loc a)) (len (ti_loc a)))) (lv_tasks l1) (lv_tasks l3)).
      { assert (UU : Forall (fun a => ((f_unmodified (fo2 (tk_id (ti_task a))) = true /\ f_guess (fo2 (tk_id (ti_task a))) = None) /\ f_n (fo2 (tk_id (ti_task a))) = len (ti_loc a)) /\ len (ti_loc a) = length (segment s (offset (ti_loc a)) (len (ti_loc a)))) (lv_tasks l1)).
        { apply Forall_forall. intros i I. pose proof (In_nth_error _ _ I) as [k Ek].
          split; [split; [split; apply (U i I)|rewrite (proj1 (U i I)), (locs_nth _ _ _ _ L Ek); reflexivity]|].
          pose proof (locs_range _ _ _ _ L Ek). rewrite segment_length by lia. reflexivity. }
        clear -F3 UU. revert F3 UU. generalize (lv_tasks l1) (lv_tasks l3). intros x y F3 UU. induction F3; constructor.
        - inversion UU; subst. tauto.
        - apply IHF3. inversion UU; assumption. }
      clear -F4. induction F4 as [|a o is os (Fa & ((Ua & Ga) & Na) & La) F4 IH]; [reflexivity|]. cbn [map]. rewrite IH. f_equal.
      apply form_task_ok in Fa. cbn [ti_task set_actual tk_id tk_actual tk_type tk_n] in Fa.
      destruct Fa as (_ & _ & Fn & _ & _ & _ & Lg & _ & A & B & _).
      destruct (length (segment s (offset (ti_loc a)) (len (ti_loc a)))) eqn:Z.
      * apply length_zero_iff_nil in Z. rewrite Z. apply length_zero_iff_nil. rewrite (Lg eq_refl) by (intros g ? ? X; congruence). lia.
      * apply A; auto.
    + rewrite (concat_segments _ 0 s L) by lia. rewrite <- Q, <- H. apply segment_all.
  - assert (UU : Forall (fun a => full_guess (fo2 (tk_id (ti_task a)))) (lv_tasks (distributed l1 s))).
    { unfold distributed. cbn [lv_tasks]. apply Forall_forall. intros x I. apply in_map_iff in I. destruct I as (i & <- & I). cbn. intros g t a X. destruct (U i I) as (_ & _ & _ & Y). cbv zeta in Y. congruence. }
    clear -F3 UU. induction F3 as [|i o is os Fi F IH]; constructor; [|inversion UU; auto].
    apply form_task_ok in Fi. apply Fi; [reflexivity|]. inversion UU; assumption.
  - simpl. rewrite S3. lia.
Qed.

(** ** any history *)
Lemma process_tasks ts : forall s r, process_loop ts s = Ok r ->
  map (fun i => (tk_id (ti_task i), tk_type (ti_task i), ti_loc i)) r = map (fun i => (tk_id (ti_task i), tk_type (ti_task i), ti_loc i)) ts.
Proof.
  induction ts as [|i t IH]; intros s r E; cbn [process_loop] in E.
  - inversion E; reflexivity.
  - apply bind_ok in E. destruct E as (a & Ea & E). apply bind_ok in E. destruct E as (r' & Er & E).
    inversion E; subst. cbn. f_equal. eapply IH; eauto.
Qed.

Lemma simp_of_map ts us : map (fun i => (tk_id (ti_task i), tk_type (ti_task i), ti_loc i)) ts = map (fun i => (tk_id (ti_task i), tk_type (ti_task i), ti_loc i)) us ->
  map simp ts = map simp us.
Proof.
  revert us; induction ts as [|i t IH]; intros [|j u] E; try discriminate; [reflexivity|]. cbn in *. inversion E.
  f_equal; [unfold simp, simple_task; congruence|auto].
Qed.

Lemma gf_of_map l l' : map simp (lv_tasks l) = map simp (lv_tasks l') -> general_first l -> general_first l'.
Proof.
  intros E (a & b & Eab & Ha & Hb). rewrite Eab, map_app in E.
  exists (firstn (length a) (lv_tasks l')), (skipn (length a) (lv_tasks l')). rewrite firstn_skipn. split; [reflexivity|].
  assert (FB : forall (p : bool -> bool) x y, map simp x = map simp y -> forallb (fun i => p (simp i)) x = forallb (fun i => p (simp i)) y).
  { intros p x. induction x as [|i x IH]; intros [|j y] M; try discriminate; [reflexivity|]. cbn in *. inversion M. rewrite (IH y) by assumption. reflexivity. }
  split.
  - rewrite <- Ha. apply (FB negb). rewrite <- firstn_map, <- E. rewrite <- (map_length simp a).
    rewrite firstn_app, Nat.sub_diag, firstn_all. apply app_nil_r.
  - rewrite <- Hb. apply (FB (fun x => x)). rewrite <- skipn_map, <- E. rewrite <- (map_length simp a).
    rewrite skipn_app, Nat.sub_diag, skipn_all. reflexivity.
Qed.

Lemma lreach_gf l : lreach l -> general_first l.
Proof.
  induction 1 as [|l t _ IH|l fo gu l' _ IH E|l s l' _ IH E].
  - exists [], []. auto.
  - apply push_general_first, IH.
  - eapply form_general_first; eauto.
  - unfold level_processActiveSet in E. apply bind_ok in E. destruct E as (ts & Et & E). inversion E; subst l'.
    apply process_tasks, simp_of_map in Et. eapply gf_of_map; [|exact IH]. symmetry. exact Et.
Qed.

Lemma pushed_reach ts : lreach (pushed ts).
Proof.
  unfold pushed. assert (G : lreach level_new) by constructor. revert G. generalize level_new.
  induction ts as [|t ts IH]; intros l G; cbn [fold_left]; [exact G|]. apply IH. constructor; exact G.
Qed.

Lemma reach_partition fo gu l l' : lreach l -> level_form fo gu l = Ok l' ->
  same_tasks l l' /\
  (forall r, r < level_getNumberOfConstraints l' -> exists! k, owns l' k r) /\
  (forall k r, owns l' k r -> r < level_getNumberOfConstraints l') /\
  (forall i, In i (lv_tasks l') -> len (ti_loc i) = f_n (fo (tk_id (ti_task i)))) /\
  (forall i j, In i (lv_tasks l') -> In j (lv_tasks l') -> general_task (ti_task i) = true -> simple_task (ti_task j) = true ->
      offset (ti_loc i) + len (ti_loc i) <= offset (ti_loc j)).
Proof.
  intros R E. apply lreach_gf in R. destruct (owns_partition _ _ _ _ R E) as [A B].
  destruct (form_ok _ _ _ _ R E) as (F & L & _).
  split; [symmetry; apply (formed_map _ _ _ _ F)|]. split; [exact A|]. split; [exact B|]. split.
  - intros i I. apply In_nth_error in I. destruct I as [k Ek]. rewrite (locs_nth _ _ _ _ L Ek). cbn [len].
    clear -F Ek. revert k Ek. induction F as [|x y ts os Fx F IH]; intros k Ek; [destruct k; discriminate|].
    destruct k as [|k]; simpl in Ek; [|eapply IH; eauto]. inversion Ek; subst.
    apply form_task_ok in Fx. destruct Fx as (P & _ & Q & _). rewrite P, Q. reflexivity.
  - intros i j Ii Ij Gi Sj. eapply general_before_simple; eauto.
    unfold general_task in Gi. apply negb_true_iff in Gi. exact Gi.
Qed.

Lemma roundtrip_reach fo gu fo2 l l1 s s0 :
  lreach l -> level_form fo gu l = Ok l1 ->
  length s = level_getNumberOfConstraints l1 ->
  (forall i, In i (lv_tasks l1) -> let f := fo2 (tk_id (ti_task i)) in
      f_n f = tk_n (ti_task i) /\ f_consistent f = true /\ f_unmodified f = true /\ f_guess f = None) ->
  length s0 = length s ->
  exists l2 l3, level_processActiveSet l1 s = Ok l2 /\ level_form fo2 true l2 = Ok l3 /\ level_guessActiveSet l3 s0 = Ok s.
Proof. intros R. apply roundtrip. apply lreach_gf; exact R. Qed.

Lemma process_reach fo gu l l1 s : lreach l -> level_form fo gu l = Ok l1 ->
  (length s = level_getNumberOfConstraints l1 ->
   exists l2, level_processActiveSet l1 s = Ok l2 /\ same_tasks l1 l2 /\ map ti_loc (lv_tasks l2) = map ti_loc (lv_tasks l1) /\
     (forall i, In i (lv_tasks l2) -> tk_actual (ti_task i) = segment s (offset (ti_loc i)) (len (ti_loc i))) /\
     concat (map (fun i => tk_actual (ti_task i)) (lv_tasks l2)) = s) /\
  (length s < level_getNumberOfConstraints l1 -> level_processActiveSet l1 s = Throw).
Proof.
  intros R E. apply lreach_gf in R. split; [|apply (process_short fo gu l); assumption].
  intros H. exists (distributed l1 s). split; [eapply process_spec; eassumption|].
  unfold same_tasks, distributed. cbn [lv_tasks]. rewrite !map_map. split; [reflexivity|]. split; [reflexivity|]. split.
  - intros i I. apply in_map_iff in I. destruct I as (j & <- & _). reflexivity.
  - cbn [ti_task set_actual tk_actual]. destruct (form_ok _ _ _ _ R E) as (F & L & Q & _).
    change (concat (map (fun i => segment s (offset (ti_loc i)) (len (ti_loc i))) (lv_tasks l1)) = s).
    rewrite (concat_segments _ 0 s L) by lia. rewrite <- Q, <- H. apply segment_all.
Qed.

Lemma guess_reach fo l l' s : (forall k, full_guess (fo k)) -> lreach l -> level_form fo true l = Ok l' ->
  length s = level_getNumberOfConstraints l' ->
  exists r, level_guessActiveSet l' s = Ok r /\ length r = length s /\
    forall i, In i (lv_tasks l') -> segment r (offset (ti_loc i)) (len (ti_loc i)) = tk_guess (ti_task i).
Proof. intros FU R. apply guess_level; [exact FU|apply lreach_gf, R]. Qed.

(** default guesses after a modification *)
Lemma default_guess fo l l' s : (forall k, full_guess (fo k)) -> lreach l -> level_form fo true l = Ok l' ->
  length s = level_getNumberOfConstraints l' ->
  exists r, level_guessActiveSet l' s = Ok r /\ length r = length s /\
    forall i, In i (lv_tasks l') -> f_guess (fo (tk_id (ti_task i))) = None -> f_unmodified (fo (tk_id (ti_task i))) = false ->
      segment r (offset (ti_loc i)) (len (ti_loc i)) =
      repeat (if ct_isEquality (tk_type (ti_task i)) then EQUALITY else INACTIVE) (len (ti_loc i)).
Proof.
  intros FU R E H. destruct (guess_reach _ _ _ _ FU R E H) as (r & Er & Lr & G).
  exists r. split; [exact Er|]. split; [exact Lr|]. intros i I D U. rewrite (G i I).
  apply lreach_gf in R. destruct (form_ok _ _ _ _ R E) as (F & L & _).
  apply In_nth_error in I. destruct I as [k Ek]. rewrite (locs_nth _ _ _ _ L Ek). cbn [len].
  clear -F Ek U D. revert k Ek. induction F as [|x y ts os Fx F IH]; intros k Ek; [destruct k; discriminate|].
  destruct k as [|k]; simpl in Ek; [|eapply IH; eauto]. inversion Ek; subst.
  apply form_task_ok in Fx. destruct Fx as (P1 & P2 & _ & _ & _ & _ & _ & _ & _ & P & _).
  rewrite P1 in D, U. rewrite P2. apply P; [reflexivity|exact D|]. left. exact U.
Qed.

Lemma own_guess fo l l' s : (forall k, full_guess (fo k)) -> lreach l -> level_form fo true l = Ok l' ->
  length s = level_getNumberOfConstraints l' ->
  exists r, level_guessActiveSet l' s = Ok r /\ length r = length s /\
    forall k i0 i g, nth_error (lv_tasks l) k = Some i0 -> nth_error (lv_tasks l') k = Some i -> let f := fo (tk_id (ti_task i)) in
      f_guess f = Some g -> g (userForm f (preForm (ti_task i0))) = Ok (segment r (offset (ti_loc i)) (len (ti_loc i))).
Proof.
  intros FU R E H. destruct (guess_reach _ _ _ _ FU R E H) as (r & Er & Lr & G).
  exists r. split; [exact Er|]. split; [exact Lr|]. intros k i0 i g E0 E1 f FG. rewrite (G i (nth_error_In _ _ E1)).
  apply lreach_gf in R. destruct (form_ok _ _ _ _ R E) as (F & _).
  unfold f in *. clear -F E0 E1 FG. revert k E0 E1. induction F as [|x y ts os Fx F IH]; intros k E0 E1; [destruct k; discriminate|].
  destruct k as [|k]; simpl in E0, E1; [|eapply IH; eauto]. inversion E0; inversion E1; subst.
  apply form_task_ok in Fx. destruct Fx as (P1 & _ & _ & _ & _ & _ & _ & _ & _ & _ & P). rewrite P1 in *. exact (P eq_refl g FG).
Qed.

(** ** C62 *)
Lemma form_reach_iff fo gu l : lreach l ->
  ((exists l', level_form fo gu l = Ok l') <->
   Forall (fun i => formable fo gu (ti_task i)) (lv_tasks l) /\
   0 < list_sum (map (fun i => f_n (fo (tk_id (ti_task i)))) (lv_tasks l))).
Proof.
  intros R. apply lreach_gf in R. split.
  - intros [l' E]. split; [apply (form_iff fo gu); eauto|].
    destruct (form_ok _ _ _ _ R E) as (F & _ & Q & P & _).
    rewrite Q in P. unfold sumn in P. rewrite (proj2 (formed_map _ _ _ _ F)) in P. exact P.
  - intros [F P]. apply form_exists; auto. intros Z. rewrite Z in P. simpl in P. lia.
Qed.

Lemma history_free fo l : lreach l ->
  (forall i, In i (lv_tasks l) -> f_consistent (fo (tk_id (ti_task i))) = true /\ f_unmodified (fo (tk_id (ti_task i))) = false /\ f_guess (fo (tk_id (ti_task i))) = None) ->
  0 < list_sum (map (fun i => f_n (fo (tk_id (ti_task i)))) (lv_tasks l)) ->
  exists l', level_form fo true l = Ok l'.
Proof.
  intros R H P. apply form_reach_iff; [assumption|]. split; [|assumption].
  apply Forall_forall. intros i I. destruct (H i I) as (A & B & D). unfold formable. split; [assumption|].
  split; [discriminate|]. intros _. rewrite D. intros C. congruence.
Qed.

Lemma stale_guess_refuted :
  exists (t : task) (fo1 fo2 : nat -> formed) (l1 : level),
    level_form fo1 true (pushed [t]) = Ok l1 /\
    f_consistent (fo2 (tk_id t)) = true /\ f_unmodified (fo2 (tk_id t)) = false /\ 0 < f_n (fo2 (tk_id t)) /\
    (exists l2, level_form fo2 false (pushed [t]) = Ok l2) /\
    level_form fo2 false l1 = Throw.
Proof.
  exists (mkTask 0 ALU 0 true [] []), (fun _ => mkFormed 2 true false None), (fun _ => mkFormed 3 true false None).
  eexists. repeat split; try reflexivity; try (simpl; lia). eexists; reflexivity.
Qed.
