(** Proofs for C82 and C83. *)
From Coq Require Import List Arith Bool Reals Lia ZifyBool.
From Verif Require Import Base BaseFacts ActiveSet ActiveSetFacts Mixins MixinsSpec MixinsFacts ConstraintType HierarchyLevel HierarchySpec
  HierarchyFacts RSum Matrix Constraints ConstraintsSpec ConstraintsFacts Problem ProblemSpec ViolationsFacts.
Import ListNotations.
Local Open Scope nat_scope.

(** ** loops as recursion over lists *)
Fixpoint mapM {A B} (f : A -> outcome B) (l : list A) : outcome (list B) :=
  match l with
  | [] => Ok []
  | a :: r => bind (f a) (fun b => bind (mapM f r) (fun r' => Ok (b :: r')))
  end.

Fixpoint zipM {A B C} (f : A -> B -> outcome C) (l : list A) (m : list B) : outcome (list C) :=
  match l, m with
  | a :: r, b :: s => bind (f a b) (fun c => bind (zipM f r s) (fun r' => Ok (c :: r')))
  | _, _ => Ok []
  end.

Lemma update_at {A} (a : list A) x b v : update (a ++ x :: b) (length a) v = a ++ v :: b.
Proof. induction a; cbn; [reflexivity|]. f_equal. exact IHa. Qed.

Lemma nth_error_at {A} (a : list A) x b : nth_error (a ++ x :: b) (length a) = Some x.
Proof. rewrite nth_error_app2 by lia. rewrite Nat.sub_diag. reflexivity. Qed.

Lemma form_levels_eq fo gu b : forall a ca cb, length ca = length a -> length cb = length b ->
  for_up (length b) (length a) (form_level fo gu) (mkProblem (a ++ b) (ca ++ cb)) =
  bind (mapM (level_form fo gu) b) (fun b' => Ok (mkProblem (a ++ b') (ca ++ map level_getNumberOfConstraints b'))).
Proof.
  induction b as [|l b IH]; intros a ca cb Ha Hb.
  - destruct cb; [|discriminate]. reflexivity.
  - destruct cb as [|n cb]; [discriminate|]. cbn [length for_up mapM bind]. unfold form_level at 1. cbn [pb_levels pb_counts].
    rewrite nth_error_at. destruct (level_form fo gu l) as [l'| |]; cbn [bind]; try reflexivity.
    assert (L : (length a <? length (ca ++ n :: cb)) = true) by (rewrite app_length; cbn [length]; lia). rewrite L.
    cbn [bind]. rewrite update_at. rewrite <- Ha, update_at. rewrite Ha.
    replace (a ++ l' :: b) with ((a ++ [l']) ++ b) by (rewrite <- app_assoc; reflexivity).
    replace (ca ++ level_getNumberOfConstraints l' :: cb) with ((ca ++ [level_getNumberOfConstraints l']) ++ cb) by (rewrite <- app_assoc; reflexivity).
    replace (Datatypes.S (length a)) with (length (a ++ [l'])) by (rewrite app_length; cbn; lia).
    rewrite IH; [|rewrite !app_length; cbn; lia|cbn in Hb; lia].
    destruct (mapM (level_form fo gu) b) as [b'| |]; cbn [bind]; try reflexivity.
    rewrite <- !app_assoc. reflexivity.
Qed.

Lemma over_levels_eq {S} (f : level -> S -> outcome S) p s : length s = length (pb_levels p) ->
  over_levels f p s = zipM f (pb_levels p) s.
Proof.
  unfold over_levels, pb_getNumberOfLevels.
  enough (G : forall b t, length t = length b -> forall a u, length u = length a -> pb_levels p = a ++ b ->
    for_up (length b) (length a)
      (fun i s => match nth_error (pb_levels p) i with
                | Some l => bind (read_at s i) (fun a => bind (f l a) (fun a' => write_at s i a'))
                | None => UB end) (u ++ t) = bind (zipM f b t) (fun r => Ok (u ++ r))).
  { intros H. specialize (G (pb_levels p) s H [] [] eq_refl eq_refl). cbn [length app] in G. rewrite G.
    destruct (zipM f (pb_levels p) s); reflexivity. }
  induction b as [|l b IH]; intros t Ht a u Hu E.
  - destruct t; [|discriminate]. reflexivity.
  - destruct t as [|y t]; [discriminate|]. cbn [length for_up zipM]. rewrite E, nth_error_at.
    unfold read_at. rewrite <- Hu, nth_error_at. cbn [bind]. destruct (f l y) as [y'| |]; cbn [bind]; try reflexivity.
    unfold write_at. rewrite app_length. cbn [length]. rewrite assert_true by lia. cbn [bind]. rewrite update_at.
    replace (u ++ y' :: t) with ((u ++ [y']) ++ t) by (rewrite <- app_assoc; reflexivity).
    replace (Datatypes.S (length u)) with (length (a ++ [l])) by (rewrite app_length; cbn; lia). rewrite <- E.
    rewrite (IH t); [|cbn in Ht; lia|rewrite !app_length; cbn; lia|rewrite E, <- app_assoc; reflexivity].
    destruct (zipM f b t); cbn [bind]; try reflexivity. rewrite <- app_assoc. reflexivity.
Qed.

Lemma process_eq p s : pb_processActiveSet p s =
  if length s =? length (pb_levels p)
  then bind (zipM level_processActiveSet (pb_levels p) s) (fun ls => Ok (mkProblem ls (pb_counts p))) else Throw.
Proof.
  unfold pb_processActiveSet, assert_then, pb_getNumberOfLevels. destruct (length s =? length (pb_levels p)) eqn:L; [|reflexivity].
  apply Nat.eqb_eq in L.
  enough (G : forall b t, length t = length b -> forall a u, length u = length a -> s = u ++ t ->
    for_up (length b) (length a)
      (fun i p => match nth_error (pb_levels p) i with
                   | Some l => bind (read_at s i) (fun a => bind (level_processActiveSet l a) (fun l' =>
                                 Ok (mkProblem (update (pb_levels p) i l') (pb_counts p))))
                   | None => UB
                   end) (mkProblem (a ++ b) (pb_counts p)) =
    bind (zipM level_processActiveSet b t) (fun ls => Ok (mkProblem (a ++ ls) (pb_counts p)))).
  { specialize (G (pb_levels p) s L [] [] eq_refl eq_refl). cbn [app length] in G. destruct p; exact G. }
  induction b as [|l b IH]; intros t Ht a u Hu E.
  - destruct t; [|discriminate]. reflexivity.
  - destruct t as [|y t]; [discriminate|]. cbn [length for_up zipM pb_levels pb_counts]. rewrite nth_error_at.
    rewrite E. unfold read_at. rewrite <- Hu, nth_error_at. cbn [bind]. destruct (level_processActiveSet l y) as [l'| |]; cbn [bind]; try reflexivity.
    rewrite Hu, update_at.
    replace (a ++ l' :: b) with ((a ++ [l']) ++ b) by (rewrite <- app_assoc; reflexivity).
    replace (Datatypes.S (length a)) with (length (a ++ [l'])) by (rewrite app_length; cbn; lia).
    rewrite <- E. rewrite (IH t) with (u := u ++ [y]);
      [|cbn in Ht; lia|rewrite !app_length; cbn; lia|rewrite E, <- app_assoc; reflexivity].
    destruct (zipM level_processActiveSet b t); cbn [bind]; try reflexivity. rewrite <- app_assoc. reflexivity.
Qed.

Lemma mapM_ok {A B} (f : A -> outcome B) l : forall r, mapM f l = Ok r <-> Forall2 (fun a b => f a = Ok b) l r.
Proof.
  induction l as [|a l IH]; intros r; cbn [mapM].
  - split; [intros [= <-]; constructor|intros H; inversion H; reflexivity].
  - split.
    + destruct (f a) as [b| |] eqn:E; cbn [bind]; try discriminate.
      destruct (mapM f l) as [r'| |] eqn:Em; cbn [bind]; try discriminate. intros [= <-]. constructor; [exact E|]. apply IH. reflexivity.
    + intros H. inversion H as [|a' b l' r' E F]; subst. rewrite E. cbn [bind]. apply IH in F. rewrite F. reflexivity.
Qed.

Lemma mapM_exists {A B} (f : A -> outcome B) l : (exists r, mapM f l = Ok r) <-> Forall (fun a => exists b, f a = Ok b) l.
Proof.
  split.
  - intros (r & E). apply mapM_ok in E. induction E; constructor; eauto.
  - intros H. induction H as [|a l (b & E) H (r & IH)]; cbn [mapM]; [eexists; reflexivity|]. rewrite E, IH. eexists; reflexivity.
Qed.

Lemma mapM_noub {A B} (f : A -> outcome B) l : (forall a, In a l -> f a <> UB) -> mapM f l <> UB.
Proof.
  induction l as [|a l IH]; intros H; cbn [mapM]; [discriminate|].
  specialize (H a (or_introl eq_refl)) as Ha. destruct (f a); cbn [bind]; try congruence.
  assert (I : mapM f l <> UB) by (apply IH; intros; apply H; right; assumption). destruct (mapM f l); cbn [bind]; congruence.
Qed.

Lemma zipM_ok {A B C} (f : A -> B -> outcome C) (P : A -> B -> C -> Prop) l : forall m,
  length m = length l ->
  (forall i a b, nth_error l i = Some a -> nth_error m i = Some b -> exists c, f a b = Ok c /\ P a b c) ->
  exists r, zipM f l m = Ok r /\ length r = length l /\
    forall i a b, nth_error l i = Some a -> nth_error m i = Some b -> exists c, nth_error r i = Some c /\ P a b c.
Proof.
  induction l as [|a l IH]; intros m L H.
  - destruct m; [|discriminate]. exists []. split; [reflexivity|]. split; [reflexivity|]. intros [|i] ? ? Q; discriminate.
  - destruct m as [|b m]; [discriminate|]. destruct (H 0 a b eq_refl eq_refl) as (c & E & Pc).
    destruct (IH m) as (r & Er & Lr & Hr).
    { cbn in L; lia. }
    { intros i x y Hx Hy. apply (H (Datatypes.S i)); assumption. }
    exists (c :: r). cbn [zipM]. rewrite E. cbn [bind]. rewrite Er. split; [reflexivity|]. split; [cbn; lia|].
    intros [|i] x y Hx Hy; cbn in Hx, Hy.
    + injection Hx as <-; injection Hy as <-. exists c. split; [reflexivity|exact Pc].
    + destruct (Hr i x y Hx Hy) as (z & Ez & Pz). exists z. split; [exact Ez|exact Pz].
Qed.

Lemma zipM_throw {A B C} (f : A -> B -> outcome C) l : forall m i a b,
  length m = length l -> nth_error l i = Some a -> nth_error m i = Some b -> f a b = Throw ->
  (forall k a b, nth_error l k = Some a -> nth_error m k = Some b -> f a b <> UB) ->
  zipM f l m = Throw.
Proof.
  induction l as [|x l IH]; intros m i a b L Hi Hm F N; [destruct i; discriminate|].
  destruct m as [|y m]; [discriminate|]. cbn [zipM].
  destruct i as [|i]; cbn in Hi, Hm.
  - injection Hi as ->; injection Hm as ->. rewrite F. reflexivity.
  - pose proof (N 0 x y eq_refl eq_refl) as N0. destruct (f x y); cbn [bind]; try congruence.
    rewrite (IH m i a b); [reflexivity|cbn in L; lia|exact Hi|exact Hm|exact F|intros k; apply (N (Datatypes.S k))].
Qed.

(** ** reachable problems *)
Lemma mapM_level_form_reach fo gu l r : Forall lreach l -> mapM (level_form fo gu) l = Ok r -> Forall lreach r.
Proof.
  intros H E. apply mapM_ok in E. induction E; [constructor|]. inversion H; subst. constructor; [eapply lr_form; eassumption|auto].
Qed.

Lemma zipM_process_reach l : forall s r, Forall lreach l -> zipM level_processActiveSet l s = Ok r -> length s = length l ->
  Forall lreach r /\ length r = length l.
Proof.
  induction l as [|a l IH]; intros [|x s] r H E L; cbn [zipM] in E; try (injection E as <-; split; [constructor|reflexivity]); try discriminate.
  inversion H; subst. destruct (level_processActiveSet a x) as [a'| |] eqn:Ea; cbn [bind] in E; try discriminate.
  destruct (zipM level_processActiveSet l s) as [r'| |] eqn:Er; cbn [bind] in E; try discriminate. injection E as <-.
  destruct (IH s r') as [I1 I2]; [assumption|exact Er|cbn in L; lia|].
  split; [constructor; [eapply lr_process; eassumption|exact I1]|cbn; lia].
Qed.

Lemma formHierarchy_eq fo gu p : length (pb_counts p) = length (pb_levels p) ->
  pb_formHierarchy fo gu p = if 0 <? length (pb_levels p)
    then bind (mapM (level_form fo gu) (pb_levels p)) (fun ls => Ok (mkProblem ls (map level_getNumberOfConstraints ls))) else Throw.
Proof.
  intros H. unfold pb_formHierarchy, assert_then, pb_getNumberOfLevels. destruct (0 <? length (pb_levels p)); [|reflexivity].
  pose proof (form_levels_eq fo gu (pb_levels p) [] [] (pb_counts p) eq_refl H) as E. cbn [app length] in E. destruct p; exact E.
Qed.

Lemma preach_wf p : preach p -> Forall lreach (pb_levels p) /\ length (pb_counts p) = length (pb_levels p).
Proof.
  induction 1 as [|p n H IH|p t i p' H [IH1 IH2] E|p fo gu p' H [IH1 IH2] E|p s p' H [IH1 IH2] E].
  - split; [constructor|reflexivity].
  - cbn [pb_reset pb_levels pb_counts]. split.
    + apply Forall_forall. intros l Hl. apply repeat_spec in Hl. subst. constructor.
    + unfold resize_counts. rewrite app_length, firstn_length, !repeat_length. lia.
  - unfold pb_pushTask in E. destruct (nth_error (pb_levels p) i) as [l|] eqn:En; [|discriminate]. injection E as <-.
    cbn [pb_levels pb_counts]. split; [|rewrite update_length; exact IH2].
    apply Forall_forall. intros x Hx. apply In_nth_error in Hx. destruct Hx as [k Hk]. rewrite nth_error_update in Hk.
    rewrite Forall_forall in IH1.
    destruct ((i =? k) && (i <? length (pb_levels p))) eqn:Ek.
    + injection Hk as <-. constructor. apply IH1. eapply nth_error_In; exact En.
    + apply IH1. eapply nth_error_In; exact Hk.
  - rewrite formHierarchy_eq in E by exact IH2. destruct (0 <? length (pb_levels p)); [|discriminate].
    destruct (mapM (level_form fo gu) (pb_levels p)) as [ls| |] eqn:Em; cbn [bind] in E; try discriminate. injection E as <-.
    cbn [pb_levels pb_counts]. split; [eapply mapM_level_form_reach; eassumption|apply map_length].
  - rewrite process_eq in E. destruct (length s =? length (pb_levels p)) eqn:L; [|discriminate]. apply Nat.eqb_eq in L.
    destruct (zipM level_processActiveSet (pb_levels p) s) as [ls| |] eqn:Em; cbn [bind] in E; try discriminate. injection E as <-.
    cbn [pb_levels pb_counts]. destruct (zipM_process_reach _ _ _ IH1 Em L) as [R1 R2]. split; [exact R1|congruence].
Qed.

(** ** initialisation of vectors of levels *)
Lemma ass_initialize_eq c : ass_initialize (length c) c = Ok (map as_initialize c).
Proof.
  unfold ass_initialize.
  enough (G : forall b (a : list nat), c = a ++ b ->
    for_up (length b) (length a) (fun i s => match nth_error c i with Some n => write_at s i (as_initialize n) | None => UB end)
      (map as_initialize a ++ repeat [] (length b)) = Ok (map as_initialize (a ++ b))) by exact (G c [] eq_refl).
  induction b as [|n b IH]; intros a E.
  - cbn [length for_up repeat]. rewrite !app_nil_r. reflexivity.
  - cbn [length for_up repeat]. rewrite E at 1. rewrite nth_error_at. unfold write_at. rewrite app_length, map_length. cbn [length].
    rewrite assert_true by lia. cbn [bind].
    replace (length a) with (length (map as_initialize a)) at 2 by apply map_length. rewrite update_at.
    specialize (IH (a ++ [n])). rewrite <- app_assoc in IH. specialize (IH E). rewrite app_length in IH. cbn [length] in IH.
    rewrite Nat.add_1_r in IH. refine (eq_trans _ IH). f_equal. rewrite map_app. cbn [map]. rewrite <- app_assoc. reflexivity.
Qed.

Lemma viols_initialize_eq junk c :
  viols_initialize junk (length c) c = Ok (map (viol_initialize junk (mkViol [] [] [])) c).
Proof.
  unfold viols_initialize. set (g := viol_initialize junk (mkViol [] [] [])).
  enough (G : forall b (a : list nat), c = a ++ b ->
    for_up (length b) (length a) (fun i s => match nth_error c i with
      Some n => bind (read_at s i) (fun v => write_at s i (viol_initialize junk v n)) | None => UB end)
      (map g a ++ repeat (mkViol [] [] []) (length b)) = Ok (map g (a ++ b))) by exact (G c [] eq_refl).
  induction b as [|n b IH]; intros a E.
  - cbn [length for_up repeat]. rewrite !app_nil_r. reflexivity.
  - cbn [length for_up repeat]. rewrite E at 1. rewrite nth_error_at. unfold read_at.
    assert (La : length (map g a) = length a) by apply map_length. rewrite <- La.
    rewrite nth_error_at. cbn [bind]. unfold write_at. rewrite app_length. cbn [length].
    rewrite assert_true by lia. cbn [bind]. rewrite update_at. rewrite La.
    specialize (IH (a ++ [n])). rewrite <- app_assoc in IH. specialize (IH E). rewrite app_length in IH. cbn [length] in IH.
    rewrite Nat.add_1_r in IH. refine (eq_trans _ IH). f_equal. rewrite map_app. cbn [map]. rewrite <- app_assoc. reflexivity.
Qed.

(** ** forming *)
Definition defined_guess (fo : nat -> formed) : Prop := forall k g t, f_guess (fo k) = Some g -> g t <> UB.
Lemma form_task_noub fo gu t : defined_guess fo -> form_task fo gu t <> UB.
Proof.
  intros D. unfold form_task, virtual_guess, guessActiveSet, postForm, assert_then.
  destruct gu; [destruct (f_guess (fo (tk_id t))) as [g|] eqn:G; [specialize (D _ g (userForm (fo (tk_id t)) (preForm t)) G); destruct (g _); try congruence|]|]; cbn [bind]; repeat (match goal with |- context [if ?b then _ else _] => destruct b end; cbn [bind]); discriminate.
Qed.

Lemma form_loop_noub fo gu ts : defined_guess fo -> forall g s e two, form_loop fo gu g s e two ts <> UB.
Proof.
  intros D. induction ts as [|i ts IH]; intros g s e two; cbn [form_loop]; [discriminate|].
  pose proof (form_task_noub fo gu (ti_task i) D) as N. destruct (form_task fo gu (ti_task i)) as [t| |]; cbn [bind]; try congruence.
  destruct (ct_isSimple (tk_type t)).
  - match goal with |- context [form_loop ?a ?b ?c ?d ?e ?f ?h] => pose proof (IH c d e f) as M; destruct (form_loop a b c d e f h) end; cbn [bind]; congruence.
  - match goal with |- context [form_loop ?a ?b ?c ?d ?e ?f ?h] => pose proof (IH c d e f) as M; destruct (form_loop a b c d e f h) end; cbn [bind]; congruence.
Qed.

Lemma level_form_noub fo gu l : defined_guess fo -> level_form fo gu l <> UB.
Proof.
  intros D. unfold level_form, assert_then. destruct (negb (length (lv_tasks l) =? 0)); [|discriminate].
  pose proof (form_loop_noub fo gu (lv_tasks l) D 0 0 0 0) as N. destruct (form_loop fo gu 0 0 0 0 (lv_tasks l)); cbn [bind]; try congruence.
  destruct (0 <? level_getNumberOfConstraints a); discriminate.
Qed.

Lemma Forall_iff_ext {A} (P Q : A -> Prop) l : (forall a, In a l -> (P a <-> Q a)) -> (Forall P l <-> Forall Q l).
Proof. intros H. rewrite !Forall_forall. split; intros F a Ha; apply H; auto. Qed.

Theorem problem_form_accepted (fo : nat -> formed) (gu : bool) (p : problem) : preach p ->
  ((exists p', pb_formHierarchy fo gu p = Ok p') <-> 0 < pb_getNumberOfLevels p /\ Forall (level_formable fo gu) (pb_levels p)) /\
  ((forall k g t, f_guess (fo k) = Some g -> g t <> UB) -> pb_formHierarchy fo gu p <> UB).
Proof.
  intros H. destruct (preach_wf p H) as [W1 W2]. rewrite formHierarchy_eq by exact W2. unfold pb_getNumberOfLevels.
  rewrite Forall_forall in W1.
  assert (I : Forall (fun l => exists l', level_form fo gu l = Ok l') (pb_levels p) <-> Forall (level_formable fo gu) (pb_levels p)).
  { apply Forall_iff_ext. intros l Hl. unfold level_formable. apply form_reach_iff. apply W1; exact Hl. }
  split.
  - destruct (0 <? length (pb_levels p)) eqn:L.
    + rewrite <- I, <- mapM_exists. split.
      * intros (p' & E). destruct (mapM (level_form fo gu) (pb_levels p)) as [r| |]; cbn [bind] in E; try discriminate.
        split; [lia|eexists; reflexivity].
      * intros (_ & r & E). rewrite E. eexists; reflexivity.
    + split; [intros (p' & E); discriminate|lia].
  - intros D. destruct (0 <? length (pb_levels p)); [|discriminate].
    assert (N : mapM (level_form fo gu) (pb_levels p) <> UB) by (apply mapM_noub; intros; apply level_form_noub; exact D).
    destruct (mapM (level_form fo gu) (pb_levels p)); cbn [bind]; congruence.
Qed.

Lemma formed_levels fo gu p p' : preach p -> pb_formHierarchy fo gu p = Ok p' ->
  Forall2 (fun l l' => level_form fo gu l = Ok l') (pb_levels p) (pb_levels p') /\
  pb_counts p' = map level_getNumberOfConstraints (pb_levels p') /\ preach p'.
Proof.
  intros H E. pose proof (pr_form _ _ _ _ H E) as R. destruct (preach_wf p H) as [W1 W2]. rewrite formHierarchy_eq in E by exact W2.
  destruct (0 <? length (pb_levels p)); [|discriminate].
  destruct (mapM (level_form fo gu) (pb_levels p)) as [ls| |] eqn:Em; cbn [bind] in E; try discriminate. injection E as <-.
  cbn [pb_levels pb_counts]. split; [apply mapM_ok; exact Em|]. split; [reflexivity|exact R].
Qed.

Lemma Forall2_length {A B} (P : A -> B -> Prop) l m : Forall2 P l m -> length l = length m.
Proof. induction 1; cbn; congruence. Qed.
Lemma Forall2_nth {A B} (P : A -> B -> Prop) l m : Forall2 P l m -> forall i a, nth_error l i = Some a -> exists b, nth_error m i = Some b /\ P a b.
Proof.
  induction 1 as [|x y l m H F IH]; intros [|i] a Ha; try discriminate; cbn in Ha.
  - injection Ha as <-. exists y. split; [reflexivity|exact H].
  - exact (IH i a Ha).
Qed.
Lemma Forall2_nth_r {A B} (P : A -> B -> Prop) l m : Forall2 P l m -> forall i b, nth_error m i = Some b -> exists a, nth_error l i = Some a /\ P a b.
Proof.
  induction 1 as [|x y l m H F IH]; intros [|i] a Ha; try discriminate; cbn in Ha.
  - injection Ha as <-. exists x. split; [reflexivity|exact H].
  - exact (IH i a Ha).
Qed.

Lemma form_rows fo gu l l' : lreach l -> level_form fo gu l = Ok l' ->
  task_ids l' = task_ids l /\ level_getNumberOfConstraints l' = rows_of fo l /\ 0 < rows_of fo l.
Proof.
  intros R E. destruct (form_ok fo gu l l' (lreach_gf l R) E) as (F & _ & N & P & _).
  destruct (formed_map _ _ _ _ F) as [M1 M2]. split; [exact M1|].
  assert (Q : level_getNumberOfConstraints l' = rows_of fo l) by (rewrite N; unfold sumn, rows_of; rewrite M2; reflexivity).
  split; [exact Q|]. rewrite <- Q. exact P.
Qed.

Theorem problem_form_effect (fo : nat -> formed) (gu : bool) (p p' : problem) : preach p -> pb_formHierarchy fo gu p = Ok p' ->
  pb_getNumberOfLevels p' = pb_getNumberOfLevels p /\
  (forall i l, nth_error (pb_levels p) i = Some l -> exists l',
     nth_error (pb_levels p') i = Some l' /\ level_form fo gu l = Ok l' /\ task_ids l' = task_ids l /\
     level_getNumberOfConstraints l' = rows_of fo l) /\
  pb_initializeActiveSet p' = Ok (map (fun l => repeat UNDEFINED (rows_of fo l)) (pb_levels p)).
Proof.
  intros H E. destruct (preach_wf p H) as [W1 W2]. destruct (formed_levels fo gu p p' H E) as (F & C & _). rewrite Forall_forall in W1.
  split; [unfold pb_getNumberOfLevels; symmetry; eapply Forall2_length; exact F|]. split.
  - intros i l Hl. destruct (Forall2_nth _ _ _ F i l Hl) as (l' & Hl' & El). exists l'.
    destruct (form_rows fo gu l l') as (Q1 & Q2 & _); [apply W1; eapply nth_error_In; exact Hl|exact El|]. auto.
  - unfold pb_initializeActiveSet, pb_getNumberOfLevels. rewrite C.
    replace (length (pb_levels p')) with (length (map level_getNumberOfConstraints (pb_levels p'))) by apply map_length.
    rewrite ass_initialize_eq. f_equal. rewrite map_map.
    revert F W1. generalize (pb_levels p) as lp, (pb_levels p') as lq. clear. intros lp lq F. induction F as [|a b la lb Hab F IH]; intros W1; [reflexivity|]. cbn [map]. f_equal.
    + unfold as_initialize. destruct (form_rows fo gu a b) as (_ & Q & _); [apply W1; left; reflexivity|exact Hab|]. rewrite Q. reflexivity.
    + apply IH. intros x Hx. apply W1. right; exact Hx.
Qed.

(** ** pushing *)
Theorem problem_push (p : problem) (t : task) (i : nat) :
  (pb_getNumberOfLevels p <= i -> pb_pushTask p t i = Throw) /\
  (i < pb_getNumberOfLevels p -> exists l p', nth_error (pb_levels p) i = Some l /\ pb_pushTask p t i = Ok p' /\
     pb_getNumberOfLevels p' = pb_getNumberOfLevels p /\ nth_error (pb_levels p') i = Some (level_pushTask l t) /\
     forall k, k <> i -> nth_error (pb_levels p') k = nth_error (pb_levels p) k).
Proof.
  unfold pb_pushTask, pb_getNumberOfLevels. split; intros H.
  - apply nth_error_None in H. rewrite H. reflexivity.
  - destruct (nth_error (pb_levels p) i) as [l|] eqn:E; [|apply nth_error_None in E; lia].
    exists l. eexists. split; [reflexivity|]. split; [reflexivity|]. cbn [pb_levels]. rewrite update_length. split; [reflexivity|]. split.
    + rewrite nth_error_update, Nat.eqb_refl. replace (i <? length (pb_levels p)) with true by lia. reflexivity.
    + intros k Hk. rewrite nth_error_update. replace (i =? k) with false by lia. reflexivity.
Qed.


Theorem problem_built (n : nat) (ts : list (task * nat)) (p : problem) :
  Forall (fun ti => snd ti < n) ts ->
  exists q, push_all n ts p = Ok q /\ pb_getNumberOfLevels q = n /\
    forall i, i < n -> nth_error (pb_levels q) i = Some (pushed (map fst (filter (fun ti => snd ti =? i) ts))).
Proof.
  intros H. unfold push_all.
  induction ts as [|[t k] ts IH] using rev_ind; cbn [fold_left].
  - exists (pb_reset n p). split; [reflexivity|]. unfold pb_getNumberOfLevels. cbn [pb_reset pb_levels filter map]. rewrite repeat_length.
    split; [reflexivity|]. intros i Hi. change (pushed []) with level_new. rewrite nth_error_repeat. replace (i <? n) with true by lia. reflexivity.
  - apply Forall_app in H. destruct H as [H1 H2]. inversion H2 as [|? ? Hk _]; subst. cbn [snd] in Hk.
    destruct (IH H1) as (q & E & N & P). rewrite fold_left_app, E. cbn [fold_left bind fst snd].
    destruct (problem_push q t k) as [_ B]. rewrite N in B. destruct (B Hk) as (l & q' & El & Eq & Nq & Lk & Lo).
    exists q'. split; [exact Eq|]. split; [congruence|]. intros i Hi. rewrite filter_app, map_app. cbn [filter snd].
    destruct (Nat.eqb_spec k i) as [->|NE].
    + rewrite Lk. cbn [map fst]. unfold pushed. rewrite fold_left_app. cbn [fold_left]. f_equal. f_equal.
      rewrite P in El by exact Hi. unfold pushed in El. congruence.
    + rewrite Lo by lia. rewrite P by exact Hi. cbn [map]. rewrite app_nil_r. reflexivity.
Qed.

(** ** guessing *)
Lemma pb_counts_len p : pb_counts p = map level_getNumberOfConstraints (pb_levels p) ->
  pb_initializeActiveSet p = Ok (map (fun l => as_initialize (level_getNumberOfConstraints l)) (pb_levels p)).
Proof.
  intros C. unfold pb_initializeActiveSet, pb_getNumberOfLevels. rewrite C.
  replace (length (pb_levels p)) with (length (map level_getNumberOfConstraints (pb_levels p))) by apply map_length.
  rewrite ass_initialize_eq, map_map. reflexivity.
Qed.

Theorem problem_guess (fo : nat -> formed) (p p' : problem) : (forall k, full_guess (fo k)) -> preach p -> pb_formHierarchy fo true p = Ok p' ->
  exists s, pb_form_guess fo p = Ok (p', s) /\ length s = pb_getNumberOfLevels p /\
    forall i l, nth_error (pb_levels p') i = Some l ->
      exists a, nth_error s i = Some a /\ length a = level_getNumberOfConstraints l /\
        forall k, In k (lv_tasks l) ->
          segment a (offset (ti_loc k)) (len (ti_loc k)) = tk_guess (ti_task k) /\
          (f_guess (fo (tk_id (ti_task k))) = None -> f_unmodified (fo (tk_id (ti_task k))) = false -> tk_guess (ti_task k) =
             repeat (if ct_isEquality (tk_type (ti_task k)) then EQUALITY else INACTIVE) (len (ti_loc k))).
Proof.
  intros FU H E. destruct (preach_wf p H) as [W1 W2]. destruct (formed_levels fo true p p' H E) as (F & C & _). rewrite Forall_forall in W1.
  unfold pb_form_guess. rewrite E. cbn [bind]. unfold pb_guessActiveSet. rewrite (pb_counts_len p' C). cbn [bind].
  rewrite over_levels_eq by apply map_length.
  destruct (zipM_ok level_guessActiveSet (fun l _ a => length a = level_getNumberOfConstraints l /\
        forall k, In k (lv_tasks l) ->
          segment a (offset (ti_loc k)) (len (ti_loc k)) = tk_guess (ti_task k) /\
          (f_guess (fo (tk_id (ti_task k))) = None -> f_unmodified (fo (tk_id (ti_task k))) = false -> tk_guess (ti_task k) =
             repeat (if ct_isEquality (tk_type (ti_task k)) then EQUALITY else INACTIVE) (len (ti_loc k))))
      (pb_levels p') (map (fun l => as_initialize (level_getNumberOfConstraints l)) (pb_levels p')) (map_length _ _)) as (s & Es & Ls & Hs).
  - intros i l s0 Hl Hs0. rewrite nth_error_map, Hl in Hs0. cbn in Hs0. injection Hs0 as <-.
    destruct (Forall2_nth_r _ _ _ F i l Hl) as (l0 & Hl0 & El0).
    assert (R : lreach l0) by (apply W1; eapply nth_error_In; exact Hl0).
    assert (L0 : length (as_initialize (level_getNumberOfConstraints l)) = level_getNumberOfConstraints l) by apply repeat_length.
    destruct (guess_reach fo l0 l _ FU R El0 L0) as (r & Er & Lr & Sr).
    destruct (default_guess fo l0 l _ FU R El0 L0) as (r' & Er' & _ & Dr).
    rewrite Er in Er'. injection Er' as <-. exists r. split; [exact Er|]. split; [congruence|].
    intros k Hk. split; [apply Sr; exact Hk|]. intros D U. rewrite <- (Sr k Hk). apply Dr; assumption.
  - exists s. rewrite Es. cbn [bind]. split; [reflexivity|]. split; [rewrite Ls; unfold pb_getNumberOfLevels; symmetry; eapply Forall2_length; exact F|].
    intros i l Hl. apply (Hs i l (as_initialize (level_getNumberOfConstraints l)) Hl). rewrite nth_error_map, Hl. reflexivity.
Qed.

(** ** distribution *)

Lemma as_initialize_from_noub s o l : as_initialize_from s o l <> UB.
Proof.
  unfold as_initialize_from, as_copyFrom, assert_then. destruct (checkLength l (length o)) eqn:C; [|discriminate].
  set (d := if length s =? len l then s else repeat UNDEFINED (len l)).
  destruct (len l =? length d) eqn:D; [|discriminate]. unfold copy_into.
  replace (0 + length (segment o (offset l) (loc_end l - offset l)) <=? length d) with true; [discriminate|].
  unfold segment. rewrite firstn_length, skipn_length. unfold loc_end, checkLength in *. lia.
Qed.

Lemma process_noub l s : level_processActiveSet l s <> UB.
Proof.
  unfold level_processActiveSet. enough (P : process_loop (lv_tasks l) s <> UB) by (destruct (process_loop (lv_tasks l) s); cbn [bind]; congruence).
  induction (lv_tasks l) as [|i ts IH]; cbn [process_loop]; [discriminate|].
  pose proof (as_initialize_from_noub (tk_actual (ti_task i)) s (ti_loc i)) as N.
  destruct (as_initialize_from (tk_actual (ti_task i)) s (ti_loc i)); cbn [bind]; try congruence.
  destruct (process_loop ts s); cbn [bind]; congruence.
Qed.

Theorem problem_process (fo : nat -> formed) (gu : bool) (p p1 : problem) (s : asets) : preach p -> pb_formHierarchy fo gu p = Ok p1 ->
  (fits s p1 -> exists p2, pb_processActiveSet p1 s = Ok p2 /\ pb_getNumberOfLevels p2 = pb_getNumberOfLevels p1 /\
     forall i l a, nth_error (pb_levels p1) i = Some l -> nth_error s i = Some a -> exists l2,
       nth_error (pb_levels p2) i = Some l2 /\ task_ids l2 = task_ids l /\ map ti_loc (lv_tasks l2) = map ti_loc (lv_tasks l) /\
       forall k, In k (lv_tasks l2) -> tk_actual (ti_task k) = segment a (offset (ti_loc k)) (len (ti_loc k))) /\
  (length s <> pb_getNumberOfLevels p1 -> pb_processActiveSet p1 s = Throw) /\
  ((exists i l a, nth_error (pb_levels p1) i = Some l /\ nth_error s i = Some a /\ length a < level_getNumberOfConstraints l) ->
     pb_processActiveSet p1 s = Throw).
Proof.
  intros H E. destruct (preach_wf p H) as [W1 W2]. destruct (formed_levels fo gu p p1 H E) as (F & C & _). rewrite Forall_forall in W1.
  unfold pb_getNumberOfLevels. split; [|split].
  - intros [L Z]. unfold pb_getNumberOfLevels in *.
    destruct (zipM_ok level_processActiveSet (fun l a l2 => task_ids l2 = task_ids l /\ map ti_loc (lv_tasks l2) = map ti_loc (lv_tasks l) /\
       forall k, In k (lv_tasks l2) -> tk_actual (ti_task k) = segment a (offset (ti_loc k)) (len (ti_loc k))) (pb_levels p1) s L) as (r & Er & Lr & Hr).
    + intros i l a Hl Ha. destruct (Forall2_nth_r _ _ _ F i l Hl) as (l0 & Hl0 & El0).
      assert (R : lreach l0) by (apply W1; eapply nth_error_In; exact Hl0).
      destruct (process_reach fo gu l0 l a R El0) as [A _]. destruct (A (Z i l a Hl Ha)) as (l2 & E2 & S2 & M2 & T2 & _).
      exists l2. split; [exact E2|]. split; [symmetry; exact S2|]. split; [exact M2|exact T2].
    + exists (mkProblem r (pb_counts p1)). rewrite process_eq. rewrite (proj2 (Nat.eqb_eq _ _) L), Er. cbn [bind pb_levels].
      split; [reflexivity|]. split; [exact Lr|exact Hr].
  - intros N. rewrite process_eq. rewrite (proj2 (Nat.eqb_neq _ _) N). reflexivity.
  - intros (i & l & a & Hl & Ha & Hs). rewrite process_eq. destruct (length s =? length (pb_levels p1)) eqn:L; [|reflexivity].
    apply Nat.eqb_eq in L. rewrite (zipM_throw level_processActiveSet _ s i l a L Hl Ha); [reflexivity| |intros; apply process_noub].
    destruct (Forall2_nth_r _ _ _ F i l Hl) as (l0 & Hl0 & El0).
    assert (R : lreach l0) by (apply W1; eapply nth_error_In; exact Hl0).
    destruct (process_reach fo gu l0 l a R El0) as [_ B]. exact (B Hs).
Qed.

Theorem problem_round_trip (fo : nat -> formed) (gu : bool) (fo2 : nat -> formed) (p p1 : problem) (s : asets) :
  preach p -> pb_formHierarchy fo gu p = Ok p1 -> fits s p1 ->
  (forall l k, In l (pb_levels p1) -> In k (lv_tasks l) -> let f := fo2 (tk_id (ti_task k)) in
      f_n f = tk_n (ti_task k) /\ f_consistent f = true /\ f_unmodified f = true /\ f_guess f = None) ->
  exists p2 p3, pb_processActiveSet p1 s = Ok p2 /\ pb_form_guess fo2 p2 = Ok (p3, s).
Proof.
  intros H E [L Z] U. destruct (preach_wf p H) as [W1 W2]. destruct (formed_levels fo gu p p1 H E) as (F & C & R1). rewrite Forall_forall in W1.
  unfold pb_getNumberOfLevels in *.
  assert (Pos : 0 < length (pb_levels p1)).
  { rewrite formHierarchy_eq in E by exact W2. destruct (0 <? length (pb_levels p)) eqn:Q; [|discriminate].
    apply Forall2_length in F. lia. }
  (* per level *)
  assert (PL : forall i l a, nth_error (pb_levels p1) i = Some l -> nth_error s i = Some a ->
     exists l2, level_processActiveSet l a = Ok l2 /\
        exists l3, level_form fo2 true l2 = Ok l3 /\ level_getNumberOfConstraints l3 = length a /\
          forall s0, length s0 = length a -> level_guessActiveSet l3 s0 = Ok a).
  { intros i l a Hl Ha. destruct (Forall2_nth_r _ _ _ F i l Hl) as (l0 & Hl0 & El0).
    assert (R : lreach l0) by (apply W1; eapply nth_error_In; exact Hl0).
    pose proof (Z i l a Hl Ha) as La.
    assert (Ul : forall k, In k (lv_tasks l) -> let f := fo2 (tk_id (ti_task k)) in
      f_n f = tk_n (ti_task k) /\ f_consistent f = true /\ f_unmodified f = true /\ f_guess f = None) by (intros k Hk; apply (U l k); [eapply nth_error_In; exact Hl|exact Hk]).
    destruct (roundtrip_reach fo gu fo2 l0 l a a R El0 La Ul eq_refl) as (l2 & l3 & E2 & E3 & _).
    exists l2. split; [exact E2|]. exists l3. split; [exact E3|].
    assert (Rl : lreach l) by (eapply lr_form; eassumption).
    assert (R2 : lreach l2) by (eapply lr_process; eassumption).
    destruct (form_rows fo2 true l2 l3 R2 E3) as (_ & N3 & _).
    destruct (process_reach fo gu l0 l a R El0) as [A _]. destruct (A La) as (l2' & E2' & S2 & _). rewrite E2 in E2'. injection E2' as <-.
    split.
    - rewrite N3, La. destruct (form_ok fo gu l0 l (lreach_gf l0 R) El0) as (_ & _ & N & _). rewrite N. unfold rows_of, sumn. f_equal.
      unfold same_tasks in S2.
      assert (M : map (fun i => tk_id (ti_task i)) (lv_tasks l2) = map (fun i => tk_id (ti_task i)) (lv_tasks l)).
      { apply (f_equal (map fst)) in S2. rewrite !map_map in S2. symmetry. exact S2. }
      transitivity (map (fun n => f_n (fo2 n)) (map (fun i => tk_id (ti_task i)) (lv_tasks l2))); [rewrite map_map; reflexivity|].
      rewrite M, map_map. apply map_ext_in. intros k Hk. apply Ul; exact Hk.
    - intros s0 L0. destruct (roundtrip_reach fo gu fo2 l0 l a s0 R El0 La Ul L0) as (l2' & l3' & F2 & F3 & F4).
      rewrite E2 in F2. injection F2 as <-. rewrite E3 in F3. injection F3 as <-. exact F4. }
  destruct (zipM_ok level_processActiveSet (fun l a l2 => exists l3, level_form fo2 true l2 = Ok l3 /\ level_getNumberOfConstraints l3 = length a /\
          forall s0, length s0 = length a -> level_guessActiveSet l3 s0 = Ok a) (pb_levels p1) s L PL) as (r & Er & Lr & Hr).
  exists (mkProblem r (pb_counts p1)).
  assert (R2 : pb_processActiveSet p1 s = Ok (mkProblem r (pb_counts p1))).
  { rewrite process_eq. rewrite (proj2 (Nat.eqb_eq _ _) L), Er. reflexivity. }
  pose proof (pr_process _ _ _ R1 R2) as P2. destruct (preach_wf _ P2) as [_ W2'].
  (* forming again *)
  assert (G : forall k l2, nth_error r k = Some l2 -> exists a l3, nth_error s k = Some a /\ level_form fo2 true l2 = Ok l3 /\
      level_getNumberOfConstraints l3 = length a /\ forall s0, length s0 = length a -> level_guessActiveSet l3 s0 = Ok a).
  { intros k l2 H2. assert (Hk : k < length r) by (apply nth_error_Some; congruence).
    destruct (nth_error (pb_levels p1) k) as [l|] eqn:El; [|apply nth_error_None in El; lia].
    destruct (nth_error s k) as [a|] eqn:Ea; [|apply nth_error_None in Ea; lia].
    destruct (Hr k l a El Ea) as (l2' & H2' & l3 & Q). rewrite H2 in H2'. injection H2' as <-. exists a, l3. split; [reflexivity|exact Q]. }
  assert (M : exists ls, mapM (level_form fo2 true) r = Ok ls).
  { apply mapM_exists. apply Forall_forall. intros l2 Hl2. apply In_nth_error in Hl2. destruct Hl2 as [k Hk].
    destruct (G k l2 Hk) as (a & l3 & _ & E3 & _). exists l3; exact E3. }
  destruct M as [ls Em].
  assert (Ef : pb_formHierarchy fo2 true (mkProblem r (pb_counts p1)) = Ok (mkProblem ls (map level_getNumberOfConstraints ls))).
  { rewrite formHierarchy_eq by exact W2'. cbn [pb_levels]. rewrite Em. replace (0 <? length r) with true by lia. reflexivity. }
  apply mapM_ok in Em. pose proof (Forall2_length _ _ _ Em) as Lm.
  exists (mkProblem ls (map level_getNumberOfConstraints ls)). split; [exact R2|].
  unfold pb_form_guess. rewrite Ef. cbn [bind]. unfold pb_guessActiveSet.
  rewrite pb_counts_len by reflexivity. cbn [bind pb_levels]. rewrite over_levels_eq by apply map_length. cbn [pb_levels].
  destruct (zipM_ok level_guessActiveSet (fun l3 z a' => length z = length a' /\ exists k, nth_error ls k = Some l3 /\ nth_error s k = Some a')
     ls (map (fun l => as_initialize (level_getNumberOfConstraints l)) ls) (map_length _ _)) as (s' & Es' & Ls' & Hs').
  { intros k l3 z H3 Hz. rewrite nth_error_map, H3 in Hz. cbn in Hz. injection Hz as <-.
    destruct (Forall2_nth_r _ _ _ Em k l3 H3) as (l2 & H2 & E3). destruct (G k l2 H2) as (a & l3' & Ea & E3' & N3 & G3).
    rewrite E3 in E3'. injection E3' as <-. exists a. split; [apply G3; unfold as_initialize; rewrite repeat_length; exact N3|].
    split; [unfold as_initialize; rewrite repeat_length; exact N3|]. exists k. auto. }
  (* the same vector, pointwise *)
  enough (Q : s' = s) by (rewrite Es', Q; reflexivity).
  clear Hs'.
  assert (Pw : forall k, nth_error s' k = nth_error s k).
  { intros k. destruct (nth_error ls k) as [l3|] eqn:H3.
    - destruct (zipM_ok level_guessActiveSet (fun l3 z a' => level_guessActiveSet l3 z = Ok a')
        ls (map (fun l => as_initialize (level_getNumberOfConstraints l)) ls) (map_length _ _)) as (s'' & Es'' & _ & Hs'').
      { intros q y z Hy Hz. rewrite nth_error_map, Hy in Hz. cbn in Hz. injection Hz as <-.
        destruct (Forall2_nth_r _ _ _ Em q y Hy) as (l2 & H2 & E3). destruct (G q l2 H2) as (a & l3' & Ea & E3' & N3 & G3).
        rewrite E3 in E3'. injection E3' as <-. exists a. assert (Q : level_guessActiveSet y (as_initialize (level_getNumberOfConstraints y)) = Ok a) by (apply G3; unfold as_initialize; rewrite repeat_length; exact N3).
        split; exact Q. }
      rewrite Es' in Es''. injection Es'' as <-.
      destruct (Hs'' k l3 (as_initialize (level_getNumberOfConstraints l3)) H3) as (a' & Ha' & Ga'); [rewrite nth_error_map, H3; reflexivity|].
      destruct (Forall2_nth_r _ _ _ Em k l3 H3) as (l2 & H2 & E3). destruct (G k l2 H2) as (a & l3' & Ea & E3' & N3 & G3).
      rewrite E3 in E3'. injection E3' as <-. rewrite G3 in Ga' by (unfold as_initialize; rewrite repeat_length; exact N3). congruence.
    - assert (length ls <= k) by (apply nth_error_None; exact H3).
      rewrite (proj2 (nth_error_None s' k)), (proj2 (nth_error_None s k)) by lia. reflexivity. }
  clear -Pw. revert s Pw. induction s' as [|x s' IH]; intros [|y s] Pw; [reflexivity|specialize (Pw 0); discriminate|specialize (Pw 0); discriminate|].
  pose proof (Pw 0) as P0. cbn in P0. injection P0 as <-. f_equal. apply IH. intros k. exact (Pw (Datatypes.S k)).
Qed.

(** ** stale sizes after a reset *)
Theorem stale_sizes_refuted : exists (fo : nat -> formed) (t : task) (p0 p1 : problem) (s : asets),
  pb_pushTask (pb_reset 1 pb_new) t 0 = Ok p0 /\ pb_formHierarchy fo false p0 = Ok p1 /\
  pb_levels (pb_reset 1 p1) = [level_new] /\ level_getNumberOfConstraints level_new = 0 /\
  pb_initializeActiveSet (pb_reset 1 p1) = Ok s /\ s = [[UNDEFINED; UNDEFINED; UNDEFINED]].
Proof.
  exists (fun _ => mkFormed 3 true false None), (mkTask 1 AB 0 true [] []). eexists. eexists. eexists.
  split; [reflexivity|]. split; [vm_compute; reflexivity|]. split; [reflexivity|]. split; [reflexivity|]. split; vm_compute; reflexivity.
Qed.

Theorem push_all_reach (n : nat) (ts : list (task * nat)) (p q : problem) : preach p -> push_all n ts p = Ok q -> preach q.
Proof.
  intros H. unfold push_all. revert q. induction ts as [|[t k] ts IH] using rev_ind; intros q; cbn [fold_left].
  - intros [= <-]. apply pr_reset. exact H.
  - rewrite fold_left_app. cbn [fold_left fst snd].
    destruct (fold_left (fun o ti => bind o (fun p => pb_pushTask p (fst ti) (snd ti))) ts (Ok (pb_reset n p))) as [r| |] eqn:E; cbn [bind]; try discriminate.
    intros E2. eapply pr_push; [|exact E2]. apply IH. reflexivity.
Qed.
