(** * Which row of the containers of a QP belongs to which row of which task (used by C84, C85) *)
From Coq Require Import List Arith Reals Bool Lra Lia ZifyBool.
From Verif Require Import Base BaseFacts RSum Matrix ConstraintType HierarchyLevel HierarchySpec HierarchyFacts
  Constraints ConstraintsSpec RowsSpec ConstraintsFacts.
Import ListNotations.
Open Scope R_scope.

(** row [r] of a container is row [j] of the constraints [c] *)
Definition rep_ALU (k : contALU) (r : nat) (c : constr) (j : nat) : Prop :=
  (forall x, mrow (alu_A k) r x = row_value c j x) /\ vget (alu_lb k) r = lower_or_inf c j /\ vget (alu_ub k) r = upper_or_inf c j.
Definition rep_ILU (k : contILU) (r : nat) (c : constr) (j : nat) : Prop :=
  (forall x, x (nth r (ilu_I k) 0%nat) = row_value c j x) /\
  vget (ilu_lb k) r = lower_or_inf c j /\ vget (ilu_ub k) r = upper_or_inf c j.

Section Loop.
  Context {K : Type} (copy : constr -> K -> nat -> outcome (K * nat)).
  Context (p : ctype -> bool) (cs : nat -> constr).
  Context (wf : nat -> K -> Prop) (rep : K -> nat -> constr -> nat -> Prop) (good : constr -> Prop).
  Hypothesis step : forall c k off n, good c -> wf n k -> (off + getNumberOfConstraints c <= n)%nat ->
    exists k', copy c k off = Ok (k', (off + getNumberOfConstraints c)%nat) /\ wf n k' /\
      (forall r c' j, (r < off)%nat -> rep k r c' j -> rep k' r c' j) /\
      (forall j, (j < getNumberOfConstraints c)%nat -> rep k' (off + j) c j).
  Let con (i : tinfo) := cs (tk_id (ti_task i)).
  Let sel (i : tinfo) := p (tk_type (ti_task i)).
  Let sz (ts : list tinfo) := list_sum (map (fun i => getNumberOfConstraints (con i)) (filter sel ts)).

  Lemma copy_loop_rows n : forall ts k off,
    (forall i, In i ts -> sel i = true -> good (con i)) -> wf n k -> (off + sz ts <= n)%nat ->
    exists k', copy_loop copy p cs ts (k, off) = Ok (k', off + sz ts)%nat /\ wf n k' /\
      (forall r c' j, (r < off)%nat -> rep k r c' j -> rep k' r c' j) /\
      (forall a i b j, ts = a ++ i :: b -> sel i = true -> (j < getNumberOfConstraints (con i))%nat ->
         rep k' (off + sz a + j) (con i) j).
  Proof.
    induction ts as [|t ts IH]; intros k off G W H.
    - exists k. unfold sz; cbn. rewrite Nat.add_0_r. repeat split; auto. intros a i b j E. destruct a; discriminate.
    - cbn [copy_loop]. fold (sel t). unfold sz in H |- *. cbn [filter] in *. destruct (sel t) eqn:S; cbn [map] in *.
      + change (list_sum (getNumberOfConstraints (con t) :: map (fun i => getNumberOfConstraints (con i)) (filter sel ts)))
          with (getNumberOfConstraints (con t) + sz ts)%nat in *. cbn [fst snd]. fold (con t).
        destruct (step (con t) k off n) as (k1 & E1 & W1 & F1 & R1); [apply G; [left; reflexivity|exact S]|exact W|lia|].
        rewrite E1. cbn [bind]. destruct (IH k1 (off + getNumberOfConstraints (con t))%nat) as (k' & E & W' & F & R).
        { intros i Hi. apply G. right. exact Hi. } { exact W1. } { lia. }
        exists k'. rewrite E. split; [do 2 f_equal; lia|]. split; [exact W'|]. split.
        * intros r c' j Hr Q. apply F; [lia|]. apply F1; assumption.
        * intros a i b j Ei Si Hj. destruct a as [|h a]; cbn [app] in Ei; injection Ei as Eh Er.
          -- subst i. cbn. rewrite Nat.add_0_r. apply F; [lia|]. apply R1. exact Hj.
          -- subst h. cbn [filter]. rewrite S. cbn [map].
             change (list_sum (getNumberOfConstraints (con t) :: map (fun i => getNumberOfConstraints (con i)) (filter sel a)))
               with (getNumberOfConstraints (con t) + sz a)%nat. rewrite Nat.add_assoc. eapply R; eassumption.
      + destruct (IH k off) as (k' & E & W' & F & R); [intros i Hi; apply G; right; exact Hi|exact W|exact H|].
        exists k'. split; [exact E|]. split; [exact W'|]. split; [exact F|].
        intros a i b j Ei Si Hj. destruct a as [|h a]; cbn [app] in Ei; injection Ei as Eh Er.
        * subst i. congruence.
        * subst h. cbn [filter]. rewrite S. eapply R; eassumption.
  Qed.
End Loop.

Lemma ALU_rows nv c k off n : usable nv c -> shape_ALU k n nv -> (off + getNumberOfConstraints c <= n)%nat ->
  exists k', copyTo_ALU c k off = Ok (k', (off + getNumberOfConstraints c)%nat) /\ shape_ALU k' n nv /\
    (forall r c' j, (r < off)%nat -> rep_ALU k r c' j -> rep_ALU k' r c' j) /\
    (forall j, (j < getNumberOfConstraints c)%nat -> rep_ALU k' (off + j) c j).
Proof.
  intros U (S1 & S2 & S3 & S4) H. unfold copyTo_ALU. rewrite getCopyLocation_ok by lia. cbn [bind].
  destruct (copyBoundsTo_ok nv c (alu_lb k) (alu_ub k) (mkLoc off (getNumberOfConstraints c)))
    as (lb' & ub' & E1 & L1 & L2 & O & In); simpl in *; auto; try lia.
  rewrite E1. cbn [bind].
  destruct (copyBodyTo_ok nv c (alu_A k) (mkLoc off (getNumberOfConstraints c))) as (A' & E2 & RS); simpl in *; auto; try lia.
  rewrite E2. cbn [bind]. eexists; split; [reflexivity|]. destruct RS as (RS1 & RS2 & RS3).
  assert (RS : rows_set (alu_A k) A' off (getNumberOfConstraints c) nv (coef c)) by (repeat split; assumption).
  split; [repeat split; simpl; lia|]. split.
  - intros r c' j Hr (Q1 & Q2 & Q3). unfold rep_ALU; cbn [alu_A alu_lb alu_ub fst snd].
    destruct (O r ltac:(lia)) as [-> ->]. split; [|auto].
    intros x. rewrite (rows_set_out nv _ _ _ _ _ _ x RS) by (auto; lia). apply Q1.
  - intros j Hj. unfold rep_ALU; cbn [alu_A alu_lb alu_ub fst snd]. destruct (In j Hj) as [B1 B2]. split; [|split; assumption].
    intros x. rewrite (rows_set_in nv _ _ _ _ _ _ x RS) by (auto; lia). replace (off + j - off)%nat with j by lia.
    unfold row_value. destruct U as (-> & _). reflexivity.
Qed.

Lemma ILU_rows nv c k off n : usable nv c /\ plain_indices c -> shape_ILU k n nv -> (off + getNumberOfConstraints c <= n)%nat ->
  exists k', copyTo_ILU c k off = Ok (k', (off + getNumberOfConstraints c)%nat) /\ shape_ILU k' n nv /\
    (forall r c' j, (r < off)%nat -> rep_ILU k r c' j -> rep_ILU k' r c' j) /\
    (forall j, (j < getNumberOfConstraints c)%nat -> rep_ILU k' (off + j) c j).
Proof.
  intros [U [ix PI]] (S1 & S2 & S3 & S4) H. unfold copyTo_ILU. rewrite PI. rewrite getCopyLocation_ok by lia. cbn [bind].
  destruct (copyBoundsTo_ok nv c (ilu_lb k) (ilu_ub k) (mkLoc off (getNumberOfConstraints c)))
    as (lb' & ub' & E1 & L1 & L2 & O & In); simpl in *; auto; try lia.
  rewrite E1. cbn [bind].
  assert (NI : getNumberOfConstraints c = length ix) by (unfold getNumberOfConstraints; rewrite PI; reflexivity).
  assert (exists I', iset_segment (ilu_I k) (mkLoc off (getNumberOfConstraints c)) ix = Ok I' /\ length I' = length (ilu_I k) /\
     copy_into (ilu_I k) off ix = Ok I') as (I' & EI & LI & CI).
  { unfold iset_segment, assert_then. simpl.
    replace ((off + getNumberOfConstraints c <=? length (ilu_I k)) && (getNumberOfConstraints c =? length ix))%nat with true by lia.
    unfold copy_into. replace (off + length ix <=? length (ilu_I k))%nat with true by lia. eexists; split; [reflexivity|]. split; [|reflexivity].
    rewrite !app_length, skipn_length, firstn_length_le; lia. }
  rewrite EI. cbn [bind fst snd offset len]. eexists; split; [reflexivity|]. split; [repeat split; simpl; lia|].
  assert (RV : forall i x, (i < getNumberOfConstraints c)%nat -> x (nth i ix 0%nat) = row_value c i x).
  { intros i x Hi. rewrite <- (getProduct_row nv) by auto. unfold getProduct. rewrite PI. reflexivity. }
  split.
  - intros r c' j Hr (Q1 & Q2 & Q3). unfold rep_ILU; cbn [ilu_I ilu_lb ilu_ub]. destruct (O r ltac:(lia)) as [-> ->]. split; [|auto].
    intros x. rewrite (nth_copy_into_out _ _ _ _ _ CI) by lia. apply Q1.
  - intros j Hj. unfold rep_ILU; cbn [ilu_I ilu_lb ilu_ub]. destruct (In j Hj) as [B1 B2]. split; [|split; assumption].
    intros x. rewrite (nth_copy_into _ _ _ _ _ CI) by lia. replace (off + j - off)%nat with j by lia. apply RV, Hj.
Qed.

(** the containers of a formed level *)
Lemma level_rows fo gu l l' cs nv kalu kilu :
  lreach l -> level_form fo gu l = Ok l' -> described cs fo nv l ->
  (forall i, In i (lv_tasks l) -> has_gains (tk_type (ti_task i)) = false) ->
  exists alu ilu, getGeneralConstraints cs l' kalu nv = Ok alu /\ getSimpleConstraints cs l' kilu nv = Ok ilu /\
    shape_ALU alu (n_general l') nv /\ shape_ILU ilu (n_simple l') nv /\
    forall i j, In i (lv_tasks l') -> (j < len (ti_loc i))%nat ->
      len (ti_loc i) = getNumberOfConstraints (cs (tk_id (ti_task i))) /\
      if simp i then (n_general l' <= offset (ti_loc i) /\ offset (ti_loc i) + len (ti_loc i) <= n_general l' + n_simple l')%nat /\
                     rep_ILU ilu (offset (ti_loc i) + j - n_general l') (cs (tk_id (ti_task i))) j
      else (offset (ti_loc i) + len (ti_loc i) <= n_general l')%nat /\
           rep_ALU alu (offset (ti_loc i) + j) (cs (tk_id (ti_task i))) j.
Proof.
  intros R E D NG. apply lreach_gf in R. destruct (form_ok _ _ _ _ R E) as (F & LF & N & Pos & NGen & NS & _).
  pose proof (form_general_first _ _ _ _ R E) as GF. pose proof (until_simple_filter _ GF) as US.
  destruct (described_formed _ _ _ _ _ _ F D) as [D' IDS].
  assert (NG' : forall i, In i (lv_tasks l') -> has_gains (tk_type (ti_task i)) = false).
  { destruct (formed_map _ _ _ _ F) as [M _]. intros i Hi.
    apply (in_map (fun i => (tk_id (ti_task i), tk_type (ti_task i)))) in Hi. rewrite M in Hi. apply in_map_iff in Hi.
    destruct Hi as (j & Ej & Hj). injection Ej as _ Ej. rewrite <- Ej. auto. }
  assert (D2 : forall i, In i (until_simple (lv_tasks l')) -> In i (lv_tasks l') /\ simp i = false).
  { rewrite US. intros i Hi. apply filter_In in Hi. destruct Hi as [H1 H2]. apply negb_true_iff in H2. auto. }
  destruct GF as (ga & gb & Eab & Ha & Hb).
  assert (UA : until_simple (lv_tasks l') = ga) by (rewrite Eab; apply until_simple_app; assumption).
  destruct (copy_loop_rows copyTo_ALU (fun _ => true) cs (fun n k => shape_ALU k n nv) rep_ALU (usable nv)
              ltac:(intros; apply ALU_rows; assumption) (n_general l') (until_simple (lv_tasks l'))
              (reset_ALU kalu (n_general l') nv) 0%nat)
    as (alu & E1 & S1 & _ & R1).
  { intros i Hi _. apply D', D2, Hi. }
  { repeat split. }
  { rewrite (sum_sizes cs getNumberOfConstraints) by (intros; apply D', D2; assumption).
    rewrite filter_true_id, US. simpl. lia. }
  destruct (copy_loop_rows copyTo_ILU ct_isSimple cs (fun n k => shape_ILU k n nv) rep_ILU
              (fun c => usable nv c /\ plain_indices c)
              ltac:(intros; apply ILU_rows; assumption) (n_simple l') (lv_tasks l')
              (reset_ILU kilu (n_simple l') nv) 0%nat)
    as (ilu & E2 & S2 & _ & R2).
  { intros i Hi Si. destruct (D' i Hi) as (T & _ & U). split; [exact U|]. eapply plain_of_type; [exact U| |]; rewrite T; auto. }
  { repeat split. unfold reset_ILU, iresize. simpl. rewrite map_length, seq_length. reflexivity. }
  { rewrite (sum_sizes cs getNumberOfConstraints) by (intros; apply D'; assumption). simpl. unfold simp, simple_task in NS. lia. }
  exists (if (0 <? n_general l')%nat then alu else reset_ALU kalu (n_general l') nv),
         (if (0 <? n_simple l')%nat then ilu else reset_ILU kilu (n_simple l') nv).
  unfold getGeneralConstraints, getSimpleConstraints. rewrite E1, E2. cbn [bind fst].
  split; [destruct (0 <? n_general l')%nat; reflexivity|]. split; [destruct (0 <? n_simple l')%nat; reflexivity|].
  split; [destruct (0 <? n_general l')%nat; [exact S1|repeat split]|].
  split; [destruct (0 <? n_simple l')%nat; [exact S2|repeat split; unfold reset_ILU, iresize; simpl; rewrite map_length, seq_length; reflexivity]|].
  assert (GA : n_general l' = sumn ga) by (rewrite NGen, <- US, UA; reflexivity).
  intros i j Hi Hj. destruct (D' i Hi) as (T & TN & U).
  apply In_nth_error in Hi. destruct Hi as [q Hq].
  pose proof (locs_nth _ _ _ _ LF Hq) as LI. rewrite LI in Hj |- *. cbn [offset len Nat.add] in *. split; [exact TN|].
  pose proof (nth_error_In _ _ Hq) as Hi. rewrite Eab in Hi. apply in_app_or in Hi.
  assert (Hgb : forall t, In t gb -> simp t = true) by (apply forallb_forall; exact Hb).
  assert (Hga : forall t, In t ga -> simp t = false).
  { intros t Ht. rewrite forallb_forall in Ha. specialize (Ha t Ht). apply negb_true_iff in Ha. exact Ha. }
  assert (Split : lv_tasks l' = firstn q (lv_tasks l') ++ i :: skipn (S q) (lv_tasks l')).
  { clear - Hq. revert q Hq. induction (lv_tasks l') as [|h t IH]; intros [|q] Hq; cbn in *; try discriminate.
    - injection Hq as ->. reflexivity.
    - f_equal. apply IH, Hq. }
  destruct (lt_dec q (length ga)) as [Lq|Lq].
  - assert (Hia : nth_error ga q = Some i). { rewrite Eab in Hq. rewrite nth_error_app1 in Hq by exact Lq. exact Hq. }
    rewrite (Hga i (nth_error_In _ _ Hia)).
    assert (FQ : firstn q (lv_tasks l') = firstn q ga).
    { rewrite Eab. rewrite firstn_app. replace (q - length ga)%nat with 0%nat by lia. cbn. apply app_nil_r. }
    rewrite FQ. 
    assert (SplitA : ga = firstn q ga ++ i :: skipn (S q) ga).
    { clear - Hia. revert q Hia. induction ga as [|h t IH]; intros [|q] Hq; cbn in *; try discriminate.
      - injection Hq as ->. reflexivity.
      - f_equal. apply IH, Hq. }
    assert (SA : (sumn (firstn q ga) + tk_n (ti_task i) <= sumn ga)%nat).
    { rewrite SplitA at 2. rewrite sumn_app, sumn_cons. lia. }
    split; [lia|].
    replace (0 <? n_general l')%nat with true by lia.
    rewrite UA in R1. specialize (R1 _ _ _ j SplitA eq_refl). rewrite <- TN in R1. specialize (R1 Hj).
    rewrite filter_true_id in R1.
    replace (list_sum (map (fun i => getNumberOfConstraints (cs (tk_id (ti_task i)))) (firstn q ga)))%nat with (sumn (firstn q ga)) in R1.
    + cbn [Nat.add] in R1. exact R1.
    + unfold sumn. f_equal. apply map_ext_in. intros t Ht. apply D'. rewrite Eab. apply in_or_app. left.
      apply (In_nth_error) in Ht. destruct Ht as [u Hu]. apply (nth_error_In ga u). rewrite nth_error_firstn in Hu. destruct (u <? q)%nat; [exact Hu|discriminate].
  - assert (Hib : nth_error gb (q - length ga) = Some i). { rewrite Eab in Hq. rewrite nth_error_app2 in Hq by lia. exact Hq. }
    pose proof (Hgb i (nth_error_In _ _ Hib)) as Si. rewrite Si.
    assert (FQ : firstn q (lv_tasks l') = ga ++ firstn (q - length ga) gb).
    { rewrite Eab. rewrite firstn_app. rewrite firstn_all2 by lia. reflexivity. }
    assert (SI : sumn (filter simp (firstn q (lv_tasks l'))) = (sumn (firstn q (lv_tasks l')) - sumn ga)%nat).
    { rewrite FQ, filter_app, sumn_app.
      assert (FA : filter simp ga = []). { clear - Hga. induction ga as [|h t IH]; cbn; [reflexivity|]. rewrite (Hga h (or_introl eq_refl)). apply IH. intros; apply Hga; right; assumption. }
      assert (FB : filter simp (firstn (q - length ga) gb) = firstn (q - length ga) gb).
      { clear - Hgb. revert Hgb. generalize (q - length ga)%nat as m. induction gb as [|h t IH]; intros [|m] Hg; cbn; try reflexivity.
        rewrite (Hg h (or_introl eq_refl)). f_equal. apply IH. intros; apply Hg; right; assumption. }
      rewrite FA, FB, sumn_app. cbn. lia. }
    assert (GE : (sumn ga <= sumn (firstn q (lv_tasks l')))%nat) by (rewrite FQ, sumn_app; lia).
    assert (SA : (sumn (firstn q (lv_tasks l')) + tk_n (ti_task i) <= sumn (lv_tasks l'))%nat).
    { rewrite Split at 2. rewrite sumn_app, sumn_cons. lia. }
    assert (NN : (n_general l' + n_simple l' = sumn (lv_tasks l'))%nat) by (rewrite <- N; reflexivity).
    split; [lia|].
    replace (0 <? n_simple l')%nat with true by lia.
    specialize (R2 _ _ _ j Split Si). rewrite <- TN in R2. specialize (R2 Hj).
    rewrite (sum_sizes cs getNumberOfConstraints) in R2.
    + change (fun i : tinfo => ct_isSimple (tk_type (ti_task i))) with simp in R2. rewrite SI in R2. cbn [Nat.add] in R2.
      replace (sumn (firstn q (lv_tasks l')) + j - n_general l')%nat with (sumn (firstn q (lv_tasks l')) - sumn ga + j)%nat by lia.
      exact R2.
    + intros o Ho. apply D'. apply (In_nth_error) in Ho. destruct Ho as [u Hu]. apply (nth_error_In _ u). rewrite nth_error_firstn in Hu. destruct (u <? q)%nat; [exact Hu|discriminate].
Qed.
