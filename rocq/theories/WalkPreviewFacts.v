(** * Facts about forming the walking preview horizon *)
From Coq Require Import List Arith Bool Reals Sorted Lia.
From Verif Require Import Base BaseFacts StanceFSM StanceSpec StanceFSMFacts StanceFSMFacts2 StanceTimeFacts WalkPreview WalkPreviewSpec.
Import ListNotations.

(** ** parameters *)
Lemma mpc_finalize_ok p d : mpc_finalize p = Ok d <->
  subsampling_ms p > 0 /\ sampling_ms p = subsamples_num d * subsampling_ms p /\ tds_sampling_ms p = tds_subsamples_num d * subsampling_ms p.
Proof.
  unfold mpc_finalize. destruct (Nat.eqb_spec (subsampling_ms p) 0) as [E|E].
  - split; [discriminate|lia].
  - unfold assert_then. destruct d as [a b]. simpl.
    pose proof (Nat.div_mod (sampling_ms p) (subsampling_ms p) E) as D1.
    pose proof (Nat.div_mod (tds_sampling_ms p) (subsampling_ms p) E) as D2.
    destruct (Nat.eqb_spec (sampling_ms p mod subsampling_ms p) 0) as [M1|M1].
    + destruct (Nat.eqb_spec (tds_sampling_ms p mod subsampling_ms p) 0) as [M2|M2].
      * split.
        { intros H. inversion H; subst. repeat split; lia. }
        { intros (H1 & H2 & H3). rewrite H2, H3, !Nat.div_mul by assumption. reflexivity. }
      * split; [discriminate|]. intros (H1 & H2 & H3). exfalso. apply M2. rewrite H3. apply Nat.mod_mul; assumption.
    + split; [discriminate|]. intros (H1 & H2 & H3). exfalso. apply M1. rewrite H2. apply Nat.mod_mul; assumption.
Qed.
Lemma mpc_finalize_ub p : mpc_finalize p = UB <-> subsampling_ms p = 0.
Proof.
  unfold mpc_finalize, assert_then. destruct (Nat.eqb_spec (subsampling_ms p) 0); [tauto|].
  destruct (_ =? _); [|split; [discriminate|tauto]]. destruct (_ =? _); (split; [discriminate|tauto]).
Qed.

(** ** writing intervals *)
Lemma set_nth_length {A} (l : list (option A)) i a : length (set_nth l i a) = length l.
Proof. revert i; induction l as [|x l IH]; intros [|i]; simpl; auto. Qed.
Lemma nth_error_set_nth {A} (l : list (option A)) i a j :
  nth_error (set_nth l i a) j = if (j =? i) && (j <? length l) then Some (Some a) else nth_error l j.
Proof.
  revert i j; induction l as [|x l IH]; intros i j.
  - simpl. rewrite andb_false_r. destruct i; reflexivity.
  - destruct i as [|i], j as [|j]; simpl; try reflexivity. rewrite IH. reflexivity.
Qed.
Lemma fill_length {A} (l : list (option A)) f n a : length (fill l f n a) = length l.
Proof. revert l f; induction n as [|n IH]; intros l f; simpl; auto. rewrite IH, set_nth_length; reflexivity. Qed.
Lemma nth_error_fill {A} (l : list (option A)) f n a j :
  nth_error (fill l f n a) j = if (f <=? j) && (j <? f + n) && (j <? length l) then Some (Some a) else nth_error l j.
Proof.
  revert l f; induction n as [|n IH]; intros l f; simpl.
  - destruct (Nat.leb_spec f j); destruct (Nat.ltb_spec j (f + 0)); simpl; try reflexivity; lia.
  - rewrite IH, set_nth_length, nth_error_set_nth.
    destruct (Nat.leb_spec f j); destruct (Nat.leb_spec (S f) j); destruct (Nat.ltb_spec j (S f + n));
      destruct (Nat.ltb_spec j (f + S n)); destruct (Nat.ltb_spec j (length l)); destruct (Nat.eqb_spec j f); simpl; try reflexivity; lia.
Qed.

(** ** the loop: [prod] is the sequence of intervals formed so far, not cut at the end of the horizon *)
Definition written (N : nat) (ivs : list (option interval)) (prod : list interval) : Prop :=
  length ivs = N /\ forall j iv, j < N -> nth_error prod j = Some iv -> nth_error ivs j = Some (Some iv).

Lemma written_chunk N ivs prod iv ivT num : written N ivs prod -> length prod < N ->
  written N (fill (set_nth ivs (length prod) iv) (length prod + 1) (Nat.min N (length prod + 1 + num) - (length prod + 1)) ivT)
    (prod ++ iv :: repeat ivT num).
Proof.
  intros [L H] B. split; [rewrite fill_length, set_nth_length; exact L|].
  intros j v J Hj. rewrite nth_error_fill, set_nth_length, L, nth_error_set_nth, L.
  destruct (Nat.ltb_spec j N); [|lia]. rewrite !andb_true_r.
  destruct (Nat.lt_trichotomy j (length prod)) as [C|[C|C]].
  - rewrite nth_error_app1 in Hj by exact C.
    destruct (Nat.leb_spec (length prod + 1) j); [lia|]. simpl.
    destruct (Nat.eqb_spec j (length prod)); [lia|]. apply H; assumption.
  - subst j. rewrite nth_error_app2, Nat.sub_diag in Hj by lia. simpl in Hj.
    destruct (Nat.leb_spec (length prod + 1) (length prod)); [lia|]. simpl. rewrite Nat.eqb_refl. congruence.
  - rewrite nth_error_app2 in Hj by lia. destruct (j - length prod) as [|k] eqn:K; [lia|]. simpl in Hj.
    assert (k < num). { rewrite <- (repeat_length ivT num). apply nth_error_Some. congruence. }
    assert (v = ivT). { apply nth_error_In, repeat_spec in Hj. exact Hj. }
    destruct (Nat.leb_spec (length prod + 1) j); [|lia].
    destruct (Nat.ltb_spec j (length prod + 1 + (Nat.min N (length prod + 1 + num) - (length prod + 1)))); [simpl; congruence|lia].
Qed.

(** ** alternation of transitional double supports and other stances *)
Fixpoint altern (b : bool) (l : list stance) : Prop :=
  match l with [] => True | s :: r => is_tds (st_type s) = b /\ altern (negb b) r end.

(** invariant of the intervals with respect to the list of all states [l] *)
Definition inv (N T tds : nat) (l : list stance) (wi : nat) (prod : list interval) (steps : list nat) : Prop :=
  (forall i iv, nth_error prod i = Some iv -> iv_state iv < wi /\ exists s, nth_error l (iv_state iv) = Some s /\ is_tds (st_type s) = false) /\
  (forall i a b, nth_error prod i = Some a -> nth_error prod (S i) = Some b ->
     iv_state a <= iv_state b /\ (In (S i) steps <-> iv_state a <> iv_state b)) /\
  StronglySorted lt steps /\ Forall (fun i => i < length prod /\ i < N) steps /\
  (forall i iv, nth_error prod i = Some iv ->
     (In i steps -> iv_T_ms iv = tds /\ exists s, nth_error l (iv_velocity iv) = Some s /\ is_tds (st_type s) = true) /\
     (~ In i steps -> i > 0 -> iv_T_ms iv = T) /\
     (~ In i steps -> i = 0 -> exists w, nth_error l 0 = Some w /\
        if is_tds (st_type w) then iv_T_ms iv = duration w
        else 0 < iv_T_ms iv <= T /\ exists k, duration w = iv_T_ms iv + k * T)).

Lemma sorted_snoc l a : StronglySorted lt l -> Forall (fun i => i < a) l -> StronglySorted lt (l ++ [a]).
Proof.
  induction l as [|x l IH]; intros S F; simpl; [repeat constructor|].
  inversion S; inversion F; subst. constructor; [apply IH; assumption|].
  apply Forall_app. split; [assumption|]. constructor; auto.
Qed.

Lemma inv_step N T tds l wi prod steps num s1 s2 :
  inv N T tds l wi prod steps -> length prod < N ->
  nth_error l wi = Some s1 -> is_tds (st_type s1) = true -> nth_error l (S wi) = Some s2 -> is_tds (st_type s2) = false ->
  inv N T tds l (S (S wi)) (prod ++ mkInterval (S wi) wi tds :: repeat (mkInterval (S wi) wi T) num) (steps ++ [length prod]).
Proof.
  intros (A & B & C & D & E) HN H1 T1 H2 T2.
  assert (X : forall i iv, nth_error (prod ++ mkInterval (S wi) wi tds :: repeat (mkInterval (S wi) wi T) num) i = Some iv ->
     i < length prod /\ nth_error prod i = Some iv \/
     i = length prod /\ iv = mkInterval (S wi) wi tds \/
     i > length prod /\ iv = mkInterval (S wi) wi T).
  { intros i iv Hi. destruct (Nat.lt_trichotomy i (length prod)) as [c|[c|c]].
    - left. rewrite nth_error_app1 in Hi by exact c. auto.
    - right; left. subst i. rewrite nth_error_app2, Nat.sub_diag in Hi by lia. simpl in Hi. split; congruence.
    - right; right. rewrite nth_error_app2 in Hi by lia. destruct (i - length prod) as [|k] eqn:K; [lia|]. simpl in Hi.
      apply nth_error_In, repeat_spec in Hi. auto. }
  assert (Dl : Forall (fun i => i < length prod) steps) by (eapply Forall_impl; [|exact D]; simpl; intros; tauto).
  assert (I : forall i, In i (steps ++ [length prod]) <-> In i steps \/ i = length prod).
  { intros i. rewrite in_app_iff. simpl. intuition. }
  assert (J : forall i, In i steps -> i < length prod). { rewrite Forall_forall in Dl. exact Dl. }
  repeat split.
  - apply X in H. destruct H as [[_ H]|[[_ ->]|[_ ->]]]; simpl; [|lia|lia]. apply A in H. lia.
  - apply X in H. destruct H as [[_ H]|[[_ ->]|[_ ->]]]; simpl; [|eauto|eauto]. apply A in H. tauto.
  - apply X in H; apply X in H0.
    destruct H as [[P H]|[[P ->]|[P ->]]], H0 as [[Q H0]|[[Q ->]|[Q ->]]]; simpl; try lia.
    + apply (B i); assumption.
    + apply A in H. lia.
  - apply X in H; apply X in H0. rewrite I.
    destruct H as [[P H]|[[P ->]|[P ->]]], H0 as [[Q H0]|[[Q ->]|[Q ->]]]; simpl; try lia.
    + intros [K|K]; [|lia]. apply (B i a b); assumption.
    + intros _. apply A in H. lia.
    + intros [K|K]; [apply J in K; lia|lia].
    + intros [K|K]; [apply J in K; lia|lia].
  - apply X in H; apply X in H0. rewrite I.
    destruct H as [[P H]|[[P ->]|[P ->]]], H0 as [[Q H0]|[[Q ->]|[Q ->]]]; simpl; try lia; intros K; try lia.
    left. apply (B i a b); assumption.
  - apply sorted_snoc; assumption.
  - apply Forall_app. rewrite app_length. simpl. split.
    + eapply Forall_impl; [|exact D]. simpl. intros; lia.
    + constructor; [lia|constructor].
  - apply X in H. apply I in H0. destruct H as [[P H]|[[P ->]|[P ->]]]; simpl; try reflexivity.
    + destruct H0 as [K|K]; [|lia]. apply (E i iv H). exact K.
    + destruct H0 as [K|K]; [apply J in K; lia|lia].
  - apply X in H. apply I in H0. destruct H as [[P H]|[[P ->]|[P ->]]]; simpl; eauto.
    destruct H0 as [K|K]; [|lia]. apply (E i iv H). exact K.
  - intros NI Hi. apply X in H. rewrite I in NI. destruct H as [[P H]|[[P ->]|[P ->]]]; simpl; try reflexivity; try tauto.
    apply (E i iv H); tauto.
  - intros NI Hi. apply X in H. rewrite I in NI. destruct H as [[P H]|[[P ->]|[P ->]]]; try tauto; try lia.
    apply (E i iv H); tauto.
Qed.

Lemma skipn_cons_nth {A} (l : list A) k x r : skipn k l = x :: r -> nth_error l k = Some x /\ skipn (S k) l = r.
Proof.
  revert l; induction k as [|k IH]; intros l H.
  - simpl in H. subst. auto.
  - destruct l as [|y l]; [discriminate|]. apply IH in H. exact H.
Qed.

Lemma form_loop_later N T tds l : forall n rest wi ivs prod steps ivs' steps', length rest <= n ->
  wi > 0 -> skipn wi l = rest -> altern true rest -> written N ivs prod -> inv N T tds l wi prod steps ->
  form_loop N T tds wi rest (length prod) ivs steps = Ok (ivs', steps') ->
  exists wi' prod', N <= length prod' /\ written N ivs' prod' /\ inv N T tds l wi' prod' steps'.
Proof.
  induction n as [|n IH]; intros rest wi ivs prod steps ivs' steps' Ln W S A Wr I H.
  - destruct rest; [|simpl in Ln; lia]. simpl in H. destruct (Nat.leb_spec N (length prod)); [|discriminate].
    inversion H; subst. eauto.
  - destruct rest as [|s1 r]; simpl in H.
    + destruct (Nat.leb_spec N (length prod)); [|discriminate]. inversion H; subst. eauto.
    + destruct (Nat.leb_spec N (length prod)) as [G|G]; [inversion H; subst; eauto|].
      destruct (Nat.eqb_spec wi 0); [lia|]. destruct A as [A1 A2]. rewrite A1 in H.
      destruct r as [|s2 r2]; [discriminate|]. simpl in A2. destruct A2 as [A2 A3].
      destruct (skipn_cons_nth _ _ _ _ S) as [N1 S1]. destruct (skipn_cons_nth _ _ _ _ S1) as [N2 S2].
      pose proof (written_chunk N ivs prod (mkInterval (Datatypes.S wi) wi tds) (mkInterval (Datatypes.S wi) wi T) (duration s2 / T) Wr G) as Wr'.
      pose proof (inv_step N T tds l wi prod steps (duration s2 / T) s1 s2 I G N1 A1 N2 A2) as I'.
      eapply IH; [| | | | exact Wr' | exact I' |].
      * simpl in Ln. instantiate (1 := r2). lia.
      * lia.
      * exact S2.
      * exact A3.
      * rewrite app_length. simpl. rewrite repeat_length.
        replace (length prod + Datatypes.S (duration s2 / T)) with (length prod + 1 + duration s2 / T) by lia. exact H.
Qed.

(** only one walk state in the formed intervals *)
Lemma inv_first N T tds l k v T0 num s :
  nth_error l k = Some s -> is_tds (st_type s) = false ->
  (exists w, nth_error l 0 = Some w /\ if is_tds (st_type w) then T0 = duration w else 0 < T0 <= T /\ exists m, duration w = T0 + m * T) ->
  inv N T tds l (S k) (mkInterval k v T0 :: repeat (mkInterval k v T) num) [].
Proof.
  intros H1 H2 H3.
  assert (X : forall i iv, nth_error (mkInterval k v T0 :: repeat (mkInterval k v T) num) i = Some iv ->
     i = 0 /\ iv = mkInterval k v T0 \/ i > 0 /\ iv = mkInterval k v T).
  { intros [|i] iv Hi; simpl in Hi; [left; split; congruence|]. right. apply nth_error_In, repeat_spec in Hi. split; [lia|auto]. }
  repeat split.
  - apply X in H. destruct H as [[_ ->]|[_ ->]]; simpl; lia.
  - apply X in H. destruct H as [[_ ->]|[_ ->]]; simpl; eauto.
  - apply X in H; apply X in H0. destruct H as [[_ ->]|[_ ->]], H0 as [[_ ->]|[_ ->]]; simpl; lia.
  - intros [].
  - apply X in H; apply X in H0. destruct H as [[_ ->]|[_ ->]], H0 as [[_ ->]|[_ ->]]; simpl; congruence.
  - constructor.
  - constructor.
  - destruct H0.
  - destruct H0.
  - apply X in H. destruct H as [[-> ->]|[_ ->]]; simpl; [lia|reflexivity].
  - apply X in H. destruct H as [[-> ->]|[P ->]]; simpl; [auto|lia].
Qed.
Lemma inv_empty N T tds l k : inv N T tds l k [] [].
Proof.
  unfold inv. split; [intros [|i] iv E; discriminate|]. split; [intros [|i] a b E; discriminate|].
  split; [constructor|]. split; [constructor|]. intros [|i] iv E; discriminate.
Qed.

Lemma written_repeat N : written N (repeat None N) [].
Proof. split; [apply repeat_length|]. intros [|j] iv _ H; discriminate. Qed.

Lemma form_loop_filled N T tds l b ivs' steps' : T > 0 -> altern b l ->
  form_loop N T tds 0 l 0 (repeat None N) [] = Ok (ivs', steps') ->
  exists wi' prod', N <= length prod' /\ written N ivs' prod' /\ inv N T tds l wi' prod' steps'.
Proof.
  intros TP A H. destruct l as [|s r]; simpl in H.
  - destruct (Nat.leb_spec N 0); [|discriminate]. inversion H; subst. exists 0, []. split; [simpl; lia|].
    split; [apply written_repeat|apply inv_empty].
  - destruct (Nat.leb_spec N 0) as [G|G].
    { inversion H; subst. exists 0, []. split; [simpl; lia|]. split; [apply written_repeat|apply inv_empty]. }
    destruct A as [A1 A2]. destruct (is_tds (st_type s)) eqn:Ts.
    + destruct r as [|s2 r2]; [discriminate|]. subst b. simpl in A2. destruct A2 as [A2 A3].
      pose proof (written_chunk N (repeat None N) [] (mkInterval 1 0 (duration s)) (mkInterval 1 0 T) (duration s2 / T) (written_repeat N) G) as Wr.
      simpl app in Wr. simpl length in Wr.
      eapply (form_loop_later N T tds (s :: s2 :: r2) (length r2) r2 2 _ (mkInterval 1 0 (duration s) :: repeat (mkInterval 1 0 T) (duration s2 / T)) []);
        [lia|lia|reflexivity|exact A3|exact Wr| |].
      * apply inv_first with (s := s2); [reflexivity|assumption|]. exists s. split; [reflexivity|]. rewrite Ts. reflexivity.
      * simpl length. rewrite repeat_length. exact H.
    + subst b. simpl in A2.
      destruct (Nat.eqb_spec (duration s mod T) 0) as [M|M].
      * destruct (Nat.eq_dec (duration s / T) 0) as [Z|Z].
        { (* zero duration: the first interval is written again *)
          rewrite Z in H. replace (Nat.min N (1 + 0 - 1) - 1) with 0 in H by lia. simpl in H.
          eapply (form_loop_later N T tds (s :: r) (length r) r 1 _ [] []); [lia|lia|reflexivity|exact A2| |apply inv_empty|exact H].
          split; [destruct N; simpl; rewrite ?repeat_length; lia|]. intros [|j] iv _ E; discriminate. }
        pose proof (written_chunk N (repeat None N) [] (mkInterval 0 0 T) (mkInterval 0 0 T) (duration s / T - 1) (written_repeat N) G) as Wr.
        simpl app in Wr. simpl length in Wr.
        eapply (form_loop_later N T tds (s :: r) (length r) r 1 _ (mkInterval 0 0 T :: repeat (mkInterval 0 0 T) (duration s / T - 1)) []);
          [lia|lia|reflexivity|exact A2|exact Wr| |].
        { apply inv_first with (s := s); [reflexivity|exact Ts|]. exists s. split; [reflexivity|]. rewrite Ts.
          split; [lia|]. exists (duration s / T - 1).
          pose proof (Nat.div_mod (duration s) T ltac:(lia)) as D. rewrite M in D.
          destruct (duration s / T) as [|q]; [lia|]. replace (S q - 1) with q by lia. lia. }
        { simpl length. rewrite repeat_length. replace (0 + 1 + (duration s / T - 1)) with (1 + duration s / T - 1) by lia.
          replace (S (duration s / T - 1)) with (1 + duration s / T - 1) by lia. exact H. }
      * pose proof (written_chunk N (repeat None N) [] (mkInterval 0 0 (duration s mod T)) (mkInterval 0 0 T) (duration s / T) (written_repeat N) G) as Wr.
        simpl app in Wr. simpl length in Wr.
        eapply (form_loop_later N T tds (s :: r) (length r) r 1 _ (mkInterval 0 0 (duration s mod T) :: repeat (mkInterval 0 0 T) (duration s / T)) []);
          [lia|lia|reflexivity|exact A2|exact Wr| |].
        { apply inv_first with (s := s); [reflexivity|exact Ts|]. exists s. split; [reflexivity|]. rewrite Ts.
          pose proof (Nat.mod_upper_bound (duration s) T ltac:(lia)).
          split; [lia|]. exists (duration s / T).
          pose proof (Nat.div_mod (duration s) T ltac:(lia)) as D. lia. }
        { simpl length. rewrite repeat_length. exact H. }
Qed.

(** ** the previewed stances are consecutive stances of the machine *)
Definition follows (a b : stance) : Prop :=
  exists s s', same_kind a s /\ same_kind b s' /\ shiftStance s = Ok s' /\ ~ terminal s.
Fixpoint chain (l : list stance) : Prop :=
  match l with
  | [] => True
  | a :: r => match r with [] => True | b :: _ => follows a b end /\ chain r
  end.
Lemma same_kind_entry s t : same_kind (preview_entry s t) s.
Proof. repeat split. Qed.
Lemma same_kind_last s : same_kind (preview_last_entry s) s.
Proof. repeat split. Qed.
Lemma chain_snoc l a b : chain (l ++ [a]) -> follows a b -> chain ((l ++ [a]) ++ [b]).
Proof.
  induction l as [|x l IH]; simpl; [tauto|]. intros [H1 H2] F. specialize (IH H2 F).
  split; [|exact IH]. destruct l; simpl in *; tauto.
Qed.

Lemma preview_loop_chain f : forall s T acc s' ne l', preview_loop f s T acc = Finished (Ok (s', ne, l')) ->
  exists l, l' = acc ++ l /\ chain l /\ (forall e r, l = e :: r -> same_kind e s) /\
    (ne = false -> forall r e, l = r ++ [e] -> same_kind e s') /\ (ne = false -> T > 0 -> l <> []).
Proof.
  induction f as [|f IH]; intros s T acc s' ne l' H.
  - destruct (Nat.eq_dec T 0) as [->|N].
    + simpl in H. inversion H; subst. exists []. rewrite app_nil_r.
      split; [reflexivity|]. split; [exact I|]. split; [discriminate|]. split; [intros _ [|x r]; discriminate|lia].
    + simpl in H. destruct (Nat.eqb_spec T 0); [contradiction|discriminate].
  - destruct (Nat.eq_dec T 0) as [->|N].
    { rewrite preview_loop_0 in H. inversion H; subst. exists []. rewrite app_nil_r.
      split; [reflexivity|]. split; [exact I|]. split; [discriminate|]. split; [intros _ [|x r]; discriminate|lia]. }
    cbn [preview_loop] in H. destruct (Nat.eqb_spec T 0); [contradiction|].
    destruct (Nat.leb_spec (cur_time s) (duration (cur s))) as [Le|Le]; [|discriminate]. cbv zeta in H. cbn [negb] in H.
    destruct (Nat.leb_spec (cur_time s + T) (duration (cur s))) as [Lt|Lt].
    { rewrite preview_loop_0 in H. inversion H; subst. exists [preview_entry s' T]. split; [reflexivity|].
      split; [simpl; auto|]. split; [|split].
      - intros e r E. inversion E; subst. apply same_kind_entry.
      - intros _ r e E. destruct r as [|x [|y r]]; inversion E; subst. apply same_kind_entry.
      - discriminate. }
    destruct ((ss_left s =? 0) && match st_type (cur s) with DS => true | _ => false end) eqn:Term.
    { inversion H; subst. exists []. rewrite app_nil_r.
      split; [reflexivity|]. split; [exact I|]. split; [discriminate|]. split; discriminate. }
    destruct (shiftStance s) as [s2| |] eqn:E; try discriminate.
    apply IH in H. destruct H as (l & -> & C & F & L & NE). exists (preview_entry s T :: l).
    split; [rewrite <- app_assoc; reflexivity|]. split; [|split; [|split]].
    + cbn [chain]. split; [|exact C]. destruct l as [|b r]; [exact I|].
      exists s, s2. split; [apply same_kind_entry|]. split; [eapply F; reflexivity|]. split; [exact E|].
      intros [T1 T2]. rewrite T1, T2 in Term. discriminate.
    + intros e r X. inversion X; subst. apply same_kind_entry.
    + intros Z r e X. destruct r as [|x r]; simpl in X.
      * inversion X; subst l. exfalso. apply NE; [exact Z|lia|reflexivity].
      * inversion X as [[X1 X2]]. subst l. eapply L; [exact Z|reflexivity].
    + discriminate.
Qed.

Lemma last_some_snoc {A} (l : list A) a : last (map (@Some A) (l ++ [a])) None = Some a.
Proof. rewrite map_app. simpl. apply last_last. Qed.

Lemma previewStances_chain f s T l : previewStances f s T = Finished (Ok l) ->
  chain l /\ (forall e r, l = e :: r -> same_kind e s).
Proof.
  unfold previewStances. intros H.
  destruct (preview_loop f s T []) as [[r| |]|] eqn:E; try discriminate.
  destruct r as [[s' ne] l0]. apply preview_loop_chain in E. destruct E as (l1 & E & C & F & L & NE). simpl in E. subst l0.
  destruct ne; [inversion H; subst; auto|].
  destruct l1 as [|e0 r0] using rev_ind; [discriminate|]. clear IHr0.
  rewrite last_some_snoc in H. destruct (is_tds (st_type e0)) eqn:Te; [|inversion H; subst; auto].
  pose proof (L eq_refl _ _ eq_refl) as K.
  replace (is_tds (st_type (cur s'))) with true in H by (destruct K as [K _]; rewrite K; auto).
  destruct (shiftStance s') as [s''| |] eqn:S; try discriminate. inversion H; subst l. split.
  - apply chain_snoc; [exact C|]. exists s', s''. split; [exact K|]. split; [apply same_kind_last|]. split; [exact S|].
    intros [T1 _]. destruct K as [K _]. rewrite T1 in K. rewrite <- K in Te. discriminate.
  - intros e r X. destruct r0 as [|x r0]; simpl in X; inversion X; subst; eapply F; reflexivity.
Qed.

Lemma follows_alternate a b : follows a b -> is_tds (st_type b) = negb (is_tds (st_type a)).
Proof.
  intros (s & s' & (K1 & _) & (K2 & _) & S & NT). rewrite <- K1, <- K2. unfold shiftStance in S. unfold terminal in NT.
  destruct (st_type (cur s)) eqn:T; try discriminate; simpl in S.
  - destruct (ss_left s); [exfalso; apply NT; auto|]. inversion S; reflexivity.
  - inversion S; reflexivity.
  - inversion S; reflexivity.
  - destruct (ss_left s); simpl in S; [inversion S; reflexivity|].
    destruct (prev_nonds (cur s)); try discriminate; inversion S; reflexivity.
Qed.
Lemma chain_altern l : chain l -> exists b, altern b l.
Proof.
  induction l as [|a r IH]; [exists true; exact I|]. intros [H1 H2]. destruct (IH H2) as [b Hb].
  exists (is_tds (st_type a)). simpl. split; [reflexivity|]. destruct r as [|c r]; [exact I|].
  rewrite <- (follows_alternate _ _ H1). simpl in Hb. destruct Hb as [Hb1 Hb2]. simpl. rewrite Hb1. auto.
Qed.

(** the states carry the previewed stances *)
Lemma preview_state_stance inc h s n h1 w : preview_state inc h s n = Ok (h1, w) -> ws_stance w = s.
Proof.
  unfold preview_state. destruct (st_type s) eqn:T; try discriminate.
  - destruct (subtype s); try discriminate; intros H; apply bind_ok in H; destruct H as (x & _ & H); inversion H; reflexivity.
  - intros H; apply bind_ok in H; destruct H as (x & _ & H); inversion H; reflexivity.
  - intros H; apply bind_ok in H; destruct H as (x & _ & H); inversion H; reflexivity.
  - destruct n as [t|]; [|discriminate].
    intros H. repeat match type of H with context [let '(_, _) := ?x in _] => destruct x as [? ?] end.
    repeat match type of H with context [match ?x with (_, _) => _ end] => destruct x end.
    inversion H; reflexivity.
Qed.
Lemma preview_states_stances inc : forall l h ws, preview_states inc h l = Ok ws -> map ws_stance ws = l.
Proof.
  induction l as [|s r IH]; intros h ws H; simpl in H; [inversion H; reflexivity|].
  apply bind_ok in H. destruct H as ([h1 w] & H1 & H). apply bind_ok in H. destruct H as (ws1 & H2 & H).
  inversion H; subst. simpl. f_equal; [eapply preview_state_stance; eassumption|eapply IH; eassumption].
Qed.

(** ** formed horizons *)
Lemma form_inv f m ly ry inc s h : form f m ly ry inc s = Finished (Ok (Some h)) ->
  exists l b, previewStances f s (horizon_length m * sampling_ms m) = Finished (Ok l) /\
    preview_states inc (initial_headings ly ry) l = Ok (h_states h) /\ l <> [] /\ altern b l /\
    (sampling_ms m = 0 -> horizon_length m = 0) /\
    form_loop (horizon_length m) (sampling_ms m) (tds_sampling_ms m) 0 l 0 (repeat None (horizon_length m)) [] = Ok (h_intervals h, h_steps h).
Proof.
  unfold form. destruct (previewStances f s _) as [[l| |]|] eqn:P; try discriminate. intros H.
  assert (H' : bind (preview_states inc (initial_headings ly ry) l) (fun ws => match ws with
        | [] => Ok None
        | _ => if (sampling_ms m =? 0) && negb (horizon_length m =? 0) then UB
               else bind (form_loop (horizon_length m) (sampling_ms m) (tds_sampling_ms m) 0 l 0 (repeat None (horizon_length m)) [])
                 (fun '(ivs, steps) => Ok (Some (mkHorizon ws ivs steps)))
        end) = Ok (Some h)) by congruence. clear H.
  apply bind_ok in H'. destruct H' as (ws & H1 & H2). destruct ws as [|w ws]; [discriminate|].
  destruct (chain_altern l) as [b Hb]; [eapply previewStances_chain; eassumption|].
  exists l, b. destruct ((sampling_ms m =? 0) && negb (horizon_length m =? 0)) eqn:Z; [discriminate|].
  apply bind_ok in H2. destruct H2 as ([ivs steps] & H2 & H3). inversion H3; subst h; simpl.
  repeat (split; [solve [auto]|]). split.
  { intros ->. simpl in H1. discriminate. }
  split; [exact Hb|]. split; [|exact H2].
  intros E. rewrite E in Z. simpl in Z. destruct (Nat.eqb_spec (horizon_length m) 0); [assumption|discriminate].
Qed.

Lemma states_nth h l k s : map ws_stance (h_states h) = l -> nth_error l k = Some s ->
  exists w, nth_error (h_states h) k = Some w /\ ws_stance w = s.
Proof.
  intros <-. rewrite nth_error_map. destruct (nth_error (h_states h) k); [|discriminate]. simpl. intros E; inversion E; eauto.
Qed.

Lemma form_filled f m ly ry inc s h : form f m ly ry inc s = Finished (Ok (Some h)) ->
  filled (horizon_length m) h /\ timed m h.
Proof.
  intros H. apply form_inv in H. destruct H as (l & b & _ & HS & NE & A & TP & H).
  apply preview_states_stances in HS.
  destruct (Nat.eq_dec (horizon_length m) 0) as [Z|Z].
  { rewrite Z in H. destruct l; [contradiction|]. simpl in H. inversion H as [[E1 E2]].
    unfold filled, timed, interval_at. rewrite Z, <- E1, <- E2.
    split; [|intros [|i] iv E; discriminate].
    split; [reflexivity|]. split; [lia|]. split; [constructor|]. split; [constructor|]. intros [|i] ? ? E; discriminate. }
  assert (TP' : sampling_ms m > 0) by (destruct (sampling_ms m); [exfalso; apply Z, TP; reflexivity|lia]).
  destruct (form_loop_filled _ _ _ _ _ _ _ TP' A H) as (wi & prod & L & (W1 & W2) & (I1 & I2 & I3 & I4 & I5)).
  assert (X : forall i iv, interval_at h i iv -> i < horizon_length m /\ nth_error prod i = Some iv).
  { unfold interval_at. intros i iv E.
    assert (i < horizon_length m). { rewrite <- W1. apply nth_error_Some. congruence. }
    split; [assumption|]. destruct (nth_error prod i) as [v|] eqn:P.
    - rewrite (W2 i v) in E by assumption. congruence.
    - apply nth_error_None in P. lia. }
  split.
  - split; [exact W1|]. split.
    { intros i Hi. destruct (nth_error prod i) as [v|] eqn:P; [|apply nth_error_None in P; lia].
      exists v. split; [apply W2; assumption|]. destruct (I1 i v P) as (_ & st & N1 & N2).
      destruct (states_nth _ _ _ _ HS N1) as (w & Hw & Ew). exists (st_type st). split; [exists w; rewrite Ew; auto|].
      intros X'. rewrite X' in N2. discriminate. }
    split; [exact I3|]. split; [eapply Forall_impl; [|exact I4]; simpl; intros; lia|].
    intros i a c Ha Hc. apply X in Ha; apply X in Hc. apply I2; tauto.
  - intros i iv Hi. apply X in Hi. destruct Hi as [Hi Pi]. destruct (I5 i iv Pi) as (J1 & J2 & J3).
    split; [|split].
    + intros K. destruct (J1 K) as (K1 & st & K2 & K3). split; [exact K1|].
      destruct (states_nth _ _ _ _ HS K2) as (w & Hw & Ew). exists w. split; [exact Hw|]. rewrite Ew.
      destruct (st_type st); try discriminate; reflexivity.
    + exact J2.
    + intros K1 K2. destruct (J3 K1 K2) as (st & S1 & S2).
      destruct (states_nth _ _ _ _ HS S1) as (w & Hw & Ew). exists w. split; [exact Hw|]. rewrite Ew. exact S2.
Qed.
