(** * Proofs about configuration files *)
From Coq Require Import String List ZArith Arith Reals Bool Lia Lra.
From Verif Require Import Base RSum Matrix Config ConfigSpec.
Import ListNotations.
Open Scope list_scope.

(** ** induction over entries *)
Section EntryInd.
  Variable P : entry -> Prop.
  Hypothesis Hscalar : forall n k, P (EScalar n k).
  Hypothesis Henum : forall n, P (EEnum n).
  Hypothesis Hvector : forall n s, P (EVector n s).
  Hypothesis Hlist : forall n k, P (EList n k).
  Hypothesis Hmatrix : forall n, P (EMatrix n).
  Hypothesis Hparent : forall es, (forall e, In e es -> P e) -> P (EParent es).
  Hypothesis Hmember : forall n es f d, (forall e, In e es -> P e) -> P (EMember n es f d).
  Lemma entry_rect' : forall e, P e.
  Proof.
    fix IH 1. intros [n k|n|n s|n k|n|es|n es f d]; [apply Hscalar|apply Henum|apply Hvector|apply Hlist|apply Hmatrix|apply Hparent|apply Hmember].
    - induction es as [|a es IHes]; intros e I; [destruct I|]. destruct I as [<-|I]; [apply IH|apply IHes; exact I].
    - induction es as [|a es IHes]; intros e I; [destruct I|]. destruct I as [<-|I]; [apply IH|apply IHes; exact I].
  Qed.
End EntryInd.

(** unfolding of the nested loops *)
Lemma write_parent fmt es vs : write_entry fmt (EParent es) (VObject vs) = write_list fmt es vs.
Proof. cbn. revert vs. induction es as [|e es IH]; intros [|v vs]; cbn; try reflexivity; rewrite IH; reflexivity. Qed.
Lemma write_member fmt n es f d vs : write_entry fmt (EMember n es f d) (VObject vs) = [(n, NMap (write_list fmt es vs))].
Proof. rewrite <- write_parent. reflexivity. Qed.
Definition read_parent_res crash es vs k r :=
  match read_list crash es vs (fun l => k (VObject l)) r with
  | (r1, Done l) => (r1, if k (VObject l) then Done (VObject l) else Thrown)
  | (r1, Thrown) => (r1, Thrown)
  end.
Lemma read_list_local crash es : forall vs k r,
  (fix read_list (es : list entry) (vs : list value) (k : list value -> bool) (r : reader) {struct es} : reader * res (list value) :=
    match es, vs with
    | e :: es', v :: vs' =>
        match read_entry crash e v (fun v' => k (v' :: vs')) r with
        | (r1, Done v1) => match read_list es' vs' (fun l => k (v1 :: l)) r1 with
                           | (r2, Done l) => (r2, Done (v1 :: l))
                           | (r2, Thrown) => (r2, Thrown)
                           end
        | (r1, Thrown) => (r1, Thrown)
        end
    | _, _ => (r, Done vs)
    end) es vs k r = read_list crash es vs k r.
Proof.
  induction es as [|e es IH]; intros [|v vs] k r; cbn; try reflexivity.
  destruct (read_entry crash e v (fun v' => k (v' :: vs)) r) as [r1 [v1|]]; [|reflexivity]. rewrite IH. reflexivity.
Qed.
Lemma read_parent crash es vs k r : read_entry crash (EParent es) (VObject vs) k r = read_parent_res crash es vs k r.
Proof. unfold read_parent_res. cbn. rewrite read_list_local. reflexivity. Qed.
Definition member_body crash es (fin : list value -> bool) vs0 (r1 : reader) :=
  match read_list crash es vs0 fin r1 with
  | (r2, Done l) => (r2, if fin l then Done l else Thrown)
  | (r2, Thrown) => (r2, Thrown)
  end.
Lemma read_member crash n es fin d vs k r :
  read_entry crash (EMember n es fin d) (VObject vs) k r = lift VObject (within n crash (d vs) r (member_body crash es fin (d vs))).
Proof.
  cbn. unfold within. destruct (descend n r) as [r1|]; [|reflexivity]. rewrite read_list_local. reflexivity.
Qed.
Lemma has_type_parent es vs : has_type (EParent es) (VObject vs) = have_types es vs.
Proof. cbn. revert vs. induction es as [|e es IH]; intros [|v vs]; cbn; try reflexivity; rewrite IH; reflexivity. Qed.
Lemma has_type_member n es f d vs : has_type (EMember n es f d) (VObject vs) = have_types es vs.
Proof. rewrite <- has_type_parent. reflexivity. Qed.
Lemma accepted_parent fmt es vs : accepted fmt (EParent es) (VObject vs) = all_accepted fmt es vs.
Proof. cbn. revert vs. induction es as [|e es IH]; intros [|v vs]; cbn; try reflexivity; rewrite IH; reflexivity. Qed.
Lemma accepted_member fmt n es f d vs : accepted fmt (EMember n es f d) (VObject vs) = (accepting es f (map (stored fmt) vs) /\ all_accepted fmt es vs).
Proof. rewrite <- accepted_parent. reflexivity. Qed.
Lemma patched_parent fmt keep es vs dvs : patched fmt keep (EParent es) (VObject vs) (VObject dvs) = VObject (patched_list fmt keep es vs dvs).
Proof.
  cbn. f_equal. revert vs dvs. induction es as [|e es IH]; intros [|v vs] [|w dvs]; cbn; try reflexivity; rewrite IH; reflexivity.
Qed.
Lemma wf_all es : fold_right (fun e P => wf_entry e /\ P) True es <-> forall e, In e es -> wf_entry e.
Proof.
  induction es as [|a es IH]; cbn; split; intros H; try tauto.
  - intros e [<-|I]; [tauto|]. apply IH; tauto.
  - split; [apply H; auto|]. apply IH. intros e I. apply H. auto.
Qed.

(** ** the reader comes back after success, and only goes deeper on failure *)
Definition deeper (r r' : reader) : Prop := handles r' = handles r /\ exists extra, stack r' = extra ++ stack r.
Lemma deeper_refl r : deeper r r. Proof. split; [reflexivity|]. exists []. reflexivity. Qed.
Lemma deeper_trans a b c : deeper a b -> deeper b c -> deeper a c.
Proof. intros [H1 [e1 E1]] [H2 [e2 E2]]. split; [congruence|]. exists (e2 ++ e1). rewrite E2, E1. apply app_assoc. Qed.
Definition tidy {A} (r : reader) (x : reader * res A) : Prop :=
  match x with (r', Done _) => r' = r | (r', Thrown) => deeper r r' end.
Lemma descend_spec name r r1 : descend name r = Some r1 -> exists n, r1 = mkReader (handles r) (n :: stack r).
Proof.
  unfold descend. destruct (stack r) as [|top t] eqn:E.
  - destruct (find_root name (handles r)) as [n|]; cbn; intros H; [|discriminate]. injection H as <-. exists n. reflexivity.
  - destruct (child name top) as [n|]; cbn; intros H; [|discriminate]. injection H as <-. exists n. reflexivity.
Qed.
Lemma reader_eta r : mkReader (handles r) (stack r) = r.
Proof. destruct r. reflexivity. Qed.
Lemma deeper_of_child r n : deeper r (mkReader (handles r) (n :: stack r)).
Proof. split; [reflexivity|]. exists [n]. reflexivity. Qed.
Lemma within_tidy {A} name crash (keep : A) r body :
  (forall r1, descend name r = Some r1 -> tidy r1 (body r1)) -> tidy r (within name crash keep r body).
Proof.
  intros H. unfold within. destruct (descend name r) as [r1|] eqn:E.
  - specialize (H r1 eq_refl). destruct (descend_spec _ _ _ E) as [n ->].
    destruct (body _) as [r2 [a|]]; cbn in H |- *.
    + subst r2. unfold ascend. cbn. apply reader_eta.
    + eapply deeper_trans; [apply deeper_of_child|exact H].
  - destruct crash; cbn; [apply deeper_refl|reflexivity].
Qed.
Lemma lift_tidy {A} (f : A -> value) r x : tidy r x -> tidy r (lift f x).
Proof. destruct x as [r1 [a|]]; exact (fun H => H). Qed.
Lemma pure_tidy {A} r (x : res A) : tidy r (r, x).
Proof. destruct x; [reflexivity|apply deeper_refl]. Qed.
Lemma read_scalar_tidy name k crash keep r : tidy r (read_scalar name k crash keep r).
Proof. apply within_tidy. intros r1 _. apply pure_tidy. Qed.
Lemma read_vector_tidy name size crash keep r : tidy r (read_vector name size crash keep r).
Proof. apply within_tidy. intros r1 _. apply pure_tidy. Qed.
Lemma read_matrix_tidy name crash keep r : tidy r (read_matrix name crash keep r).
Proof.
  apply within_tidy. intros r1 _.
  pose proof (read_scalar_tidy "rows" KInt true (SInt 0) r1) as T1.
  destruct (read_scalar "rows" KInt true (SInt 0) r1) as [r2 [[z| | |]|]]; cbn in T1; subst; try (apply deeper_refl); try exact T1.
  pose proof (read_scalar_tidy "cols" KInt true (SInt 0) r1) as T2.
  destruct (read_scalar "cols" KInt true (SInt 0) r1) as [r3 [[z'| | |]|]]; cbn in T2; subst; try (apply deeper_refl); try exact T2.
  pose proof (read_vector_tidy "data" None true [] r1) as T3.
  destruct (read_vector "data" None true [] r1) as [r4 [v|]]; cbn in T3; subst; [|exact T3].
  destruct (_ && _ && _); [reflexivity|apply deeper_refl].
Qed.
Lemma read_list_tidy' crash es : (forall e, In e es -> forall v k r, tidy r (read_entry crash e v k r)) ->
  forall vs k r, tidy r (read_list crash es vs k r).
Proof.
  induction es as [|e es IH]; intros H [|v vs] k r; cbn; try reflexivity.
  pose proof (H e (or_introl eq_refl) v (fun v' => k (v' :: vs)) r) as T1.
  destruct (read_entry crash e v (fun v' => k (v' :: vs)) r) as [r1 [v1|]]; cbn in T1; [subst r1|exact T1].
  pose proof (IH (fun e I => H e (or_intror I)) vs (fun l => k (v1 :: l)) r) as T2.
  destruct (read_list crash es vs (fun l => k (v1 :: l)) r) as [r2 [l|]]; exact T2.
Qed.
Lemma read_entry_tidy crash e : forall v k r, tidy r (read_entry crash e v k r).
Proof.
  induction e as [n kd|n|n s|n kd|n|es IH|n es f d IH] using entry_rect'; intros v k r; destruct v; try reflexivity.
  - apply lift_tidy, read_scalar_tidy.
  - apply lift_tidy, read_scalar_tidy.
  - apply lift_tidy, read_vector_tidy.
  - apply lift_tidy. apply within_tidy. intros r1 _. apply pure_tidy.
  - apply lift_tidy, read_matrix_tidy.
  - rewrite read_parent. unfold read_parent_res.
    pose proof (read_list_tidy' crash es IH l (fun l => k (VObject l)) r) as T.
    destruct (read_list crash es l (fun l => k (VObject l)) r) as [r1 [x|]]; cbn in T; [subst r1|exact T].
    apply pure_tidy.
  - rewrite read_member. apply lift_tidy, within_tidy. intros r1 _. unfold member_body.
    pose proof (read_list_tidy' crash es IH (d l) f r1) as T.
    destruct (read_list crash es (d l) f r1) as [r2 [x|]]; cbn in T; [subst r2|exact T].
    apply pure_tidy.
Qed.
Lemma read_list_tidy crash es vs k r : tidy r (read_list crash es vs k r).
Proof. apply read_list_tidy'. intros e _ v k' r'. apply read_entry_tidy. Qed.
(** a member class that fails after it has been found leaves the reader below its section *)
Lemma readConfig_shape c name crash old r :
  readConfig c name crash old r =
  match within name crash (c_defaults c old) r (member_body crash (c_entries c) (c_finalize c) (c_defaults c old)) with
  | (r1, Done l) => (r1, Done l) | (r1, Thrown) => (r1, Thrown) end.
Proof. unfold readConfig. rewrite read_member. destruct (within _ _ _ _ _) as [r1 [l|]]; reflexivity. Qed.
Lemma member_body_tidy crash es fin vs r : tidy r (member_body crash es fin vs r).
Proof.
  unfold member_body. pose proof (read_list_tidy crash es vs fin r) as T.
  destruct (read_list crash es vs fin r) as [r2 [x|]]; cbn in T; [subst r2; apply pure_tidy|exact T].
Qed.
Lemma readConfig_position c name crash old r :
  match readConfig c name crash old r with
  | (r', Done _) => r' = r
  | (r', Thrown) => match descend name r with
                    | None => r' = r
                    | Some _ => handles r' = handles r /\ exists extra n, stack r' = extra ++ n :: stack r
                    end
  end.
Proof.
  rewrite readConfig_shape. pose proof (within_tidy name crash (c_defaults c old) r (member_body crash (c_entries c) (c_finalize c) (c_defaults c old))
    (fun r1 _ => member_body_tidy crash (c_entries c) (c_finalize c) (c_defaults c old) r1)) as T.
  unfold within in *. destruct (descend name r) as [r1|] eqn:E.
  - destruct (descend_spec _ _ _ E) as [n ->].
    pose proof (member_body_tidy crash (c_entries c) (c_finalize c) (c_defaults c old) (mkReader (handles r) (n :: stack r))) as T2.
    destruct (member_body _ _ _ _ _) as [r2 [l|]]; [exact T|].
    cbn in T2. destruct T2 as [H [extra E2]]. split; [exact H|]. exists extra, n. exact E2.
  - destruct crash; reflexivity.
Qed.

(** ** written values are found *)
Lemma kind_fmt fmt s : kind (fmt_scalar fmt s) = kind s. Proof. destruct s; reflexivity. Qed.
Lemma convert_kind s : convert (kind s) s = Some s. Proof. destruct s; reflexivity. Qed.
Lemma convert_all_kind k l : (forall s, In s l -> kind s = k) -> convert_all k l = Some l.
Proof.
  induction l as [|s l IH]; intros H; cbn; [reflexivity|].
  rewrite <- (H s (or_introl eq_refl)) at 1. rewrite convert_kind, IH; [reflexivity|]. intros x I. apply H. right. exact I.
Qed.
Lemma convert_all_reals l : convert_all KReal (map SReal l) = Some (map SReal l).
Proof. apply convert_all_kind. intros s I. apply in_map_iff in I as [x [<- _]]. reflexivity. Qed.
Lemma map_real_of l : map real_of (map SReal l) = l.
Proof. rewrite map_map. cbn. apply map_id. Qed.
Lemma column_major_columns m : column_major m = columns_of m.
Proof.
  unfold column_major, columns_of. set (r := mrows m). generalize (mcols m) as c. intros c. clear.
  induction c as [|c IH]; [rewrite Nat.mul_0_r; reflexivity|].
  rewrite seq_S, flat_map_app, IH. cbn [flat_map]. rewrite app_nil_r.
  replace (r * S c)%nat with (r * c + r)%nat by lia. rewrite seq_app, map_app. f_equal.
  cbn [plus]. assert (A : forall k n, map (fun j => mget m j c) (seq k n) = map (fun k0 => mget m (k0 - r * c) ((r*c) / r)) (seq (r * c + k) n) \/ r = 0%nat).
  { intros k n. destruct (Nat.eq_dec r 0) as [Z|NZ]; [right; exact Z|left].
    revert k. induction n as [|n IHn]; intros k; cbn; [reflexivity|]. f_equal.
    - rewrite Nat.mul_comm, Nat.div_mul by exact NZ. f_equal. lia.
    - rewrite IHn. do 2 f_equal. lia. }
  destruct (A 0%nat r) as [E|Z].
  - rewrite E, Nat.add_0_r. apply map_ext_in. intros k I. apply in_seq in I.
    assert (NZ : r <> 0%nat) by lia.
    rewrite (Nat.mul_comm r c), Nat.div_mul by exact NZ.
    assert (Ek : (k = (k - c * r) + c * r)%nat) by lia.
    rewrite Ek at 2 3. rewrite Nat.mod_add, Nat.div_add by exact NZ. rewrite Nat.mod_small, Nat.div_small by lia. reflexivity.
  - rewrite Z. reflexivity.
Qed.
Lemma columns_length m : length (columns_of m) = (mrows m * mcols m)%nat.
Proof. unfold columns_of. rewrite map_length, seq_length. reflexivity. Qed.

Lemma within_found {A} name crash (keep a : A) r top rest n body :
  stack r = top :: rest -> child name top = Some n ->
  body (mkReader (handles r) (n :: stack r)) = (mkReader (handles r) (n :: stack r), Done a) ->
  within name crash keep r body = (r, Done a).
Proof.
  intros S C B. unfold within, descend. rewrite S at 1. rewrite C. cbn [option_map]. rewrite B. unfold ascend. cbn. rewrite reader_eta. reflexivity.
Qed.
Lemma within_missing {A} name crash (keep : A) r top rest body :
  stack r = top :: rest -> child name top = None -> within name crash keep r body = (r, if crash then Thrown else Done keep).
Proof. intros S C. unfold within, descend. rewrite S, C. reflexivity. Qed.

Lemma read_matrix_found fmt name crash keep r top rest m :
  stack r = top :: rest ->
  child name top = Some (NMap [("cols"%string, NScalar (SInt (Z.of_nat (mcols m)))); ("rows"%string, NScalar (SInt (Z.of_nat (mrows m))));
                    ("data"%string, NSeq (map (fun x => SReal (fmt x)) (column_major m)))]) ->
  read_matrix name crash keep r = (r, Done (rows_from (mrows m) (mcols m) (map fmt (columns_of m)))).
Proof.
  intros S C. unfold read_matrix. eapply within_found; [exact S|exact C|].
  set (nd := NMap _). set (r1 := mkReader (handles r) (nd :: stack r)).
  assert (Rr : read_scalar "rows" KInt true (SInt 0) r1 = (r1, Done (SInt (Z.of_nat (mrows m))))).
  { eapply within_found; [reflexivity|reflexivity|reflexivity]. }
  assert (Rc : read_scalar "cols" KInt true (SInt 0) r1 = (r1, Done (SInt (Z.of_nat (mcols m))))).
  { eapply within_found; [reflexivity|reflexivity|reflexivity]. }
  assert (Rd : read_vector "data" None true [] r1 = (r1, Done (map fmt (columns_of m)))).
  { eapply within_found; [reflexivity|reflexivity|]. cbn. rewrite column_major_columns.
    rewrite <- (map_map fmt SReal), convert_all_reals, map_real_of. reflexivity. }
  rewrite Rr, Rc, Rd. rewrite map_length, columns_length.
  replace (Z.of_nat (mrows m * mcols m) =? Z.of_nat (mrows m) * Z.of_nat (mcols m))%Z with true by (symmetry; apply Z.eqb_eq; lia).
  replace (is_size (Z.of_nat (mrows m))) with true by (symmetry; apply Z.leb_le; lia).
  replace (is_size (Z.of_nat (mcols m))) with true by (symmetry; apply Z.leb_le; lia).
  cbn [andb]. rewrite !Nat2Z.id. reflexivity.
Qed.

(** names written are the names of the class *)
Lemma write_names_list' fmt es :
  (forall e, In e es -> forall v, has_type e v -> map fst (write_entry fmt e v) = names_of e) ->
  forall vs, have_types es vs -> map fst (write_list fmt es vs) = class_names es.
Proof.
  induction es as [|e es IH]; intros H [|v vs] T; cbn in T |- *; try contradiction; [reflexivity|].
  destruct T as [T1 T2]. rewrite map_app. rewrite (H e (or_introl eq_refl) v T1). unfold class_names in *. cbn. f_equal.
  apply IH; [intros e' I; apply H; right; exact I|exact T2].
Qed.
Lemma write_names fmt e : forall v, has_type e v -> map fst (write_entry fmt e v) = names_of e.
Proof.
  induction e as [n kd|n|n s|n kd|n|es IH|n es f d IH] using entry_rect'; intros v T; destruct v; try (cbn in T; contradiction); try reflexivity.
  rewrite write_parent. rewrite has_type_parent in T. cbn [names_of]. exact (write_names_list' fmt es IH l T).
Qed.
Lemma write_list_names fmt es vs : have_types es vs -> map fst (write_list fmt es vs) = class_names es.
Proof. apply write_names_list'. intros e _. apply write_names. Qed.
Lemma lookup_in l name n : NoDup (map fst l) -> In (name, n) l -> lookup name l = Some n.
Proof.
  unfold lookup. induction l as [|[a b] l IH]; cbn; [tauto|]. intros ND [E|I].
  - injection E as -> ->. rewrite String.eqb_refl. reflexivity.
  - inversion ND as [|x y N1 N2]; subst. destruct (String.eqb_spec name a) as [->|N].
    + exfalso. apply N1. apply in_map_iff. exists (a, n). split; [reflexivity|exact I].
    + apply IH; assumption.
Qed.
Lemma lookup_none l name : ~ In name (map fst l) -> lookup name l = None.
Proof.
  unfold lookup. induction l as [|[a b] l IH]; cbn; [reflexivity|]. intros N.
  destruct (String.eqb_spec name a) as [->|_]; [exfalso; apply N; auto|]. apply IH. auto.
Qed.
Lemma lookup_filter keep l name n : NoDup (map fst l) -> In (name, n) l ->
  lookup name (filter (fun p => keep (fst p)) l) = if keep name then Some n else None.
Proof.
  intros ND I. destruct (keep name) eqn:K.
  - apply lookup_in; [|apply filter_In; split; assumption].
    clear I. induction l as [|[a b] l IH]; cbn; [constructor|]. inversion ND as [|x y N1 N2]; subst.
    destruct (keep a); cbn; [|apply IH; assumption]. constructor; [|apply IH; assumption].
    intros J. apply N1. apply in_map_iff in J as [[c e] [E J]]. cbn in E. subst c. apply filter_In in J as [J _].
    apply in_map_iff. exists (a, e). split; [reflexivity|exact J].
  - apply lookup_none. intros J. apply in_map_iff in J as [[c e] [E J]]. cbn in E. subst c. apply filter_In in J as [_ J]. cbn in J. congruence.
Qed.

(** ** reading back: names for which [keep] holds are present *)
Definition presents (keep : string -> bool) (top : node) (l : list (string * node)) : Prop :=
  forall name n, In (name, n) l -> child name top = if keep name then Some n else None.
Definition total (crash : bool) (keep : string -> bool) (names : list string) : Prop := crash = true -> forall n, In n names -> keep n = true.

Lemma patched_all_list fmt es : (forall e, In e es -> forall v d, has_type e v -> has_type e d -> patched fmt (fun _ => true) e v d = stored fmt v) ->
  forall vs dvs, have_types es vs -> have_types es dvs -> patched_list fmt (fun _ => true) es vs dvs = map (stored fmt) vs.
Proof.
  induction es as [|e es IH]; intros H [|v vs] [|w dvs] T1 T2; cbn in T1, T2 |- *; try contradiction; [reflexivity|].
  destruct T1 as [T1 T1'], T2 as [T2 T2']. rewrite (H e (or_introl eq_refl) v w T1 T2). f_equal.
  apply IH; [intros e' I; apply H; right; exact I| |]; assumption.
Qed.
Lemma patched_all fmt e : forall v d, has_type e v -> has_type e d -> patched fmt (fun _ => true) e v d = stored fmt v.
Proof.
  induction e as [n kd|n|n s|n kd|n|es IH|n es f df IH] using entry_rect'; intros v d T1 T2; destruct v; try (cbn in T1; contradiction);
    destruct d; try (cbn in T2; contradiction); try reflexivity.
  rewrite patched_parent. rewrite has_type_parent in T1, T2. rewrite (patched_all_list fmt es IH) by assumption. reflexivity.
Qed.
Lemma patched_list_all fmt es vs dvs : have_types es vs -> have_types es dvs -> patched_list fmt (fun _ => true) es vs dvs = map (stored fmt) vs.
Proof. apply patched_all_list. intros e _. apply patched_all. Qed.

Definition reads_back (fmt : R -> R) (e : entry) : Prop :=
  forall keep crash v dv k r top rest,
  has_type e v -> has_type e dv -> wf_entry e -> accepted fmt e v -> (is_parent e = true -> forall x, k x = true) ->
  total crash keep (names_of e) -> stack r = top :: rest -> presents keep top (write_entry fmt e v) ->
  read_entry crash e dv k r = (r, Done (patched fmt keep e v dv)).
Lemma read_list_back fmt es : (forall e, In e es -> reads_back fmt e) ->
  forall keep crash vs dvs k r top rest,
  have_types es vs -> have_types es dvs -> (forall e, In e es -> wf_entry e) -> all_accepted fmt es vs ->
  (has_parent es = true -> forall x, k x = true) ->
  total crash keep (class_names es) -> stack r = top :: rest -> presents keep top (write_list fmt es vs) ->
  read_list crash es dvs k r = (r, Done (patched_list fmt keep es vs dvs)).
Proof.
  induction es as [|e es IH]; intros H keep crash [|v vs] [|w dvs] k r top rest T1 T2 W A K C S P; cbn in T1, T2; try contradiction; [reflexivity|].
  destruct T1 as [T1 T1'], T2 as [T2 T2']. cbn in A. destruct A as [A1 A2]. cbn [has_parent existsb] in K.
  cbn [read_list patched_list].
  rewrite (H e (or_introl eq_refl) keep crash v w _ r top rest T1 T2 (W e (or_introl eq_refl)) A1); [| | |exact S|].
  - rewrite (IH (fun e I => H e (or_intror I)) keep crash vs dvs _ r top rest T1' T2'); [reflexivity| | | | |exact S|].
    + intros e' I. apply W. right. exact I.
    + exact A2.
    + intros HP x. apply K. unfold has_parent in HP. rewrite HP. apply orb_true_r.
    + intros Cr n I. apply (C Cr). unfold class_names in *. cbn. apply in_or_app. right. exact I.
    + intros name n I. apply P. cbn. apply in_or_app. right. exact I.
  - intros Q x. apply K. rewrite Q. reflexivity.
  - intros Cr n I. apply (C Cr). unfold class_names. cbn. apply in_or_app. left. exact I.
  - intros name n I. apply P. cbn. apply in_or_app. left. exact I.
Qed.
Lemma total_single crash keep n : total crash keep [n] -> keep n = false -> crash = false.
Proof. intros T K. destruct crash; [|reflexivity]. rewrite (T eq_refl n (or_introl eq_refl)) in K. discriminate. Qed.
Ltac missing P T K := rewrite (within_missing _ _ _ _ _ _ _ ltac:(eassumption) P), (total_single _ _ _ T K); reflexivity.
Lemma member_body_back fmt es f : (forall e, In e es -> reads_back fmt e) ->
  forall keep crash vs dvs r top rest,
  have_types es vs -> have_types es dvs -> (forall e, In e es -> wf_entry e) -> all_accepted fmt es vs ->
  accepting es f (patched_list fmt keep es vs dvs) -> total crash keep (class_names es) -> stack r = top :: rest ->
  presents keep top (write_list fmt es vs) ->
  member_body crash es f dvs r = (r, Done (patched_list fmt keep es vs dvs)).
Proof.
  intros H keep crash vs dvs r top rest T1 T2 W A [F1 F2] C S P. unfold member_body.
  rewrite (read_list_back fmt es H keep crash vs dvs f r top rest T1 T2 W A F2 C S P), F1. reflexivity.
Qed.
Lemma presents_all fmt es vs : NoDup (class_names es) -> have_types es vs -> presents (fun _ => true) (NMap (write_list fmt es vs)) (write_list fmt es vs).
Proof. intros ND T name n I. cbn. apply lookup_in; [|exact I]. rewrite write_list_names by exact T. exact ND. Qed.
Lemma read_entry_back fmt e : reads_back fmt e.
Proof.
  induction e as [n kd|n|n s|n kd|n|es IH|n es f d IH] using entry_rect'; intros keep crash v dv k r top rest T1 T2 W A K C S P;
    destruct v; try (cbn in T1; contradiction); destruct dv; try (cbn in T2; contradiction).
  - cbn in P. specialize (P _ _ (or_introl eq_refl)). cbn [read_entry patched names_of forallb]. destruct (keep n) eqn:KN; cbn [andb].
    + unfold read_scalar. rewrite (within_found _ _ _ (fmt_scalar fmt s) _ _ _ _ _ S P); [destruct s; reflexivity|]. cbn [current hd stack].
      rewrite <- T1, <- (kind_fmt fmt s), convert_kind. destruct s; reflexivity.
    + unfold read_scalar. missing P C KN.
  - cbn in P. specialize (P _ _ (or_introl eq_refl)). cbn [read_entry patched names_of forallb]. destruct (keep n) eqn:KN; cbn [andb].
    + unfold read_scalar. rewrite (within_found _ _ _ (SInt z) _ _ _ _ _ S P); reflexivity.
    + unfold read_scalar. missing P C KN.
  - cbn in P. specialize (P _ _ (or_introl eq_refl)). cbn [read_entry patched names_of forallb]. destruct (keep n) eqn:KN; cbn [andb].
    + unfold read_vector. rewrite (within_found _ _ _ (map fmt l) _ _ _ _ _ S P); [reflexivity|]. cbn [current hd stack].
      rewrite <- (map_map fmt SReal), convert_all_reals, map_real_of, !map_length.
      destruct T1 as [->| ->]; [reflexivity|]. rewrite Nat.eqb_refl. reflexivity.
    + unfold read_vector. missing P C KN.
  - cbn in P. specialize (P _ _ (or_introl eq_refl)). cbn [read_entry patched names_of forallb]. destruct (keep n) eqn:KN; cbn [andb].
    + unfold read_list_of. rewrite (within_found _ _ _ (map (fmt_scalar fmt) l) _ _ _ _ _ S P); [reflexivity|]. cbn [current hd stack].
      rewrite convert_all_kind; [reflexivity|]. intros x I. apply in_map_iff in I as [y [<- I]]. rewrite kind_fmt. apply T1. exact I.
    + unfold read_list_of. missing P C KN.
  - cbn in P. specialize (P _ _ (or_introl eq_refl)). cbn [read_entry patched names_of forallb]. destruct (keep n) eqn:KN; cbn [andb].
    + rewrite (read_matrix_found fmt _ _ _ _ _ _ _ S P). reflexivity.
    + unfold read_matrix. missing P C KN.
  - rewrite read_parent. unfold read_parent_res. rewrite write_parent in P. rewrite has_type_parent in T1, T2. rewrite accepted_parent in A.
    rewrite (read_list_back fmt es IH keep crash l l0 _ r top rest T1 T2); try assumption.
    + rewrite (K eq_refl), patched_parent. reflexivity.
    + exact (proj1 (wf_all es) W).
    + intros _ x. apply K. reflexivity.
  - rewrite write_member in P. rewrite has_type_member in T1, T2. rewrite accepted_member in A. destruct A as [A1 A2].
    specialize (P _ _ (or_introl eq_refl)). rewrite read_member. cbn [patched names_of forallb]. cbn in W. destruct W as [W1 [W2 W3]].
    destruct (keep n) eqn:KN; cbn [andb].
    + rewrite (within_found _ _ _ (map (stored fmt) l) _ _ _ _ _ S P); [reflexivity|].
      pose proof (patched_list_all fmt es l (d l0) T1 (W2 _ T2)) as PA. rewrite <- PA.
      eapply member_body_back; try eassumption; try reflexivity.
      * apply W2. exact T2.
      * exact (proj1 (wf_all es) W3).
      * rewrite PA. exact A1.
      * intros _ x _. reflexivity.
      * apply presents_all; assumption.
    + missing P C KN.
Qed.

(** ** sections of files *)
(** a reader positioned where [name] leads to a section with some of the names *)
Lemma readConfig_back fmt keep c name crash vs old r r1 rest :
  wf_class c -> have_types (c_entries c) vs -> have_types (c_entries c) old -> all_accepted fmt (c_entries c) vs ->
  accepting (c_entries c) (c_finalize c) (patched_list fmt keep (c_entries c) vs (c_defaults c old)) ->
  (crash = true -> forall n, In n (class_names (c_entries c)) -> keep n = true) ->
  descend name r = Some r1 -> r1 = mkReader (handles r) (NMap (filter (fun p => keep (fst p)) (write_list fmt (c_entries c) vs)) :: rest) -> rest = stack r ->
  readConfig c name crash old r = (r, Done (patched_list fmt keep (c_entries c) vs (c_defaults c old))).
Proof.
  intros W T1 T2 A F C D E1 E2. rewrite readConfig_shape. unfold within. rewrite D, E1, E2.
  destruct W as [W1 [W2 W3]].
  set (nd := NMap _).
  rewrite (member_body_back fmt (c_entries c) (c_finalize c) (fun e _ => read_entry_back fmt e) keep crash vs (c_defaults c old)
             (mkReader (handles r) (nd :: stack r)) nd (stack r) T1 (W2 _ T2) (proj1 (wf_all _) W3) A F C eq_refl).
  - unfold ascend. cbn. rewrite reader_eta. reflexivity.
  - intros nm n I. unfold nd. cbn. apply lookup_filter; [|exact I]. rewrite write_list_names by exact T1. exact W1.
Qed.
Lemma filter_true {A} (l : list A) : filter (fun _ => true) l = l.
Proof. induction l as [|a l IH]; cbn; [reflexivity|]. rewrite IH. reflexivity. Qed.


Lemma lookup_app_new name pre post n : ~ In name (map fst pre) -> lookup name (pre ++ (name, n) :: post) = Some n.
Proof.
  unfold lookup. induction pre as [|[a b] pre IH]; cbn; intros N.
  - rewrite String.eqb_refl. reflexivity.
  - destruct (String.eqb_spec name a) as [->|_]; [exfalso; apply N; auto|]. apply IH. auto.
Qed.
Lemma finds_descend r name l : finds r name l -> descend name r = Some (mkReader (handles r) (NMap l :: stack r)).
Proof.
  unfold finds, descend. destruct (stack r) as [|[s|s|s|top] t] eqn:E; try contradiction.
  - intros [pre [post [-> N]]].
    replace (find_root name (pre ++ NMap [(name, NMap l)] :: post)) with (Some (NMap l)); [reflexivity|]. symmetry.
    induction pre as [|h pre IH]; cbn.
    + rewrite String.eqb_refl. reflexivity.
    + assert (Rh : root_child name h = None).
      { pose proof (N h (or_introl eq_refl)) as Nh. destruct h as [|s|s|[|[a [s|s|s|x]] y]]; cbn; try reflexivity.
        destruct (String.eqb_spec name a) as [->|_]; [congruence|reflexivity]. }
      rewrite Rh. apply IH. intros h' I. apply N. right. exact I.
  - intros [pre [post [-> N]]]. cbn [child]. rewrite (lookup_app_new _ _ _ _ N). reflexivity.
Qed.
Lemma finds_nothing_descend r name : finds_nothing r name -> descend name r = None.
Proof.
  unfold finds_nothing, descend. destruct (stack r) as [|[s|s|s|top] t] eqn:E; cbn; try reflexivity.
  - intros N. replace (find_root name (handles r)) with (@None node); [reflexivity|]. symmetry.
    induction (handles r) as [|h hs IH]; cbn; [reflexivity|].
    assert (Rh : root_child name h = None).
    { pose proof (N h (or_introl eq_refl)) as Nh. destruct h as [|s|s|[|[a [s|s|s|x]] y]]; cbn; try reflexivity.
      destruct (String.eqb_spec name a) as [->|_]; [congruence|reflexivity]. }
    rewrite Rh. apply IH. intros h' I. apply N. right. exact I.
  - intros N. rewrite lookup_none by exact N. reflexivity.
Qed.
(** in the files written, every object is found *)
Lemma NoDup_middle {A} (pre post : list A) x : NoDup (pre ++ x :: post) -> ~ In x pre.
Proof. intros ND I. apply NoDup_remove_2 in ND. apply ND. apply in_or_app. left. exact I. Qed.
Lemma yaml_finds fmt objs name c vs : NoDup (map section_name objs) -> In (name, c, vs) objs ->
  finds (yaml_file fmt objs) name (section_of fmt c vs).
Proof.
  intros ND I. unfold finds, yaml_file. cbn [stack].
  set (f := fun o : string * cls * list value => let '(name, c, vs) := o in (name, NMap (write_list fmt (c_entries c) vs))).
  apply in_split in I as [pre [post ->]]. exists (map f pre), (map f post). rewrite map_app. split; [reflexivity|].
  rewrite map_map. replace (map (fun x => fst (f x)) pre) with (map section_name pre) by (apply map_ext; intros [[a b] d]; reflexivity).
  rewrite map_app in ND. exact (NoDup_middle _ _ _ ND).
Qed.
Lemma msgpack_finds objs name c vs : NoDup (map section_name objs) -> In (name, c, vs) objs ->
  finds (msgpack_file objs) name (section_of (fun x => x) c vs).
Proof.
  intros ND I. unfold finds, msgpack_file. cbn [stack handles].
  set (f := fun o : string * cls * list value => let '(name, c, vs) := o in NMap [(name, NMap (write_list (fun x => x) (c_entries c) vs))]).
  apply in_split in I as [pre [post ->]]. exists (map f pre), (map f post). rewrite map_app. split; [reflexivity|].
  rewrite map_app in ND. pose proof (NoDup_middle _ _ _ ND) as N. intros h J. apply in_map_iff in J as [[[a b] d] [<- J]]. cbn.
  intros ->. apply N. apply in_map_iff. exists (name, b, d). split; [reflexivity|exact J].
Qed.

Lemma round_trip_at fmt c vs old crash name r :
  wf_class c -> readable fmt c vs -> have_types (c_entries c) old -> finds r name (section_of fmt c vs) ->
  readConfig c name crash old r = (r, Done (map (stored fmt) vs)).
Proof.
  intros W [T1 [A F]] T2 D. pose proof W as W'. destruct W' as [_ [W2 _]]. apply finds_descend in D.
  rewrite <- (patched_list_all fmt (c_entries c) vs (c_defaults c old) T1 (W2 _ T2)).
  eapply readConfig_back; try eassumption; try reflexivity.
  - rewrite patched_list_all by auto. exact F.
  - rewrite filter_true. reflexivity.
Qed.
Lemma relaxed_read_at fmt keep c vs old name r :
  wf_class c -> readable fmt c vs -> have_types (c_entries c) old ->
  accepting (c_entries c) (c_finalize c) (patched_list fmt keep (c_entries c) vs (c_defaults c old)) ->
  finds r name (filter (fun p => keep (fst p)) (section_of fmt c vs)) ->
  readConfig c name false old r = (r, Done (patched_list fmt keep (c_entries c) vs (c_defaults c old))).
Proof.
  intros W [T1 [A F]] T2 F' D. apply finds_descend in D.
  eapply readConfig_back; try eassumption; try reflexivity. discriminate.
Qed.
Lemma missing_section c name crash old r : finds_nothing r name ->
  readConfig c name crash old r = (r, if crash then Thrown else Done (c_defaults c old)).
Proof.
  intros N. apply finds_nothing_descend in N. rewrite readConfig_shape. unfold within. rewrite N. destruct crash; reflexivity.
Qed.

(** ** strict reading of an incomplete section *)
Definition fails_on (e : entry) : Prop :=
  forall v k r top rest, has_type e v -> stack r = top :: rest -> (exists n, In n (names_of e) /\ child n top = None) ->
  exists r', read_entry true e v k r = (r', Thrown).
Lemma read_list_fails es : (forall e, In e es -> fails_on e) ->
  forall vs k r top rest, have_types es vs -> stack r = top :: rest -> (exists n, In n (class_names es) /\ child n top = None) ->
  exists r', read_list true es vs k r = (r', Thrown).
Proof.
  induction es as [|e es IH]; intros H [|v vs] k r top rest T S [n [I N]]; cbn in T; try contradiction.
  destruct T as [T1 T2]. unfold class_names in I. cbn in I. apply in_app_or in I. cbn [read_list].
  pose proof (read_entry_tidy true e v (fun v' => k (v' :: vs)) r) as Ti.
  destruct I as [I|I].
  - destruct (H e (or_introl eq_refl) v (fun v' => k (v' :: vs)) r top rest T1 S (ex_intro _ n (conj I N))) as [r' E]. rewrite E. exists r'. reflexivity.
  - destruct (read_entry true e v (fun v' => k (v' :: vs)) r) as [r1 [v1|]]; [|exists r1; reflexivity]. cbn in Ti. subst r1.
    destruct (IH (fun e I => H e (or_intror I)) vs (fun l => k (v1 :: l)) r top rest T2 S (ex_intro _ n (conj I N))) as [r' E]. rewrite E. exists r'. reflexivity.
Qed.
Lemma read_entry_fails e : fails_on e.
Proof.
  induction e as [n kd|n|n s|n kd|n|es IH|n es f d IH] using entry_rect'; intros v k r top rest T S Hn;
    destruct v; try (cbn in T; contradiction);
    try (destruct Hn as [n' [[<-|[]] N]]; exists r; cbn [read_entry]; unfold read_scalar, read_vector, read_list_of, read_matrix; rewrite (within_missing _ _ _ _ _ _ _ S N); reflexivity).
  rewrite read_parent. unfold read_parent_res. rewrite has_type_parent in T.
  destruct (read_list_fails es IH l (fun l => k (VObject l)) r top rest T S Hn) as [r' E]. rewrite E. exists r'. reflexivity.
Qed.
Lemma strict_missing c name old r l n :
  wf_class c -> have_types (c_entries c) old -> finds r name l ->
  In n (class_names (c_entries c)) -> ~ In n (map fst l) ->
  exists r', readConfig c name true old r = (r', Thrown).
Proof.
  intros [W1 [W2 W3]] T F I N. apply finds_descend in F. rewrite readConfig_shape. unfold within. rewrite F. unfold member_body.
  destruct (read_list_fails (c_entries c) (fun e _ => read_entry_fails e) (c_defaults c old) (c_finalize c) (mkReader (handles r) (NMap l :: stack r))
    (NMap l) (stack r) (W2 _ T) eq_refl) as [r' E].
  - exists n. split; [exact I|]. cbn. apply lookup_none. exact N.
  - rewrite E. exists r'. reflexivity.
Qed.
(** a nested section that cannot be read makes the whole read fail *)
Lemma read_list_fails_at crash es : forall i e v vs k r,
  nth_error es i = Some e -> nth_error vs i = Some v -> (forall k', exists r', read_entry crash e v k' r = (r', Thrown)) ->
  exists r', read_list crash es vs k r = (r', Thrown).
Proof.
  induction es as [|a es IH]; intros [|i] e v [|w vs] k r E V H; cbn in E, V; try discriminate; cbn [read_list].
  - injection E as ->. injection V as ->. destruct (H (fun v' => k (v' :: vs))) as [r' ->]. exists r'. reflexivity.
  - pose proof (read_entry_tidy crash a w (fun v' => k (v' :: vs)) r) as Ti.
    destruct (read_entry crash a w (fun v' => k (v' :: vs)) r) as [r1 [v1|]]; [|exists r1; reflexivity]. cbn in Ti. subst r1.
    destruct (IH i e v vs (fun l => k (v1 :: l)) r E V H) as [r' ->]. exists r'. reflexivity.
Qed.
Lemma nested_failure c name crash old r l i n sub vs :
  finds r name l -> nth_error (c_entries c) i = Some (EMember n (c_entries sub) (c_finalize sub) (c_defaults sub)) ->
  nth_error (c_defaults c old) i = Some (VObject vs) ->
  (exists r', readConfig sub n crash vs (mkReader (handles r) (NMap l :: stack r)) = (r', Thrown)) ->
  exists r', readConfig c name crash old r = (r', Thrown).
Proof.
  intros F E V [r0 H]. apply finds_descend in F. rewrite readConfig_shape. unfold within. rewrite F. unfold member_body.
  destruct (read_list_fails_at crash (c_entries c) i _ _ (c_defaults c old) (c_finalize c) (mkReader (handles r) (NMap l :: stack r)) E V) as [r' ->].
  - intros k'. rewrite readConfig_shape in H. rewrite read_member. destruct (within _ _ _ _ _) as [r1 [x|]]; [discriminate|]. exists r1. reflexivity.
  - exists r'. reflexivity.
Qed.

(** ** values without matrices and with exactly represented numbers come back unchanged *)
Lemma map_fix {A} (f : A -> A) l : (forall x, In x l -> f x = x) -> map f l = l.
Proof. induction l as [|a l IH]; cbn; intros H; [reflexivity|]. rewrite H by auto. rewrite IH by auto. reflexivity. Qed.
Lemma stored_fix fmt : forall v, matrix_free v -> (forall x, In x (numbers v) -> fmt x = x) -> stored fmt v = v.
Proof.
  fix IH 1. intros v N H. destruct v as [s|z|l|l|m|l]; cbn in *.
  - destruct s; try reflexivity. rewrite H by (left; reflexivity). reflexivity.
  - reflexivity.
  - rewrite map_fix by exact H. reflexivity.
  - f_equal. apply map_fix. intros s I. destruct s as [|x| |]; try reflexivity. f_equal. apply H. apply in_flat_map. exists (SReal x). split; [exact I|left; reflexivity].
  - contradiction.
  - f_equal. revert N H. induction l as [|x t IHl]; cbn; intros N H; [reflexivity|]. destruct N as [N1 N2]. f_equal.
    + apply IH; [exact N1|]. intros y I. apply H. apply in_or_app. left. exact I.
    + apply IHl; [exact N2|]. intros y I. apply H. apply in_or_app. right. exact I.
Qed.
Lemma stored_fix_list fmt l : (forall v, In v l -> matrix_free v) -> (forall x, In x (flat_map numbers l) -> fmt x = x) -> map (stored fmt) l = l.
Proof.
  intros M H. apply map_fix. intros v I. apply stored_fix; [apply M; exact I|]. intros x J. apply H. apply in_flat_map. exists v. split; assumption.
Qed.

(** ** the files *)
Lemma yaml_round_trip fmt objs name c vs old crash :
  NoDup (map section_name objs) -> In (name, c, vs) objs -> wf_class c -> readable fmt c vs -> have_types (c_entries c) old ->
  readConfig c name crash old (yaml_file fmt objs) = (yaml_file fmt objs, Done (map (stored fmt) vs)).
Proof. intros ND I W Rd T. apply round_trip_at; try assumption. apply yaml_finds; assumption. Qed.
Lemma yaml_round_trip_exact fmt objs name c vs old crash :
  NoDup (map section_name objs) -> In (name, c, vs) objs -> wf_class c -> readable fmt c vs -> have_types (c_entries c) old ->
  (forall v, In v vs -> matrix_free v) -> (forall x, In x (flat_map numbers vs) -> fmt x = x) ->
  readConfig c name crash old (yaml_file fmt objs) = (yaml_file fmt objs, Done vs).
Proof. intros ND I W Rd T M H. rewrite <- (stored_fix_list fmt vs M H). apply yaml_round_trip; assumption. Qed.
Lemma msgpack_round_trip objs name c vs old crash :
  NoDup (map section_name objs) -> In (name, c, vs) objs -> wf_class c -> readable (fun x => x) c vs -> have_types (c_entries c) old ->
  (forall v, In v vs -> matrix_free v) ->
  readConfig c name crash old (msgpack_file objs) = (msgpack_file objs, Done vs).
Proof.
  intros ND I W Rd T M. rewrite <- (stored_fix_list (fun x => x) vs M (fun x _ => eq_refl)).
  apply round_trip_at; try assumption. apply msgpack_finds; assumption.
Qed.
Lemma msgpack_round_trip_matrices objs name c vs old crash :
  NoDup (map section_name objs) -> In (name, c, vs) objs -> wf_class c -> readable (fun x => x) c vs -> have_types (c_entries c) old ->
  readConfig c name crash old (msgpack_file objs) = (msgpack_file objs, Done (map (stored (fun x => x)) vs)).
Proof. intros ND I W Rd T. apply round_trip_at; try assumption. apply msgpack_finds; assumption. Qed.

(** ** matrices *)
Lemma stored_matrix fmt m i j : (i < mrows m)%nat -> (j < mcols m)%nat ->
  mget (rows_from (mrows m) (mcols m) (map fmt (columns_of m))) i j =
  fmt (mget m ((i * mcols m + j) mod mrows m) ((i * mcols m + j) / mrows m)).
Proof.
  intros Hi Hj. unfold rows_from. cbn [mget]. unfold columns_of. rewrite map_map.
  set (f := fun x => fmt (mget m (x mod mrows m) (x / mrows m))).
  assert (B : (i * mcols m + j < mrows m * mcols m)%nat) by nia.
  rewrite (nth_indep _ 0%R (f 0%nat)) by (rewrite map_length, seq_length; exact B).
  rewrite map_nth, seq_nth by exact B. reflexivity.
Qed.
Lemma square_matrix_transposed m : mrows m = mcols m -> rows_from (mrows m) (mcols m) (columns_of m) ==m mtrans m.
Proof.
  intros Sq. split; [exact Sq|split; [symmetry; exact Sq|]]. intros i j Hi Hj. cbn in Hi, Hj.
  pose proof (stored_matrix (fun x => x) m i j Hi Hj) as E. rewrite map_id in E. rewrite E. cbn [mtrans mget].
  rewrite <- Sq in *. assert (NZ : mrows m <> 0%nat) by lia.
  rewrite (Nat.add_comm (i * mrows m)), Nat.mod_add, Nat.div_add by exact NZ. rewrite Nat.mod_small, Nat.div_small by exact Hj. reflexivity.
Qed.
Lemma row_matrix_kept m : mrows m = 1%nat -> rows_from (mrows m) (mcols m) (columns_of m) ==m m.
Proof.
  intros R1. split; [reflexivity|split; [reflexivity|]]. intros i j Hi Hj. cbn in Hi, Hj.
  pose proof (stored_matrix (fun x => x) m i j Hi Hj) as E. rewrite map_id in E. rewrite E. rewrite R1 in *.
  rewrite Nat.div_1_r, Nat.mod_1_r. replace i with 0%nat by lia. cbn. reflexivity.
Qed.
Lemma matrix_kept_iff m : rows_from (mrows m) (mcols m) (columns_of m) ==m m <->
  (forall k, (k < mrows m * mcols m)%nat -> mget m (k mod mrows m) (k / mrows m) = mget m (k / mcols m) (k mod mcols m)).
Proof.
  split.
  - intros [_ [_ H]] k Hk. assert (Hc : mcols m <> 0%nat) by nia.
    pose proof (Nat.div_mod k (mcols m) Hc) as DM. pose proof (Nat.mod_upper_bound k (mcols m) Hc) as MB.
    assert (Hi : (k / mcols m < mrows m)%nat) by (apply Nat.div_lt_upper_bound; [exact Hc|lia]).
    pose proof (stored_matrix (fun x => x) m _ _ Hi MB) as E. rewrite map_id in E.
    replace (k / mcols m * mcols m + k mod mcols m)%nat with k in E by lia. rewrite <- E. apply H; assumption.
  - intros H. split; [reflexivity|split; [reflexivity|]]. intros i j Hi Hj. cbn in Hi, Hj.
    pose proof (stored_matrix (fun x => x) m i j Hi Hj) as E. rewrite map_id in E. rewrite E.
    rewrite H by nia. rewrite (Nat.add_comm (i * mcols m)), Nat.div_add, Nat.mod_add by lia. rewrite Nat.div_small, Nat.mod_small by exact Hj. reflexivity.
Qed.

(** ** the msgpack stream *)
Lemma entry_count_names e : forall v, has_type e v -> entry_count e = length (write_entry (fun x => x) e v).
Proof.
  induction e as [n kd|n|n s|n kd|n|es IH|n es f d IH] using entry_rect'; intros v T; destruct v; try (cbn in T; contradiction); try reflexivity.
  rewrite has_type_parent in T. rewrite write_parent. cbn [entry_count].
  revert l T. induction es as [|e es IHes]; intros [|v vs] T; cbn in T |- *; try contradiction; [reflexivity|].
  destruct T as [T1 T2]. rewrite app_length. rewrite (IH e (or_introl eq_refl) v T1). f_equal. apply IHes; [|exact T2].
  intros e' I. apply IH. right. exact I.
Qed.
Lemma number_of_entries es vs : have_types es vs -> getNumberOfEntries es = length (write_list (fun x => x) es vs).
Proof.
  intros T. change (getNumberOfEntries es) with (entry_count (EParent es)). rewrite <- write_parent. apply entry_count_names. rewrite has_type_parent. exact T.
Qed.
Lemma pack_parent es vs : pack_entry (EParent es) (VObject vs) = pack_list es vs.
Proof. cbn. revert vs. induction es as [|e es IH]; intros [|v vs]; cbn; try reflexivity; rewrite IH; reflexivity. Qed.
Lemma pack_member n es f d vs : pack_entry (EMember n es f d) (VObject vs) = TScalar (SStr n) :: TMap (getNumberOfEntries es) :: pack_list es vs.
Proof. rewrite <- pack_parent. reflexivity. Qed.
Lemma decodes_pairs_app n1 n2 ts l1 r1 l2 rest : decodes_pairs n1 ts l1 r1 -> decodes_pairs n2 r1 l2 rest -> decodes_pairs (n1 + n2) ts (l1 ++ l2) rest.
Proof.
  intros H. revert n2 l2 rest. induction H as [ts|n name ts nd ts1 l rest' D P IH]; intros n2 l2 rest H2; cbn; [exact H2|].
  econstructor; [exact D|]. apply IH. exact H2.
Qed.
Lemma fmt_id_map l : map (fmt_scalar (fun x => x)) l = l.
Proof. transitivity (map (fun s => s) l); [|apply map_id]. apply map_ext. intros []; reflexivity. Qed.
Lemma pack_decodes e : forall v rest, has_type e v ->
  decodes_pairs (length (write_entry (fun x => x) e v)) (pack_entry e v ++ rest) (write_entry (fun x => x) e v) rest.
Proof.
  induction e as [n kd|n|n s|n kd|n|es IH|n es f d IH] using entry_rect'; intros v rest T; destruct v; try (cbn in T; contradiction).
  - cbn. replace (fmt_scalar (fun x => x) s) with s by (destruct s; reflexivity). repeat econstructor.
  - cbn. repeat econstructor.
  - cbn. econstructor; [|constructor]. rewrite <- (map_map SReal TScalar). apply D_array. apply map_length.
  - cbn. econstructor; [|constructor]. rewrite fmt_id_map. apply D_array. reflexivity.
  - cbn. econstructor; [|constructor]. apply D_map.
    econstructor; [constructor|]. econstructor; [constructor|]. econstructor; [|constructor].
    rewrite <- (map_map SReal TScalar). apply D_array. rewrite map_length, column_major_columns, columns_length. reflexivity.
  - rewrite write_parent, pack_parent. rewrite has_type_parent in T.
    revert l T. induction es as [|e es IHes]; intros [|v vs] T; cbn in T |- *; try contradiction; [constructor|].
    destruct T as [T1 T2]. rewrite app_length, <- app_assoc. eapply decodes_pairs_app; [apply IH; [left; reflexivity|exact T1]|].
    apply IHes; [|exact T2]. intros e' I. apply IH. right. exact I.
  - rewrite write_member, pack_member. rewrite has_type_member in T. cbn [length]. cbn [app].
    econstructor; [|constructor]. apply D_map. rewrite (number_of_entries es l T).
    revert l T. induction es as [|e es IHes]; intros [|v vs] T; cbn in T |- *; try contradiction; [constructor|].
    destruct T as [T1 T2]. rewrite app_length, <- app_assoc. eapply decodes_pairs_app; [apply IH; [left; reflexivity|exact T1]|].
    apply IHes; [|exact T2]. intros e' I. apply IH. right. exact I.
Qed.
Lemma pack_config_decodes name c vs rest : have_types (c_entries c) vs ->
  decodes (pack_config name c vs ++ rest) (NMap [(name, NMap (section_of (fun x => x) c vs))]) rest.
Proof.
  intros T. unfold pack_config. cbn [app]. apply D_map.
  pose proof (pack_decodes (EMember name (c_entries c) (c_finalize c) (c_defaults c)) (VObject vs) rest) as H.
  rewrite write_member in H. apply H. rewrite has_type_member. exact T.
Qed.
Scheme decodes_mind := Induction for decodes Sort Prop with decodes_pairs_mind := Induction for decodes_pairs Sort Prop.
Combined Scheme decodes_both from decodes_mind, decodes_pairs_mind.
Lemma map_TScalar_inj l : forall l' r r', length l = length l' -> map TScalar l ++ r = map TScalar l' ++ r' -> l = l' /\ r = r'.
Proof.
  induction l as [|a l IH]; intros [|b l'] r r' L E; cbn in *; try discriminate; [tauto|].
  injection E as -> E. injection L as L. destruct (IH l' r r' L E) as [-> ->]. tauto.
Qed.
Lemma decodes_unique :
  (forall ts n rest, decodes ts n rest -> forall n' rest', decodes ts n' rest' -> n' = n /\ rest' = rest) /\
  (forall k ts l rest, decodes_pairs k ts l rest -> forall l' rest', decodes_pairs k ts l' rest' -> l' = l /\ rest' = rest).
Proof.
  apply (decodes_both (fun ts n rest _ => forall n' rest', decodes ts n' rest' -> n' = n /\ rest' = rest)
                      (fun k ts l rest _ => forall l' rest', decodes_pairs k ts l' rest' -> l' = l /\ rest' = rest)).
  - intros s rest n' rest' H. inversion H; subst. tauto.
  - intros n l rest L n' rest' H. inversion H as [|m l' r' L' E1 E2 E3|]; subst.
    match goal with E : map TScalar _ ++ _ = map TScalar _ ++ _ |- _ => symmetry in E; destruct (map_TScalar_inj _ _ _ _ (eq_sym L') E) as [-> ->] end. tauto.
  - intros n ts l rest P IH n' rest' H. inversion H as [| |m t l' r' P']; subst. destruct (IH _ _ P') as [-> ->]. tauto.
  - intros ts l' rest' H. inversion H; subst. tauto.
  - intros n name ts nd ts1 l rest D IHD P IHP l' rest' H. inversion H as [|m nm t nd' ts1' l0 r0 D' P']; subst.
    destruct (IHD _ _ D') as [-> ->]. destruct (IHP _ _ P') as [-> ->]. tauto.
Qed.
Lemma file_decodes objs : (forall name c vs, In (name, c, vs) objs -> have_types (c_entries c) vs) ->
  decodes_file (flat_map (fun o => let '(name, c, vs) := o in pack_config name c vs) objs) (handles (msgpack_file objs)).
Proof.
  induction objs as [|[[name c] vs] objs IH]; intros H; cbn; [constructor|].
  econstructor; [apply pack_config_decodes; apply (H name c vs); left; reflexivity|].
  apply IH. intros n c' vs' I. apply (H n c' vs'). right. exact I.
Qed.
