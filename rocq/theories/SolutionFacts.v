(** Proofs for C06, C07. *)
From Coq Require Import String List Arith Bool Reals Lia ZifyBool OrderedTypeEx.
From Verif Require Import Base BaseFacts Solution SolutionSpec.
Import ListNotations.
Open Scope nat_scope.

Lemma str_compare_refl s : String.compare s s = Eq.
Proof. apply String_as_OT.cmp_eq. reflexivity. Qed.
Lemma str_compare_eq a b : String.compare a b = Eq -> a = b.
Proof. apply String_as_OT.cmp_eq. Qed.

(** the map is sorted *)
Definition slt (a b : string) := String.compare a b = Lt.
Lemma slt_trans a b c : slt a b -> slt b c -> slt a c.
Proof.
  unfold slt. intros H K.
  apply String_as_OT.cmp_lt in H. apply String_as_OT.cmp_lt in K.
  apply String_as_OT.cmp_lt. eapply String_as_OT.lt_trans; eauto.
Qed.
Lemma slt_irrefl a : ~ slt a a.
Proof. unfold slt. rewrite str_compare_refl. discriminate. Qed.
Lemma str_compare_gt a b : String.compare a b = Gt -> slt b a.
Proof. unfold slt. rewrite String.compare_antisym. destruct (String.compare b a); simpl; congruence. Qed.

Fixpoint sorted (m : lmap) : Prop :=
  match m with
  | [] => True
  | (k, _) :: t => (forall k' l', In (k', l') t -> slt k k') /\ sorted t
  end.

Lemma In_insert id l m k lk : In (k, lk) (lmap_insert id l m) -> (k = id /\ lk = l) \/ In (k, lk) m.
Proof.
  induction m as [|[k0 l0] t IH]; simpl.
  - intros [E|[]]; inversion E; auto.
  - destruct (String.compare id k0).
    + auto.
    + intros [E|H]; [inversion E; auto|auto].
    + intros [E|H]; [auto|destruct (IH H); auto].
Qed.

Lemma sorted_insert id l m : sorted m -> sorted (lmap_insert id l m).
Proof.
  induction m as [|[k0 l0] t IH]; simpl; [tauto|].
  intros [H S]. destruct (String.compare id k0) eqn:C; simpl.
  - auto.
  - split; [|auto]. intros k' l' [E|I]; [inversion E; subst; exact C|].
    eapply slt_trans; [exact C|eauto].
  - split; [|auto]. intros k' l' I. apply In_insert in I. destruct I as [[-> ->]|I]; [apply str_compare_gt; exact C|eauto].
Qed.

Lemma find_In id m l : sorted m -> (lmap_find id m = Some l <-> In (id, l) m).
Proof.
  induction m as [|[k0 l0] t IH]; simpl; [intuition discriminate|].
  intros [H S]. destruct (String.eqb_spec id k0) as [->|N].
  - split.
    + intros E; inversion E; auto.
    + intros [E|I]; [inversion E; auto|]. apply H in I. exfalso; eapply slt_irrefl; eauto.
  - rewrite IH by assumption. split; [auto|]. intros [E|I]; [inversion E; congruence|auto].
Qed.

Lemma find_none_lt id m : (forall k' l', In (k', l') m -> slt id k') -> lmap_find id m = None.
Proof.
  induction m as [|[k0 l0] t IH]; simpl; [reflexivity|]. intros H.
  destruct (String.eqb_spec id k0) as [->|N].
  - exfalso; eapply slt_irrefl; eapply H; left; reflexivity.
  - apply IH. eauto.
Qed.

Lemma find_insert id l m k : sorted m ->
  lmap_find k (lmap_insert id l m) =
  match lmap_find k m with Some x => Some x | None => if String.eqb k id then Some l else None end.
Proof.
  induction m as [|[k0 l0] t IH]; simpl; [reflexivity|].
  intros [H S]. destruct (String.compare id k0) eqn:C; simpl.
  - apply str_compare_eq in C. subst id. destruct (String.eqb k k0); [reflexivity|].
    destruct (lmap_find k t); reflexivity.
  - destruct (String.eqb k id) eqn:N.
    + apply String.eqb_eq in N. subst k. assert (E : (id =? k0)%string = false).
      { apply String.eqb_neq. intros ->. eapply slt_irrefl; exact C. }
      rewrite E. rewrite find_none_lt; [reflexivity|].
      intros k' l' I. eapply slt_trans; [exact C|eauto].
    + destruct (String.eqb k k0); [reflexivity|]. destruct (lmap_find k t); reflexivity.
  - destruct (String.eqb k k0) eqn:K; [reflexivity|]. apply IH; assumption.
Qed.

(** ** Characterisation of a sequence of additions: the location of an identifier is
    the one given by its first addition *)
Fixpoint first_loc (id : string) (start : nat) (ps : list (string * nat)) : option Location :=
  match ps with
  | [] => None
  | (k, n) :: t => if String.eqb id k then Some (mkLoc start n) else first_loc id (start + n) t
  end.

Definition add1 (s : structure) (p : string * nat) := addSolutionPart s (fst p) (snd p).

Lemma add_fold ps : forall s, sorted (vmap s) ->
  let r := fold_left add1 ps s in
  sorted (vmap r) /\ nvars r = nvars s + total ps /\
  forall id, lmap_find id (vmap r) =
    match lmap_find id (vmap s) with Some x => Some x | None => first_loc id (nvars s) ps end.
Proof.
  induction ps as [|[k n] t IH]; intros s S; simpl.
  - split; [assumption|]. split; [unfold total; simpl; lia|]. intros id; destruct (lmap_find id (vmap s)); reflexivity.
  - destruct (IH (add1 s (k, n))) as (A & B & C).
    { simpl. apply sorted_insert; assumption. }
    split; [exact A|]. split.
    + rewrite B. unfold total; simpl. lia.
    + intros id. rewrite C. simpl. rewrite find_insert by assumption.
      destruct (lmap_find id (vmap s)); [reflexivity|].
      destruct (String.eqb id k); reflexivity.
Qed.

Lemma added_spec ps :
  sorted (vmap (added ps)) /\ nvars (added ps) = total ps /\
  forall id, lmap_find id (vmap (added ps)) = first_loc id 0 ps.
Proof.
  destruct (add_fold ps structure_reset I) as (A & B & C).
  split; [exact A|]. split; [exact B|]. intros id. exact (C id).
Qed.

Lemma first_loc_some id ps : forall start l, first_loc id start ps = Some l <->
  exists a n b, ps = a ++ (id, n) :: b /\ ~ In id (map fst a) /\ l = mkLoc (start + total a) n.
Proof.
  induction ps as [|[k n] t IH]; intros start l; simpl.
  - split; [discriminate|]. intros (a & m & b & E & _). destruct a; discriminate.
  - destruct (String.eqb_spec id k) as [->|N].
    + split.
      * intros E; inversion E; subst. exists [], n, t. simpl. unfold total; simpl. rewrite Nat.add_0_r. auto.
      * intros (a & m & b & E & NI & ->). destruct a as [|[ka na] a]; simpl in E; inversion E; subst.
        -- unfold total; simpl. rewrite Nat.add_0_r. reflexivity.
        -- exfalso; apply NI; left; reflexivity.
    + rewrite IH. split.
      * intros (a & m & b & -> & NI & ->). exists ((k, n) :: a), m, b. simpl. split; [reflexivity|].
        split; [intros [E|I]; [congruence|tauto]|]. unfold total; simpl. f_equal; lia.
      * intros (a & m & b & E & NI & ->). destruct a as [|[ka na] a]; simpl in E; inversion E; subst; [congruence|].
        exists a, m, b. split; [reflexivity|]. split; [intros I; apply NI; right; exact I|].
        unfold total; simpl. f_equal; lia.
Qed.

Lemma first_loc_none id ps start : first_loc id start ps = None <-> ~ In id (map fst ps).
Proof.
  revert start; induction ps as [|[k n] t IH]; intros start; simpl; [tauto|].
  destruct (String.eqb_spec id k) as [->|N].
  - split; [discriminate|]. intros H; exfalso; apply H; auto.
  - rewrite IH. intuition congruence.
Qed.

Lemma first_loc_range id ps : forall start l, first_loc id start ps = Some l ->
  start <= offset l /\ offset l + len l <= start + total ps.
Proof.
  induction ps as [|[k n] t IH]; intros start l; simpl; [discriminate|].
  unfold total in *; simpl. destruct (String.eqb id k).
  - intros E; inversion E; subst; simpl; lia.
  - intros E; apply IH in E. lia.
Qed.

Lemma first_loc_disjoint id1 id2 ps : forall start l1 l2 v,
  first_loc id1 start ps = Some l1 -> first_loc id2 start ps = Some l2 ->
  offset l1 <= v < offset l1 + len l1 -> offset l2 <= v < offset l2 + len l2 -> id1 = id2.
Proof.
  induction ps as [|[k n] t IH]; intros start l1 l2 v; simpl; [discriminate|].
  destruct (String.eqb_spec id1 k) as [->|N1], (String.eqb_spec id2 k) as [->|N2].
  - reflexivity.
  - intros E1 E2; inversion E1; subst; simpl. apply first_loc_range in E2. lia.
  - intros E1 E2; inversion E2; subst; simpl. apply first_loc_range in E1. lia.
  - apply IH.
Qed.

(** every variable of a sequence with distinct identifiers belongs to some part *)
Lemma first_loc_cover ps : forall start v, NoDup (map fst ps) ->
  start <= v < start + total ps ->
  exists id l, In id (map fst ps) /\ first_loc id start ps = Some l /\ offset l <= v < offset l + len l.
Proof.
  induction ps as [|[k n] t IH]; intros start v ND; unfold total in *; simpl; [lia|].
  intros H. inversion ND; subst. destruct (Nat.lt_ge_cases v (start + n)).
  - exists k, (mkLoc start n). rewrite String.eqb_refl. simpl. repeat split; auto; lia.
  - destruct (IH (start + n) v) as (id & l & I & E & B); [assumption|lia|].
    exists id, l. split; [auto|]. assert (id <> k) by (intros ->; tauto).
    rewrite (proj2 (String.eqb_neq id k)) by assumption. auto.
Qed.

Lemma part_location ps id : getSolutionPartLocation (added ps) id =
  match first_loc id 0 ps with Some l => l | None => mkLoc 0 0 end.
Proof. unfold getSolutionPartLocation. rewrite (proj2 (proj2 (added_spec ps))). reflexivity. Qed.

(** ** C06 *)
Lemma layout_first a id n b : ~ In id (map fst a) ->
  getSolutionPartLocation (added (a ++ (id, n) :: b)) id = mkLoc (total a) n.
Proof.
  intros N. rewrite part_location.
  rewrite (proj2 (first_loc_some id _ 0 (mkLoc (total a) n))); [reflexivity|].
  exists a, n, b. auto.
Qed.

Lemma layout_distinct a id n b : NoDup (map fst (a ++ (id, n) :: b)) ->
  getSolutionPartLocation (added (a ++ (id, n) :: b)) id = mkLoc (total a) n.
Proof.
  intros ND. apply layout_first. rewrite map_app in ND. simpl in ND.
  apply NoDup_remove_2 in ND. intros I; apply ND. apply in_or_app; auto.
Qed.

Lemma layout_number ps : getNumberOfVariables (added ps) = total ps.
Proof. apply added_spec. Qed.

Lemma layout_unknown ps id : ~ In id (map fst ps) -> getSolutionPartLocation (added ps) id = mkLoc 0 0.
Proof. intros N. rewrite part_location, (proj2 (first_loc_none id ps 0)) by assumption. reflexivity. Qed.

Lemma layout_partition ps : NoDup (map fst ps) -> forall v, v < getNumberOfVariables (added ps) ->
  exists! id, In id (map fst ps) /\ belongs (added ps) id v.
Proof.
  intros ND v Hv. rewrite layout_number in Hv.
  destruct (first_loc_cover ps 0 v ND) as (id & l & I & E & B); [lia|].
  exists id. split.
  - split; [assumption|]. unfold belongs. rewrite part_location, E. exact B.
  - intros id' [I' B']. unfold belongs in B'. rewrite part_location in B'.
    destruct (first_loc id' 0 ps) as [l'|] eqn:E'; [|simpl in B'; lia].
    eapply first_loc_disjoint; eauto.
Qed.

Lemma layout_disjoint ps id1 id2 v : belongs (added ps) id1 v -> belongs (added ps) id2 v -> id1 = id2.
Proof.
  unfold belongs. rewrite !part_location.
  destruct (first_loc id1 0 ps) as [l1|] eqn:E1; [|simpl; lia].
  destruct (first_loc id2 0 ps) as [l2|] eqn:E2; [|simpl; lia].
  intros. eapply first_loc_disjoint; eauto.
Qed.

Lemma layout_inside ps id v : belongs (added ps) id v -> v < getNumberOfVariables (added ps).
Proof.
  unfold belongs. rewrite layout_number, part_location.
  destruct (first_loc id 0 ps) as [l|] eqn:E; [|simpl; lia].
  apply first_loc_range in E. lia.
Qed.

Lemma layout_fits ps id : offset (getSolutionPartLocation (added ps) id) + len (getSolutionPartLocation (added ps) id)
  <= getNumberOfVariables (added ps).
Proof.
  rewrite layout_number, part_location.
  destruct (first_loc id 0 ps) as [l|] eqn:E; [|simpl; lia].
  apply first_loc_range in E. lia.
Qed.

Lemma readd ps id n : In id (map fst ps) ->
  let s := added ps in let s' := addSolutionPart s id n in
  (forall k, getSolutionPartLocation s' k = getSolutionPartLocation s k) /\
  getNumberOfVariables s' = getNumberOfVariables s + n /\
  (forall v k, getNumberOfVariables s <= v -> ~ belongs s' k v).
Proof.
  intros I s s'.
  assert (L : forall k, getSolutionPartLocation s' k = getSolutionPartLocation s k).
  { intros k. unfold getSolutionPartLocation, s'. simpl.
    rewrite find_insert by apply added_spec.
    destruct (lmap_find k (vmap s)) eqn:E; [reflexivity|].
    destruct (String.eqb_spec k id) as [->|]; [|reflexivity].
    exfalso. unfold s in E. rewrite (proj2 (proj2 (added_spec ps))) in E.
    apply first_loc_none in E. tauto. }
  split; [exact L|]. split; [reflexivity|].
  intros v k H B. unfold belongs in B. rewrite L in B.
  pose proof (layout_inside ps k v B). fold s in H0. lia.
Qed.

(** ** C07 *)
Lemma getData_ok s l : offset l + len l <= length (sol_x s) ->
  getData s l = Ok (segment (sol_x s) (offset l) (len l)).
Proof. intros H. unfold getData, assert_then. rewrite (proj2 (checkLength_iff _ _) H). reflexivity. Qed.

Lemma setData_ok s l d : offset l + len l <= length (sol_x s) -> len l = length d ->
  exists r, setData s l d = Ok r /\ sol_structure r = sol_structure s /\ length (sol_x r) = length (sol_x s) /\
  forall v, nth_error (sol_x r) v = if (offset l <=? v) && (v <? offset l + len l) then nth_error d (v - offset l)
                                    else nth_error (sol_x s) v.
Proof.
  intros H E. unfold setData, assert_then. rewrite (proj2 (checkLength_iff _ _) H).
  rewrite (proj2 (Nat.eqb_eq _ _) E).
  destruct (copy_into (sol_x s) (offset l) d) eqn:C.
  - eexists. split; [reflexivity|]. simpl. split; [reflexivity|]. split; [eapply copy_into_length; eauto|].
    intros v. rewrite (nth_error_copy_into _ _ _ _ _ C), E. reflexivity.
  - unfold copy_into in C. destruct (_ <=? _); discriminate.
  - unfold copy_into in C. destruct (Nat.leb_spec (offset l + length d) (length (sol_x s))); [discriminate|lia].
Qed.

(** loop invariant: parts already copied hold the old values, everything else is unchanged *)
Lemma copy_parts_spec old (olen : forall id, offset (getSolutionPartLocation (sol_structure old) id)
       + len (getSolutionPartLocation (sol_structure old) id) <= length (sol_x old)) m :
  forall s, sorted m ->
  (forall id l, In (id, l) m -> offset l + len l <= length (sol_x s)) ->
  (forall i1 l1 i2 l2 v, In (i1, l1) m -> In (i2, l2) m -> offset l1 <= v < offset l1 + len l1 ->
      offset l2 <= v < offset l2 + len l2 -> i1 = i2) ->
  exists r, copy_parts m old s = Ok r /\ sol_structure r = sol_structure s /\ length (sol_x r) = length (sol_x s) /\
   (forall id l v, In (id, l) m -> offset l <= v < offset l + len l ->
      len l = len (getSolutionPartLocation (sol_structure old) id) ->
      nth_error (sol_x r) v = nth_error (sol_x old) (offset (getSolutionPartLocation (sol_structure old) id) + (v - offset l))) /\
   (forall v, (forall id l, In (id, l) m -> offset l <= v < offset l + len l ->
      len l <> len (getSolutionPartLocation (sol_structure old) id)) -> nth_error (sol_x r) v = nth_error (sol_x s) v).
Proof.
  induction m as [|[id l] t IH]; intros s S F D; simpl.
  - exists s. repeat split; auto. intros id l v [].
  - destruct S as [S1 S2].
    assert (Ft : forall id l, In (id, l) t -> offset l + len l <= length (sol_x s)) by (intros; eapply F; right; eauto).
    assert (Dt : forall i1 l1 i2 l2 v, In (i1, l1) t -> In (i2, l2) t -> offset l1 <= v < offset l1 + len l1 ->
      offset l2 <= v < offset l2 + len l2 -> i1 = i2).
    { intros i1 l1 i2 l2 v I1 I2. apply D; right; assumption. }
    set (op := getSolutionPartLocation (sol_structure old) id).
    destruct (Nat.eqb_spec (len op) (len l)) as [E|N].
    + rewrite getData_ok by apply olen. simpl.
      destruct (setData_ok s l (segment (sol_x old) (offset op) (len op))) as (s1 & E1 & Q1 & L1 & V1).
      { eapply F; left; reflexivity. }
      { rewrite segment_length by apply olen. auto. }
      rewrite E1. simpl.
      destruct (IH s1) as (r & Er & Qr & Lr & A & B); [assumption|rewrite L1; assumption|assumption|].
      exists r. split; [exact Er|]. split; [congruence|]. split; [congruence|]. split.
      * intros id' l' v [I|I] Hv El.
        -- inversion I; subst id' l'. rewrite B.
           ++ rewrite V1. replace ((offset l <=? v) && (v <? offset l + len l)) with true by lia.
              rewrite nth_error_segment. replace (v - offset l <? len op) with true by lia. reflexivity.
           ++ intros id2 l2 I2 H2 _. assert (id = id2) by (eapply D; [left; reflexivity|right; eauto|eauto|eauto]).
              subst id2. apply S1 in I2. eapply slt_irrefl; eauto.
        -- eapply A; eauto.
      * intros v Hv. rewrite B.
        -- rewrite V1. replace ((offset l <=? v) && (v <? offset l + len l)) with false; [reflexivity|].
           destruct ((offset l <=? v) && (v <? offset l + len l)) eqn:C; [|reflexivity].
           exfalso. apply (Hv id l); [left; reflexivity|lia|]. fold op. lia.
        -- intros. apply Hv; [right; assumption|assumption].
    + destruct (IH s) as (r & Er & Qr & Lr & A & B); [assumption|assumption|assumption|].
      exists r. split; [exact Er|]. split; [congruence|]. split; [congruence|]. split.
      * intros id' l' v [I|I] Hv El; [inversion I; subst; fold op in El; congruence|eapply A; eauto].
      * intros v Hv. apply B. intros. apply Hv; [right; assumption|assumption].
Qed.

Lemma belongs_find ps id v : belongs (added ps) id v <->
  exists l, In (id, l) (vmap (added ps)) /\ offset l <= v < offset l + len l.
Proof.
  destruct (added_spec ps) as (S & _ & _).
  unfold belongs, getSolutionPartLocation. split.
  - destruct (lmap_find id (vmap (added ps))) as [l|] eqn:E; [|simpl; lia].
    intros H. exists l. split; [apply find_In; assumption|assumption].
  - intros (l & I & H). apply find_In in I; [|assumption]. rewrite I. exact H.
Qed.

Lemma In_location ps id l : In (id, l) (vmap (added ps)) -> getSolutionPartLocation (added ps) id = l.
Proof. destruct (added_spec ps) as (S & _ & _). intros I. apply find_In in I; [|assumption].
  unfold getSolutionPartLocation. rewrite I. reflexivity. Qed.

Lemma warm_start ps old : consistent_solution old ->
  exists r, sol_initialize_old (added ps) old = Ok r /\
    sol_structure r = added ps /\ length (sol_x r) = getNumberOfVariables (added ps) /\
    (forall id, In id (map fst ps) -> kept (added ps) old id ->
        exists d, getSolutionPart r id = Ok d /\ getSolutionPart old id = Ok d) /\
    (forall v, v < getNumberOfVariables (added ps) -> (forall id, belongs (added ps) id v -> ~ kept (added ps) old id) ->
        nth_error (sol_x r) v = Some 0%R).
Proof.
  intros [[qs Eo] Lo]. unfold sol_initialize_old.
  assert (OL : forall id, offset (getSolutionPartLocation (sol_structure old) id)
       + len (getSolutionPartLocation (sol_structure old) id) <= length (sol_x old)).
  { intros id. rewrite Lo, Eo. apply layout_fits. }
  destruct (copy_parts_spec old OL (vmap (added ps)) (sol_initialize_value (added ps) 0%R))
    as (r & E & Q & L & A & B).
  { apply added_spec. }
  { intros id l I. simpl. rewrite repeat_length. rewrite <- (In_location _ _ _ I). apply layout_fits. }
  { intros i1 l1 i2 l2 v I1 I2 H1 H2. apply (layout_disjoint ps i1 i2 v); apply belongs_find; eauto. }
  exists r. simpl in E, Q, L. rewrite repeat_length in L.
  split; [exact E|]. split; [exact Q|]. split; [exact L|]. split.
  - intros id I K. exists (segment (sol_x old) (offset (getSolutionPartLocation (sol_structure old) id))
         (len (getSolutionPartLocation (sol_structure old) id))).
    unfold getSolutionPart. rewrite Q. split; [|apply getData_ok, OL].
    rewrite getData_ok by (rewrite L; apply layout_fits). f_equal.
    apply nth_error_ext. intros i. rewrite !nth_error_segment. unfold kept in K. rewrite <- K.
    destruct (Nat.ltb_spec i (len (getSolutionPartLocation (added ps) id))) as [Hi|]; [|reflexivity].
    set (g := getSolutionPartLocation (added ps) id) in *.
    rewrite (A id g (offset g + i)).
    + f_equal. lia.
    + assert (Bl : belongs (added ps) id (offset g + i)) by (unfold belongs; fold g; lia).
      apply belongs_find in Bl. destruct Bl as (l' & I' & _). pose proof (In_location _ _ _ I') as El.
      unfold g. rewrite El. exact I'.
    + lia.
    + exact K.
  - intros v Hv HN. rewrite B.
    + simpl. rewrite nth_error_repeat. rewrite (proj2 (Nat.ltb_lt _ _) Hv). reflexivity.
    + intros id l I H K. apply (HN id).
      * apply belongs_find; eauto.
      * unfold kept. rewrite (In_location _ _ _ I). exact K.
Qed.

(** a stored part which does not fit into the old vector is rejected *)
Lemma copy_parts_throw old m : forall s,
  (exists id l, In (id, l) m /\ len l = len (getSolutionPartLocation (sol_structure old) id) /\
     length (sol_x old) < offset (getSolutionPartLocation (sol_structure old) id)
       + len (getSolutionPartLocation (sol_structure old) id)) ->
  (forall id l, In (id, l) m -> offset l + len l <= length (sol_x s)) ->
  copy_parts m old s = Throw.
Proof.
  induction m as [|[id l] t IH]; intros s (k & lk & I & E & H) F; [destruct I|]. simpl.
  set (op := getSolutionPartLocation (sol_structure old) id).
  assert (Ft : forall id l, In (id, l) t -> offset l + len l <= length (sol_x s)) by (intros; eapply F; right; eauto).
  destruct (Nat.eqb_spec (len op) (len l)) as [Q|Q].
  - unfold getData, assert_then. destruct (checkLength op (length (sol_x old))) eqn:C; [|reflexivity].
    apply checkLength_iff in C. simpl. destruct I as [I|I].
    { inversion I; subst. fold op in H. lia. }
    destruct (setData_ok s l (segment (sol_x old) (offset op) (len op))) as (s1 & E1 & _ & L1 & _).
    { eapply F; left; reflexivity. }
    { rewrite segment_length by assumption. auto. }
    rewrite E1. simpl. apply IH; [eauto|]. intros i' l' I'. rewrite L1. eauto.
  - destruct I as [I|I]; [inversion I; subst; fold op in E; congruence|]. apply IH; eauto.
Qed.

Lemma warm_start_rejected ps old id :
  In id (map fst ps) -> kept (added ps) old id ->
  length (sol_x old) < offset (getSolutionPartLocation (sol_structure old) id)
       + len (getSolutionPartLocation (sol_structure old) id) ->
  sol_initialize_old (added ps) old = Throw.
Proof.
  intros I K H. unfold sol_initialize_old. apply copy_parts_throw.
  - exists id, (getSolutionPartLocation (added ps) id). split; [|split; [exact K|exact H]].
    simpl. destruct (added_spec ps) as (S & _ & Fd).
    apply find_In; [assumption|]. unfold getSolutionPartLocation.
    destruct (lmap_find id (vmap (added ps))) eqn:E; [reflexivity|].
    rewrite Fd in E. apply first_loc_none in E. tauto.
  - intros k l J. simpl in *. rewrite repeat_length. rewrite <- (In_location _ _ _ J). apply layout_fits.
Qed.

Lemma copy_self m : forall s, (forall v, v < length (sol_x s) -> nth_error (sol_x s) v = Some 0%R) ->
  (forall id l, In (id, l) m -> offset l + len l <= length (sol_x s)) ->
  (forall id, offset (getSolutionPartLocation (sol_structure s) id)
       + len (getSolutionPartLocation (sol_structure s) id) <= length (sol_x s)) ->
  copy_parts_self m s = Ok s.
Proof.
  induction m as [|[id l] t IH]; intros s Z F G; [reflexivity|]. simpl.
  set (op := getSolutionPartLocation (sol_structure s) id).
  assert (Ft : forall id l, In (id, l) t -> offset l + len l <= length (sol_x s)) by (intros; eapply F; right; eauto).
  assert (Fl : offset l + len l <= length (sol_x s)) by (eapply F; left; reflexivity).
  specialize (G id) as Gi. fold op in Gi.
  destruct (Nat.eqb_spec (len op) (len l)) as [Q|Q]; [|apply IH; assumption].
  rewrite getData_ok by assumption. simpl.
  destruct (setData_ok s l (segment (sol_x s) (offset op) (len op)) Fl) as (s1 & E1 & Q1 & L1 & V1).
  { rewrite segment_length by assumption. auto. }
  rewrite E1. simpl.
  assert (s1 = s).
  { destruct s as [st x], s1 as [st1 x1]. simpl in *. subst st1. f_equal. apply nth_error_ext. intros v.
    rewrite V1. destruct ((offset l <=? v) && (v <? offset l + len l)) eqn:C; [|reflexivity].
    rewrite nth_error_segment. replace (v - offset l <? len op) with true by lia.
    rewrite !Z by lia. reflexivity. }
  subst s1. apply IH; assumption.
Qed.

Lemma warm_start_self ps : sol_initialize_old_self (added ps) = Ok (sol_initialize_value (added ps) 0%R).
Proof.
  unfold sol_initialize_old_self. apply copy_self.
  - simpl. intros v H. rewrite repeat_length in H. rewrite nth_error_repeat.
    rewrite (proj2 (Nat.ltb_lt _ _) H). reflexivity.
  - intros id l I. simpl in *. rewrite repeat_length. rewrite <- (In_location _ _ _ I). apply layout_fits.
  - intros id. simpl. rewrite repeat_length. apply layout_fits.
Qed.
