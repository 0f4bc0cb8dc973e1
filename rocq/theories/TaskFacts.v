From Coq Require Import String List Arith Reals Bool Lra Lia.
From Verif Require Import Base BaseFacts RSum Matrix Solution SolutionSpec SolutionFacts Constraints ConstraintsSpec Task TaskSpec.
Import ListNotations.
Open Scope R_scope.

Lemma demands_GI nv ix g : Forall (fun j => (j < nv)%nat) ix ->
  demands (mkConstr nv (BodyGI ix (vconst (length ix) g)) BoundsB0) g ix.
Proof.
  intros F. split; [reflexivity|]. intros r x Hr. split; [|split; reflexivity].
  unfold row_value, coef. simpl.
  assert (B : (nth r ix 0 < nv)%nat) by (rewrite Forall_forall in F; apply F, nth_In, Hr).
  rewrite (Rsum_single nv (nth r ix 0%nat)); [rewrite Nat.eqb_refl; reflexivity|exact B|].
  intros j Hj N. replace (j =? nth r ix 0)%nat with false by (symmetry; apply Nat.eqb_neq; auto). ring.
Qed.

Lemma selected_gain ix g0 os : st_gain (fold_left selected_op os (selected_new ix g0)) = last_gain g0 os /\
  st_indices (fold_left selected_op os (selected_new ix g0)) = ix.
Proof.
  enough (G : forall t, st_gain (fold_left selected_op os t) = last_gain (st_gain t) os /\ st_indices (fold_left selected_op os t) = st_indices t)
    by (apply (G (selected_new ix g0))).
  induction os as [|o os IH]; intros t; simpl; [auto|]. destruct (IH (selected_op t o)) as [A B]. rewrite A, B.
  destruct o; simpl; auto.
Qed.

Theorem selected_current ix g0 os s : Forall (fun j => (j < Solution.getNumberOfVariables s)%nat) ix ->
  demands (st_constr (fold_left selected_op (os ++ [Form s]) (selected_new ix g0))) (last_gain g0 os) ix.
Proof.
  intros F. rewrite fold_left_app. simpl. destruct (selected_gain ix g0 os) as [A B]. unfold selected_form. cbn [st_constr]. rewrite A, B.
  apply demands_GI, F.
Qed.

Lemma variables_length l : length (variables l) = len l.
Proof. unfold variables. rewrite map_length, seq_length. reflexivity. Qed.

Lemma loc_eqb_eq a b : loc_eqb a b = true <-> a = b.
Proof.
  unfold loc_eqb. destruct a, b; simpl. rewrite andb_true_iff, !Nat.eqb_eq. split; [intros [-> ->]; reflexivity|intros E; inversion E; auto].
Qed.

(** the stored constraints: the variables of the stored location with one gain *)
Definition zt_inv (t : zero_task) : Prop :=
  exists g, c_body (zt_constr t) = BodyGI (variables (zt_location t)) (vconst (len (zt_location t)) g) /\ c_bounds (zt_constr t) = BoundsB0.

Lemma zero_inv_op t o : zt_inv t -> zt_inv (zero_op t o).
Proof.
  intros (g & A & B). destruct o; simpl; try (exists g; split; assumption). unfold zero_form.
  destruct (loc_eqb _ _); [exists g; simpl; split; assumption|]. eexists; split; reflexivity.
Qed.
Lemma zero_new_inv g id : zt_inv (zero_new g id).
Proof. exists 0. split; reflexivity. Qed.

Lemma zero_inv_run os t : zt_inv t -> zt_inv (fold_left zero_op os t).
Proof. revert t. induction os as [|o os IH]; intros t H; simpl; [exact H|]. apply IH, zero_inv_op, H. Qed.

Lemma zero_gain_run os : forall t, zt_gain (fold_left zero_op os t) = last_gain (zt_gain t) os.
Proof.
  induction os as [|o os IH]; intros t; simpl; [reflexivity|]. rewrite IH. destruct o; simpl; try reflexivity.
  unfold zero_form. destruct (loc_eqb _ _); reflexivity.
Qed.

Definition covers (s : structure) (l : Location) : Prop := (offset l + len l <= Solution.getNumberOfVariables s)%nat.

Lemma variables_bound s l : covers s l -> Forall (fun j => (j < Solution.getNumberOfVariables s)%nat) (variables l).
Proof.
  intros C. unfold covers in C. apply Forall_forall. intros j Hj. unfold variables in Hj. apply in_map_iff in Hj.
  destruct Hj as (i & <- & Hi). apply in_seq in Hi. lia.
Qed.

Lemma demands_variables s l g : covers s l ->
  demands (mkConstr (Solution.getNumberOfVariables s) (BodyGI (variables l) (vconst (len l) g)) BoundsB0) g (variables l).
Proof. intros C. pose proof (demands_GI _ (variables l) g (variables_bound s l C)) as D. rewrite variables_length in D. exact D. Qed.

(** locations found in a structure are inside *)
Lemma zero_location_covers ps t : covers (added ps) (zero_location (added ps) t).
Proof.
  unfold covers, zero_location. destruct (String.eqb (zt_id t) "") eqn:E; [simpl; lia|].
  apply layout_fits.
Qed.

Theorem zero_variables g0 id os ps : let t := fold_left zero_op (os ++ [Form (added ps)]) (zero_new g0 id) in
  exists g, demands (zt_constr t) g (variables (zero_location (added ps) t)) /\
    (zero_location (added ps) t <> zt_location (fold_left zero_op os (zero_new g0 id)) -> g = last_gain g0 os /\ zt_modified t = true).
Proof.
  cbv zeta. rewrite fold_left_app. simpl. set (u := fold_left zero_op os (zero_new g0 id)).
  assert (I : zt_inv u) by (apply zero_inv_run, zero_new_inv).
  assert (Z : zero_location (added ps) (zero_form (added ps) u) = zero_location (added ps) u).
  { unfold zero_location, zero_form. destruct (loc_eqb _ _); reflexivity. }
  rewrite Z. pose proof (zero_location_covers ps u) as C. unfold zero_form.
  destruct (loc_eqb (zero_location (added ps) u) (zt_location u)) eqn:E.
  - apply loc_eqb_eq in E. destruct I as (g & B & D). exists g. simpl. rewrite B, D, <- E. split; [|congruence].
    apply demands_variables, C.
  - exists (zt_gain u). simpl. split.
    + fold (variables (zero_location (added ps) u)). apply demands_variables, C.
    + intros _. unfold u. rewrite zero_gain_run. auto.
Qed.

(** when the same variables are formed again the gain of the earlier formation stays *)
Theorem zero_stale g0 id os ps g : let t0 := fold_left zero_op os (zero_new g0 id) in
  zero_location (added ps) t0 = zt_location t0 ->
  c_body (zt_constr (fold_left zero_op [SetGain g; Form (added ps)] t0)) = c_body (zt_constr t0) /\
  zt_modified (fold_left zero_op [SetGain g; Form (added ps)] t0) = false.
Proof.
  cbv zeta. intros E. simpl. unfold zero_form. change (zero_location (added ps) (zero_setGain g ?t)) with (zero_location (added ps) t).
  simpl. rewrite E. replace (loc_eqb _ _) with true by (symmetry; apply loc_eqb_eq; reflexivity). auto.
Qed.

(** ** the infeasible task *)
Definition it_inv (t : infeasible_task) : Prop :=
  it_nvars t = 0%nat \/
  (c_body (it_constr t) = BodyA (mkMat 1 (it_nvars t) (fun _ _ => 1)) /\ c_bounds (it_constr t) = BoundsLU (vconst 1 1) (vconst 1 (-1))).

Lemma it_run os : forall t, it_inv t -> it_inv (fold_left infeasible_op os t).
Proof.
  induction os as [|o os IH]; intros t H; simpl; [exact H|]. apply IH. destruct o; simpl; auto. unfold infeasible_form.
  destruct (_ =? _)%nat eqn:E; [|right; split; reflexivity]. exact H.
Qed.

Theorem infeasible_always os s x : (0 < Solution.getNumberOfVariables s)%nat ->
  ~ satisfies (it_constr (fold_left infeasible_op (os ++ [Form s]) infeasible_new)) x.
Proof.
  intros P S. rewrite fold_left_app in S. simpl in S. set (t := fold_left infeasible_op os infeasible_new) in *.
  assert (I : it_inv t) by (apply it_run; left; reflexivity). unfold infeasible_form in S.
  assert (X : exists c, c_body c = BodyA (mkMat 1 (Solution.getNumberOfVariables s) (fun _ _ => 1)) /\
    c_bounds c = BoundsLU (vconst 1 1) (vconst 1 (-1)) /\ satisfies c x).
  { destruct (it_nvars t =? Solution.getNumberOfVariables s)%nat eqn:E; simpl in S; [|eexists; split; [|split]; [..|exact S]; reflexivity].
    apply Nat.eqb_eq in E. destruct I as [I|[I J]]; [lia|]. eexists. split; [|split]; [..|exact S]; simpl; [rewrite I, E|]; auto. }
  destruct X as (c & B & D & S'). specialize (S' 0%nat). unfold getNumberOfConstraints, lower, upper in S'. rewrite B, D in S'. simpl in S'.
  destruct (S' ltac:(lia)) as [L U]. lra.
Qed.
