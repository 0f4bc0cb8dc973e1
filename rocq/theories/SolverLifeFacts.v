(** * Proofs for C97 *)
From Coq Require Import List Arith ZArith Reals Bool Lra Lia ZifyBool.
From Verif Require Import Base BaseFacts RSum Matrix ActiveSet ConstraintType HierarchyLevel HierarchySpec HierarchyFacts
  Constraints ConstraintsSpec ConstraintsFacts RowsSpec RowsFacts QP QPSpec QPFacts QPFacts2 Problem ProblemSpec ProblemFacts ProblemFacts2
  QpoasesBridge QpoasesBridgeSpec QpoasesBridgeFacts Backends BackendsSpec BackendsFacts Solver SolverLife SolverLifeSpec.
Import ListNotations.
Open Scope R_scope.

(** ** which hierarchies are accepted *)
Lemma equality_count (ts : list tinfo) : sumn ts = sumn (filter (fun i => ct_isEquality (tk_type (ti_task i))) ts) <->
  forall i, In i ts -> tk_n (ti_task i) = 0%nat \/ ct_isEquality (tk_type (ti_task i)) = true.
Proof.
  assert (CO : forall i ts, sumn (i :: ts) = (tk_n (ti_task i) + sumn ts)%nat) by reflexivity.
  assert (LE : forall ts, (sumn (filter (fun i => ct_isEquality (tk_type (ti_task i))) ts) <= sumn ts)%nat).
  { clear -CO. induction ts as [|i ts IH]; [apply le_n|]. cbn [filter]. destruct (ct_isEquality _); rewrite ?CO; lia. }
  induction ts as [|i ts IH]; [split; [intros _ ? []|reflexivity]|]. specialize (LE ts).
  cbn [filter]. destruct (ct_isEquality (tk_type (ti_task i))) eqn:Q; rewrite ?CO; split.
  - intros H j [<-|Hj]; [right; exact Q|]. apply IH; [lia|exact Hj].
  - intros H. f_equal. apply IH. intros j Hj. apply H. right. exact Hj.
  - intros H j [<-|Hj]; [left; lia|]. apply IH; [lia|exact Hj].
  - intros H. destruct (H i (or_introl eq_refl)) as [Z|Z]; [|congruence]. rewrite Z. apply IH. intros j Hj. apply H. right. exact Hj.
Qed.

Lemma formed_equality fo gu l l' : lreach l -> level_form fo gu l = Ok l' ->
  (level_isEquality l' = true <-> forall i, In i (lv_tasks l) -> f_n (fo (tk_id (ti_task i))) = 0%nat \/ ct_isEquality (tk_type (ti_task i)) = true) /\
  (0 < level_getNumberOfConstraints l')%nat.
Proof.
  intros R E. destruct (form_ok fo gu l l' (lreach_gf l R) E) as (F & LF & N & Pos & _ & _ & EQ & _). split; [|exact Pos].
  unfold level_isEquality. rewrite Nat.eqb_eq, N, EQ, equality_count. clear -F.
  assert (T : forall i o, formed_from fo gu i o -> (tk_n (ti_task o) = f_n (fo (tk_id (ti_task i))) /\ tk_type (ti_task o) = tk_type (ti_task i))).
  { intros i o H. apply form_task_ok in H. destruct H as (A & B & C & _). split; congruence. }
  induction F as [|i o is os H F IH]; [split; intros _ ? []|]. destruct (T _ _ H) as [T1 T2]. split; intros A j [<-|Hj].
  - rewrite <- T1, <- T2. apply A. left. reflexivity.
  - apply IH; [intros k Hk; apply A; right; exact Hk|exact Hj].
  - rewrite T1, T2. apply A. left. reflexivity.
  - apply IH; [intros k Hk; apply A; right; exact Hk|exact Hj].
Qed.

Theorem accepted_iff (par : qparams) (fo : nat -> formed) (gu : bool) (p p1 : problem) :
  preach p -> pb_formHierarchy fo gu p = Ok p1 ->
  (sv_accepts par (pb_levels p1) = true <->
   pr_two_levels par = true /\
   exists l, (pb_levels p = [l] \/ exists l0, pb_levels p = [l0; l]) /\
     forall i, In i (lv_tasks l) -> f_n (fo (tk_id (ti_task i))) = 0%nat \/ ct_isEquality (tk_type (ti_task i)) = true).
Proof.
  intros P E. destruct (preach_wf p P) as [W _]. destruct (formed_levels fo gu p p1 P E) as (F & _ & _).
  unfold sv_accepts. destruct (pr_two_levels par); [|split; [discriminate|intros [X _]; discriminate X]]. cbn [andb].
  inversion F as [E1 E2|a l' b t H0 F1 E1 E2].
  { cbn. split; [discriminate|]. intros (_ & l & [X|(l0 & X)] & _); discriminate X. }
  rewrite <- E1 in W. inversion W as [|? ? W0 W1]. subst.
  inversion F1 as [E3 E4|a2 l2 b2 t2 H1 F2 E3 E4]; subst.
  - cbn [length Nat.sub nth_error Nat.leb andb]. destruct (formed_equality fo gu a l' W0 H0) as [Q Pos].
    replace (0 <? level_getNumberOfConstraints l')%nat with true by lia. rewrite andb_true_r, Q. split.
    + intros A. split; [reflexivity|]. exists a. split; [left; reflexivity|exact A].
    + intros (_ & l & [X|(l0 & X)] & A); [injection X as ->; exact A|discriminate X].
  - inversion W1 as [|? ? W2 W3]. subst. inversion F2 as [E5 E6|a3 l3 b3 t3 H2 F3 E5 E6]; subst.
    + cbn [length Nat.sub nth_error Nat.leb andb]. destruct (formed_equality fo gu a2 l2 W2 H1) as [Q Pos].
      replace (0 <? level_getNumberOfConstraints l2)%nat with true by lia. rewrite andb_true_r, Q. split.
      * intros A. split; [reflexivity|]. exists a2. split; [right; exists a; reflexivity|exact A].
      * intros (_ & l & [X|(l0 & X)] & A); [discriminate X|]. injection X as <- ->. exact A.
    + cbn. split; [discriminate|]. intros (_ & l & [X|(l0 & X)] & _); discriminate X.
Qed.

Lemma push_counts p t i p' : pb_pushTask p t i = Ok p' ->
  Forall (fun l => level_getNumberOfConstraints l = 0%nat) (pb_levels p) -> Forall (fun l => level_getNumberOfConstraints l = 0%nat) (pb_levels p').
Proof.
  unfold pb_pushTask. intros E F. destruct (nth_error (pb_levels p) i) as [l|] eqn:L; [|discriminate]. injection E as <-. cbn [pb_levels].
  rewrite Forall_forall in *. intros m Hm. apply In_nth_error in Hm. destruct Hm as [k Hk]. rewrite nth_error_update in Hk.
  destruct ((i =? k)%nat && (i <? length (pb_levels p))%nat).
  - injection Hk as <-. unfold level_getNumberOfConstraints in *. cbn. apply nth_error_In in L. apply (F l L).
  - apply nth_error_In in Hk. apply F, Hk.
Qed.
Lemma push_all_counts ts : forall p p', fold_left (fun o ti => bind o (fun p => pb_pushTask p (fst ti) (snd ti))) ts (Ok p) = Ok p' ->
  Forall (fun l => level_getNumberOfConstraints l = 0%nat) (pb_levels p) -> Forall (fun l => level_getNumberOfConstraints l = 0%nat) (pb_levels p').
Proof.
  induction ts as [|t ts IH]; intros p p' E F; [injection E as <-; exact F|]. cbn [fold_left bind] in E.
  destruct (pb_pushTask p (fst t) (snd t)) as [q| |] eqn:Q.
  - apply (IH q p' E). eapply push_counts; eassumption.
  - exfalso. clear -E. induction ts; cbn in E; [discriminate|auto].
  - exfalso. clear -E. induction ts; cbn in E; [discriminate|auto].
Qed.
Theorem not_formed (par : qparams) (n : nat) (ts : list (task * nat)) (p p' : problem) :
  push_all n ts p = Ok p' -> sv_accepts par (pb_levels p') = false.
Proof.
  unfold push_all. intros E. assert (F := push_all_counts ts _ _ E). assert (Z : Forall (fun l => level_getNumberOfConstraints l = 0%nat) (pb_levels p')).
  { apply F. cbn [pb_reset pb_levels]. apply Forall_forall. intros l Hl. apply repeat_spec in Hl. subst. reflexivity. }
  unfold sv_accepts. destruct (nth_error (pb_levels p') (length (pb_levels p') - 1)) as [l|] eqn:L; [|apply andb_false_r].
  rewrite Forall_forall in Z. rewrite (Z l (nth_error_In _ _ L)). rewrite !andb_false_r. reflexivity.
Qed.

Theorem refused (c : call) (s : qsolver) (w : world) :
  sv_accepts (params_of c (sv_par s)) (pb_levels (cl_problem c)) = false ->
  exists t, sv_solve c s w = Thrown t /\ cs_solution t = cl_solution c /\ cs_report t = None /\ cs_world t = w /\
    sv_par (cs_solver t) = params_of c (sv_par s) /\
    sv_qp (cs_solver t) = sv_qp s /\ sv_guess (cs_solver t) = sv_guess s /\ sv_object (cs_solver t) = sv_object s.
Proof.
  intros A. unfold sv_solve. unfold params_of in *. destruct (cl_params c) as [p|]; cbn [sv_par] in *; rewrite A;
    (eexists; split; [reflexivity|]); repeat split.
Qed.

(** ** objects of the library *)
Definition holds (L : list nat) (s : qsolver) (w : world) : Prop :=
  tidy w /\
  match sv_object s with
  | None => wd_live w = L
  | Some a => wd_live w = a :: L /\ ~ In a L
  end.

Lemma existsb_not (a : nat) L : ~ In a L -> filter (fun b => negb (Nat.eqb a b)) L = L.
Proof.
  intros N. induction L as [|b L IH]; [reflexivity|]. cbn [filter]. destruct (Nat.eqb_spec a b) as [->|Ne]; [destruct N; left; reflexivity|].
  cbn [negb]. f_equal. apply IH. intros H. apply N. right. exact H.
Qed.
Lemma delete_head a L w : wd_live w = a :: L -> ~ In a L -> delete a w = Some (mkWorld L (wd_next w) (wd_calls w)).
Proof.
  intros E N. unfold delete, is_live. rewrite E. cbn [existsb filter]. rewrite Nat.eqb_refl. cbn [orb negb]. rewrite existsb_not by exact N. reflexivity.
Qed.
Lemma reset_holds L s w : holds L s w ->
  exists s' w', sv_reset s w = Some (s', w') /\ wd_live w' = L /\ wd_next w' = wd_next w /\ wd_calls w' = wd_calls w /\ tidy w' /\
    sv_par s' = sv_par s /\ sv_guess s' = None /\ sv_object s' = None /\
    sv_qp s' = mkQpo (qo_obj (sv_qp s)) (qo_con (sv_qp s)) 0 (qo_nv (sv_qp s)) None.
Proof.
  intros [T H]. unfold sv_reset. destruct (sv_object s) as [a|].
  - destruct H as [E N]. rewrite (delete_head a L w E N). do 2 eexists. split; [reflexivity|]. cbn. repeat split.
    intros b Hb. cbn. apply T. rewrite E. right. exact Hb.
  - do 2 eexists. split; [reflexivity|]. cbn. repeat split; assumption.
Qed.

(** ** a call *)
Lemma initialize_total c fo gu p l0 l1 q0 : hierarchy_of c fo gu p l0 l1 ->
  qpo_initialize (cl_cs c) (pb_levels (cl_problem c)) (so_nv (cl_solution c)) q0 <> UB.
Proof.
  intros (P & E & D & (L & EL & NG)). destruct (two_formed fo gu p _ l0 l1 P E L) as (l0' & l1' & L' & R0 & R1 & F0 & F1 & _).
  unfold described_problem in D. rewrite L in D. inversion D as [|? ? D0 D']. subst. inversion D' as [|? ? D1 _]. subst.
  set (nv := so_nv (cl_solution c)) in *. set (cs := cl_cs c) in *.
  destruct (objective_any fo gu l1 l1' cs nv true (qo_obj q0) R1 F1 D1 EL) as (o' & Eo & _).
  destruct (level_rows fo gu l0 l0' cs nv (q_general (qo_con q0)) (q_bounds (qo_con q0)) R0 F0 D0 NG) as (alu & ilu & Ea & El & SA & SI & RW).
  pose proof (ILU_range fo gu l0 l0' cs nv (q_bounds (qo_con q0)) ilu R0 F0 D0 NG El) as IR.
  unfold qpo_initialize. rewrite L'. cbn [getQPProblem fst snd]. rewrite Eo. cbn [bind].
  unfold initializeConstraints_ILU_ALU. rewrite Ea. cbn [bind]. rewrite El. cbn [bind].
  destruct (initializeSolutionBounds ilu) as [b| |] eqn:Eb; cbn [bind]; [discriminate|discriminate|]. exfalso.
  destruct SI as (SI1 & SI2 & _). destruct (Nat.eq_dec (n_simple l0') 0) as [Z|Z].
  - unfold initializeSolutionBounds in Eb. rewrite SI1, Z in Eb. cbn in Eb. discriminate.
  - destruct (solution_bounds ilu IR) as [SB1 SB2]; [rewrite SI1; lia|].
    assert (X : ~ exists v, (v < ilu_nvars ilu)%nat /\ empty_interval ilu v).
    { intros X. apply SB1 in X. congruence. }
    destruct SB2 as (lb & ub & Eb' & _); [|congruence]. intros v Hv EM. apply X. exists v. split; assumption.
Qed.

Lemma setActive_same a q q' : qpo_setActiveSet a q = Ok q' ->
  exists g, q' = mkQpo (qo_obj q) (qo_con q) (qo_nc q) (qo_nv q) (Some g) /\ length (snd g) = qo_nc q /\ length (fst g) = qo_bv q.
Proof.
  unfold qpo_setActiveSet. intros E. apply bind_ok in E. destruct E as (gc & E1 & E). apply bind_ok in E. destruct E as (gb & E2 & E). injection E as <-.
  exists (gb, gc). split; [reflexivity|]. cbn [fst snd]. split.
  - assert (X : forall n k g g', for_up n k (fun i g => bind (get_first a i) (fun t => bind (guess_constraint t) (fun q => Ok (update g i q)))) g = Ok g' ->
              length g' = length g).
    { clear. induction n as [|n IH]; intros k g g' E; cbn [for_up] in E; [injection E as <-; reflexivity|].
      apply bind_ok in E. destruct E as (g1 & E1 & E). apply IH in E. apply bind_ok in E1. destruct E1 as (t & _ & E1). apply bind_ok in E1.
      destruct E1 as (u & _ & E1). injection E1 as <-. rewrite update_length in E. exact E. }
    rewrite (X _ _ _ _ E1). apply repeat_length.
  - assert (X : forall f n k g g', for_up n k (fun i g => bind (get_first a (qo_nc q + i)) (fun t => bind (guess_bound t) (fun o =>
              Ok (match o with Some q => update g (f i) q | None => g end)))) g = Ok g' -> length g' = length g).
    { clear. intros f. induction n as [|n IH]; intros k g g' E; cbn [for_up] in E; [injection E as <-; reflexivity|].
      apply bind_ok in E. destruct E as (g1 & E1 & E). apply IH in E. apply bind_ok in E1. destruct E1 as (t & _ & E1). apply bind_ok in E1.
      destruct E1 as (u & _ & E1). injection E1 as <-. destruct u; [rewrite update_length in E|]; exact E. }
    rewrite (X _ _ _ _ _ E2). apply repeat_length.
Qed.

Lemma ready_readable cs nv q p1 l0' l1' g : ready cs nv q p1 l0' l1' -> sizes (qo_obj q) nv ->
  (forall b c, g = Some (b, c) -> length b = nv /\ length c = qo_nc q) ->
  readable (mkQpo (qo_obj q) (qo_con q) (qo_nc q) (qo_nv q) g) = true.
Proof.
  intros RD (S1 & S2 & S3) G. pose proof (rd_alu _ _ _ _ _ _ RD) as (A1 & A2 & A3 & A4). pose proof (rd_nv _ _ _ _ _ _ RD) as NV.
  pose proof (rd_nc _ _ _ _ _ _ RD) as NC. pose proof (rd_nb _ _ _ _ _ _ RD) as NB. pose proof (rd_bounds _ _ _ _ _ _ RD) as BD.
  unfold readable. unfold qo_nb in *. cbn [qo_obj qo_con qo_nc qo_nv qo_guess]. rewrite NV, S1, S2, S3, A1, A2, A3, A4, NC, NB.
  rewrite !Nat.leb_refl. cbn [andb]. rewrite !orb_true_r.
  replace ((n_simple l0' =? 0)%nat || ((nv <=? vlen (q_lb (qo_con q)))%nat && (nv <=? vlen (q_ub (qo_con q)))%nat)) with true.
  2:{ destruct (Nat.eqb_spec (n_simple l0') 0) as [Z|Z]; [reflexivity|]. destruct (BD ltac:(lia)) as (B1 & B2 & _). rewrite B1, B2, Nat.leb_refl. reflexivity. }
  cbn [andb]. destruct g as [[b c]|]; [|reflexivity]. destruct (G b c eq_refl) as [G1 G2]. rewrite G1, G2, NC, !Nat.leb_refl. reflexivity.
Qed.

Lemma call_args q g : qpoases_call (mkQpo (qo_obj q) (qo_con q) (qo_nc q) (qo_nv q) g) = qpoases_call q.
Proof. destruct q. reflexivity. Qed.
Lemma get_same wsb wsc q g p : qpo_getActiveSet wsb wsc (mkQpo (qo_obj q) (qo_con q) (qo_nc q) (qo_nv q) g) p = qpo_getActiveSet wsb wsc q p.
Proof. destruct q. reflexivity. Qed.

Lemma guess_read c : sized c -> exists g, read_guess (cl_memory c) (so_nv (cl_solution c)) (cl_guess c) = Some g /\
  (cl_guess c = None -> g = None) /\
  (forall a, cl_guess c = Some a -> exists v u, cl_memory c a = Some v /\ g = Some u /\ vlen u = so_nv (cl_solution c) /\
     forall i, (i < so_nv (cl_solution c))%nat -> vget u i = vget v i).
Proof.
  intros (S1 & _). unfold read_guess. destruct (cl_guess c) as [a|] eqn:G.
  - destruct (S1 a eq_refl) as (v & M & Le). rewrite M. replace (_ <=? _)%nat with true by lia. eexists. split; [reflexivity|]. split; [discriminate|].
    intros b E. injection E as <-. exists v. eexists. split; [exact M|]. split; [reflexivity|]. split; [reflexivity|]. intros i _. reflexivity.
  - eexists. split; [reflexivity|]. split; [reflexivity|discriminate].
Qed.

Lemma qp_sizes c fo gu p l0 l1 q0 q : hierarchy_of c fo gu p l0 l1 ->
  qpo_initialize (cl_cs c) (pb_levels (cl_problem c)) (so_nv (cl_solution c)) q0 = Ok q -> sizes (qo_obj q) (so_nv (cl_solution c)).
Proof.
  intros (P & E & D & (L & EL & NG)) I. destruct (two_formed fo gu p _ l0 l1 P E L) as (l0' & l1' & L' & R0 & R1 & F0 & F1 & _).
  unfold described_problem in D. rewrite L in D. inversion D as [|? ? D0 D']. subst. inversion D' as [|? ? D1 _]. subst.
  destruct (objective_any fo gu l1 l1' (cl_cs c) (so_nv (cl_solution c)) true (qo_obj q0) R1 F1 D1 EL) as (o' & Eo & (SZ & _)).
  unfold qpo_initialize in I. rewrite L' in I. cbn [getQPProblem fst snd] in I. rewrite Eo in I. cbn [bind] in I.
  apply bind_ok in I. destruct I as (r & Er & I). apply bind_ok in Er. destruct Er as (q' & _ & Er). injection Er as <-. injection I as <-. exact SZ.
Qed.

(** what is left of a call after solveHierarchy() *)
Definition library_call (P : qparams) (a : nat) (q : qpo) (g : option vec) (act : option (list qstatus * list qstatus)) : libcall :=
  mkLibcall a (qpoases_call q) (pr_options P) (pr_max_iterations P)
    (if Req_EM_T (pr_max_cpu_time P) 0 then None else Some (pr_max_cpu_time P)) g act.

Lemma library_part c P L a q act p1 l0' l1' n calls : sized c -> ready (cl_cs c) (so_nv (cl_solution c)) q p1 l0' l1' -> sizes (qo_obj q) (so_nv (cl_solution c)) ->
  (forall gb gc, act = Some (gb, gc) -> length gb = so_nv (cl_solution c) /\ length gc = qo_nc q) ->
  exists g so, read_guess (cl_memory c) (so_nv (cl_solution c)) (cl_guess c) = Some g /\
    written (cl_library c (library_call P a q g act)) (cl_solution c) so /\
    sv_solveHierarchy c (mkCState (mkQSolver P (mkQpo (qo_obj q) (qo_con q) (qo_nc q) (qo_nv q) act) (cl_guess c) (Some a)) (cl_solution c) None (mkWorld (a :: L) n calls)) =
      Returned (mkCState (mkQSolver P (mkQpo (qo_obj q) (qo_con q) (qo_nc q) (qo_nv q) None) None (Some a)) so None
        (mkWorld (a :: L) n (library_call P a q g act :: calls))).
Proof.
  intros S RD SZ G. destruct (guess_read c S) as (g & RG & _). exists g. pose proof (rd_nv _ _ _ _ _ _ RD) as NV. destruct S as (_ & S2 & _).
  unfold sv_solveHierarchy. cbn [cs_solver cs_solution cs_report cs_world sv_object sv_par sv_qp sv_guess].
  rewrite (ready_readable _ _ _ _ _ _ act RD SZ G). unfold is_live. cbn [wd_live existsb]. rewrite Nat.eqb_refl. cbn [orb andb].
  cbn [qo_nv qo_obj qo_con qo_nc qo_guess]. rewrite call_args.
  replace (read_guess (cl_memory c) (qo_nv q) (cl_guess c)) with (Some g) by (rewrite NV; symmetry; exact RG).
  fold (library_call P a q g act). set (k := library_call P a q g act).
  assert (W : forall so, so_nv so = so_nv (cl_solution c) -> so_status so = switch_status (an_code (cl_library c k)) -> vlen (so_x so) = vlen (so_x (cl_solution c)) ->
     so_details so = match so_details (cl_solution c) with Some _ => Some (an_code (cl_library c k), an_iterations (cl_library c k)) | None => None end ->
     (forall x, an_primal (cl_library c k) = Some x -> forall i, (i < so_nv (cl_solution c))%nat -> vget (so_x so) i = x i) ->
     (an_primal (cl_library c k) = None -> so_x so = so_x (cl_solution c)) -> written (cl_library c k) (cl_solution c) so).
  { intros so H1 H2 H3 H4 H5 H6. constructor; try assumption.
    - rewrite H2. destruct (an_code (cl_library c k)); cbn; split; intros; congruence.
    - rewrite H2. destruct (an_code (cl_library c k)); cbn; split; intros; congruence.
    - rewrite H2. destruct (an_code (cl_library c k)); discriminate.
    - intros d Hd. rewrite H4, Hd. reflexivity. }
  cbn [bridge_status]. cbv zeta. destruct (an_primal (cl_library c k)) as [x|] eqn:PX.
  - replace (qo_nv q <=? vlen (so_x (cl_solution c)))%nat with true by lia. eexists. split; [exact RG|]. split; [|reflexivity]. apply W; try reflexivity.
    + intros y E i Hi. cbn [so_x vget]. replace (i <? qo_nv q)%nat with true by lia. congruence.
    + discriminate.
  - eexists. split; [exact RG|]. split; [|reflexivity]. apply W; try reflexivity; discriminate.
Qed.

(** ** the whole call *)
Definition reported (c : call) (an : answer) (t : cstate) : Prop :=
  exists v0 v1, cs_report t = Some [v0; v1] /\ fits [v0; v1] (cl_problem c) /\ Forall (eq EQUALITY) v1 /\
    forall l i j, nth_error (pb_levels (cl_problem c)) 0 = Some l -> In i (lv_tasks l) -> (j < len (ti_loc i))%nat ->
      exists u, nth_error v0 (offset (ti_loc i) + j) = Some u /\ reports (cl_cs c) l (an_wsb an) (an_wsc an) i j u.

Lemma proper_accepted c fo gu p l0 l1 P : hierarchy_of c fo gu p l0 l1 -> pr_two_levels P = true -> sv_accepts P (pb_levels (cl_problem c)) = true.
Proof.
  intros (H1 & H2 & H3 & (L & EL & NG)) T. apply (accepted_iff P fo gu p _ H1 H2). split; [exact T|]. exists l1. split; [right; exists l0; exact L|].
  intros i Hi. right. apply EL, Hi.
Qed.

(** checkResults() and getActiveSet() *)
Lemma last_part c P L a q so n k calls fo gu p l0 l1 q0 : hierarchy_of c fo gu p l0 l1 ->
  qpo_initialize (cl_cs c) (pb_levels (cl_problem c)) (so_nv (cl_solution c)) q0 = Ok q ->
  lc_problem k = qpoases_call q -> written (cl_library c k) (cl_solution c) so ->
  let t := mkCState (mkQSolver P (mkQpo (qo_obj q) (qo_con q) (qo_nc q) (qo_nv q) None) None (Some a)) so None (mkWorld (a :: L) n (k :: calls)) in
  let r := andthen (sv_checkResults t) (fun t => if cl_report c then sv_getActiveSet c t else Returned t) in
  exists t', (r = Returned t' \/ r = Thrown t') /\ cs_solver t' = cs_solver t /\ cs_world t' = cs_world t /\ cs_solution t' = so /\
    (pr_crash P = true -> an_code (cl_library c k) <> CODE_SUCCESS -> r = Thrown t') /\
    (r = Returned t' -> pr_crash P = true -> an_code (cl_library c k) = CODE_SUCCESS) /\
    (cl_report c = false -> cs_report t' = None /\ (r = Thrown t' -> pr_crash P = true /\ an_code (cl_library c k) <> CODE_SUCCESS)) /\
    (cl_report c = true -> sensible (cl_library c k) k ->
       (r = Thrown t' -> pr_crash P = true /\ an_code (cl_library c k) <> CODE_SUCCESS) /\
       (r = Returned t' -> reported c (cl_library c k) t')).
Proof.
  intros HI I LP WR t r. unfold r, sv_checkResults. cbn [cs_solver sv_par cs_solution t].
  assert (OKC : is_ok (so_status so) = true <-> an_code (cl_library c k) = CODE_SUCCESS).
  { rewrite <- (wr_ok _ _ _ WR). destruct (so_status so); cbn; split; intros; congruence. }
  destruct (pr_crash P && negb (is_ok (so_status so))) eqn:CR.
  - apply andb_prop in CR. destruct CR as [CR NS]. assert (NC : an_code (cl_library c k) <> CODE_SUCCESS).
    { intros X. apply OKC in X. rewrite X in NS. discriminate. }
    cbn [andthen]. exists t. split; [right; reflexivity|]. repeat split; try reflexivity; try assumption; try discriminate.
  - assert (OK' : pr_crash P = true -> an_code (cl_library c k) = CODE_SUCCESS).
    { intros X. rewrite X in CR. cbn [andb] in CR. apply OKC. destruct (is_ok (so_status so)); [reflexivity|discriminate]. }
    cbn [andthen]. destruct (cl_report c) eqn:RP.
    + unfold sv_getActiveSet. cbn [t cs_world wd_calls]. cbv zeta. fold t. cbn [cs_solver t sv_qp]. fold t. rewrite get_same.
      set (an := cl_library c k) in *. destruct HI as (P1 & E1 & D1 & T1).
      destruct (init_ready fo gu p (cl_problem c) (cl_cs c) (so_nv (cl_solution c)) l0 l1 q0 q P1 E1 D1 T1 I) as (l0' & l1' & RD & _).
      assert (NU : qpo_getActiveSet (an_wsb an) (an_wsc an) q (cl_problem c) <> UB).
      { unfold qpo_getActiveSet. rewrite (rd_bv _ _ _ _ _ _ RD), (rd_nv _ _ _ _ _ _ RD), Nat.ltb_irrefl, andb_false_r, (rd_active _ _ _ _ _ _ RD). cbn [bind].
        pose proof (rd_pos _ _ _ _ _ _ RD) as Pos. rewrite (rd_nc _ _ _ _ _ _ RD), (rd_nb _ _ _ _ _ _ RD).
        replace (_ + _ =? 0)%nat with false by lia. rewrite set_second. cbn [bind].
        assert (PF : forall n k f a, (forall i, f i <> UB) -> for_up n k (fun i a => bind (f i) (put_first a i)) a <> UB /\ forall m, for_up n k (fun i a => bind (f i) (put_first a (m + i))) a <> UB).
        { clear. intros n0. induction n0 as [|n0 IH]; intros k0 f a0 Hf; [split; [discriminate|intros m; discriminate]|].
          assert (ST : forall j, bind (f k0) (put_first a0 j) <> UB).
          { intros j. pose proof (Hf k0) as Q. destruct (f k0) as [x| |]; cbn [bind]; [|discriminate|contradiction].
            unfold put_first, read_at. destruct (nth_error a0 0) as [v|]; cbn [bind]; [|discriminate]. unfold as_put, write_at, assert_then.
            destruct (_ <? _)%nat; cbn [bind]; [destruct (_ <? _)%nat|]; discriminate. }
          cbn [for_up]. split.
          - specialize (ST k0). destruct (bind (f k0) (put_first a0 k0)) as [a1| |]; cbn [bind]; [apply IH, Hf|discriminate|contradiction].
          - intros m. specialize (ST (m + k0)%nat). destruct (bind (f k0) (put_first a0 (m + k0))) as [a1| |]; cbn [bind]; [apply IH, Hf|discriminate|contradiction]. }
        match goal with |- bind ?m _ <> UB => destruct m as [a2| |] eqn:E2 end; cbn [bind]; [|discriminate|].
        - apply PF. intros i. unfold bound_status. cbv zeta. unfold assert_then. repeat match goal with |- context [if ?b then _ else _] => destruct b end; discriminate.
        - exfalso. revert E2. apply PF. intros i. unfold general_status. repeat match goal with |- context [if ?b then _ else _] => destruct b end; discriminate. }
      destruct (qpo_getActiveSet (an_wsb an) (an_wsc an) q (cl_problem c)) as [ac| |] eqn:GA; [| |contradiction].
      * eexists. split; [left; reflexivity|]. split; [reflexivity|]. split; [reflexivity|]. split; [reflexivity|].
        split; [intros X Y; destruct (Y (OK' X))|]. split; [intros _ X; exact (OK' X)|]. split; [discriminate|].
        intros _ (W1 & W2). split; [discriminate|]. intros _. rewrite LP in W1, W2. cbn [qpoases_call qa_nC qa_nV] in W1, W2. rewrite (rd_nv _ _ _ _ _ _ RD) in W2.
        destruct (bridge_reports fo gu p (cl_problem c) (cl_cs c) (so_nv (cl_solution c)) l0 l1 q0 q (an_wsb an) (an_wsc an) P1 E1 D1 T1 I W1 W2) as (v0 & v1 & GA' & FT & EQ & RR).
        rewrite GA in GA'. injection GA' as ->. exists v0, v1. split; [reflexivity|]. split; [exact FT|]. split; [exact EQ|exact RR].
      * exists t. split; [right; reflexivity|]. split; [reflexivity|]. split; [reflexivity|]. split; [reflexivity|].
        split; [intros X Y; destruct (Y (OK' X))|]. split; [discriminate|]. split; [discriminate|].
        intros _ (W1 & W2). exfalso. rewrite LP in W1, W2. cbn [qpoases_call qa_nC qa_nV] in W1, W2. rewrite (rd_nv _ _ _ _ _ _ RD) in W2.
        destruct (bridge_reports fo gu p (cl_problem c) (cl_cs c) (so_nv (cl_solution c)) l0 l1 q0 q (an_wsb an) (an_wsc an) P1 E1 D1 T1 I W1 W2) as (v0 & v1 & GA' & _).
        congruence.
    + exists t. split; [left; reflexivity|]. split; [reflexivity|]. split; [reflexivity|]. split; [reflexivity|].
      split; [intros X Y; destruct (Y (OK' X))|]. split; [intros _ X; exact (OK' X)|]. split; [intros _; split; [reflexivity|discriminate]|discriminate].
Qed.

(** what a proper call does *)
Record effect (P : qparams) (c : call) (w : world) (l0 l1 : level) (r : result cstate) (t : cstate) (k : libcall) : Prop := mkEffect {
  ef_calls : wd_calls (cs_world t) = k :: wd_calls w;
  ef_gets : gets P c w l0 l1 k;
  ef_written : written (cl_library c k) (cl_solution c) (cs_solution t);
  ef_failure : pr_crash P = true -> an_code (cl_library c k) <> CODE_SUCCESS -> r = Thrown t;
  ef_success : r = Returned t -> pr_crash P = true -> an_code (cl_library c k) = CODE_SUCCESS;
  ef_plain : cl_report c = false -> cs_report t = None /\ (r = Thrown t -> pr_crash P = true /\ an_code (cl_library c k) <> CODE_SUCCESS);
  ef_report : cl_report c = true -> sensible (cl_library c k) k ->
       (r = Thrown t -> pr_crash P = true /\ an_code (cl_library c k) <> CODE_SUCCESS) /\ (r = Returned t -> reported c (cl_library c k) t)
}.

Theorem call_effect (L : list nat) (c : call) (s : qsolver) (w : world) (fo : nat -> formed) (gu : bool) (p : problem) (l0 l1 : level) :
  holds L s w -> sized c -> hierarchy_of c fo gu p l0 l1 -> pr_two_levels (params_of c (sv_par s)) = true ->
  exists t, (sv_solve c s w = Returned t \/ sv_solve c s w = Thrown t) /\ holds L (cs_solver t) (cs_world t) /\
    sv_par (cs_solver t) = params_of c (sv_par s) /\
    ((sv_solve c s w = Thrown t /\ wd_calls (cs_world t) = wd_calls w /\ cs_solution t = cl_solution c /\ cs_report t = None /\ ~ acceptable_call c l0) \/
     (acceptable_call c l0 /\ exists k, effect (params_of c (sv_par s)) c w l0 l1 (sv_solve c s w) t k)).
Proof.
  intros HO SZ HI TL. set (P := params_of c (sv_par s)) in *. set (nv := so_nv (cl_solution c)) in *.
  set (s1 := match cl_params c with Some p0 => mkQSolver p0 (sv_qp s) (sv_guess s) (sv_object s) | None => s end).
  assert (S1 : sv_par s1 = P /\ sv_qp s1 = sv_qp s /\ sv_object s1 = sv_object s) by (unfold s1, P, params_of; destruct (cl_params c); repeat split).
  destruct S1 as (S1 & S2 & S3).
  assert (H1 : holds L s1 w) by (destruct HO as [HA HB]; split; [exact HA|rewrite S3; exact HB]).
  assert (T : tidy w) by apply HO.
  destruct (reset_holds L s1 w H1) as (sr & wr & ER & WL & WN & WC & TW & RP & RG & RO & RQ).
  pose proof (proper_accepted c fo gu p l0 l1 P HI TL) as AC.
  unfold sv_solve. fold s1. rewrite S1, AC. unfold sv_initialize at 1 2 3 4. cbn [cs_solver cs_world cs_solution cs_report]. rewrite ER.
  pose proof (initialize_total c fo gu p l0 l1 (sv_qp sr) HI) as IT. fold nv in IT |- *.
  destruct (qpo_initialize (cl_cs c) (pb_levels (cl_problem c)) nv (sv_qp sr)) as [q| |] eqn:IQ; [| |contradiction].
  2:{ cbn [andthen]. eexists. split; [right; reflexivity|]. cbn [cs_solver cs_world cs_solution cs_report sv_par].
      split; [split; [exact TW|cbn; exact WL]|]. split; [congruence|]. left. split; [reflexivity|]. split; [exact WC|]. split; [reflexivity|]. split; [reflexivity|].
      intros (X & _). destruct HI as (P1 & E1 & D1 & T1).
      apply (bridge_accepted fo gu p (cl_problem c) (cl_cs c) nv l0 l1 (sv_qp sr) P1 E1 D1 T1) in X. destruct X as (s' & E'). congruence. }
  assert (SP : exists x, (forall i, In i (lv_tasks l0) -> simple_task (ti_task i) = true -> satisfies (cl_cs c (tk_id (ti_task i))) x) /\
     forall v, (v < so_nv (cl_solution c))%nat -> - g_infinity <= x v <= g_infinity).
  { destruct HI as (P1 & E1 & D1 & T1). apply (bridge_accepted fo gu p (cl_problem c) (cl_cs c) nv l0 l1 (sv_qp sr) P1 E1 D1 T1). exists q. exact IQ. }
  cbn [andthen]. rewrite WN. set (a := wd_next w). rewrite WL, WC, RP, S1.
  assert (HL : holds L (mkQSolver P q None (Some a)) (mkWorld (a :: L) (S a) (wd_calls w))).
  { split; [|cbn; split; [reflexivity|]].
    - intros b [<-|Hb]; cbn; [lia|]. rewrite <- WL in Hb. apply TW in Hb. unfold a. lia.
    - intros Ha. rewrite <- WL in Ha. apply TW in Ha. unfold a in Ha. lia. }
  assert (HLS : forall q' g' calls, holds L (mkQSolver P q' g' (Some a)) (mkWorld (a :: L) (S a) calls)) by (intros; exact HL).
  set (t1 := mkCState (mkQSolver P q None (Some a)) (cl_solution c) None (mkWorld (a :: L) (S a) (wd_calls w))).
  assert (G2 : (match cl_guess c with Some b => sv_setSolutionGuess b t1 | None => Returned t1 end) =
     Returned (mkCState (mkQSolver P q (cl_guess c) (Some a)) (cl_solution c) None (mkWorld (a :: L) (S a) (wd_calls w)))).
  { destruct (cl_guess c); reflexivity. }
  rewrite G2. cbn [andthen].
  pose proof HI as (P1 & E1 & D1 & T1).
  destruct (init_ready fo gu p (cl_problem c) (cl_cs c) nv l0 l1 (sv_qp sr) q P1 E1 D1 T1 IQ) as (l0' & l1' & RD & _).
  pose proof (qp_sizes c fo gu p l0 l1 _ _ HI IQ) as QS.
  destruct (qpoases_solves fo gu p (cl_problem c) (cl_cs c) nv l0 l1 (sv_qp sr) q P1 E1 D1 T1 IQ) as [M1 M2].
  pose proof (qpoases_points fo gu p (cl_problem c) (cl_cs c) nv l0 l1 (sv_qp sr) q P1 E1 D1 T1 IQ) as M3.
  destruct (guess_read c SZ) as (g & RGU & GN & GS).
  assert (QG : qo_guess q = None).
  { unfold qpo_initialize in IQ. apply bind_ok in IQ. destruct IQ as (r & _ & IQ). injection IQ as <-. reflexivity. }
  (* from solveHierarchy() on *)
  assert (REST : forall act, (forall gb gc, act = Some (gb, gc) -> length gb = nv /\ length gc = qo_nc q) ->
     (cl_active c = None -> act = None) ->
     (forall b, cl_active c = Some b -> exists l v g, nth_error (pb_levels (cl_problem c)) 0 = Some l /\ nth_error b 0 = Some v /\ act = Some g /\ same_active_set (cl_cs c) nv l v g) ->
     let r := andthen (sv_solveHierarchy c (mkCState (mkQSolver P (mkQpo (qo_obj q) (qo_con q) (qo_nc q) (qo_nv q) act) (cl_guess c) (Some a)) (cl_solution c) None (mkWorld (a :: L) (S a) (wd_calls w))))
                (fun t => andthen (sv_checkResults t) (fun t => if cl_report c then sv_getActiveSet c t else Returned t)) in
     exists t, (r = Returned t \/ r = Thrown t) /\ holds L (cs_solver t) (cs_world t) /\ sv_par (cs_solver t) = P /\ exists k, effect P c w l0 l1 r t k).
  { intros act AL AN AS r. destruct (library_part c P L a q act (cl_problem c) l0' l1' (S a) (wd_calls w) SZ RD QS AL) as (g' & so & RGU' & WR & EQ).
    rewrite RGU in RGU'. injection RGU' as <-. unfold r. rewrite EQ. cbn [andthen].
    destruct (last_part c P L a q so (S a) (library_call P a q g act) (wd_calls w) fo gu p l0 l1 (sv_qp sr) HI IQ eq_refl WR) as (t & HR & HS & HW & HSO & F1 & F2 & F3 & F4).
    exists t. split; [exact HR|]. split; [rewrite HS, HW; apply HLS|]. split; [rewrite HS; reflexivity|].
    exists (library_call P a q g act). constructor; try assumption.
    - rewrite HW. reflexivity.
    - constructor; cbn [library_call lc_object lc_options lc_iterations lc_time lc_guess lc_active lc_problem]; try reflexivity.
      + unfold a. intros Ha. apply T in Ha. lia.
      + intros Z. destruct (Req_EM_T _ _); [reflexivity|contradiction].
      + intros Z. destruct (Req_EM_T _ _); [contradiction|reflexivity].
      + exact GN.
      + exact GS.
      + exact AN.
      + exact AS.
      + split; [cbn; apply (rd_nv _ _ _ _ _ _ RD)|]. split; [exact M1|exact M2].
      + exact M3.
    - rewrite HSO. exact WR. }
  destruct (cl_active c) as [ac|] eqn:AC2.
  - destruct SZ as (_ & _ & SZ3). specialize (SZ3 ac AC2). pose proof SZ3 as [LEN _]. unfold pb_getNumberOfLevels in LEN. rewrite (rd_levels _ _ _ _ _ _ RD) in LEN.
    destruct ac as [|v rest]; [discriminate|].
    destruct (bridge_guess fo gu p (cl_problem c) (cl_cs c) nv l0 l1 (sv_qp sr) q (v :: rest) P1 E1 D1 T1 IQ SZ3 v eq_refl) as [BG1 BG2].
    unfold sv_setActiveSet. cbn [cs_solver sv_qp sv_par sv_guess sv_object].
    assert (UD : In UNDEFINED v \/ ~ In UNDEFINED v).
    { clear. induction v as [|x v IH]; [right; intros []|]. destruct IH as [IH|IH]; [left; right; exact IH|].
      destruct x; try (right; intros [X|X]; [discriminate X|exact (IH X)]). left. left. reflexivity. }
    destruct UD as [UD|UD].
    + rewrite (BG2 UD). cbn [andthen]. eexists. split; [right; reflexivity|]. cbn [with_solver cs_solver cs_world cs_solution cs_report sv_par].
      split; [apply HLS|]. split; [reflexivity|]. left. split; [reflexivity|]. split; [reflexivity|]. split; [reflexivity|]. split; [reflexivity|].
      intros (_ & X). exact (X (v :: rest) v AC2 eq_refl UD).
    + destruct (BG1 UD) as (gb & gc & s' & ES & EG & EO & EC & LC & LB & BG). rewrite ES. cbn [andthen with_solver cs_solution cs_report cs_world].
      destruct (setActive_same _ _ _ ES) as (g2 & -> & L1 & L2). cbn [qo_guess] in EG. injection EG as ->.
      destruct (REST (Some (gb, gc))) as (t & R1 & R2 & R3 & R4).
      * intros b0 c0 E. injection E as <- <-. split; [exact LB|exact L1].
      * discriminate.
      * intros b E. injection E as <-. exists l0', v, (gb, gc). split; [rewrite (rd_levels _ _ _ _ _ _ RD); reflexivity|]. split; [reflexivity|]. split; [reflexivity|].
        destruct (BG l0') as [B1 B2]; [rewrite (rd_levels _ _ _ _ _ _ RD); reflexivity|]. split; [exact LB|]. split; [exact B1|exact B2].
      * exists t. split; [exact R1|]. split; [exact R2|]. split; [exact R3|]. right. split; [|exact R4]. split; [exact SP|]. rewrite AC2. intros b u Hb Hu. injection Hb as <-. injection Hu as <-. exact UD.
  - cbn [andthen]. assert (QE : mkQpo (qo_obj q) (qo_con q) (qo_nc q) (qo_nv q) None = q) by (rewrite <- QG; destruct q; reflexivity).
    destruct (REST None) as (t & R1 & R2 & R3 & R4); [discriminate|reflexivity|discriminate|]. rewrite QE in R1, R4.
    exists t. split; [exact R1|]. split; [exact R2|]. split; [exact R3|]. right. split; [|exact R4]. split; [exact SP|]. rewrite AC2. discriminate.
Qed.

(** ** histories *)
Lemma solve_holds L c s w : holds L s w -> (proper c \/ sv_accepts (params_of c (sv_par s)) (pb_levels (cl_problem c)) = false) ->
  exists t, (sv_solve c s w = Returned t \/ sv_solve c s w = Thrown t) /\ holds L (cs_solver t) (cs_world t) /\ sv_par (cs_solver t) = params_of c (sv_par s).
Proof.
  intros H D. destruct (sv_accepts (params_of c (sv_par s)) (pb_levels (cl_problem c))) eqn:A.
  - destruct D as [(S & fo & gu & p & l0 & l1 & HI)|D]; [|discriminate].
    destruct (call_effect L c s w fo gu p l0 l1 H S HI) as (t & R & HL & HP & _); [|exists t; split; [exact R|split; assumption]].
    unfold sv_accepts in A. apply andb_prop in A. destruct A as [A _]. apply andb_prop in A. apply A.
  - destruct (refused c s w A) as (t & R & _ & _ & W & HP & _ & _ & HO). exists t. split; [right; exact R|]. split; [|exact HP].
    unfold holds in *. rewrite W, HO. exact H.
Qed.

Lemma run_holds L es : forall s w, holds L s w -> careful (sv_par s) es ->
  exists s' w', sv_run es (s, w) = Some (s', w') /\ holds L s' w' /\ sv_par s' = in_force (sv_par s) es.
Proof.
  induction es as [|e es IH]; intros s w H C; [exists s, w; split; [reflexivity|split; [exact H|reflexivity]]|].
  destruct e as [c|q]; cbn [careful] in C; cbn [sv_run sv_do fst snd in_force].
  - destruct C as [C1 C2]. destruct (solve_holds L c s w H C1) as (t & R & HL & HP). rewrite <- HP in C2. destruct (IH _ _ HL C2) as (s' & w' & E & H' & P').
    exists s', w'. rewrite HP in P'. split; [|split; assumption]. destruct R as [-> | ->]; exact E.
  - assert (H1 : holds L (mkQSolver q (sv_qp s) (sv_guess s) (sv_object s)) w) by exact H.
    destruct (reset_holds L _ w H1) as (sr & wr & ER & WL & WN & WC & TW & RP & RG & RO & RQ). unfold sv_setParameters. rewrite ER.
    assert (H2 : holds L sr wr) by (split; [exact TW|rewrite RO; exact WL]). cbn [sv_par] in RP. rewrite <- RP in C.
    destruct (IH _ _ H2 C) as (s' & w' & E & H' & P'). exists s', w'. split; [exact E|]. split; [exact H'|]. rewrite P', RP. reflexivity.
Qed.

Theorem memory_balanced (P : qparams) (w0 : world) (es : list event) :
  tidy w0 -> careful P es ->
  exists s w w', sv_run es (sv_new P, w0) = Some (s, w) /\
    (wd_live w = wd_live w0 \/ exists a, ~ In a (wd_live w0) /\ wd_live w = a :: wd_live w0) /\
    sv_destroy s w = Some w' /\ wd_live w' = wd_live w0.
Proof.
  intros T C. assert (H : holds (wd_live w0) (sv_new P) w0) by (split; [exact T|reflexivity]).
  destruct (run_holds _ es (sv_new P) w0 H C) as (s & w & E & H' & _). exists s, w.
  destruct (reset_holds _ _ _ H') as (sr & wr & ER & WL & _). exists wr. split; [exact E|]. split.
  - destruct H' as [_ H']. destruct (sv_object s) as [a|]; [right; exists a; split; [apply H'|apply H']|left; exact H'].
  - unfold sv_destroy. rewrite ER. split; [reflexivity|exact WL].
Qed.

Theorem own_call (P : qparams) (w0 : world) (es : list event) (s : qsolver) (w : world) (c : call) (fo : nat -> formed) (gu : bool) (p : problem) (l0 l1 : level) :
  tidy w0 -> careful P es -> sv_run es (sv_new P, w0) = Some (s, w) ->
  sized c -> hierarchy_of c fo gu p l0 l1 -> pr_two_levels (params_of c (in_force P es)) = true ->
  (exists t, sv_solve c s w = Thrown t /\ wd_calls (cs_world t) = wd_calls w /\ cs_solution t = cl_solution c /\ cs_report t = None /\ ~ acceptable_call c l0) \/
  (exists t k, (sv_solve c s w = Returned t \/ sv_solve c s w = Thrown t) /\ wd_calls (cs_world t) = k :: wd_calls w /\
     gets (params_of c (in_force P es)) c w l0 l1 k /\ written (cl_library c k) (cl_solution c) (cs_solution t) /\ acceptable_call c l0).
Proof.
  intros T C E S HI TL. assert (H : holds (wd_live w0) (sv_new P) w0) by (split; [exact T|reflexivity]).
  destruct (run_holds _ es (sv_new P) w0 H C) as (s' & w' & E' & H' & PF). rewrite E in E'. injection E' as <- <-. cbn [sv_new sv_par] in PF.
  rewrite <- PF in *. destruct (call_effect _ c s w fo gu p l0 l1 H' S HI TL) as (t & R & _ & _ & [X|(AC & k & X)]).
  - left. exists t. exact X.
  - right. exists t, k. split; [exact R|]. split; [apply (ef_calls _ _ _ _ _ _ _ _ X)|]. split; [apply (ef_gets _ _ _ _ _ _ _ _ X)|]. split; [apply (ef_written _ _ _ _ _ _ _ _ X)|exact AC].
Qed.

Theorem outcome_of_call (P : qparams) (w0 : world) (es : list event) (s : qsolver) (w : world) (c : call) (fo : nat -> formed) (gu : bool) (p : problem) (l0 l1 : level) :
  tidy w0 -> careful P es -> sv_run es (sv_new P, w0) = Some (s, w) ->
  sized c -> hierarchy_of c fo gu p l0 l1 -> pr_two_levels (params_of c (in_force P es)) = true -> acceptable_call c l0 ->
  exists t k, (sv_solve c s w = Returned t \/ sv_solve c s w = Thrown t) /\ wd_calls (cs_world t) = k :: wd_calls w /\
    (sv_solve c s w = Returned t -> pr_crash (params_of c (in_force P es)) = true -> so_status (cs_solution t) = STATUS_OK) /\
    (cl_report c = false \/ sensible (cl_library c k) k ->
       (sv_solve c s w = Thrown t <-> pr_crash (params_of c (in_force P es)) = true /\ so_status (cs_solution t) <> STATUS_OK)) /\
    (cl_report c = false -> cs_report t = None) /\
    (cl_report c = true -> sensible (cl_library c k) k -> sv_solve c s w = Returned t ->
       exists v0 v1, cs_report t = Some [v0; v1] /\ fits [v0; v1] (cl_problem c) /\ Forall (eq EQUALITY) v1 /\
         forall l i j, nth_error (pb_levels (cl_problem c)) 0 = Some l -> In i (lv_tasks l) -> (j < len (ti_loc i))%nat ->
           exists u, nth_error v0 (offset (ti_loc i) + j) = Some u /\
             reports (cl_cs c) l (an_wsb (cl_library c k)) (an_wsc (cl_library c k)) i j u).
Proof.
  intros T C E S HI TL FE. assert (H : holds (wd_live w0) (sv_new P) w0) by (split; [exact T|reflexivity]).
  destruct (run_holds _ es (sv_new P) w0 H C) as (s' & w' & E' & H' & PF). rewrite E in E'. injection E' as <- <-. cbn [sv_new sv_par] in PF.
  rewrite <- PF in *. destruct (call_effect _ c s w fo gu p l0 l1 H' S HI TL) as (t & R & _ & _ & [X|(AC & k & X)]).
  { exfalso. apply X, FE. }
  destruct X as [X1 X2 X3 X4 X5 X6 X7]. exists t, k. pose proof (wr_ok _ _ _ X3) as OK'. split; [exact R|]. split; [exact X1|].
  split; [intros Y Z; apply OK', X5; assumption|]. split; [|split].
  - intros D. split.
    + intros Y. assert (Z : pr_crash (params_of c (sv_par s)) = true /\ an_code (cl_library c k) <> CODE_SUCCESS).
      { destruct (cl_report c) eqn:RP; [|apply (proj2 (X6 eq_refl)), Y]. destruct D as [D|D]; [discriminate|]. apply (proj1 (X7 eq_refl D)), Y. }
      split; [apply Z|]. intros Q. apply Z, OK', Q.
    + intros [Y Z]. apply X4; [exact Y|]. intros Q. apply Z, OK', Q.
  - intros Y. apply X6, Y.
  - intros Y Z Q. apply (X7 Y Z), Q.
Qed.

(** ** what is not protected *)
Theorem copy_double (P : qparams) (w0 : world) (es : list event) (s : qsolver) (w : world) (a : nat) :
  tidy w0 -> careful P es -> sv_run es (sv_new P, w0) = Some (s, w) -> sv_object s = Some a ->
  exists w', sv_destroy (sv_copy s) w = Some w' /\ sv_destroy s w' = None.
Proof.
  intros T C E O. assert (H : holds (wd_live w0) (sv_new P) w0) by (split; [exact T|reflexivity]).
  destruct (run_holds _ es (sv_new P) w0 H C) as (s' & w' & E' & H' & PF). rewrite E in E'. injection E' as <- <-.
  destruct H' as [_ H']. rewrite O in H'. destruct H' as [L N]. unfold sv_copy, sv_destroy, sv_reset. rewrite O, (delete_head a _ w L N).
  eexists. split; [reflexivity|]. unfold delete, is_live. cbn [wd_live]. replace (existsb (Nat.eqb a) (wd_live w0)) with false; [reflexivity|].
  symmetry. apply Bool.not_true_iff_false. intros X. apply existsb_exists in X. destruct X as (b & Hb & X). apply Nat.eqb_eq in X. subst. contradiction.
Qed.

Lemma call_until_library L c s w fo gu p l0 l1 : holds L s w -> hierarchy_of c fo gu p l0 l1 -> pr_two_levels (params_of c (sv_par s)) = true ->
  cl_active c = None ->
  (exists x, reasonable (cl_cs c) l0 (so_nv (cl_solution c)) x /\ satisfies_level (cl_cs c) l0 x) ->
  exists q wr, qo_nv q = so_nv (cl_solution c) /\ qo_guess q = None /\ readable q = true /\ is_live (wd_next w) wr = true /\
    sv_solve c s w = andthen (sv_solveHierarchy c (mkCState (mkQSolver (params_of c (sv_par s)) q (cl_guess c) (Some (wd_next w))) (cl_solution c) None wr))
      (fun t => andthen (sv_checkResults t) (fun t => if cl_report c then sv_getActiveSet c t else Returned t)).
Proof.
  intros HO HI TL AN (x & (RX1 & RX2) & RS). set (P := params_of c (sv_par s)) in *. set (nv := so_nv (cl_solution c)) in *.
  set (s1 := match cl_params c with Some p0 => mkQSolver p0 (sv_qp s) (sv_guess s) (sv_object s) | None => s end).
  assert (S1 : sv_par s1 = P /\ sv_object s1 = sv_object s) by (unfold s1, P, params_of; destruct (cl_params c); split; reflexivity).
  destruct S1 as (S1 & S3). assert (H1 : holds L s1 w) by (destruct HO as [HA HB]; split; [exact HA|rewrite S3; exact HB]).
  destruct (reset_holds L s1 w H1) as (sr & wr & ER & WL & WN & WC & TW & RP & RG & RO & RQ).
  pose proof HI as (P1 & E1 & D1 & T1).
  destruct (bridge_initialize fo gu p (cl_problem c) (cl_cs c) nv l0 l1 (sv_qp sr) x P1 E1 D1 T1 RS RX1 RX2) as (q & IQ & NV & NG).
  destruct (init_ready fo gu p (cl_problem c) (cl_cs c) nv l0 l1 (sv_qp sr) q P1 E1 D1 T1 IQ) as (l0' & l1' & RD & _).
  pose proof (qp_sizes c fo gu p l0 l1 _ _ HI IQ) as QS.
  exists q, (mkWorld (wd_next w :: wd_live wr) (S (wd_next w)) (wd_calls wr)). split; [exact NV|]. split; [exact NG|]. split.
  { replace q with (mkQpo (qo_obj q) (qo_con q) (qo_nc q) (qo_nv q) None) by (rewrite <- NG; destruct q; reflexivity).
    eapply ready_readable; [exact RD|exact QS|discriminate]. }
  split; [unfold is_live; cbn; rewrite Nat.eqb_refl; reflexivity|].
  unfold sv_solve. fold s1. rewrite S1, (proper_accepted c fo gu p l0 l1 P HI TL). unfold sv_initialize. cbn [cs_solver cs_world cs_solution cs_report].
  rewrite ER. fold nv. rewrite IQ. cbn [andthen]. rewrite AN, WN, RP, S1. destruct (cl_guess c); reflexivity.
Qed.

Theorem short_guess (P : qparams) (w0 : world) (es : list event) (s : qsolver) (w : world) (c : call) (fo : nat -> formed) (gu : bool) (p : problem)
    (l0 l1 : level) (a : nat) (v : vec) :
  tidy w0 -> careful P es -> sv_run es (sv_new P, w0) = Some (s, w) ->
  hierarchy_of c fo gu p l0 l1 -> pr_two_levels (params_of c (in_force P es)) = true -> cl_active c = None ->
  (exists x, reasonable (cl_cs c) l0 (so_nv (cl_solution c)) x /\ satisfies_level (cl_cs c) l0 x) ->
  cl_guess c = Some a -> cl_memory c a = Some v -> (vlen v < so_nv (cl_solution c))%nat ->
  sv_solve c s w = Undefined.
Proof.
  intros T C E HI TL AN FE G M Lt. assert (H : holds (wd_live w0) (sv_new P) w0) by (split; [exact T|reflexivity]).
  destruct (run_holds _ es (sv_new P) w0 H C) as (s' & w' & E' & H' & PF). rewrite E in E'. injection E' as <- <-. cbn [sv_new sv_par] in PF.
  rewrite <- PF in *. destruct (call_until_library _ c s w fo gu p l0 l1 H' HI TL AN FE) as (q & wr & NV & NG & RD & LV & ->).
  unfold sv_solveHierarchy. cbn [cs_solver cs_world cs_solution cs_report sv_object sv_qp sv_guess]. rewrite RD, LV. cbn [andb].
  unfold read_guess. rewrite G, M, NV. replace (_ <=? _)%nat with false by lia. reflexivity.
Qed.

Theorem short_solution (P : qparams) (w0 : world) (es : list event) (s : qsolver) (w : world) (c : call) (fo : nat -> formed) (gu : bool) (p : problem)
    (l0 l1 : level) :
  tidy w0 -> careful P es -> sv_run es (sv_new P, w0) = Some (s, w) ->
  hierarchy_of c fo gu p l0 l1 -> pr_two_levels (params_of c (in_force P es)) = true -> cl_active c = None ->
  (exists x, reasonable (cl_cs c) l0 (so_nv (cl_solution c)) x /\ satisfies_level (cl_cs c) l0 x) ->
  cl_guess c = None -> (vlen (so_x (cl_solution c)) < so_nv (cl_solution c))%nat -> (forall k, an_primal (cl_library c k) <> None) ->
  sv_solve c s w = Undefined.
Proof.
  intros T C E HI TL AN FE G Lt PR. assert (H : holds (wd_live w0) (sv_new P) w0) by (split; [exact T|reflexivity]).
  destruct (run_holds _ es (sv_new P) w0 H C) as (s' & w' & E' & H' & PF). rewrite E in E'. injection E' as <- <-. cbn [sv_new sv_par] in PF.
  rewrite <- PF in *. destruct (call_until_library _ c s w fo gu p l0 l1 H' HI TL AN FE) as (q & wr & NV & NG & RD & LV & ->).
  unfold sv_solveHierarchy. cbn [cs_solver cs_world cs_solution cs_report sv_object sv_qp sv_guess]. rewrite RD, LV. cbn [andb].
  unfold read_guess. rewrite G. match goal with |- context [an_primal (cl_library c ?k)] => specialize (PR k); destruct (an_primal (cl_library c k)) as [x|] end; [|contradiction].
  rewrite NV. replace (_ <=? _)%nat with false by lia. reflexivity.
Qed.

(** an objective on fewer variables than the solution has *)
Theorem other_size (P : qparams) (w : world) (c : call) (fo : nat -> formed) (gu : bool) (p : problem) (l : level) (nv : nat) :
  preach p -> pb_formHierarchy fo gu p = Ok (cl_problem c) -> described_problem (cl_cs c) fo nv p -> pb_levels p = [l] -> equality_level l ->
  (nv < so_nv (cl_solution c))%nat -> pr_two_levels (params_of c P) = true -> cl_active c = None ->
  sv_solve c (sv_new P) w = Undefined.
Proof.
  intros P1 E1 D1 L EL Lt TL AN. destruct (one_formed fo gu p (cl_problem c) l P1 E1 L) as (l' & L' & R0 & F0 & A).
  unfold described_problem in D1. rewrite L in D1. inversion D1 as [|? ? D0 _]. subst.
  destruct (objective_any fo gu l l' (cl_cs c) nv true empty_objective R0 F0 D0 EL) as (o' & Eo & ((S1 & S2 & S3) & _)).
  assert (AC : sv_accepts (params_of c P) (pb_levels (cl_problem c)) = true).
  { apply (accepted_iff _ fo gu p _ P1 E1). split; [exact TL|]. exists l. split; [left; exact L|]. intros i Hi. right. apply EL, Hi. }
  unfold sv_solve. set (s1 := match cl_params c with Some p0 => _ | None => sv_new P end).
  assert (S1' : sv_par s1 = params_of c P /\ sv_object s1 = None /\ sv_qp s1 = qpo_new) by (unfold s1, params_of; destruct (cl_params c); repeat split).
  destruct S1' as (S1' & SO & SQ). rewrite S1', AC. unfold sv_initialize, sv_reset. cbn [cs_solver cs_world cs_solution cs_report]. rewrite SO, SQ, S1'.
  cbn [sv_par sv_qp qpo_new qo_obj qo_con qo_nv]. unfold qpo_initialize. rewrite L'. cbn [getQPProblem fst snd qo_obj qo_con]. rewrite Eo. cbn [bind andthen fst snd].
  assert (X : forall t, sv_object (cs_solver t) = Some (wd_next w) -> qo_nv (sv_qp (cs_solver t)) = so_nv (cl_solution c) ->
            qo_obj (sv_qp (cs_solver t)) = o' -> sv_solveHierarchy c t = Undefined).
  { intros t O1 O2 O3. unfold sv_solveHierarchy. rewrite O1. replace (readable _) with false; [rewrite andb_false_r; reflexivity|].
    symmetry. unfold readable. cbv zeta. rewrite O2, O3, S1, S2. replace (so_nv (cl_solution c) * so_nv (cl_solution c) <=? nv * nv)%nat with false; [reflexivity|].
    symmetry. apply Nat.leb_gt. nia. }
  rewrite AN. destruct (cl_guess c); cbn [sv_setSolutionGuess andthen]; (rewrite X; [reflexivity|reflexivity|reflexivity|reflexivity]).
Qed.

(** a call which reaches the library leaves an object of the library in the solver *)
Lemma used_after (P : qparams) (w0 : world) (es : list event) (c : call) (fo : nat -> formed) (gu : bool) (p : problem) (l0 l1 : level) :
  tidy w0 -> careful P es -> sized c -> hierarchy_of c fo gu p l0 l1 -> pr_two_levels (params_of c (in_force P es)) = true -> cl_active c = None ->
  (exists x, reasonable (cl_cs c) l0 (so_nv (cl_solution c)) x /\ satisfies_level (cl_cs c) l0 x) -> cl_report c = false ->
  exists s w s' w' a, sv_run es (sv_new P, w0) = Some (s, w) /\ sv_do (Solve c) (s, w) = Some (s', w') /\ sv_object s' = Some a.
Proof.
  intros T C SZ HI TL AN FE RP. assert (H : holds (wd_live w0) (sv_new P) w0) by (split; [exact T|reflexivity]).
  destruct (run_holds _ es (sv_new P) w0 H C) as (s & w & E & H' & PF). cbn [sv_new sv_par] in PF.
  rewrite <- PF in *. exists s, w. destruct (call_until_library _ c s w fo gu p l0 l1 H' HI TL AN FE) as (q & wr & NV & NG & RD & LV & Eq).
  cbn [sv_do fst snd]. rewrite Eq, RP. unfold sv_solveHierarchy. cbn [cs_solver cs_world cs_solution cs_report sv_object sv_qp sv_guess]. rewrite RD, LV. cbn [andb].
  destruct (guess_read c SZ) as (g & G & _). rewrite NV, G. destruct SZ as (_ & SX & _).
  assert (LE : (so_nv (cl_solution c) <=? vlen (so_x (cl_solution c)))%nat = true) by (rewrite SX; apply Nat.leb_refl).
  match goal with |- context [an_primal (cl_library c ?k)] => destruct (an_primal (cl_library c k)) as [x|] end; try rewrite LE;
    cbn [andthen]; unfold sv_checkResults; match goal with |- context [if ?b then _ else _] => destruct b end;
    cbn [andthen]; (do 3 eexists; split; [exact E|split; [reflexivity|reflexivity]]).
Qed.
