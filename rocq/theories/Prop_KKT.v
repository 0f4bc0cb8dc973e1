(** * Property C16. Vocabulary in KKTSpec.v, QPSpec.v, ConstraintsSpec.v.
    The Eigen factorisations are parameters ([lin], [llt]); [solves K r (lin K r)] says that the factorisation
    solved the linear system at hand. *)
From Coq Require Import List Arith Reals Bool Lra Lia.
From Verif Require Import Base RSum Matrix ConstraintType HierarchyLevel HierarchySpec HierarchyFacts Constraints ConstraintsSpec
  QP QPSpec KKT KKTSpec KKTFacts KKTPosedSpec KKTPosedFacts KKTGauss KKTRefuse.
Import ListNotations.
Open Scope R_scope.

(** C16. LU and QR: the returned point satisfies the constraints and is stationary *)
Theorem C16_direct :
  forall lin H g A b nv x, solveDirect lin H g A b nv = Ok x ->
  solves (kkt_matrix H A) (kkt_vector g b) (lin (kkt_matrix H A) (kkt_vector g b)) ->
  vlen x = nv /\ feasible A b (vget x) /\ stationary H g A (vget x).
Proof. exact direct_kkt. Qed.
Print Assumptions C16_direct.

(** C16. Elimination: the same for the Hessian with the regularisation on the diagonal *)
Theorem C16_elimination :
  forall llt reg H g A b nv x, mrows H = nv -> mcols H = nv -> diagonal H ->
  (forall i, (i < nv)%nat -> mget H i i + reg <> 0) ->
  solveWithElimination llt reg H g A b nv = Ok x ->
  (forall S r, S = mmul A (mkMat nv (mrows A) (fun i r => / (mget H i i + reg) * mget A r i)) ->
     r = vadd (mulv A (mkVec nv (fun i => / (mget H i i + reg) * vget g i))) b -> solves S r (llt S r)) ->
  vlen x = nv /\ feasible A b (vget x) /\ stationary (regularized H reg) g A (vget x).
Proof. exact elimination_kkt. Qed.
Print Assumptions C16_elimination.

(** C16. A feasible stationary point is a minimiser, and the only one if the objective is strictly convex along the constraints *)
Theorem C16_stationary_is_minimum :
  forall nv H g A b x, qp_shape nv H g A b -> symmetric H -> positive_semidefinite H ->
  feasible A b x -> stationary H g A x -> minimises (quadratic H g) (feasible A b) x.
Proof. exact kkt_minimises. Qed.
Print Assumptions C16_stationary_is_minimum.

Theorem C16_unique_minimum :
  forall nv H g A b x y, qp_shape nv H g A b -> symmetric H -> positive_on_kernel H A ->
  feasible A b x -> stationary H g A x -> feasible A b y -> (exists i, (i < nv)%nat /\ y i <> x i) ->
  quadratic H g x < quadratic H g y.
Proof. exact kkt_unique. Qed.
Print Assumptions C16_unique_minimum.

(** C16. Whole hierarchies of two levels: the result minimises the sum of squared residuals of the second level over
    the points which satisfy the first level *)
Theorem C16_hierarchy_direct :
  forall fo gu l0 l0' l1 l1' cs nv,
  lreach l0 -> level_form fo gu l0 = Ok l0' -> described cs fo nv l0 -> equality_level l0 ->
  lreach l1 -> level_form fo gu l1 = Ok l1' -> described cs fo nv l1 -> equality_level l1 ->
  forall p llt lin qp o q x,
  solution_method p = LU \/ solution_method p = QR ->
  getQPProblem (fun l => initializeConstraints_AB cs l nv) cs [l0'; l1'] true qp = Ok (o, q) ->
  solves (kkt_matrix (o_H o) (ab_A q)) (kkt_vector (o_g o) (ab_b q)) (lin (kkt_matrix (o_H o) (ab_A q)) (kkt_vector (o_g o) (ab_b q))) ->
  kkt_solve p llt lin cs [l0'; l1'] nv qp = Ok x ->
  vlen x = nv /\ minimises (level_cost cs l1) (satisfies_level cs l0) (vget x).
Proof. exact hierarchy_direct. Qed.
Print Assumptions C16_hierarchy_direct.

Theorem C16_hierarchy_direct_returns :
  forall fo gu l0 l0' l1 l1' cs nv,
  lreach l0 -> level_form fo gu l0 = Ok l0' -> described cs fo nv l0 -> equality_level l0 ->
  lreach l1 -> level_form fo gu l1 = Ok l1' -> described cs fo nv l1 -> equality_level l1 ->
  forall p llt lin qp o q,
  solution_method p = LU \/ solution_method p = QR ->
  getQPProblem (fun l => initializeConstraints_AB cs l nv) cs [l0'; l1'] true qp = Ok (o, q) ->
  solves (kkt_matrix (o_H o) (ab_A q)) (kkt_vector (o_g o) (ab_b q)) (lin (kkt_matrix (o_H o) (ab_A q)) (kkt_vector (o_g o) (ab_b q))) ->
  exists x, kkt_solve p llt lin cs [l0'; l1'] nv qp = Ok x.
Proof. exact hierarchy_direct_returns. Qed.
Print Assumptions C16_hierarchy_direct_returns.

(** C16. Elimination minimises the sum of squared residuals plus reg * |x|^2 *)
Theorem C16_hierarchy_elimination :
  forall fo gu l0 l0' l1 l1' cs nv,
  lreach l0 -> level_form fo gu l0 = Ok l0' -> described cs fo nv l0 -> equality_level l0 ->
  lreach l1 -> level_form fo gu l1 = Ok l1' -> described cs fo nv l1 -> equality_level l1 ->
  forall p llt lin qp o q x,
  solution_method p = CONSTRAINT_ELIMINATION_LLT -> 0 < elimination_regularization_factor p ->
  let reg := elimination_regularization_factor p in
  getQPProblem (fun l => initializeConstraints_AB cs l nv) cs [l0'; l1'] true qp = Ok (o, q) ->
  (forall S r, S = mmul (ab_A q) (mkMat nv (mrows (ab_A q)) (fun i r => / (mget (o_H o) i i + reg) * mget (ab_A q) r i)) ->
     r = vadd (mulv (ab_A q) (mkVec nv (fun i => / (mget (o_H o) i i + reg) * vget (o_g o) i))) (ab_b q) -> solves S r (llt S r)) ->
  kkt_solve p llt lin cs [l0'; l1'] nv qp = Ok x ->
  vlen x = nv /\
  minimises (fun y => level_cost cs l1 y + reg * Rsum nv (fun i => y i * y i)) (satisfies_level cs l0) (vget x).
Proof. exact hierarchy_elimination. Qed.
Print Assumptions C16_hierarchy_elimination.

(** C16. Hierarchies with a unique solution ([attainable]: the equalities of the first level are independent; [observable]:
    the two levels determine the variables): with factorisations which solve nonsingular (positive definite) systems the solver
    returns, and returns the unique minimiser. Nothing is assumed about the matrices which the solver builds. *)
Theorem C16_well_posed_direct :
  forall fo gu l0 l0' l1 l1' cs nv,
  lreach l0 -> level_form fo gu l0 = Ok l0' -> described cs fo nv l0 -> equality_level l0 ->
  lreach l1 -> level_form fo gu l1 = Ok l1' -> described cs fo nv l1 -> equality_level l1 ->
  forall p llt lin qp, solution_method p = LU \/ solution_method p = QR -> attainable cs l0 -> observable cs nv l0 l1 -> solves_nonsingular lin ->
  exists x, kkt_solve p llt lin cs [l0'; l1'] nv qp = Ok x /\ vlen x = nv /\ only_minimiser nv (level_cost cs l1) (satisfies_level cs l0) (vget x).
Proof. exact posed_direct. Qed.
Print Assumptions C16_well_posed_direct.

Theorem C16_well_posed_elimination :
  forall fo gu l0 l0' l1 l1' cs nv,
  lreach l0 -> level_form fo gu l0 = Ok l0' -> described cs fo nv l0 -> equality_level l0 ->
  lreach l1 -> level_form fo gu l1 = Ok l1' -> described cs fo nv l1 -> equality_level l1 ->
  forall p llt lin qp, solution_method p = CONSTRAINT_ELIMINATION_LLT -> 0 < elimination_regularization_factor p ->
  (forall i, In i (lv_tasks l1) -> ct_isSimple (tk_type (ti_task i)) = true) -> attainable cs l0 -> solves_positive llt ->
  exists x, kkt_solve p llt lin cs [l0'; l1'] nv qp = Ok x /\ vlen x = nv /\
    only_minimiser nv (fun y => level_cost cs l1 y + elimination_regularization_factor p * Rsum nv (fun i => y i * y i)) (satisfies_level cs l0) (vget x).
Proof. exact posed_elimination. Qed.
Print Assumptions C16_well_posed_elimination.

(** C16. Elimination refuses hierarchies whose second level has a general task *)
Theorem C16_elimination_refuses :
  forall fo gu l0 l0' l1 l1' cs nv,
  lreach l0 -> level_form fo gu l0 = Ok l0' -> described cs fo nv l0 -> equality_level l0 ->
  lreach l1 -> level_form fo gu l1 = Ok l1' -> described cs fo nv l1 -> equality_level l1 ->
  forall p llt lin qp i, solution_method p = CONSTRAINT_ELIMINATION_LLT ->
  In i (lv_tasks l1) -> ct_isSimple (tk_type (ti_task i)) = false -> (0 < getNumberOfConstraints (cs (tk_id (ti_task i))))%nat ->
  kkt_solve p llt lin cs [l0'; l1'] nv qp = Throw.
Proof. exact elimination_refused. Qed.
Print Assumptions C16_elimination_refuses.
(** C16. Hierarchies with an inequality on any level are refused, whatever the method is *)
Theorem C16_inequality_refused :
  forall (fo : nat -> formed) (gu : bool) (l0 l0' l1 l1' : level) (cs : nat -> constr) (nv : nat),
  lreach l0 -> level_form fo gu l0 = Ok l0' -> described cs fo nv l0 ->
  lreach l1 -> level_form fo gu l1 = Ok l1' -> described cs fo nv l1 -> (forall i, In i (lv_tasks l1) -> tk_type (ti_task i) <> IB) ->
  forall i, In i (lv_tasks l0 ++ lv_tasks l1) -> ct_isEquality (tk_type (ti_task i)) = false -> (0 < getNumberOfConstraints (cs (tk_id (ti_task i))))%nat ->
  forall (p : kkt_parameters) (llt lin : mat -> vec -> vec) (qp : objective * contAB), kkt_solve p llt lin cs [l0'; l1'] nv qp = Throw.
Proof. exact inequality_refused. Qed.
Print Assumptions C16_inequality_refused.

(** ** Concrete cases *)
(** minimise x0^2 + x1^2 under x0 + x1 = 2; the factorisation returns (1, 1, -2) *)
Definition kkt_H : mat := mkMat 2 2 (fun i j => if (i =? j)%nat then 2 else 0).
Definition kkt_A : mat := mkMat 1 2 (fun _ _ => 1).
Definition kkt_lin (K : mat) (r : vec) : vec := mkVec 3 (fun i => if (i =? 2)%nat then -2 else 1).
Example C16_case :
  solves (kkt_matrix kkt_H kkt_A) (kkt_vector (vconst 2 0) (vconst 1 2)) (kkt_lin (kkt_matrix kkt_H kkt_A) (kkt_vector (vconst 2 0) (vconst 1 2))) /\
  (exists x, solveDirect kkt_lin kkt_H (vconst 2 0) kkt_A (vconst 1 2) 2 = Ok x) /\
  qp_shape 2 kkt_H (vconst 2 0) kkt_A (vconst 1 2) /\ symmetric kkt_H /\ positive_semidefinite kkt_H /\ positive_on_kernel kkt_H kkt_A.
Proof.
  split; [|split; [|split; [|split; [|split]]]].
  - split; [reflexivity|]. split; [reflexivity|]. simpl. intros i Hi. destruct i as [|[|[|i]]]; simpl; first [lra | exfalso; lia].
  - eexists. reflexivity.
  - repeat split.
  - split; [reflexivity|]. simpl. intros i j _ _. rewrite Nat.eqb_sym. reflexivity.
  - intros d. simpl. nra.
  - intros d _ (i & Hi & N). simpl in *. assert (0 < d i * d i) by (destruct (Rtotal_order (d i) 0) as [|[|]]; nra).
    destruct i as [|[|i]]; [| |exfalso; lia]; pose proof (Rle_0_sqr (d 0%nat)); pose proof (Rle_0_sqr (d 1%nat)); unfold Rsqr in *; lra.
Qed.

(** a hierarchy: first level x0 = 1, second level 2 x0 = 6; the KKT matrix [4 1; 1 0] is invertible *)
Definition kkt_cs (i : nat) : constr :=
  match i with
  | 1%nat => mkConstr 1 (BodyA (mkMat 1 1 (fun _ _ => 1))) (BoundsB (vconst 1 1))
  | _ => mkConstr 1 (BodyGI [0]%nat (vconst 1 2)) (BoundsB (vconst 1 6))
  end.
Definition kkt_fo (i : nat) : formed := mkFormed 1 true true None.
Definition kkt_t1 := mkTask 1 AB 0 true [] [].
Definition kkt_t2 := mkTask 2 GIB 0 true [] [].
Definition kkt_qp0 : objective * contAB := (mkObjective (mzero 0 0) (vconst 0 0) HESSIAN_UNDEFINED QP_UNDEFINED, mkAB (mzero 0 0) (vconst 0 0)).
Example C16_hierarchy_case :
  exists l0' l1' o q,
    lreach (pushed [kkt_t1]) /\ level_form kkt_fo true (pushed [kkt_t1]) = Ok l0' /\ described kkt_cs kkt_fo 1 (pushed [kkt_t1]) /\
    lreach (pushed [kkt_t2]) /\ level_form kkt_fo true (pushed [kkt_t2]) = Ok l1' /\ described kkt_cs kkt_fo 1 (pushed [kkt_t2]) /\
    equality_level (pushed [kkt_t1]) /\ equality_level (pushed [kkt_t2]) /\
    getQPProblem (fun l => initializeConstraints_AB kkt_cs l 1) kkt_cs [l0'; l1'] true kkt_qp0 = Ok (o, q) /\
    o_type o = HESSIAN_DIAGONAL /\
    exists lin, solves (kkt_matrix (o_H o) (ab_A q)) (kkt_vector (o_g o) (ab_b q)) (lin (kkt_matrix (o_H o) (ab_A q)) (kkt_vector (o_g o) (ab_b q))).
Proof.
  eexists. eexists. eexists. eexists.
  split; [apply pushed_reach|]. split; [vm_compute; reflexivity|].
  split. { intros i Hi. simpl in Hi. destruct Hi as [<-|[]]; simpl; repeat split; repeat constructor; lia. }
  split; [apply pushed_reach|]. split; [vm_compute; reflexivity|].
  split. { intros i Hi. simpl in Hi. destruct Hi as [<-|[]]; simpl; repeat split; repeat constructor; lia. }
  split. { intros i Hi. simpl in Hi. destruct Hi as [<-|[]]; simpl; split; congruence. }
  split. { intros i Hi. simpl in Hi. destruct Hi as [<-|[]]; simpl; split; congruence. }
  split; [cbv - [Rplus Rmult Rminus Ropp IZR]; reflexivity|].
  split; [reflexivity|].
  exists (fun _ _ => mkVec 2 (fun i => if (i =? 0)%nat then 1 else 8)).
  split; [reflexivity|]. split; [reflexivity|]. simpl. intros i Hi. destruct i as [|[|i]]; simpl; first [lra | exfalso; lia].
Qed.

(** two variables: first level x0 + x1 = 2, second level 2 x0 = 6 (simple); Gaussian elimination for the factorisations *)
Definition kkt_cs2 (i : nat) : constr :=
  match i with
  | 1%nat => mkConstr 2 (BodyA (mkMat 1 2 (fun _ _ => 1))) (BoundsB (vconst 1 2))
  | _ => mkConstr 2 (BodyGI [0]%nat (vconst 1 2)) (BoundsB (vconst 1 6))
  end.
Example C16_well_posed_case :
  exists l0' l1',
    lreach (pushed [kkt_t1]) /\ level_form kkt_fo true (pushed [kkt_t1]) = Ok l0' /\ described kkt_cs2 kkt_fo 2 (pushed [kkt_t1]) /\ equality_level (pushed [kkt_t1]) /\
    lreach (pushed [kkt_t2]) /\ level_form kkt_fo true (pushed [kkt_t2]) = Ok l1' /\ described kkt_cs2 kkt_fo 2 (pushed [kkt_t2]) /\ equality_level (pushed [kkt_t2]) /\
    attainable kkt_cs2 (pushed [kkt_t1]) /\ observable kkt_cs2 2 (pushed [kkt_t1]) (pushed [kkt_t2]) /\
    (forall i, In i (lv_tasks (pushed [kkt_t2])) -> ct_isSimple (tk_type (ti_task i)) = true) /\ solves_nonsingular gauss_lin /\ solves_positive gauss_lin.
Proof.
  eexists. eexists.
  split; [apply pushed_reach|]. split; [vm_compute; reflexivity|].
  split. { intros i Hi. simpl in Hi. destruct Hi as [<-|[]]; simpl; repeat split; repeat constructor; lia. }
  split. { intros i Hi. simpl in Hi. destruct Hi as [<-|[]]; simpl; split; congruence. }
  split; [apply pushed_reach|]. split; [vm_compute; reflexivity|].
  split. { intros i Hi. simpl in Hi. destruct Hi as [<-|[]]; simpl; repeat split; repeat constructor; lia. }
  split. { intros i Hi. simpl in Hi. destruct Hi as [<-|[]]; simpl; split; congruence. }
  split. { intros t. exists (fun j => if (j =? 0)%nat then t 0%nat 0%nat else 0). intros [|k] i K; cbn in K; [injection K as <-|destruct k; discriminate].
    intros [|r] R; cbn in R; [|lia]. unfold row_value. cbn. lra. }
  split. { intros d D [|[|j]] J; [| |lia].
    - pose proof (D _ (or_intror (or_introl eq_refl)) 0%nat ltac:(cbn; lia)) as E. unfold row_value in E. cbn in E. lra.
    - pose proof (D _ (or_intror (or_introl eq_refl)) 0%nat ltac:(cbn; lia)) as E. pose proof (D _ (or_introl (or_introl eq_refl)) 0%nat ltac:(cbn; lia)) as E'. unfold row_value in E, E'. cbn in E, E'. lra. }
  split. { intros i Hi. simpl in Hi. destruct Hi as [<-|[]]; reflexivity. }
  split; [exact gauss_nonsingular|exact gauss_positive].
Qed.
(** the levels swapped: the second level is general, elimination throws *)
Example C16_elimination_refuses_case :
  exists i, In i (lv_tasks (pushed [kkt_t1])) /\ ct_isSimple (tk_type (ti_task i)) = false /\ (0 < getNumberOfConstraints (kkt_cs2 (tk_id (ti_task i))))%nat /\
    described kkt_cs2 kkt_fo 2 (pushed [kkt_t1]) /\ equality_level (pushed [kkt_t1]).
Proof.
  exists (mkTInfo kkt_t1 (mkLoc 0 0)). split; [vm_compute; left; reflexivity|]. split; [reflexivity|]. split; [cbn; lia|].
  split; intros i Hi; simpl in Hi; destruct Hi as [<-|[]]; simpl; [repeat split; repeat constructor; lia|split; congruence].
Qed.
(** first level 0 <= x0 <= 1, second level 2 x0 = 6 *)
Definition kkt_cs3 (i : nat) : constr := match i with 3%nat => mkConstr 1 (BodyI [0]%nat) (BoundsLU (vconst 1 0) (vconst 1 1)) | _ => kkt_cs i end.
Definition kkt_t3 := mkTask 3 ILU 0 true [] [].
Example C16_inequality_case :
  exists l0' l1' i,
    lreach (pushed [kkt_t3]) /\ level_form kkt_fo false (pushed [kkt_t3]) = Ok l0' /\ described kkt_cs3 kkt_fo 1 (pushed [kkt_t3]) /\
    lreach (pushed [kkt_t2]) /\ level_form kkt_fo false (pushed [kkt_t2]) = Ok l1' /\ described kkt_cs3 kkt_fo 1 (pushed [kkt_t2]) /\
    In i (lv_tasks (pushed [kkt_t3]) ++ lv_tasks (pushed [kkt_t2])) /\ ct_isEquality (tk_type (ti_task i)) = false /\ (0 < getNumberOfConstraints (kkt_cs3 (tk_id (ti_task i))))%nat.
Proof.
  eexists. eexists. exists (mkTInfo kkt_t3 (mkLoc 0 0)).
  split; [apply pushed_reach|]. split; [vm_compute; reflexivity|].
  split. { intros i Hi. simpl in Hi. destruct Hi as [<-|[]]; simpl; repeat split; repeat constructor; lia. }
  split; [apply pushed_reach|]. split; [vm_compute; reflexivity|].
  split. { intros i Hi. simpl in Hi. destruct Hi as [<-|[]]; simpl; repeat split; repeat constructor; lia. }
  split; [vm_compute; left; reflexivity|]. split; [reflexivity|cbn; lia].
Qed.
