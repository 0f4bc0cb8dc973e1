(** * Proofs for C100: iterations *)
From Coq Require Import String List Reals Arith Lra Lia Bool ZArith.
From Verif Require Import Base BaseFacts RSum Matrix Mat3 ConstraintType Constraints ConstraintsSpec ConstraintsFacts Solution Condense SpatialTransform PepperMpc PepperTasksSpec
  RotarySpec Rotary RotaryFacts Euler EulerSpec EulerFacts Rbdl RbdlSpec RbdlFacts RbdlComFacts PepperIk PepperIkSpec PepperIkFacts PepperIkTasks PepperIkTasksSpec PepperIkTasksFacts
  PepperIkCommandFacts PepperIkLoop PepperIkLoopSpec.
Import ListNotations.
Local Open Scope R_scope.

(** ** norm of a step *)
Lemma norm_inf_small x t : x <> [] -> (norm_inf x < t <-> forall i, (i < length x)%nat -> Rabs (nth i x 0) < t).
Proof.
  intros NE. unfold norm_inf.
  assert (A : forall y, 0 < t -> (fold_right (fun a m => Rmax (Rabs a) m) 0 y < t <-> forall i, (i < length y)%nat -> Rabs (nth i y 0) < t)).
  { intros y P. induction y as [|a y IH]; cbn [fold_right length].
    - split; [intros _ i Hi; lia|intros _; exact P].
    - split.
      + intros H i Hi. assert (H1 := Rmax_l (Rabs a) (fold_right (fun a m => Rmax (Rabs a) m) 0 y)). assert (H2 := Rmax_r (Rabs a) (fold_right (fun a m => Rmax (Rabs a) m) 0 y)).
        destruct i as [|i]; cbn [nth]; [lra|]. apply IH; [lra|lia].
      + intros H. apply Rmax_lub_lt; [apply (H 0%nat); lia|]. apply IH. intros i Hi. apply (H (S i)). lia. }
  assert (B : forall y, 0 <= fold_right (fun a m => Rmax (Rabs a) m) 0 y).
  { intros y. induction y as [|a y IH]; cbn [fold_right]; [lra|]. eapply Rle_trans; [exact IH|apply Rmax_r]. }
  split; intros H.
  - apply A; [specialize (B x); lra|exact H].
  - apply A; [|exact H]. destruct x as [|a x]; [contradiction|]. specialize (H 0%nat ltac:(cbn; lia)). cbn in H. assert (0 <= Rabs a) by apply Rabs_pos. lra.
Qed.
Lemma small_norm f sol t : answers f sol -> (norm_inf (sol_x sol) < t <-> small t sol).
Proof.
  intros A. apply norm_inf_small. destruct (A (mkMP v3zero v3zero v3zero) (mkWbc true 0 (mkMP v3zero v3zero v3zero) [] [] structure_reset)) as (_ & L).
  intros E. rewrite E in L. pose proof (dof_pos f). cbn in L. lia.
Qed.

(** ** one iteration *)
Lemma next_vector f mp w sol m g w' : sized f (ik_gc m) -> solution_for f (wbc_update f mp w) sol -> getNextGeneralizedCoordinates sol m (wbc_update f mp w) = Ok (g, w') ->
  sized f g /\ forall i, (i < DOF_NUMBER f)%nat -> nth i (asVector g) 0 = nth i (asVector (ik_gc m)) 0 + nth i (sol_x sol) 0.
Proof.
  intros SZ SF NX. destruct (next_ok f mp w sol m SZ SF) as (g0 & w0 & E & SG & RT & JT). rewrite NX in E. injection E as <- <-. split; [exact SG|].
  intros i Hi. unfold asVector. destruct SZ as (S1 & S2), SG as (G1 & G2). destruct (Nat.lt_ge_cases i (ROOT_DOF_NUMBER f)) as [H|H].
  - rewrite !app_nth1 by lia. apply RT, H.
  - rewrite !app_nth2 by lia. rewrite G1, S1. unfold DOF_NUMBER in Hi.
    assert (A : forall k, (k < JOINTS_DOF_NUMBER)%nat -> nth k (gc_joints g) 0 = nth k (gc_joints (ik_gc m)) 0 + nth (ROOT_DOF_NUMBER f + k) (sol_x sol) 0).
    { apply (all_joints f (fun k => nth k (gc_joints g) 0 = nth k (gc_joints (ik_gc m)) 0 + nth (ROOT_DOF_NUMBER f + k) (sol_x sol) 0)). exact JT. }
    rewrite A by lia. f_equal. f_equal. lia.
Qed.
Lemma iteration_ok eig f fk mp sol s : kinematics f fk -> reachable eig f fk (lk_model s) -> answers f sol ->
  exists s', ik_iteration f fk mp sol s = Ok s' /\ reachable eig f fk (lk_model s') /\ ik_saved (lk_model s') = ik_saved (lk_model s) /\
    getNextGeneralizedCoordinates sol (lk_model s) (wbc_update f mp (lk_wbc s)) = Ok (ik_gc (lk_model s'), lk_wbc s') /\
    forall i, (i < DOF_NUMBER f)%nat -> nth i (configuration s') 0 = nth i (configuration s) 0 + nth i (sol_x sol) 0.
Proof.
  intros K RC AN. destruct (reachable_good eig f fk _ K RC) as (file & D & GD). pose proof GD as ((SZ & _) & _). specialize (AN mp (lk_wbc s)).
  destruct (next_ok f mp (lk_wbc s) sol (lk_model s) SZ AN) as (g & w' & E & SG & _).
  destruct (next_vector f mp (lk_wbc s) sol (lk_model s) g w' SZ AN E) as (_ & V).
  destruct (good_update f fk file g _ K GD SG) as (m' & EU & GD' & EG & ES).
  exists (mkIkloop m' w'). unfold ik_iteration. rewrite E. cbn [bind fst snd]. rewrite EU. cbn [bind]. split; [reflexivity|]. cbn [lk_model lk_wbc].
  split; [apply (rc_update eig f fk g (lk_model s)); assumption|]. split; [exact ES|]. unfold configuration. cbn [lk_model]. rewrite EG. split; [reflexivity|exact V].
Qed.

(** ** all iterations *)
Definition st_of (f : features) (fk : list R -> rb) (mp : motion_parameters) (sols : nat -> solution) (s : ikloop) : nat -> ikloop :=
  fix go n := match n with O => s | S k => match ik_iteration f fk mp (sols k) (go k) with Ok s' => s' | _ => go k end end.
Lemma states_exist eig f fk mp sols s : kinematics f fk -> reachable eig f fk (lk_model s) -> (forall k, answers f (sols k)) ->
  states f fk mp sols s (st_of f fk mp sols s) /\
  forall k, reachable eig f fk (lk_model (st_of f fk mp sols s k)) /\ ik_saved (lk_model (st_of f fk mp sols s k)) = ik_saved (lk_model s) /\
    forall i, (i < DOF_NUMBER f)%nat -> nth i (configuration (st_of f fk mp sols s k)) 0 = nth i (configuration s) 0 + Rsum k (fun j => nth i (sol_x (sols j)) 0).
Proof.
  intros K RC AN. set (st := st_of f fk mp sols s).
  assert (A : forall k, reachable eig f fk (lk_model (st k)) /\ ik_saved (lk_model (st k)) = ik_saved (lk_model s) /\
    forall i, (i < DOF_NUMBER f)%nat -> nth i (configuration (st k)) 0 = nth i (configuration s) 0 + Rsum k (fun j => nth i (sol_x (sols j)) 0)).
  { induction k as [|k (IH1 & IH2 & IH3)]; [split; [exact RC|]; split; [reflexivity|]; intros i _; cbn; ring|].
    destruct (iteration_ok eig f fk mp (sols k) (st k) K IH1 (AN k)) as (s' & E & R' & S' & _ & V).
    assert (st (S k) = s') as -> by (subst st; cbn [st_of]; fold (st_of f fk mp sols s); rewrite E; reflexivity).
    split; [exact R'|]. split; [congruence|]. intros i Hi. rewrite V, IH3 by exact Hi. cbn [Rsum]. ring. }
  split; [|exact A]. split; [reflexivity|]. intros k. destruct (A k) as (R1 & _).
  destruct (iteration_ok eig f fk mp (sols k) (st k) K R1 (AN k)) as (s' & E & _). rewrite E. f_equal. subst st. cbn [st_of]. fold (st_of f fk mp sols s). rewrite E. reflexivity.
Qed.
Lemma states_unique f fk mp sols s st st' : states f fk mp sols s st -> states f fk mp sols s st' -> forall k, st k = st' k.
Proof. intros (A & B) (A' & B') k. induction k as [|k IH]; [congruence|]. specialize (B k). specialize (B' k). rewrite IH, B' in B. injection B as ->. reflexivity. Qed.
Lemma iterations_outcome f fk t mp sols s st : (forall k, answers f (sols k)) -> states f fk mp sols s st -> forall left j,
  (exists n, (j <= n < j + left)%nat /\ small t (sols n) /\ (forall k, (j <= k < n)%nat -> ~ small t (sols k)) /\ ik_iterations f fk t mp sols left j (st j) = Ok (S n, st (S n))) \/
  ((forall k, (j <= k < j + left)%nat -> ~ small t (sols k)) /\ ik_iterations f fk t mp sols left j (st j) = Throw).
Proof.
  intros AN (_ & ST). induction left as [|left IH]; intros j; cbn [ik_iterations].
  - right. split; [intros k Hk; lia|reflexivity].
  - rewrite ST. cbn [bind]. destruct Rlt_dec as [H|H]; rewrite (small_norm f (sols j) t (AN j)) in H.
    + left. exists j. split; [lia|]. split; [exact H|]. split; [intros k Hk; lia|reflexivity].
    + destruct (IH (S j)) as [(n & Hn & A & B & C)|(B & C)].
      * left. exists n. split; [lia|]. split; [exact A|]. split; [|exact C]. intros k Hk. destruct (Nat.eq_dec k j) as [-> |]; [exact H|apply B; lia].
      * right. split; [|exact C]. intros k Hk. destruct (Nat.eq_dec k j) as [-> |]; [exact H|apply B; lia].
Qed.
Theorem loop_iterations (eig : m3 -> euler_type -> v3) (f : features) (fk : list R -> rb) (tolerance : R) (mp : motion_parameters) (sols : nat -> solution) (maximum : nat) (s : ikloop) :
  kinematics f fk -> reachable eig f fk (lk_model s) -> (forall k, answers f (sols k)) ->
  exists st, states f fk mp sols s st /\
    (forall k, reachable eig f fk (lk_model (st k)) /\
       forall i, (i < DOF_NUMBER f)%nat -> nth i (configuration (st k)) 0 = nth i (configuration s) 0 + Rsum k (fun j => nth i (sol_x (sols j)) 0)) /\
    ((exists n, (n < maximum)%nat /\ first_small tolerance sols n /\ ik_iterations f fk tolerance mp sols maximum 0 s = Ok (S n, st (S n))) \/
     ((forall k, (k < maximum)%nat -> ~ small tolerance (sols k)) /\ ik_iterations f fk tolerance mp sols maximum 0 s = Throw)).
Proof.
  intros K RC AN. destruct (states_exist eig f fk mp sols s K RC AN) as (ST & P). exists (st_of f fk mp sols s). split; [exact ST|].
  split; [intros k; destruct (P k) as (A & _ & B); split; assumption|].
  destruct (iterations_outcome f fk tolerance mp sols s _ AN ST maximum 0) as [(n & Hn & A & B & C)|(A & B)].
  - left. exists n. split; [lia|]. split; [split; [exact A|intros k Hk; apply B; lia]|exact C].
  - right. split; [intros k Hk; apply A; lia|exact B].
Qed.

(** ** limits of joints *)
Theorem loop_limits (eig : m3 -> euler_type -> v3) (f : features) (fk : list R -> rb) (mp : motion_parameters) (sols : nat -> solution) (s : ikloop) (st : nat -> ikloop) (k : nat) :
  kinematics f fk -> reachable eig f fk (lk_model s) -> (forall k, answers f (sols k)) -> states f fk mp sols s st ->
  (obeys_bounds f mp (st k) (sols k) <-> within_limits f (ik_gc (lk_model (st (S k))))) /\
  (obeys_bounds f mp (st k) (sols k) -> checkCurrentState (lk_model (st (S k))) = Ok tt).
Proof.
  intros K RC AN ST. destruct (states_exist eig f fk mp sols s K RC AN) as (ST' & P). rewrite !(states_unique _ _ _ _ _ _ _ ST ST').
  set (stf := st_of f fk mp sols s) in *. destruct (P k) as (R1 & _). destruct (P (S k)) as (R2 & _).
  destruct (reachable_good eig f fk _ K R1) as (file & D & GD). pose proof GD as (RD & _).
  destruct (reachable_good eig f fk _ K R2) as (file2 & D2 & GD2). pose proof GD2 as (RD2 & _).
  destruct (iteration_ok eig f fk mp (sols k) (stf k) K R1 (AN k)) as (s' & E & _ & _ & NX & _).
  destruct ST' as (_ & ST'). rewrite ST' in E. injection E as <-.
  destruct (ik_bounds f fk _ mp (lk_wbc (stf k)) (sols k) K RD (AN k mp (lk_wbc (stf k)))) as (g & w' & m' & E1 & _ & _ & _ & _ & I & _).
  rewrite NX in E1. injection E1 as <- _. unfold obeys_bounds. split; [exact I|].
  intros H. apply I in H. apply (ik_check f fk _ RD2). intros j. destruct (H j) as (H1 & H2).
  split; [eapply Rle_trans; [|exact H1]; lra|eapply Rle_trans; [exact H2|]; lra].
Qed.

(** ** references of joints *)
Lemma reference_step eig f fk mp sols s st gain kp reference k : kinematics f fk -> reachable eig f fk (lk_model s) -> (forall k, answers f (sols k)) -> states f fk mp sols s st ->
  length reference = JOINTS_DOF_NUMBER -> gain <> 0 ->
  (obeys_reference f gain kp reference mp (st k) (sols k) <->
   forall j, angle f (ik_gc (lk_model (st (S k)))) j = angle f (ik_gc (lk_model (st k))) j + kp * (angle_in f reference j - angle f (ik_gc (lk_model (st k))) j)).
Proof.
  intros K RC AN ST LR G. destruct (states_exist eig f fk mp sols s K RC AN) as (ST' & P). rewrite !(states_unique _ _ _ _ _ _ _ ST ST').
  set (stf := st_of f fk mp sols s) in *. destruct (P k) as (R1 & _). destruct (reachable_good eig f fk _ K R1) as (file & D & GD). pose proof GD as ((SZ & _) & _).
  destruct (iteration_ok eig f fk mp (sols k) (stf k) K R1 (AN k)) as (s' & E & _ & _ & NX & _).
  destruct ST' as (_ & ST'). rewrite ST' in E. injection E as <-.
  destruct (ik_reference f _ mp (lk_wbc (stf k)) (sols k) _ _ gain kp reference SZ (AN k mp (lk_wbc (stf k))) NX LR) as (_ & _ & _ & _ & I).
  unfold obeys_reference. apply I. exact G.
Qed.
Theorem loop_reference (eig : m3 -> euler_type -> v3) (f : features) (fk : list R -> rb) (mp : motion_parameters) (sols : nat -> solution) (s : ikloop) (st : nat -> ikloop)
  (gain kp : R) (reference : list R) (n : nat) :
  kinematics f fk -> reachable eig f fk (lk_model s) -> (forall k, answers f (sols k)) -> states f fk mp sols s st ->
  length reference = JOINTS_DOF_NUMBER -> gain <> 0 -> (forall k, (k < n)%nat -> obeys_reference f gain kp reference mp (st k) (sols k)) ->
  forall j, angle f (ik_gc (lk_model (st n))) j - angle_in f reference j = (1 - kp) ^ n * (angle f (ik_gc (lk_model s)) j - angle_in f reference j).
Proof.
  intros K RC AN ST LR G. induction n as [|n IH]; intros H j.
  - destruct ST as (-> & _). cbn. ring.
  - pose proof (H n ltac:(lia)) as O. rewrite (reference_step eig f fk mp sols s st gain kp reference n K RC AN ST LR G) in O. rewrite O.
    cbn [pow]. rewrite Rmult_assoc, <- IH by (intros k Hk; apply H; lia). ring.
Qed.
Theorem loop_compatible (eig : m3 -> euler_type -> v3) (f : features) (fk : list R -> rb) (mp : motion_parameters) (sols : nat -> solution) (s : ikloop) (st : nat -> ikloop)
  (gain kp : R) (reference : list R) (k : nat) :
  kinematics f fk -> reachable eig f fk (lk_model s) -> (forall k, answers f (sols k)) -> states f fk mp sols s st ->
  length reference = JOINTS_DOF_NUMBER -> gain <> 0 -> 0 <= kp <= 1 -> (forall j, lower_limit j <= angle_in f reference j <= upper_limit j) ->
  within_limits f (ik_gc (lk_model (st k))) -> obeys_reference f gain kp reference mp (st k) (sols k) -> obeys_bounds f mp (st k) (sols k).
Proof.
  intros K RC AN ST LR G KP RF W O. apply (loop_limits eig f fk mp sols s st k K RC AN ST).
  rewrite (reference_step eig f fk mp sols s st gain kp reference k K RC AN ST LR G) in O. intros j. rewrite O. specialize (W j). specialize (RF j). nra.
Qed.
