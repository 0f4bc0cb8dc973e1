From Coq Require Import List Bool Reals Lra.
From Verif Require Import Base BaseFacts Solver SolverSpec.
Import ListNotations.

Lemma check_step {St} (sv : solver St) s : checkResults sv s = run_step sv CheckResults s.
Proof. unfold checkResults; simpl. destruct (crash sv s), (ret sv s); reflexivity. Qed.

Lemma bind_ret {A} (x : outcome A) : bind x (fun a => Ok a) = x.
Proof. destruct x; reflexivity. Qed.
Lemma bind_ext {A B} (x : outcome A) (f g : A -> outcome B) : (forall a, f a = g a) -> bind x f = bind x g.
Proof. intros H. destruct x; simpl; auto. Qed.

Theorem protocol {St} (sv : solver St) e s : run_entry sv e s = run_steps sv (all_steps e) s.
Proof.
  destruct e; cbn [run_entry all_steps before_check guesses_solution guesses_active_set returns_active_set app run_steps];
    unfold solve, solve_guess_solution, solve_guess_active_set_get, solve_guess_active_set, solve_get_active_set,
      solve_guess_both_get, solve_guess_both, solve_guess_solution_get;
    repeat (first [apply bind_ext; intros | rewrite check_step; first [symmetry; apply bind_ret | apply bind_ext; intros] | symmetry; apply bind_ret]).
Qed.

Lemma run_steps_app {St} (sv : solver St) a b s : run_steps sv (a ++ b) s = bind (run_steps sv a s) (run_steps sv b).
Proof.
  revert s. induction a as [|p a IH]; intros s; simpl; [reflexivity|]. destruct (run_step sv p s); simpl; auto.
Qed.

Theorem no_silent_failure {St} (sv : solver St) e s s' : run_entry sv e s = Ok s' ->
  exists s1, run_steps sv (before_check e) s = Ok s1 /\ (crash sv s1 = true -> ret sv s1 = STATUS_OK) /\
    (returns_active_set e = false -> s' = s1).
Proof.
  rewrite protocol. unfold all_steps. rewrite run_steps_app. intros E. apply bind_ok in E. destruct E as (s1 & E1 & E2).
  exists s1. split; [exact E1|]. simpl in E2. destruct (crash sv s1), (ret sv s1); simpl in E2; try discriminate;
    (split; [intros; congruence|]); intros N; rewrite N in E2; inversion E2; reflexivity.
Qed.

Theorem failure_throws {St} (sv : solver St) e s s1 :
  run_steps sv (before_check e) s = Ok s1 -> crash sv s1 = true -> ret sv s1 <> STATUS_OK -> run_entry sv e s = Throw.
Proof.
  intros E C N. rewrite protocol. unfold all_steps. rewrite run_steps_app, E. simpl. rewrite C.
  destruct (ret sv s1); try reflexivity. congruence.
Qed.

Theorem otherwise_returns {St} (sv : solver St) e s s1 :
  run_steps sv (before_check e) s = Ok s1 -> crash sv s1 = false \/ ret sv s1 = STATUS_OK ->
  run_entry sv e s = if returns_active_set e then getActiveSet sv s1 else Ok s1.
Proof.
  intros E C. rewrite protocol. unfold all_steps. rewrite run_steps_app, E. simpl.
  assert (X : (if crash sv s1 then match ret sv s1 with STATUS_OK => Ok s1 | _ => Throw end else Ok s1) = Ok s1).
  { destruct C as [->| ->]; [reflexivity|]. destruct (crash sv s1); reflexivity. }
  rewrite X. simpl. destruct (returns_active_set e); simpl; [|reflexivity]. apply bind_ret.
Qed.

Lemma before_check_last e : exists ps, before_check e = ps ++ [SolveHierarchy].
Proof. unfold before_check. rewrite !app_assoc. eauto. Qed.

Theorem bridge_codes b run chk ini gs gas get e s s' :
  let sv := bridge_solver b run chk ini gs gas get in
  returns_active_set e = false -> run_entry sv e s = Ok s' ->
  exists c, b_code s' = Some c /\ (b_status s' = STATUS_OK <-> c = CODE_SUCCESS) /\ (b_crash s' = true -> c = CODE_SUCCESS).
Proof.
  intros sv NA E. apply no_silent_failure in E. destruct E as (s1 & E & C & Q). specialize (Q NA). subst s1.
  destruct (before_check_last e) as [ps Hps]. rewrite Hps, run_steps_app in E. apply bind_ok in E. destruct E as (s0 & _ & E).
  simpl in E. apply bind_ok in E. destruct E as (s1 & E & E2). inversion E2; subst s1. clear E2. unfold bridge_solveHierarchy in E.
  assert (G : exists c, s' = mkBState (b_crash s0) (b_regularization s0) (bridge_status b c) (Some c)).
  { destruct b; try (destruct (Rle_dec 0 (b_regularization s0)); [|discriminate]); inversion E; eauto. }
  destruct G as [c ->]. exists c. split; [reflexivity|]. simpl.
  assert (I : bridge_status b c = STATUS_OK <-> c = CODE_SUCCESS).
  { destruct b, c; simpl; split; intros; congruence. }
  split; [exact I|]. intros H. apply I. apply C. exact H.
Qed.
