(** * Property C15. Vocabulary in SolverSpec.v. *)
From Coq Require Import List Bool Reals Lra.
From Verif Require Import Base Solver SolverSpec SolverFacts.
Import ListNotations.

(** C15. Every overload of solve() runs its steps in the documented order and stops at the first failing one *)
Theorem C15_protocol :
  forall (St : Type) (sv : solver St) e s, run_entry sv e s = run_steps sv (all_steps e) s.
Proof. exact @protocol. Qed.
Print Assumptions C15_protocol.

(** C15. A normal return with the crash flag set means that the solver reported OK *)
Theorem C15_no_silent_failure :
  forall (St : Type) (sv : solver St) e s s', run_entry sv e s = Ok s' ->
  exists s1, run_steps sv (before_check e) s = Ok s1 /\ (crash sv s1 = true -> ret sv s1 = STATUS_OK) /\
    (returns_active_set e = false -> s' = s1).
Proof. exact @no_silent_failure. Qed.
Print Assumptions C15_no_silent_failure.

(** C15. A failure with the crash flag set is an exception, and the active set is not read *)
Theorem C15_failure_throws :
  forall (St : Type) (sv : solver St) e s s1,
  run_steps sv (before_check e) s = Ok s1 -> crash sv s1 = true -> ret sv s1 <> STATUS_OK -> run_entry sv e s = Throw.
Proof. exact @failure_throws. Qed.
Print Assumptions C15_failure_throws.

(** C15. Otherwise the result is what the solver produced, with the status which it reported *)
Theorem C15_otherwise_returns :
  forall (St : Type) (sv : solver St) e s s1,
  run_steps sv (before_check e) s = Ok s1 -> crash sv s1 = false \/ ret sv s1 = STATUS_OK ->
  run_entry sv e s = if returns_active_set e then getActiveSet sv s1 else Ok s1.
Proof. exact @otherwise_returns. Qed.
Print Assumptions C15_otherwise_returns.

(** C15. In the bridges to qpOASES, qpmad and QuadProg++: the status is OK exactly when the library succeeded *)
Theorem C15_bridge_status :
  forall b run chk ini gs gas get e s s',
  let sv := bridge_solver b run chk ini gs gas get in
  returns_active_set e = false -> run_entry sv e s = Ok s' ->
  exists c, b_code s' = Some c /\ (b_status s' = STATUS_OK <-> c = CODE_SUCCESS) /\ (b_crash s' = true -> c = CODE_SUCCESS).
Proof. exact bridge_codes. Qed.
Print Assumptions C15_bridge_status.

(** a run which fails with the iteration limit: returned without the flag, thrown with it *)
Example C15_case :
  let sv := bridge_solver QPMAD (fun _ => CODE_MAX_ITER) (fun s => Ok s) (fun s => Ok s) (fun s => Ok s) (fun s => Ok s) (fun s => Ok s) in
  run_entry sv E_solve (mkBState false 0 STATUS_OK None) = Ok (mkBState false 0 STATUS_MAX_ITER (Some CODE_MAX_ITER)) /\
  run_entry sv E_solve (mkBState true 0 STATUS_OK None) = Throw.
Proof.
  simpl. unfold solve; simpl. destruct (Rle_dec 0 0) as [H|H]; [|exfalso; lra]. split; reflexivity.
Qed.
