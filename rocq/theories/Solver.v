(** * Solver protocol (/repo/core/include/humoto/solver.h) and status translation of the solver bridges
    (/repo/bridges/{qpOASES,qpmad,QuadProgpp}/interface/*/solver.h, /repo/core/include/kktsolver.h) *)
From Coq Require Import List Arith Reals Bool.
From Verif Require Import Base.
Import ListNotations.

(** solution.h:20-26 *)
Inductive status := STATUS_UNDEFINED | STATUS_OK | STATUS_MAX_ITER | STATUS_OTHER.
(** the comparison with OK in solver.h:393-452 *)
Definition is_ok (s : status) : bool := match s with STATUS_OK => true | _ => false end.

(** The virtual functions of a solver: [St] is everything they read and write (the solver object, the solution, the
    active set); every one of them may throw. [crash] is parameters_.crash_on_any_failure_, [ret] is
    solution.return_status_ (solver.h:27-53, 102, 110, 121, 130, 215, 272, 281). *)
Record solver (St : Type) := mkSolver {
  crash : St -> bool;
  ret : St -> status;
  checkInputs : St -> outcome St;
  initialize : St -> outcome St;
  setSolutionGuess : St -> outcome St;
  setActiveSet : St -> outcome St;
  solveHierarchy : St -> outcome St;
  getActiveSet : St -> outcome St;
  reset_solver : St -> outcome St
}.
Arguments crash {St}. Arguments ret {St}. Arguments checkInputs {St}. Arguments initialize {St}.
Arguments setSolutionGuess {St}. Arguments setActiveSet {St}. Arguments solveHierarchy {St}. Arguments getActiveSet {St}.
Arguments reset_solver {St}.

Section Protocol.
Context {St : Type} (sv : solver St).

(** solver.h:85-93 *)
Definition checkResults (s : St) : outcome St :=
  if crash sv s && negb (is_ok (ret sv s)) then Throw else Ok s.

(** solver.h:155-162 *)
Definition solve (s : St) : outcome St :=
  bind (checkInputs sv s) (fun s => bind (initialize sv s) (fun s => bind (solveHierarchy sv s) checkResults)).
(** solver.h:173-183; [set] is the assignment of the parameters *)
Definition solve_with_parameters (set : St -> St) (s : St) : outcome St := solve (set s).
(** solver.h:230-239 *)
Definition solve_guess_solution (s : St) : outcome St :=
  bind (checkInputs sv s) (fun s => bind (initialize sv s) (fun s => bind (setSolutionGuess sv s) (fun s =>
  bind (solveHierarchy sv s) checkResults))).
(** solver.h:297-308 *)
Definition solve_guess_active_set_get (s : St) : outcome St :=
  bind (checkInputs sv s) (fun s => bind (initialize sv s) (fun s => bind (setActiveSet sv s) (fun s =>
  bind (solveHierarchy sv s) (fun s => bind (checkResults s) (getActiveSet sv))))).
(** solver.h:319-328 *)
Definition solve_guess_active_set (s : St) : outcome St :=
  bind (checkInputs sv s) (fun s => bind (initialize sv s) (fun s => bind (setActiveSet sv s) (fun s =>
  bind (solveHierarchy sv s) checkResults))).
(** solver.h:339-348 *)
Definition solve_get_active_set (s : St) : outcome St :=
  bind (checkInputs sv s) (fun s => bind (initialize sv s) (fun s =>
  bind (solveHierarchy sv s) (fun s => bind (checkResults s) (getActiveSet sv)))).
(** solver.h:393-406 *)
Definition solve_guess_both_get (s : St) : outcome St :=
  bind (checkInputs sv s) (fun s => bind (initialize sv s) (fun s => bind (setSolutionGuess sv s) (fun s =>
  bind (setActiveSet sv s) (fun s => bind (solveHierarchy sv s) (fun s => bind (checkResults s) (getActiveSet sv)))))).
(** solver.h:418-429 *)
Definition solve_guess_both (s : St) : outcome St :=
  bind (checkInputs sv s) (fun s => bind (initialize sv s) (fun s => bind (setSolutionGuess sv s) (fun s =>
  bind (setActiveSet sv s) (fun s => bind (solveHierarchy sv s) checkResults)))).
(** solver.h:441-452 *)
Definition solve_guess_solution_get (s : St) : outcome St :=
  bind (checkInputs sv s) (fun s => bind (initialize sv s) (fun s => bind (setSolutionGuess sv s) (fun s =>
  bind (solveHierarchy sv s) (fun s => bind (checkResults s) (getActiveSet sv))))).
End Protocol.

(** ** Status translation in the bridges *)

(** return codes of the libraries: success, iteration limit, anything else (qpOASES solver.h:264-275, qpmad solver.h:120-131, QuadProgpp solver.h:93-100) *)
Inductive backend_code := CODE_SUCCESS | CODE_MAX_ITER | CODE_FAILURE (n : nat).
(** qpOASES/solver.h:264-275 and qpmad/solver.h:120-131 *)
Definition switch_status (c : backend_code) : status :=
  match c with
  | CODE_SUCCESS => STATUS_OK
  | CODE_MAX_ITER => STATUS_MAX_ITER
  | CODE_FAILURE _ => STATUS_OTHER
  end.
(** QuadProgpp/solver.h:93-100 *)
Definition quadprog_status (c : backend_code) : status :=
  match c with CODE_SUCCESS => STATUS_OK | _ => STATUS_OTHER end.

(** the three solvers bridges/*/interface/*/solver.h:14-20 *)
Inductive bridge := QPOASES | QPMAD | QUADPROGPP.
(** qpOASES solver.h:264-275, qpmad solver.h:120-131, QuadProgpp solver.h:93-100 *)
Definition bridge_status (b : bridge) : backend_code -> status :=
  match b with QPOASES | QPMAD => switch_status | QUADPROGPP => quadprog_status end.

(** the state seen by the protocol of a bridge: the crash flag, the regularisation factor (qpmad, QuadProgpp), and
    the status and the code of the last run (humoto/solver.h:27-53, solution.h:193-196) *)
Record bstate := mkBState { b_crash : bool; b_regularization : R; b_status : status; b_code : option backend_code }.

(** solveHierarchy of the bridges (qpOASES 182-291, qpmad 98-144, QuadProgpp 73-113): [run] is the library call.
    qpmad and QuadProgpp assert that the regularisation factor is nonnegative. *)
Definition bridge_solveHierarchy (b : bridge) (run : bstate -> backend_code) (s : bstate) : outcome bstate :=
  match b with
  | QPOASES => let c := run s in Ok (mkBState (b_crash s) (b_regularization s) (bridge_status b c) (Some c))
  | QPMAD | QUADPROGPP =>
      if Rle_dec 0 (b_regularization s)
      then let c := run s in Ok (mkBState (b_crash s) (b_regularization s) (bridge_status b c) (Some c))
      else Throw
  end.

(** the solver of a bridge; [chk], [ini], [gs], [gas], [get] are the remaining virtual functions (humoto/solver.h:102-130, 215, 272, 281) *)
Definition bridge_solver (b : bridge) (run : bstate -> backend_code) (chk ini gs gas get : bstate -> outcome bstate) : solver bstate :=
  mkSolver bstate b_crash b_status chk ini gs gas (bridge_solveHierarchy b run) get (fun s => Ok s).
