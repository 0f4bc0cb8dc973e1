(** * Specification vocabulary for C15 *)
From Coq Require Import List Bool.
From Verif Require Import Base Solver.
Import ListNotations.

(** the public overloads of solve() *)
Inductive entry :=
| E_solve | E_guess_solution | E_guess_active_set_get | E_guess_active_set | E_get_active_set
| E_guess_both_get | E_guess_both | E_guess_solution_get.

Definition run_entry {St} (sv : solver St) (e : entry) : St -> outcome St :=
  match e with
  | E_solve => solve sv
  | E_guess_solution => solve_guess_solution sv
  | E_guess_active_set_get => solve_guess_active_set_get sv
  | E_guess_active_set => solve_guess_active_set sv
  | E_get_active_set => solve_get_active_set sv
  | E_guess_both_get => solve_guess_both_get sv
  | E_guess_both => solve_guess_both sv
  | E_guess_solution_get => solve_guess_solution_get sv
  end.

(** which guesses an overload accepts and whether it returns the active set *)
Definition guesses_solution (e : entry) : bool :=
  match e with E_guess_solution | E_guess_both_get | E_guess_both | E_guess_solution_get => true | _ => false end.
Definition guesses_active_set (e : entry) : bool :=
  match e with E_guess_active_set_get | E_guess_active_set | E_guess_both_get | E_guess_both => true | _ => false end.
Definition returns_active_set (e : entry) : bool :=
  match e with E_guess_active_set_get | E_get_active_set | E_guess_both_get | E_guess_solution_get => true | _ => false end.

Inductive step := CheckInputs | Initialize | GuessSolution | GuessActiveSet | SolveHierarchy | CheckResults | ReadActiveSet.

(** the documented order *)
Definition before_check (e : entry) : list step :=
  [CheckInputs; Initialize] ++ (if guesses_solution e then [GuessSolution] else [])
  ++ (if guesses_active_set e then [GuessActiveSet] else []) ++ [SolveHierarchy].
Definition all_steps (e : entry) : list step :=
  before_check e ++ [CheckResults] ++ (if returns_active_set e then [ReadActiveSet] else []).

Definition run_step {St} (sv : solver St) (p : step) : St -> outcome St :=
  match p with
  | CheckInputs => checkInputs sv
  | Initialize => initialize sv
  | GuessSolution => setSolutionGuess sv
  | GuessActiveSet => setActiveSet sv
  | SolveHierarchy => solveHierarchy sv
  | CheckResults => fun s => if crash sv s then match ret sv s with STATUS_OK => Ok s | _ => Throw end else Ok s
  | ReadActiveSet => getActiveSet sv
  end.
(** run steps until one of them fails *)
Fixpoint run_steps {St} (sv : solver St) (ps : list step) (s : St) : outcome St :=
  match ps with
  | [] => Ok s
  | p :: rest => bind (run_step sv p s) (run_steps sv rest)
  end.
